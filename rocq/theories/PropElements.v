(** C05 C07 C08 C09 C10 C11 C13 C17 C18 C45 C51 (and the element part of C01):
    elements, their attributes and contents. *)
From Coq Require Import Permutation ZArith.
From Verif Require Import Bytes IO IOFacts Escape SpecEscape EscapeFacts Nodes NodeInd Values Render
  Slices Build Api SpecOut SpecRun SpecElem RenderFacts AttrFacts ApiFacts PageFacts CondFacts
  TagFacts PropValues Demo.
From Verif Require SharingFacts.

(** The markup of an element around its attributes and content. *)
Definition wrap (name attrs content : bytes) : bytes :=
  B "<" ++ name ++ attrs ++ B ">" ++ content ++ B "</" ++ name ++ B ">".

Section Elements.
Context {W : UserWorld}.
Variables (o : order) (fr : frame U).
Hypothesis O : ord_ok o.
Notation names := (map (@attr_name U)).

(** A node that can be passed to a constructor, whose Imperative functions (if
    any) return nil. *)
Definition usable (n : node U) : Prop := api n /\ quiet n.
Definition usable_args (args : list (arg U)) : Prop := forall n, In (ANode n) args -> usable n.

Lemma usable_tables ns : all usable ns -> all tables_ok ns /\ all quiet ns.
Proof.
  rewrite !all_In. intro H. split; intros n Hn; destruct (H n Hn); auto. apply api_tables. auto.
Qed.

Lemma args_usable args u :
  usable_args args ->
  all tables_ok (fst (contents_to_nodes args u)) /\ all quiet (fst (contents_to_nodes args u)).
Proof.
  intro H. split; apply contents_to_nodes_all; try (intros; exact I); intros n Hn.
  - apply api_tables. apply H. auto.
  - apply H. auto.
Qed.

Lemma all_filter {X} (P : X -> Prop) f l : all P l -> all P (filter f l).
Proof. rewrite !all_In. intros H x Hx. apply filter_In in Hx as [Hx _]. auto. Qed.

Lemma quiet_element name ns : all quiet ns -> quiet (mk_element name ns).
Proof.
  intro H. unfold mk_element.
  pose proof (attributes_shape ns) as Sh. destruct (attributes_and_contents ns) as [[a c] cs].
  destruct Sh as (_ & _ & ->). destruct (add_attributes a).
  change (all quiet (filter (fun n => negb (is_attr n)) ns)). apply all_filter. auto.
Qed.
Lemma quiet_void name ns : quiet (mk_void name ns).
Proof.
  unfold mk_void. destruct (attributes_and_contents ns) as [[a c] cs].
  destruct (add_attributes a). exact I.
Qed.

(** The two page equations behind the properties below. *)
Lemma page_element name ns s :
  all tables_ok ns -> all quiet ns ->
  exists conds active u1 l t,
    map fst conds = map fst (flat_map (cond_decls []) ns) /\
    (all (linear 0) ns -> conds = flat_map (cond_decls []) ns) /\
    sactive fr conds (fst s) = (active, u1) /\
    Permutation l (tag_spec (flat_map static_decls ns) active) /\
    (active = [] -> t = snd s /\ l = tag_spec (flat_map static_decls ns) []) /\
    page o (mk_element name ns) fr s =
      (let '(A, s1) := pages o (map NAttr l) fr (u1, t) in
       let '(C, s2) := pages o (non_attrs ns) fr s1 in
       (wrap name A C, s2)) /\
    page o (mk_void name ns) fr s =
      (let '(A, s1) := pages o (map NAttr l) fr (u1, t) in
       (B "<" ++ name ++ A ++ B ">", s1)).
Proof.
  intros T Q. pose proof (tables_element name ns T) as TE. pose proof (tables_void name ns) as TV.
  pose proof (quiet_element name ns Q) as QE. pose proof (quiet_void name ns) as QV.
  rewrite !page_snode by auto.
  destruct (stag_spec o fr name ns s O) as (conds & active & u1 & l & t & H1 & H2 & H3 & H4 & H5 & H6 & H7 & H8).
  exists conds, active, u1, l, t. do 5 (split; [assumption|]).
  rewrite H8. unfold mk_void in *.
  pose proof (attributes_shape ns) as Sh. destruct (attributes_and_contents ns) as [[a c] cs].
  destruct Sh as (-> & _ & ->). destruct (add_attributes (flat_map static_decls ns)) as [attrs idx].
  injection H7 as ->. cbn [fst snd] in *. split.
  - cbn [snode]. rewrite H6. unfold non_attrs. rewrite pages_attrs.
    destruct (liftU (sattrs fr l) (u1, t)) as [A s1].
    rewrite (pages_seqS o) by (auto using all_filter).
    destruct (seqS _ _ s1) as [C s2]. unfold wrap, endtag. rewrite <- !app_assoc. reflexivity.
  - cbn [snode]. rewrite H6. reflexivity.
Qed.

Lemma names_tag_spec (ds act : list (attr U)) : names (tag_spec ds act) = names_of (ds ++ act).
Proof.
  unfold tag_spec. assert (H : forall l, (forall n, In n l -> In n (names (ds ++ act))) ->
    names (flat_map (fun n => oapp (resolve (effective (declared n ds)) (declared n act))) l) = l).
  { pose proof (stored_attrs ds) as F. destruct (add_attributes ds) as [attrs idx].
    destruct F as (_ & F2 & F3). intros l H.
    rewrite (flat_map_ext _ (shown attrs act)) by (intro n; rewrite shown_resolve, F3; reflexivity).
    apply flat_shown_names. intros n Hn. apply H in Hn. rewrite map_app in Hn.
    apply in_app_iff. apply in_app_iff in Hn as [Hn|Hn]; auto. left. rewrite F2.
    apply names_of_spec. auto. }
  apply H. intros n Hn. apply names_of_spec. auto.
Qed.

(** ** C05 *)

(** Whatever the arguments, the element writes its opening tag, with some list
    [l] of attributes rendered one after the other, then its contents, then its
    closing tag; the state goes from the conditions to the attributes to the
    contents, in order.  The next sections say what [l] is. *)
Theorem C05_element name args u s :
  usable_args args ->
  exists l u1 t,
    page o (fst (NewElement name args u)) fr s =
    (let '(A, s1) := pages o (map NAttr l) fr (u1, t) in
     let '(C, s2) := pages o (non_attrs (fst (contents_to_nodes args u))) fr s1 in
     (B "<" ++ name ++ A ++ B ">" ++ C ++ B "</" ++ name ++ B ">", s2)) /\
    (flat_map (cond_decls []) (fst (contents_to_nodes args u)) = [] ->
     (u1, t) = s /\ l = tag_spec (flat_map static_decls (fst (contents_to_nodes args u))) []).
Proof.
  intro H. destruct (args_usable args u H) as [T Q]. unfold NewElement.
  destruct (contents_to_nodes args u) as [ns u']. cbn [fst] in *.
  destruct (page_element name ns s T Q) as (conds & active & u1 & l & t & H1 & H2 & H3 & H4 & H5 & H6 & _).
  exists l, u1, t. split; auto. intro Z. rewrite Z in H1. destruct conds; [|discriminate].
  cbn in H3. injection H3 as <- <-. destruct (H5 eq_refl) as [-> ->]. split; auto. destruct s; auto.
Qed.

(** An argument that is not a node is content: the text of that argument. *)
Theorem C05_plain_argument name pre a post u :
  (forall n, a <> ANode n) -> (forall x, In x pre -> exists n, x = ANode n) ->
  NewElement name (pre ++ a :: post) u =
  NewElement name (pre ++ ANode (fst (Text [a] u)) :: post) (snd (Text [a] u)).
Proof.
  intros N P. unfold NewElement.
  assert (H : forall u', contents_to_nodes pre u' = (fst (contents_to_nodes pre u), u')).
  { clear - P. induction pre as [|x pre IH]; intro u'; [reflexivity|].
    destruct (P x) as [n ->]; [left; auto|]. cbn [contents_to_nodes content_to_node].
    rewrite (IH ltac:(intros; apply P; right; auto) u').
    rewrite (IH ltac:(intros; apply P; right; auto) u). reflexivity. }
  assert (App : forall l1 l2 u, contents_to_nodes (l1 ++ l2) u =
     (let '(n1, u1) := contents_to_nodes l1 u in
      let '(n2, u2) := contents_to_nodes l2 u1 in (n1 ++ n2, u2))).
  { clear. induction l1 as [|x l1 IH]; intros l2 u; cbn [app contents_to_nodes].
    - destruct (contents_to_nodes l2 u). reflexivity.
    - destruct (content_to_node x u) as [n u1]. rewrite IH.
      destruct (contents_to_nodes l1 u1) as [n1 u2]. destruct (contents_to_nodes l2 u2). reflexivity. }
  rewrite !App, (H u), (H (snd (Text [a] u))). cbn [contents_to_nodes].
  assert (content_to_node a u = Text [a] u) as ->. { destruct a; auto. exfalso. eapply N. auto. }
  cbn [content_to_node]. destruct (Text [a] u) as [x ux]. cbn [fst snd]. reflexivity.
Qed.

(** Strings as element content (C01). *)
Theorem C01_element_content name ss u s :
  page o (fst (NewElement name (map str ss) u)) fr s =
  (wrap name [] (concat (map html_escape_string ss)), s) /\
  inert (concat (map html_escape_string ss)).
Proof.
  split; [|apply escapes_inert].
  assert (E : forall u, contents_to_nodes (map str ss) u =
            (map (fun x => NText [Val (html_escape_string x) None []]) ss, u)).
  { induction ss as [|x ss IH]; intro u0; [reflexivity|]. cbn [map contents_to_nodes].
    unfold str at 1. cbn. rewrite IH. reflexivity. }
  destruct (C05_element name (map str ss) u s) as (l & u1 & t & H1 & H2).
  { intros n Hn. apply in_map_iff in Hn as (x & Hx & _). discriminate. }
  rewrite H1. rewrite E in *. cbn [fst] in *.
  assert (Z1 : forall c, flat_map (cond_decls c) (map (fun x => NText [Val (html_escape_string x) None []]) ss) = []).
  { intro c. clear. induction ss; auto. }
  assert (Z2 : flat_map static_decls (map (fun x => NText [Val (html_escape_string x) None []]) ss) = []).
  { clear. induction ss; auto. }
  destruct (H2 (Z1 _)) as [-> ->]. rewrite Z2. cbn [tag_spec names_of map rev nodup flat_map app pages].
  assert (Z3 : non_attrs (map (fun x => NText [Val (html_escape_string x) None []]) ss) =
    map (fun x => NText [Val (html_escape_string x) None []]) ss).
  { clear. induction ss as [|x ss IH]; auto. cbn. f_equal. auto. }
  rewrite Z3. assert (Z4 : forall s, pages o (map (fun x => NText [Val (html_escape_string x) None []]) ss) fr s
     = (concat (map html_escape_string ss), s)).
  { clear. induction ss as [|x ss IH]; intro s; [reflexivity|]. cbn [map pages].
    rewrite page_text. rewrite (liftU_ret _ (html_escape_string x)).
    - rewrite IH. reflexivity.
    - intro. rewrite svals_one. reflexivity. }
  rewrite Z4. reflexivity.
Qed.

(** ** C07 *)

(** A void element writes just the tag, whatever else it is given; it is the tag
    that a non-void element of the same name and arguments opens with. *)
Theorem C07_void name args u s :
  usable_args args ->
  exists A s1,
    page o (fst (NewVoidElement name args u)) fr s = (B "<" ++ name ++ A ++ B ">", s1) /\
    (exists l u1 t, pages o (map NAttr l) fr (u1, t) = (A, s1) /\
       NoDup (names l)) /\
    page o (fst (NewElement name args u)) fr s =
    (let '(C, s2) := pages o (non_attrs (fst (contents_to_nodes args u))) fr s1 in
     (B "<" ++ name ++ A ++ B ">" ++ C ++ B "</" ++ name ++ B ">", s2)).
Proof.
  intro H. destruct (args_usable args u H) as [T Q]. unfold NewElement, NewVoidElement.
  destruct (contents_to_nodes args u) as [ns u']. cbn [fst] in *.
  destruct (page_element name ns s T Q) as (conds & active & u1 & l & t & H1 & H2 & H3 & H4 & H5 & H6 & H7).
  destruct (pages o (map NAttr l) fr (u1, t)) as [A s1] eqn:E.
  exists A, s1. split; auto. split; auto. exists l, u1, t. split; auto.
  apply (Permutation_NoDup (Permutation_sym (Permutation_map _ H4))).
  rewrite names_tag_spec. apply names_of_spec.
Qed.

(** Content arguments of a void element make no difference to it. *)
Theorem C07_content_ignored name ns1 ns2 :
  flat_map static_decls ns1 = flat_map static_decls ns2 ->
  all (fun n => conds_in n = 0) ns1 -> all (fun n => conds_in n = 0) ns2 ->
  mk_void name ns1 = mk_void name ns2.
Proof.
  intros E Z1 Z2.
  assert (L : forall ns : list (node U), all (fun n => conds_in n = 0) ns ->
            all (linear 0) ns /\ flat_map (cond_decls []) ns = []).
  { assert (N : forall n : node U, conds_in n = 0 -> linear 0 n /\ cond_decls [] n = []).
    { apply (node_simple_ind (fun n => conds_in n = 0 -> linear 0 n /\ cond_decls [] n = []));
        try (intros; split; [exact I|reflexivity]); try discriminate.
      intros ns F H. cbn [conds_in] in H. cbn [linear cond_decls].
      induction F as [|n ns Hn _ IH]; [split; [exact I|reflexivity]|].
      cbn [map list_sum fold_right] in H.
      change (fold_right Nat.add 0 (map conds_in ns)) with (list_sum (map conds_in ns)) in H.
      destruct Hn as [A1 A2]; [lia|]. destruct IH as [B1 B2]; [lia|].
      split; [split; auto|]. cbn [flat_map]. rewrite A2. exact B2. }
    induction ns as [|n ns IH]; intro Z; [split; [exact I|reflexivity]|]. destruct Z as [Z1' Z2'].
    destruct (N n Z1') as [A1 A2]. destruct (IH Z2') as [B1 B2].
    split; [split; auto|]. cbn [flat_map]. rewrite A2. exact B2. }
  destruct (L ns1 Z1) as [L1 C1], (L ns2 Z2) as [L2 C2].
  unfold mk_void. rewrite !attributes_exact, E, C1, C2 by auto. reflexivity.
Qed.

(** The same with conditionals, at any depth: a void element is made from the
    attributes in its arguments, in their places, and from nothing else. *)
Fixpoint attributes_only (n : node U) : list (node U) :=
  match n with
  | NAttr a => [NAttr a]
  | NCollection ns => [NCollection (flat_map attributes_only ns)]
  | NConditional f attrs ns => [NConditional f attrs (flat_map attributes_only ns)]
  | _ => []
  end.
Lemma collect_all_one c (n : node U) m : collect_all c [n] m = collect_attrs c n m.
Proof.
  cbn [collect_all]. destruct (collect_attrs c n m) as [[a1 c1] m1]. rewrite !app_nil_r. reflexivity.
Qed.
Lemma collect_all_app c (xs ys : list (node U)) m :
  collect_all c (xs ++ ys) m =
  let '(a1, c1, m1) := collect_all c xs m in
  let '(a2, c2, m2) := collect_all c ys m1 in (a1 ++ a2, c1 ++ c2, m2).
Proof.
  revert m. induction xs as [|x xs IH]; intro m; cbn [collect_all app].
  - destruct (collect_all c ys m) as [[a2 c2] m2]. reflexivity.
  - destruct (collect_attrs c x m) as [[a1 c1] m1]. rewrite IH.
    destruct (collect_all c xs m1) as [[a2 c2] m2]. destruct (collect_all c ys m2) as [[a3 c3] m3].
    rewrite !app_assoc. reflexivity.
Qed.
Theorem C07_attributes_only name ns : mk_void name (flat_map attributes_only ns) = mk_void name ns.
Proof.
  assert (G : forall ns, Forall (fun n => forall c m, collect_all c (attributes_only n) m = collect_attrs c n m) ns ->
    forall c m, collect_all c (flat_map attributes_only ns) m = collect_all c ns m).
  { clear ns. induction 1 as [|n ns Hn Hns IH]; intros c m; [reflexivity|].
    cbn [flat_map]. rewrite collect_all_app, Hn. cbn [collect_all].
    destruct (collect_attrs c n m) as [[a1 c1] m1]. rewrite IH. reflexivity. }
  assert (N : forall n c m, collect_all c (attributes_only n) m = collect_attrs c n m).
  { intro n. induction n using node_simple_ind; intros c m; try reflexivity.
    - apply collect_all_one.
    - cbn [attributes_only]. rewrite collect_all_one, !SharingFacts.collect_coll. apply G. assumption.
    - cbn [attributes_only]. rewrite collect_all_one, !SharingFacts.collect_cond.
      destruct (append1 m c fn) as [m1 c1]. rewrite G by assumption. reflexivity. }
  unfold mk_void, attributes_and_contents. rewrite G; [|apply Forall_forall; auto].
  destruct (collect_all nil_slice ns []) as [[a c] m]. reflexivity.
Qed.

(** Which names [Element] makes void: exactly the fourteen. *)
Theorem C07_names p name args u n u' :
  Element p name args u = Done (Some n, u') ->
  (exists a i c, n = NVoid name a i c) <->
  In name (map B ["area"; "base"; "br"; "col"; "embed"; "hr"; "img"; "input"; "link";
         "meta"; "param"; "source"; "track"; "wbr"]%string).
Proof.
  unfold Element, checked. destruct (valid_name name); [|destruct p; discriminate].
  change (map B _) with void_element_names.
  destruct (bmem name void_element_names) eqn:E.
  - unfold NewVoidElement. destruct (contents_to_nodes args u) as [ns u1].
    intro H. injection H as <- <-. split.
    + intros _. apply bmem_In. auto.
    + intros _. unfold mk_void. destruct (attributes_and_contents ns) as [[x y] z].
      destruct (add_attributes x). eauto.
  - unfold NewElement. destruct (contents_to_nodes args u) as [ns u1].
    intro H. injection H as <- <-. split.
    + intros (a & i & c & H). unfold mk_element in H.
      destruct (attributes_and_contents ns) as [[x y] z]. destruct (add_attributes x). discriminate.
    + intro H. apply bmem_In in H. congruence.
Qed.

(** ** C09 *)

Theorem C09_names_once name args u s :
  usable_args args ->
  let ns := fst (contents_to_nodes args u) in
  exists conds active u1 l t,
    (* the conditional attributes are those declared, and [active] the ones
       whose conditions hold, evaluated in order *)
    map fst conds = map fst (flat_map (cond_decls []) ns) /\
    sactive fr conds (fst s) = (active, u1) /\
    page o (fst (NewElement name args u)) fr s =
      (let '(A, s1) := pages o (map NAttr l) fr (u1, t) in
       let '(C, s2) := pages o (non_attrs ns) fr s1 in
       (wrap name A C, s2)) /\
    page o (fst (NewVoidElement name args u)) fr s =
      (let '(A, s1) := pages o (map NAttr l) fr (u1, t) in
       (B "<" ++ name ++ A ++ B ">", s1)) /\
    NoDup (names l) /\
    (forall n, In n (names l) <-> In n (names (flat_map static_decls ns)) \/ In n (names active)).
Proof.
  intros H ns. destruct (args_usable args u H) as [T Q]. subst ns. unfold NewElement, NewVoidElement.
  destruct (contents_to_nodes args u) as [ns u']. cbn [fst] in *.
  destruct (page_element name ns s T Q) as (conds & active & u1 & l & t & H1 & H2 & H3 & H4 & H5 & H6 & H7).
  exists conds, active, u1, l, t.
  destruct (names_of_spec (flat_map static_decls ns ++ active)) as [N1 N2].
  assert (P : Permutation (names l) (names_of (flat_map static_decls ns ++ active))).
  { rewrite <- names_tag_spec. apply Permutation_map. auto. }
  repeat (split; auto).
  - eapply Permutation_NoDup; [apply Permutation_sym; eauto|auto].
  - intro X. apply (Permutation_in _ P) in X. apply N2 in X. rewrite map_app, in_app_iff in X. auto.
  - intro X. apply (Permutation_in _ (Permutation_sym P)). apply N2. rewrite map_app, in_app_iff. auto.
Qed.

(** ** C10 *)

(** Without conditional attributes: the attributes written are, in the order in
    which the names were first declared, the effective attribute of each name. *)
Theorem C10_static name args u s :
  usable_args args ->
  let ns := fst (contents_to_nodes args u) in
  let ds := flat_map static_decls ns in
  flat_map (cond_decls []) ns = [] ->
  page o (fst (NewElement name args u)) fr s =
    (let '(A, s1) := pages o (map NAttr (flat_map (fun n => oapp (effective (declared n ds))) (names_of ds))) fr s in
     let '(C, s2) := pages o (non_attrs ns) fr s1 in
     (wrap name A C, s2)).
Proof.
  intros H ns ds Z. destruct (C05_element name args u s H) as (l & u1 & t & H1 & H2).
  destruct (H2 Z) as [E ->]. rewrite H1, E. clear.
  replace (flat_map (fun n => oapp (effective (declared n ds))) (names_of ds)) with (tag_spec ds []); auto.
  unfold tag_spec. rewrite app_nil_r. apply flat_map_ext. intro n. cbn [declared filter].
  rewrite resolve_none. reflexivity.
Qed.

Lemma final_delims_delims (ds : list (attr U)) :
  Forall (fun a => is_delim a = true) ds -> final_delims ds = ds.
Proof.
  induction ds as [|a ds IH] using rev_ind; intro H; [reflexivity|].
  apply Forall_app in H as [H1 H2]. inversion H2; subst. rewrite final_delims_snoc, H3, IH; auto.
Qed.

Theorem C10_all_delimited n d vs (ds : list (attr U)) :
  Forall (fun a => is_delim a = true) ds ->
  effective (ADelim n d vs :: ds) = Some (ADelim n d (vs ++ flat_map vals ds)).
Proof.
  intro H. unfold effective. rewrite final_delims_delims by (constructor; auto). reflexivity.
Qed.

Theorem C10_last_wins (ds : list (attr U)) a :
  is_delim a = false -> effective (ds ++ [a]) = Some a.
Proof.
  intro H. unfold effective. rewrite final_delims_snoc, H, rev_app_distr. reflexivity.
Qed.

Theorem C10_reset (ds ms : list (attr U)) a :
  is_delim a = false -> Forall (fun a => is_delim a = true) ms -> ms <> [] ->
  effective (ds ++ a :: ms) = effective ms.
Proof.
  intros H F N. assert (E : final_delims (ds ++ a :: ms) = ms).
  { clear N. induction ms as [|m ms IH] using rev_ind.
    - rewrite final_delims_snoc, H. reflexivity.
    - apply Forall_app in F as [F1 F2]. inversion F2; subst.
      change (ds ++ a :: ms ++ [m]) with (ds ++ (a :: ms) ++ [m]). rewrite app_assoc, final_delims_snoc, H2, IH; auto. }
  unfold effective. rewrite E, final_delims_delims by auto. destruct ms; [congruence|reflexivity].
Qed.

(** The static attributes of the stored element are exactly those. *)
Theorem C10_stored (ds : list (attr U)) :
  fst (add_attributes ds) = flat_map (fun n => oapp (effective (declared n ds))) (names_of ds).
Proof.
  rewrite stored_spec. unfold tag_spec. rewrite app_nil_r. apply flat_map_ext. intro n. cbn [declared filter].
  rewrite resolve_none. reflexivity.
Qed.

(** ** C11 *)

Lemma collect_all_direct ns m :
  collect_all nil_slice ns m =
  (flat_map static_decls ns, snd (fst (collect_all nil_slice (non_attrs ns) m)),
   snd (collect_all nil_slice (non_attrs ns) m)).
Proof.
  revert m; induction ns as [|n ns IH]; intro m; [reflexivity|].
  cbn [collect_all flat_map].
  pose proof (collect_shape n m nil_slice [] eq_refl) as S.
  destruct (is_attr n) eqn:A.
  - destruct n; try discriminate A. cbn. rewrite IH. reflexivity.
  - assert (E : non_attrs (n :: ns) = n :: non_attrs ns) by (unfold non_attrs; cbn; rewrite A; reflexivity).
    rewrite E. cbn [collect_all].
    destruct (collect_attrs nil_slice n m) as [[a1 c1] m1]. destruct S as [-> _].
    rewrite IH. destruct (collect_all nil_slice (non_attrs ns) m1) as [[a2 c2] m2]. reflexivity.
Qed.

(** Same unconditional attributes in the same order, and the same other content
    in the same order: the same element. *)
Theorem C11_position name ns1 ns2 :
  flat_map static_decls ns1 = flat_map static_decls ns2 ->
  non_attrs ns1 = non_attrs ns2 ->
  mk_element name ns1 = mk_element name ns2 /\ mk_void name ns1 = mk_void name ns2.
Proof.
  intros E1 E2. unfold mk_element, mk_void, attributes_and_contents.
  rewrite (collect_all_direct ns1), (collect_all_direct ns2), E1.
  change (filter (fun n => negb (is_attr n)) ns1) with (non_attrs ns1).
  change (filter (fun n => negb (is_attr n)) ns2) with (non_attrs ns2).
  rewrite E2. auto.
Qed.

(** The interleavings of two lists. *)
Inductive interleave {X} : list X -> list X -> list X -> Prop :=
| il_nil : interleave [] [] []
| il_left x l1 l2 l : interleave l1 l2 l -> interleave (x :: l1) l2 (x :: l)
| il_right x l1 l2 l : interleave l1 l2 l -> interleave l1 (x :: l2) (x :: l).

Theorem C11_interleave name (ats : list (attr U)) cs ns1 ns2 u1 u2 :
  (forall c, In c cs -> is_attr c = false /\ static_decls c = []) ->
  interleave (map NAttr ats) cs ns1 -> interleave (map NAttr ats) cs ns2 ->
  fst (NewElement name (map ANode ns1) u1) = fst (NewElement name (map ANode ns2) u2).
Proof.
  intros H I1 I2.
  assert (C : forall (ns : list (node U)) u, contents_to_nodes (map ANode ns) u = (ns, u)).
  { induction ns as [|n ns IH]; intro u; [reflexivity|]. cbn. rewrite IH. reflexivity. }
  unfold NewElement. rewrite !C. cbn [fst].
  assert (D : forall ns, interleave (map NAttr ats) cs ns -> flat_map static_decls ns = ats /\ non_attrs ns = cs).
  { clear I1 I2. intros ns I. remember (map NAttr ats) as la. revert ats Heqla H.
    induction I as [|x l1 l2 l I IH|x l1 l2 l I IH]; intros ats E H.
    - destruct ats; [auto|discriminate].
    - destruct ats as [|a ats]; [discriminate|]. cbn in E. injection E as -> E.
      destruct (IH ats E H) as [E1 E2]. split; [cbn [flat_map static_decls app]; congruence|exact E2].
    - destruct (H x) as [A S]; [left; auto|].
      destruct (IH ats E) as [E1 E2]; [intros; apply H; right; auto|]. split.
      + cbn [flat_map]. rewrite S. exact E1.
      + unfold non_attrs in *. cbn [filter]. rewrite A. cbn [negb]. congruence. }
  destruct (D _ I1) as [E1 F1], (D _ I2) as [E2 F2].
  apply C11_position; congruence.
Qed.

(** ** C13 *)

(** The attributes written are, up to order, those given by the declarations and
    the truth of the conditions. *)
Theorem C13_resolution name args u s :
  usable_args args ->
  let ns := fst (contents_to_nodes args u) in
  exists conds active u1 l t,
    map fst conds = map fst (flat_map (cond_decls []) ns) /\
    (all (fun n => cond_depth n <= 3) ns -> conds = flat_map (cond_decls []) ns) /\
    sactive fr conds (fst s) = (active, u1) /\
    page o (fst (NewElement name args u)) fr s =
      (let '(A, s1) := pages o (map NAttr l) fr (u1, t) in
       let '(C, s2) := pages o (non_attrs ns) fr s1 in
       (wrap name A C, s2)) /\
    Permutation l (tag_spec (flat_map static_decls ns) active).
Proof.
  intros H ns. destruct (args_usable args u H) as [T Q]. subst ns. unfold NewElement.
  destruct (contents_to_nodes args u) as [ns u']. cbn [fst] in *.
  destruct (page_element name ns s T Q) as (conds & active & u1 & l & t & H1 & H2 & H3 & H4 & H5 & H6 & H7).
  exists conds, active, u1, l, t. repeat (split; auto).
  intro D. apply H2. apply all_In. intros n Hn. apply depth_linear.
  rewrite all_In in D. specialize (D n Hn). cbn beta in D. lia.
Qed.

(** What the resolution is, name by name. *)
Theorem C13_delimited_static n d vs (act : list (attr U)) :
  resolve (Some (ADelim n d vs)) act = Some (ADelim n d (vs ++ flat_map vals act)).
Proof. reflexivity. Qed.
Theorem C13_other_static a (act : list (attr U)) b :
  is_delim a = false -> resolve (Some a) (act ++ [b]) = Some b.
Proof.
  intro H. destruct a; try discriminate H; unfold resolve; rewrite rev_app_distr; reflexivity.
Qed.
Theorem C13_no_static_delimited n d vs (act : list (attr U)) :
  resolve None (ADelim n d vs :: act) = Some (ADelim n d (vs ++ flat_map vals act)).
Proof. reflexivity. Qed.
Theorem C13_no_static_other a (act : list (attr U)) b :
  is_delim a = false -> resolve None (a :: act ++ [b]) = Some b.
Proof.
  intro H. destruct a; try discriminate H; unfold resolve;
    change (rev (?a :: act ++ [b])) with (rev (act ++ [b]) ++ [a]) || idtac;
    cbn [rev]; rewrite rev_app_distr; reflexivity.
Qed.

End Elements.
