(** C53: running generated code gives back the document. *)
From Coq Require Import Permutation.
From Verif Require Import Bytes IO Escape SpecEscape SpecHtml HtmlFacts Nodes Values Render Build SpecRun
  Tables Packages SpecTemplate PropHtml Demo Generator SpecGo SpecGen GenFacts PropGenerator Rebuild SpecRebuild.
From Verif Require Import SpecOut AttrFacts.

(** ** Tables *)

Definition reserved (pkg fn : bytes) : bool :=
  beq pkg (B "aitch") || bmem fn (map B ["Text"; "Comment"; "PI"; "Aria"; "Data"]%string).
Definition elem_entry (g : dialect) (kf : bytes * bytes) : bool :=
  let '(key, f) := kf in
  negb (reserved (g_pkg g) f) &&
  match find_function (package_functions (g_pkg g)) f with
  | Some (KElement t) => beq (B t) key && negb (bmem key void_html)
  | Some (KVoid t) => beq (B t) key && bmem key void_html
  | _ => false
  end.
Definition plain_byte (c : ascii) : bool :=
  negb (existsb (Ascii.eqb c) ["<"%char; ">"%char; "034"%char; "039"%char; Ascii.zero; "&"%char]).
Definition attr_entry (g : dialect) (kf : bytes * bytes) : bool :=
  let '(key, f) := kf in
  beq key (B "aria-") || beq key (B "data-") ||
  negb (reserved (g_pkg g) f) &&
  match find_function (package_functions (g_pkg g)) f with
  | Some (KPlain t) => beq (B t) key && negb (bmem key (g_bools g))
  | Some (KDelim t d) => beq (B t) key && negb (bmem key (g_bools g)) && forallb plain_byte (B d)
  | Some (KBool t) => beq (B t) key && bmem key (g_bools g)
  | _ => false
  end.
Lemma tables_good g : a_dialect g ->
  forallb (elem_entry g) (g_elems g) = true /\ forallb (attr_entry g) (g_attrs g) = true.
Proof. intros [-> | ->]; vm_compute; auto. Qed.
Lemma look_In l k f : look l k = Some f -> In (k, f) l.
Proof.
  induction l as [|[k' f'] l IH]; [discriminate|]. cbn [look]. destruct (beq_spec k' k) as [->|].
  - intro E. injection E as ->. left. auto.
  - right. auto.
Qed.
Lemma plain_byte_ok c : plain_byte c = true -> plain_char c.
Proof.
  unfold plain_byte. intro H. apply negb_true_iff in H.
  assert (X : forall d, In d ["<"%char; ">"%char; "034"%char; "039"%char; Ascii.zero; "&"%char] -> c <> d).
  { intros d Hd ->. assert (existsb (Ascii.eqb d) ["<"%char; ">"%char; "034"%char; "039"%char; Ascii.zero; "&"%char] = true); [|congruence].
    apply existsb_exists. exists d. split; auto. apply Ascii.eqb_refl. }
  split.
  - intro M. unfold markup_char in M. apply (X c); auto. simpl in *. tauto.
  - apply X. simpl. auto 8.
Qed.

(** ** Names *)

Lemma to_lower_name s : forallb name_char s = true -> to_lower s = map lower s.
Proof.
  induction s as [|c s IH]; [reflexivity|]. cbn [forallb]. intro H. apply andb_true_iff in H as [Hc Hs].
  assert (N : Ascii.eqb c "196" = false /\ Ascii.eqb c "226" = false).
  { clear - Hc. destruct c as [[] [] [] [] [] [] [] []]; try discriminate Hc; auto. }
  destruct N as [N1 N2]. cbn [to_lower map]. specialize (IH Hs).
  destruct s as [|c2 s2]; [reflexivity|]. rewrite N1. cbn [andb]. destruct s2 as [|c3 s3].
  - rewrite IH. reflexivity.
  - rewrite N2. cbn [andb]. rewrite IH. reflexivity.
Qed.
Lemma good_lower n : good_name n -> to_lower n = n.
Proof. intros [V L]. rewrite to_lower_name, L by (apply valid_chars; auto). reflexivity. Qed.
Lemma good_quotable n : good_name n -> quotable n.
Proof.
  intros [V _]. apply valid_chars in V. rewrite forallb_forall in V. apply Forall_forall. intros c Hc.
  specialize (V c Hc). clear - V. destruct c as [[] [] [] [] [] [] [] []]; try discriminate V; repeat split; discriminate.
Qed.
Lemma strip_id s : no_nul s -> strip_nul s = s.
Proof.
  unfold no_nul, strip_nul. induction s as [|c s IH]; intro H; [reflexivity|]. cbn [filter].
  destruct (Ascii.eqb_spec c Ascii.zero) as [->|]; [exfalso; apply H; left; auto|]. cbn [negb]. f_equal. apply IH.
  intro X. apply H. right. auto.
Qed.
Lemma plain_no_nul s : plain_text s -> no_nul s.
Proof.
  unfold plain_text. rewrite Forall_forall. intros F H. destruct (F _ H) as [M _]. apply M.
  unfold markup_char. simpl. auto 8.
Qed.
Lemma plain_source s : plain_text s -> source_of (SString s) = s.
Proof.
  intro H. unfold source_of. cbn [text_of]. rewrite strip_id by (apply plain_no_nul; auto). apply encode_plain. exact H.
Qed.

(** ** Evaluation *)

Section Eval.
Context {W : UserWorld}.

Definition evals : list expr -> U -> option (list (arg U) * U) :=
  fix evals (l : list expr) (u : U) : option (list (arg U) * U) :=
    match l with
    | [] => Some ([], u)
    | e :: l' =>
        match eval e u with
        | Some (a, u1) =>
            match evals l' u1 with Some (r, u2) => Some (a :: r, u2) | None => None end
        | None => None
        end
    end.
Lemma eval_call p f args u :
  eval (ECall p f args) u = match evals args u with Some (vs, u') => apply_fn p f vs u' | None => None end.
Proof. reflexivity. Qed.
Lemma evals_app l1 l2 u r1 r2 :
  evals l1 u = Some (r1, u) -> evals l2 u = Some (r2, u) -> evals (l1 ++ l2) u = Some (r1 ++ r2, u).
Proof.
  assert (G : forall l1 u r1 u1, evals l1 u = Some (r1, u1) ->
    evals (l1 ++ l2) u = match evals l2 u1 with Some (r, u2) => Some (r1 ++ r, u2) | None => None end).
  { clear. induction l1 as [|e l1 IH]; intros u r1 u1 H.
    - injection H as <- <-. cbn [app]. destruct (evals l2 u) as [[r u2]|]; reflexivity.
    - change (evals (e :: l1) u) with (match eval e u with
        | Some (a, u1) => match evals l1 u1 with Some (r, u2) => Some (a :: r, u2) | None => None end | None => None end) in H.
      change (evals ((e :: l1) ++ l2) u) with (match eval e u with
        | Some (a, u1) => match evals (l1 ++ l2) u1 with Some (r, u2) => Some (a :: r, u2) | None => None end | None => None end).
      destruct (eval e u) as [[a ua]|]; [|discriminate]. destruct (evals l1 ua) as [[r ur]|] eqn:E; [|discriminate].
      injection H as <- <-. rewrite (IH _ _ _ E). destruct (evals l2 ur) as [[r' u']|]; reflexivity. }
  intros H1 H2. rewrite (G _ _ _ _ H1), H2. reflexivity.
Qed.
Lemma evals_one e u a : eval e u = Some (a, u) -> evals [e] u = Some ([a], u).
Proof. intro H. cbn. rewrite H. reflexivity. Qed.
Lemma evals_cons e l u a r : eval e u = Some (a, u) -> evals l u = Some (r, u) -> evals (e :: l) u = Some (a :: r, u).
Proof. intros H1 H2. apply (evals_app [e] l u [a] r); [apply evals_one; auto|auto]. Qed.

Lemma apply_plain pkg f args (u : U) : reserved pkg f = false ->
  apply_fn pkg f args u =
  match find_function (package_functions pkg) f with
  | Some (KBool n) => match args with [] => Some (ANode (NewBooleanAttribute (B n)), u) | _ => None end
  | Some k => match call k args u with Some (n, u') => Some (ANode n, u') | None => None end
  | None => None
  end.
Proof.
  intro R. unfold reserved in R. apply orb_false_iff in R as [R1 R2].
  assert (F : forall x, In x ["Text"; "Comment"; "PI"; "Aria"; "Data"]%string -> beq f (B x) = false).
  { intros x Hx. destruct (beq_spec f (B x)) as [->|]; auto. exfalso.
    assert (bmem (B x) (map B ["Text"; "Comment"; "PI"; "Aria"; "Data"]%string) = true); [|congruence].
    apply bmem_In. apply in_map. exact Hx. }
  unfold apply_fn. rewrite R1. cbn [andb].
  rewrite !(F "Text"%string), !(F "Comment"%string), !(F "PI"%string), !(F "Aria"%string), !(F "Data"%string) by (simpl; auto 8).
  rewrite !andb_false_r. reflexivity.
Qed.

Variable g : dialect.
Hypothesis D : a_dialect g.

Lemma pkg_not_aitch : beq (g_pkg g) (B "aitch") = false.
Proof. destruct D as [-> | ->]; reflexivity. Qed.
Lemma valid_check n k : valid_name n = true ->
  forall u, checked (W := W) false n k u = let '(x, u') := k u in Done (Some x, u').
Proof. intros V u. unfold checked. rewrite V. reflexivity. Qed.

Lemma eval_attr a : good_attr g a -> exists t,
  (forall u, eval (attr_expr g a) u = Some (ANode (build_attr u t), u)) /\
  attr_wf t /\ x_name t = fst a /\ attr_seen t = a.
Proof.
  intros ((V & L) & N & Bl & A1 & A2). pose proof (good_lower (fst a) (conj V L)) as TL.
  destruct a as [k v]. cbn [fst snd] in *. unfold attr_expr. cbn [fst snd]. rewrite TL.
  assert (S : forall x, x = k -> (map lower x, texts [SString v]) = (k, v)).
  { intros x ->. rewrite L. unfold texts. cbn [map concat text_of]. rewrite app_nil_r, strip_id by auto. reflexivity. }
  destruct (look (g_attrs g) k) as [f|] eqn:E.
  - apply look_In in E. destruct (tables_good g D) as [_ T]. rewrite forallb_forall in T. specialize (T _ E).
    unfold attr_entry in T. destruct (beq_spec k (B "aria-")); [contradiction|]. destruct (beq_spec k (B "data-")); [contradiction|].
    cbn [orb] in T. apply andb_true_iff in T as [R T]. apply negb_true_iff in R.
    destruct (find_function (package_functions (g_pkg g)) f) as [[t|t|t|t|t d|t|t]|] eqn:Ff; try discriminate T.
    + apply andb_true_iff in T as [T1 T2]. destruct (beq_spec (B t) k) as [Et|]; [|discriminate].
      apply negb_true_iff in T2. rewrite T2. exists (XAttr (B t) [SString v]). split.
      { intro u. rewrite eval_call. cbn [evals eval]. rewrite apply_plain, Ff by auto. reflexivity. }
      rewrite Et. repeat split; auto. cbn [attr_seen]. apply S. auto.
    + apply andb_true_iff in T as [T1 T2]. destruct (beq_spec (B t) k) as [Et|]; [|discriminate].
      rewrite T2. exists (XBool (B t)). split.
      { intro u. rewrite eval_call. cbn [evals]. rewrite apply_plain, Ff by auto. reflexivity. }
      rewrite Et. repeat split; auto. cbn [attr_seen]. rewrite L. f_equal. symmetry. apply Bl. apply bmem_In. auto.
    + apply andb_true_iff in T as [T T3]. apply andb_true_iff in T as [T1 T2].
      destruct (beq_spec (B t) k) as [Et|]; [|discriminate].
      apply negb_true_iff in T2. rewrite T2. exists (XDelim (B t) (B d) [SString v]). split.
      { intro u. rewrite eval_call. cbn [evals eval]. rewrite apply_plain, Ff by auto. reflexivity. }
      rewrite Et. repeat split; auto.
      * apply Forall_forall. intros c Hc. rewrite forallb_forall in T3. apply plain_byte_ok. auto.
      * cbn [attr_seen map delimited_text text_of]. rewrite strip_id, L by auto. f_equal. rewrite app_nil_r.
        destruct (beq v []); apply app_nil_r.
  - exists (XAttr k [SString v]). split.
    { intro u. rewrite eval_call. cbn [evals eval]. unfold apply_fn. cbn [beq andb].
      change (beq (B "aitch") (B "aitch")) with true. change (beq (B "Attribute") (B "Element")) with false.
      change (beq (B "Attribute") (B "Attribute")) with true. cbn [andb]. unfold Attribute. rewrite valid_check by auto.
      reflexivity. }
    repeat split; auto. cbn [attr_seen]. apply S. auto.
Qed.

Lemma eval_attrs l : Forall (good_attr g) l -> exists ats,
  (forall u, evals (map (attr_expr g) l) u = Some (map (fun a => ANode (build_attr u a)) ats, u)) /\
  Forall attr_wf ats /\ map x_name ats = map fst l /\ map attr_seen ats = l.
Proof.
  induction 1 as [|a l G F (ats & E & Wf & X & S)].
  - exists []. repeat split; auto.
  - destruct (eval_attr a G) as (t & Et & Wt & Xt & St). exists (t :: ats). split.
    + intro u. cbn [map]. apply evals_cons; auto.
    + cbn [map]. rewrite Xt, X, St, S. repeat split; auto.
Qed.

Lemma good_attrs_wf l ats : good_attrs g l -> Forall attr_wf ats -> map x_name ats = map fst l -> attrs_wf ats.
Proof.
  intros [F N] Wf X. split; auto.
  assert (E : map (fun a => map lower (x_name a)) ats = map fst l).
  { rewrite <- (map_map x_name (map lower)), X, map_map. apply map_ext_in. intros a Ha. rewrite Forall_forall in F.
    apply (F a Ha). }
  rewrite E. exact N.
Qed.

(** Nodes that are passed on as such. *)
Definition direct (t : tm) : Prop := match t with XValue _ => False | _ => True end.
Lemma direct_args u ts : Forall direct ts ->
  map (fun t => as_arg t (build u t)) ts = map (fun t => ANode (build u t)) ts.
Proof. induction 1 as [|t ts H F IH]; [reflexivity|]. cbn [map]. rewrite IH. destruct t; [..|]; try reflexivity; contradiction. Qed.

Definition voids (n : bytes) : bool := bmem n void_html.

(** An element and its arguments. *)
Lemma eval_elem n a args vs : good_elem n ->
  (forall u, evals (map (attr_expr g) a ++ args) u = Some (vs u, u)) ->
  forall u, eval (elem_expr g n (map (attr_expr g) a ++ args)) u =
    let '(x, u') := (if voids n then NewVoidElement n (vs u) u else NewElement n (vs u) u) in Some (ANode x, u').
Proof.
  intros (Gn & _) E u. unfold elem_expr. rewrite good_lower by auto. destruct (look (g_elems g) n) as [f|] eqn:Lk.
  - apply look_In in Lk. destruct (tables_good g D) as [T _]. rewrite forallb_forall in T. specialize (T _ Lk).
    unfold elem_entry in T. apply andb_true_iff in T as [R T]. apply negb_true_iff in R.
    rewrite eval_call, E, apply_plain by auto. unfold voids.
    destruct (find_function (package_functions (g_pkg g)) f) as [[t|t|t|t|t d|t|t]|]; try discriminate T;
      apply andb_true_iff in T as [T1 T2]; (destruct (beq_spec (B t) n) as [<-|]; [|discriminate]); cbn [call].
    + apply negb_true_iff in T2. rewrite T2. destruct (NewElement (B t) (vs u) u). reflexivity.
    + rewrite T2. destruct (NewVoidElement (B t) (vs u) u). reflexivity.
  - rewrite eval_call.
    assert (E' : evals (EString n :: map (attr_expr g) a ++ args) u = Some (AData (GString n) :: vs u, u)).
    { apply evals_cons; auto. }
    rewrite E'. unfold apply_fn.
    change (beq (B "aitch") (B "aitch")) with true. change (beq (B "Element") (B "Element")) with true. cbn [andb].
    unfold Element. rewrite valid_check by apply Gn. change void_element_names with void_html. unfold voids.
    destruct (bmem n void_html); cbn beta.
    + destruct (NewVoidElement n (vs u) u). reflexivity.
    + destruct (NewElement n (vs u) u). reflexivity.
Qed.

Lemma eval_doc d : rebuildable g d -> exists ts,
  (forall u, evals (exprs g d) u = Some (map (fun t => ANode (build u t)) ts, u)) /\
  Forall (wf voids) ts /\ Forall direct ts /\ flat_map tokens ts = doc_tokens d /\
  (forall x, d = DText x -> Forall (fun t => is_text t = true) ts /\
     (plain_text x -> flat_map raw_tokens ts = doc_tokens d)).
Proof.
  revert d. fix IH 1. intros [x|x|x|n a|n a kids] H; cbn [rebuildable] in H.
  - destruct (forallb white x) eqn:Wx.
    + exists []. cbn [exprs doc_tokens]. unfold white in *. rewrite Wx. repeat split; auto.
    + exists [XText [SString x]]. cbn [exprs doc_tokens]. unfold white in *. rewrite Wx. split; [|split; [|split; [|split]]].
      * intro u. apply evals_one. rewrite eval_call. cbn [evals eval]. unfold apply_fn.
        destruct D as [G|G]; rewrite G; reflexivity.
      * repeat constructor.
      * repeat constructor.
      * cbn [flat_map tokens]. unfold texts. cbn [map concat text_of]. rewrite !app_nil_r, strip_id by auto. reflexivity.
      * intros y E. injection E as <-. split; [repeat constructor|]. intro P.
        cbn [flat_map raw_tokens]. unfold sources. cbn [map concat]. rewrite !app_nil_r, plain_source by auto. reflexivity.
  - exists [XComment [SString x]]. split; [|split; [|split; [|split]]].
    + intro u. apply evals_one. rewrite eval_call. cbn [evals eval]. unfold apply_fn. destruct D as [G|G]; rewrite G; reflexivity.
    + repeat constructor.
    + repeat constructor.
    + cbn [flat_map tokens doc_tokens app]. unfold sources. cbn [map concat]. rewrite app_nil_r, plain_source by auto. reflexivity.
    + discriminate.
  - destruct H as [Hg P]. exists [XPI (B "DOCTYPE") [SString x]]. split; [|split; [|split; [|split]]].
    + intro u. rewrite Hg. apply evals_one. reflexivity.
    + repeat constructor.
    + repeat constructor.
    + cbn [flat_map tokens doc_tokens app]. unfold sources. cbn [map concat]. rewrite app_nil_r, plain_source by auto. reflexivity.
    + discriminate.
  - destruct H as (Gn & Ga). destruct (eval_attrs a (proj1 Ga)) as (ats & Ea & Wa & Xa & Sa).
    pose proof (good_attrs_wf a ats Ga Wa Xa) as Wf. pose proof (eval_elem n a [] (fun u => map (fun a => ANode (build_attr u a)) ats) Gn) as Ee.
    rewrite app_nil_r in Ee. specialize (Ee Ea). destruct Gn as ((V & L) & Np).
    cbn [exprs]. destruct (voids n) eqn:Vn.
    + exists [XVoid n ats]. split; [|split; [|split; [|split]]].
      * intro u. apply evals_one. rewrite Ee. unfold NewVoidElement. rewrite build_void_args. cbn [map build].
        unfold NewVoidElement. rewrite build_void_args. reflexivity.
      * constructor; [|constructor]. cbn [wf]. rewrite L. split; [|split; [|split]]; auto.
        intros [X|X]; [congruence|]. revert Vn X. clear. unfold voids. intros V X. apply bmem_In in V.
        assert (G : forallb (fun n => negb (bmem n (rcdata_names ++ rawtext_names))) void_html = true) by reflexivity.
        rewrite forallb_forall in G. specialize (G n V). apply bmem_In in X. rewrite X in G. discriminate.
      * repeat constructor.
      * cbn [flat_map tokens doc_tokens app]. unfold voids in Vn. rewrite Vn, L, Sa. reflexivity.
      * discriminate.
    + exists [XElem n ats []]. split; [|split; [|split; [|split]]].
      * intro u. apply evals_one. rewrite Ee. pose proof (build_args u ats []) as BA. cbn [map] in BA. rewrite !app_nil_r in BA.
        unfold NewElement. rewrite BA. cbn [map build]. unfold NewElement. rewrite app_nil_r, BA. reflexivity.
      * constructor; [|constructor]. cbn [wf fold_right]. rewrite L. auto 10.
      * repeat constructor.
      * cbn [flat_map tokens doc_tokens app]. unfold voids in Vn. rewrite Vn, L, Sa. destruct (bmem n rawtext_names); reflexivity.
      * discriminate.
  - destruct H as (Gn & Nv & Ga & K & R1 & R2). destruct (eval_attrs a (proj1 Ga)) as (ats & Ea & Wa & Xa & Sa).
    pose proof (good_attrs_wf a ats Ga Wa Xa) as Wf.
    assert (Kids : exists ts,
      (forall u, evals (flat_map (exprs g) kids) u = Some (map (fun t => ANode (build u t)) ts, u)) /\
      Forall (wf voids) ts /\ Forall direct ts /\ flat_map tokens ts = flat_map doc_tokens kids /\
      ((forall k, In k kids -> exists x, k = DText x) -> Forall (fun t => is_text t = true) ts) /\
      ((forall k, In k kids -> exists x, k = DText x) -> (forall x, In (DText x) kids -> plain_text x) ->
         flat_map raw_tokens ts = flat_map doc_tokens kids)).
    { clear - IH K. induction kids as [|k kids IHk].
      - exists []. repeat split; auto.
      - destruct K as [K1 K2]. destruct (IH k K1) as (t1 & E1 & W1 & D1 & T1 & R1).
        destruct (IHk K2) as (t2 & E2 & W2 & D2 & T2 & R2 & S2). exists (t1 ++ t2).
        cbn [flat_map]. split; [|split; [|split; [|split; [|split]]]].
        + intro u. rewrite map_app. apply evals_app; auto.
        + apply Forall_app; auto.
        + apply Forall_app; auto.
        + rewrite flat_map_app, T1, T2. reflexivity.
        + intro H. destruct (H k (or_introl eq_refl)) as [x ->]. apply Forall_app. split; [apply (R1 x eq_refl)|].
          apply R2. intros; apply H; right; auto.
        + intros H P. destruct (H k (or_introl eq_refl)) as [x ->]. rewrite flat_map_app, S2.
          * f_equal. apply (R1 x eq_refl). apply P. left. auto.
          * intros; apply H; right; auto.
          * intros; apply P; right; auto. }
    destruct Kids as (ts & Ek & Wk & Dk & Tk & Rk & Sk).
    pose proof (eval_elem n a (flat_map (exprs g) kids)
      (fun u => map (fun a => ANode (build_attr u a)) ats ++ map (fun t => ANode (build u t)) ts) Gn) as Ee.
    specialize (Ee ltac:(intro u; apply evals_app; auto)). destruct Gn as ((V & L) & Np).
    assert (Vn : voids n = false).
    { unfold voids. destruct (bmem n void_html) eqn:X; auto. exfalso. apply Nv. apply bmem_In. auto. }
    exists [XElem n ats ts]. split; [|split; [|split; [|split]]].
    + intro u. cbn [exprs]. apply evals_one. rewrite Ee, Vn. cbn [map build]. rewrite <- (direct_args u ts Dk).
      unfold NewElement. rewrite build_args. reflexivity.
    + constructor; [|constructor]. cbn [wf]. rewrite L, wf_kids. auto 10.
    + repeat constructor.
    + cbn [flat_map tokens doc_tokens]. rewrite L, Sa, app_nil_r. f_equal. f_equal.
      destruct (bmem n rawtext_names) eqn:Rw; auto. apply bmem_In in Rw. apply Sk; auto.
      apply R1. apply in_app_iff. auto.
    + discriminate.
Qed.

Lemma as_nodes_all (u : U) ts :
  as_nodes (map (fun t => ANode (build u t)) ts) = Some (map Some (map (build u) ts)).
Proof. induction ts as [|t ts IH]; [reflexivity|]. cbn [map as_nodes]. rewrite IH. reflexivity. Qed.

Lemma rebuildable_names d : rebuildable g d -> Forall names_quotable (stream d).
Proof.
  revert d. fix IH 1. intros [x|x|x|n a|n a kids] H; cbn [stream rebuildable] in *.
  - repeat constructor.
  - repeat constructor.
  - repeat constructor.
  - destruct H as ((Gn & _) & Ga & _). constructor; [|constructor]. split; [apply good_quotable; auto|].
    eapply Forall_impl; [|exact Ga]. intros kv (Hk & _). apply good_quotable. auto.
  - destruct H as ((Gn & _) & _ & (Ga & _) & K & _). constructor.
    + split; [apply good_quotable; auto|]. eapply Forall_impl; [|exact Ga]. intros kv (Hk & _). apply good_quotable. auto.
    + apply Forall_app. split; [|repeat constructor]. clear - IH K. induction kids as [|k kids IHk]; [constructor|].
      destruct K as [K1 K2]. cbn [flat_map]. apply Forall_app. split; [apply IH; auto|auto].
Qed.

(** C53.  The generated code is a declaration; running it makes a node and
    leaves the state alone; what the node renders reads as the document. *)
Theorem C53_rebuilds_partial o fr ds u s :
  ord_ok o -> Forall (rebuildable g) ds ->
  exists e n b,
    declares (code g (flat_map stream ds)) (B "template") e /\
    eval e u = Some (ANode n, u) /\
    page o n fr s = (b, s) /\
    tokenizes b (flat_map doc_tokens ds).
Proof.
  intros O F.
  assert (H : exists ts,
    (forall u, evals (flat_map (exprs g) ds) u = Some (map (fun t => ANode (build u t)) ts, u)) /\
    Forall (wf voids) ts /\ flat_map tokens ts = flat_map doc_tokens ds).
  { induction F as [|d ds Hd F IHF].
    - exists []. repeat split; auto.
    - destruct (eval_doc d Hd) as (t1 & E1 & W1 & _ & T1 & _). destruct IHF as (t2 & E2 & W2 & T2).
      exists (t1 ++ t2). cbn [flat_map]. split; [|split].
      + intro v. rewrite map_app. apply evals_app; auto.
      + apply Forall_app; auto.
      + rewrite flat_map_app, T1, T2. reflexivity. }
  destruct H as (ts & E & Wf & T).
  assert (Q : Forall names_quotable (flat_map stream ds)).
  { clear - F. induction F as [|d ds Hd F IH]; [constructor|]. cbn [flat_map]. apply Forall_app. split; auto.
    apply rebuildable_names. auto. }
  destruct (C39_code_partial g ds D Q) as [Dc _].
  destruct (C06_roundtrip o fr O voids (XGroup ts) u s) as (b & P & Tk).
  { cbn [wf]. rewrite wf_kids. exact Wf. }
  exists (ECall (B "aitch") (B "Collection") (flat_map (exprs g) ds)), (build u (XGroup ts)), b.
  split; auto. split; [|split; auto].
  - rewrite eval_call, E. unfold apply_fn.
    change (beq (B "aitch") (B "aitch")) with true. change (beq (B "Collection") (B "Element")) with false.
    change (beq (B "Collection") (B "Attribute")) with false. change (beq (B "Collection") (B "Collection")) with true.
    cbn [andb]. rewrite as_nodes_all. reflexivity.
  - rewrite <- T. exact Tk.
Qed.

End Eval.

(** ** What does not come back *)

(** The code is generated and runs, but what it builds reads differently. *)
Definition changed (g : dialect) (ds : list doc) : Prop :=
  exists e n b,
    declares (code g (flat_map stream ds)) (B "template") e /\
    eval (W := demo) e (st 0) = Some (ANode n, st 0) /\
    page listed n fr0 (st 0, 0) = (b, (st 0, 0)) /\
    ~ tokenizes b (flat_map doc_tokens ds).

Definition evaluated (g : dialect) (ds : list doc) : node (U (UserWorld := demo)) :=
  match eval (W := demo) (ECall (B "aitch") (B "Collection") (flat_map (exprs g) ds)) (st 0) with
  | Some (ANode n, _) => n
  | _ => NCollection []
  end.
Ltac show_changed g ds :=
  exists (ECall (B "aitch") (B "Collection") (flat_map (exprs g) ds)), (evaluated g ds),
    (fst (page listed (evaluated g ds) fr0 (st 0, 0)));
  split; [apply (C39_code_partial g ds); [unfold a_dialect; auto|apply names_quotableb_ok; reflexivity]|];
  split; [vm_compute; reflexivity|]; split; [vm_compute; reflexivity|];
  let X := fresh in unfold tokenizes; intro X; vm_compute in X; discriminate X.

(** The contents of scripts are escaped. *)
Theorem C53_script_refuted : changed html_dialect [DElem (B "script") [] [DText (B "a<b")]].
Proof. show_changed html_dialect [DElem (B "script") [] [DText (B "a<b")]]. Qed.
(** Comments are escaped. *)
Theorem C53_comment_refuted :
  changed html_dialect [DComment (B "a&b")] /\ changed svg_dialect [DComment (B "a&b")].
Proof. split; [show_changed html_dialect [DComment (B "a&b")]|show_changed svg_dialect [DComment (B "a&b")]]. Qed.
(** Attribute names that the package refuses are dropped. *)
Theorem C53_name_refuted : changed html_dialect [DSelf (B "div") [(B "@click", B "f()")]].
Proof. show_changed html_dialect [DSelf (B "div") [(B "@click", B "f()")]]. Qed.
(** Attributes taken for boolean ones lose their value, which may reverse their sense. *)
Theorem C53_value_refuted : changed html_dialect [DSelf (B "p") [(B "translate", B "no")]].
Proof. show_changed html_dialect [DSelf (B "p") [(B "translate", B "no")]]. Qed.
(** The attribute named aria- becomes one named after its value. *)
Theorem C53_prefix_refuted : changed html_dialect [DSelf (B "p") [(B "aria-", B "x")]].
Proof. show_changed html_dialect [DSelf (B "p") [(B "aria-", B "x")]]. Qed.
(** Exactly: whatever the value is, it ends up unescaped in the name. *)
Theorem C53_prefix_becomes x o fr u s :
  forall y, In y [(B "aria-", B "<p aria-"); (B "data-", B "<p data-")] ->
   exists e n, declares (code html_dialect (flat_map stream [DSelf (B "p") [(fst y, x)]])) (B "template") e /\
    eval (W := demo) e u = Some (ANode n, u) /\
    page o n fr s = (snd y ++ x ++ B "=""""></p>", s).
Proof.
  intros y [<-|[<-|[]]]; cbn [fst snd];
    match goal with |- exists e n, declares (code _ (flat_map stream ?ds)) _ _ /\ _ =>
      exists (ECall (B "aitch") (B "Collection") (flat_map (exprs html_dialect) ds));
      eexists; split; [apply (C39_code_partial html_dialect ds); [left; reflexivity|apply names_quotableb_ok; reflexivity]|] end;
    (split; [reflexivity|]); destruct s as [u0 t0]; unfold page; cbn; rewrite firstn_all; reflexivity.
Qed.
(** The last of several attributes with one name wins; a reader takes the first. *)
Theorem C53_duplicate_refuted : changed html_dialect [DSelf (B "p") [(B "id", B "a"); (B "id", B "b")]].
Proof. show_changed html_dialect [DSelf (B "p") [(B "id", B "a"); (B "id", B "b")]]. Qed.

(** ** Deciding [rebuildable] *)

Definition name_okb (n : bytes) : bool := valid_name n && beq (map lower n) n.
Definition no_nulb (s : bytes) : bool := forallb (fun c => negb (Ascii.eqb c Ascii.zero)) s.
Fixpoint distinctb (l : list bytes) : bool :=
  match l with [] => true | x :: l' => negb (bmem x l') && distinctb l' end.
Definition textb (d : doc) : bool := match d with DText _ => true | _ => false end.
Definition plain_kidb (d : doc) : bool := match d with DText x => forallb plain_byte x | _ => true end.
Section Decide.
Context (g : dialect).
Definition attr_okb (a : bytes * bytes) : bool :=
  name_okb (fst a) && no_nulb (snd a) && (negb (bmem (fst a) (g_bools g)) || beq (snd a) []) &&
  negb (beq (fst a) (B "aria-")) && negb (beq (fst a) (B "data-")).
Definition attrs_okb (l : list (bytes * bytes)) : bool := forallb attr_okb l && distinctb (map fst l).
Definition elem_okb (n : bytes) : bool :=
  name_okb n && negb (beq n (B "plaintext")).
Fixpoint rebuildableb (d : doc) : bool :=
  match d with
  | DText x => no_nulb x
  | DComment x => forallb plain_byte x
  | DDoctype x => g_doctype g && forallb plain_byte x
  | DSelf n a => elem_okb n && attrs_okb a
  | DElem n a kids =>
      elem_okb n && negb (bmem n void_html) && attrs_okb a && forallb rebuildableb kids &&
      (negb (bmem n (rcdata_names ++ rawtext_names)) || forallb textb kids) &&
      (negb (bmem n rawtext_names) || forallb plain_kidb kids)
  end.
End Decide.

Ltac both H := repeat match type of H with
  | _ && _ = true => let H' := fresh "Q" in apply andb_true_iff in H as [H H']; both H'
  end.
Lemma name_okb_ok n : name_okb n = true -> good_name n.
Proof. unfold name_okb. intro H. both H. destruct (beq_spec (map lower n) n); [|discriminate]. split; auto. Qed.
Lemma no_nulb_ok s : no_nulb s = true -> no_nul s.
Proof. unfold no_nulb. rewrite forallb_forall. intros H X. specialize (H _ X). discriminate. Qed.
Lemma plainb_ok s : forallb plain_byte s = true -> plain_text s.
Proof. rewrite forallb_forall. intro H. apply Forall_forall. intros c Hc. apply plain_byte_ok. auto. Qed.
Lemma distinctb_ok l : distinctb l = true -> NoDup l.
Proof.
  induction l as [|x l IH]; cbn [distinctb]; intro H; [constructor|]. both H. constructor; auto.
  intro X. apply bmem_In in X. rewrite X in H. discriminate.
Qed.
Lemma attrs_okb_ok g l : attrs_okb g l = true -> good_attrs g l.
Proof.
  unfold attrs_okb. intro H. both H. split; [|apply distinctb_ok; auto]. rewrite forallb_forall in H.
  apply Forall_forall. intros a Ha. specialize (H a Ha). unfold attr_okb in H. both H.
  split; [apply name_okb_ok; auto|]. split; [apply no_nulb_ok; auto|]. split; [|split].
  - intro I. apply bmem_In in I. rewrite I in *. destruct (beq_spec (snd a) []); auto. discriminate.
  - intro X. rewrite X in *. discriminate.
  - intro X. rewrite X in *. discriminate.
Qed.
Lemma elem_okb_ok n : elem_okb n = true -> good_elem n.
Proof.
  unfold elem_okb. intro H. both H. split; [apply name_okb_ok; auto|].
  intro X. rewrite X in *. discriminate.
Qed.
Lemma rebuildableb_ok g : a_dialect g -> forall d, rebuildableb g d = true -> rebuildable g d.
Proof.
  intros D. fix IH 1. intros [x|x|x|n a|n a kids] H; cbn [rebuildableb rebuildable] in *.
  - apply no_nulb_ok. auto.
  - apply plainb_ok. auto.
  - both H. split; [|apply plainb_ok; auto]. destruct D as [G|G]; auto. rewrite G in *. discriminate.
  - both H. split; [apply elem_okb_ok; auto|apply attrs_okb_ok; auto].
  - both H. split; [apply elem_okb_ok; auto|]. split; [|split; [apply attrs_okb_ok; auto|split; [|split]]].
    + intro X. apply bmem_In in X. rewrite X in *. discriminate.
    + match goal with X : forallb (rebuildableb g) kids = true |- _ => revert X end. clear - IH.
      induction kids as [|k kids IHk]; cbn [forallb fold_right]; intro H; auto.
      apply andb_true_iff in H as [H1 H2]. split; auto.
    + intros X k Hk. apply bmem_In in X. rewrite X in *. cbn [negb orb] in *.
      match goal with X : forallb textb kids = true |- _ => rewrite forallb_forall in X; specialize (X k Hk) end.
      destruct k as [x| | | |]; try discriminate. exists x. auto.
    + intros X x Hx. apply bmem_In in X. rewrite X in *. cbn [negb orb] in *.
      match goal with X : forallb plain_kidb kids = true |- _ => rewrite forallb_forall in X; specialize (X _ Hx) end.
      apply plainb_ok. auto.
Qed.

(** A page that comes back. *)
Definition whole_page : list doc :=
  [DDoctype (B "html");
   DElem (B "html") [(B "lang", B "en")]
     [DElem (B "head") [] [DElem (B "script") [(B "defer", []); (B "src", B "a.js?x=1&y=2")] [];
                          DElem (B "title") [] [DText (B "a<b")]];
      DText (B "
  ");
      DElem (B "body") [(B "data-x", B "1<2"); (B "hx-get", B "/"); (B "hidden", [])]
        [DComment (B " hello "); DElem (B "h1") [(B "class", B "a b")] [DText (B "1 & 2 <"); DSelf (B "br") []];
         DElem (B "my-tag") [] []]]].
Example whole_page_ok : Forall (rebuildable html_dialect) whole_page.
Proof.
  apply Forall_forall. intros d Hd. apply rebuildableb_ok; [left; reflexivity|]. revert d Hd. apply forallb_forall.
  vm_compute. reflexivity.
Qed.
Example whole_page_back : exists e n b,
  declares (code html_dialect (flat_map stream whole_page)) (B "template") e /\
  eval (W := demo) e (st 3) = Some (ANode n, st 3) /\
  page listed n fr0 (st 3, 0) = (b, (st 3, 0)) /\ tokenizes b (flat_map doc_tokens whole_page).
Proof. apply (C53_rebuilds_partial (W := demo)); [left; reflexivity|apply listed_ok|apply whole_page_ok]. Qed.
Definition whole_picture : list doc :=
  [DElem (B "svg") [(B "viewbox", B "0 0 9 9")] [DSelf (B "circle") [(B "r", B "4"); (B "class", B "a b")];
     DElem (B "text") [(B "x", B "1")] [DText (B "a<b")]]].
Example whole_picture_ok : Forall (rebuildable svg_dialect) whole_picture.
Proof.
  apply Forall_forall. intros d Hd. apply rebuildableb_ok; [right; reflexivity|]. revert d Hd. apply forallb_forall.
  vm_compute. reflexivity.
Qed.
