(** C34 C35 C41 C47: the functions of the packages html, svg, css and htmx. *)
From Coq Require Import ZArith Lia.
From Verif Require Import Bytes IO IOFacts Escape SpecEscape EscapeFacts Nodes NodeInd Values Render
  Slices Build Api SpecOut SpecRun SpecElem RenderFacts AttrFacts ApiFacts PageFacts CondFacts
  TagFacts PropValues PropElements Demo Tables Packages.

Section Units.
Context {W : UserWorld}.
Variables (o : order) (fr : frame U).

(** ** C34 *)

(** A unit function renders its arguments followed by the unit, wherever the
    value is used: every argument slice of any length and capacity. *)
Theorem C34_renders unit arr s u st :
  let '(v, _, u') := unit_call unit arr s u in
  page o (fst (Text [AVal v] u')) fr st =
  (let '(b, st') := page o (fst (Text (elems arr s) u)) fr st in (b ++ unit, st')).
Proof.
  unfold unit_call, NewConcatValue, Text. rewrite new_values_app.
  destruct (new_values (elems arr s) u) as [vs u1]. cbn [new_values new_value value_to_bytes fst app].
  rewrite !page_text. unfold liftU. rewrite svals_one, sval_group by (destruct vs; discriminate).
  rewrite svals_app. destruct (svals fr vs (fst st)) as [b u2]. rewrite svals_one. reflexivity.
Qed.

Lemma nth_error_skipn {A} (l : list A) k i : nth_error (skipn k l) i = nth_error l (k + i).
Proof. revert l; induction k as [|k IH]; intros [|x l]; cbn; auto. destruct i; reflexivity. Qed.
Lemma nth_error_firstn {A} (l : list A) k i : i < k -> nth_error (firstn k l) i = nth_error l i.
Proof.
  revert l i; induction k as [|k IH]; intros l i H; [lia|]. destruct l as [|x l]; [reflexivity|].
  destruct i as [|i]; [reflexivity|]. cbn. apply IH. lia.
Qed.
Lemma nth_error_ext_local {A} (l1 l2 : list A) :
  (forall i, nth_error l1 i = nth_error l2 i) -> l1 = l2.
Proof.
  revert l2; induction l1 as [|x l1 IH]; intros [|y l2] H; auto.
  - specialize (H 0). discriminate.
  - specialize (H 0). discriminate.
  - f_equal; [specialize (H 0); injection H; auto|]. apply IH. intro i. apply (H (S i)).
Qed.
Lemma elems_nth {A} (arr : list A) s i :
  nth_error (elems arr s) i = if i <? a_len s then nth_error arr (a_off s + i) else None.
Proof.
  unfold elems. destruct (Nat.ltb_spec i (a_len s)).
  - rewrite nth_error_firstn by auto. apply nth_error_skipn.
  - apply nth_error_None. rewrite firstn_length. lia.
Qed.

(** The caller's slice itself reads as before. *)
Theorem C34_own_slice unit arr s u :
  let '(_, arr', _) := unit_call unit arr s u in elems arr' s = elems arr s.
Proof.
  unfold unit_call. destruct (NewConcatValue (elems arr s ++ [AData (GBytes unit)]) u) as [v u'].
  apply nth_error_ext_local. intro i. rewrite !elems_nth.
  destruct (Nat.ltb_spec i (a_len s)); auto.
  destruct (a_len s <? a_cap s); auto. rewrite nth_error_set_nth.
  replace (a_off s + a_len s =? a_off s + i) with false by (symmetry; apply Nat.eqb_neq; lia).
  reflexivity.
Qed.

(** The caller's whole backing array is unchanged if the slice has no spare
    capacity; in particular for the slice Go makes for [css.Px(a, b, c)]. *)
Theorem C34_unmodified_partial unit arr s u :
  a_len s = a_cap s ->
  let '(_, arr', _) := unit_call unit arr s u in arr' = arr.
Proof.
  intro H. unfold unit_call. rewrite H, Nat.ltb_irrefl.
  destruct (NewConcatValue _ u) as [v u']. reflexivity.
Qed.

(** With spare capacity exactly one cell changes: the one after the slice, and
    it receives the unit. *)
Theorem C34_one_cell unit arr s u i :
  valid_slice arr s ->
  let '(_, arr', _) := unit_call unit arr s u in
  nth_error arr' i =
  if (a_len s <? a_cap s) && (i =? a_off s + a_len s) then Some (AData (GBytes unit))
  else nth_error arr i.
Proof.
  intros [V1 V2]. unfold unit_call. destruct (NewConcatValue _ u) as [v u'].
  destruct (Nat.ltb_spec (a_len s) (a_cap s)); auto. rewrite nth_error_set_nth. cbn [andb].
  rewrite Nat.eqb_sym. replace (a_off s + a_len s <? length arr) with true
    by (symmetry; apply Nat.ltb_lt; lia).
  rewrite andb_true_r. reflexivity.
Qed.

End Units.

(** [vals := []any{1, 2}; css.Px(vals[:1]...)] overwrites [vals[1]]. *)
Theorem C34_unmodified_refuted :
  exists (arr : list (arg (@U demo))) s,
    valid_slice arr s /\
    let '(_, arr', _) := unit_call (B "px") arr s (st 0) in
    nth_error arr 1 = Some (AData (GInt 2)) /\
    nth_error arr' 1 = Some (AData (GBytes (B "px"))).
Proof.
  exists [AData (GInt 1); AData (GInt 2)], (ASlice 0 1 2). split; [split; cbn; lia|]. split; reflexivity.
Qed.

(** Lower-case letters. *)
Definition lower_char (c : ascii) : ascii :=
  let n := nat_of_ascii c in if (65 <=? n) && (n <=? 90) then ascii_of_nat (n + 32) else c.
Definition lower (s : bytes) : bytes := map lower_char s.

(** Every unit function appends the unit of its name. *)
Theorem C34_units f k :
  In (f, k) css_unit_functions ->
  exists unit, k = KUnit unit /\
    B unit = if beq (B f) (B "Percent") then B "%" else lower (B f).
Proof.
  intro H. cbn [css_unit_functions In] in H.
  repeat (destruct H as [H|H]; [injection H as <- <-; eexists; split; reflexivity|]). destruct H.
Qed.

(** [css.Px(1, "<")] inside a text. *)
Example C34_ex :
  let '(v, _, u') := @unit_call demo (B "px") [AData (GInt 1); str (B "<"); AData GNil] (ASlice 0 2 3) (st 0) in
  fst (page listed (fst (Text [AVal v] u')) fr0 (st 0, 0)) = B "1&lt;px".
Proof. vm_compute. reflexivity. Qed.

(** ** C35 *)

Lemma somes_map_Some {A} (l : list A) : somes (map Some l) = l.
Proof. unfold somes. induction l as [|x l IH]; cbn; congruence. Qed.

Lemma set_nth_same {A} (l : list A) i d : i < length l -> set_nth l i (nth i l d) = l.
Proof. revert i; induction l as [|x l IH]; intros [|i] H; cbn in *; auto; try lia. rewrite IH by lia. auto. Qed.

Lemma slice_elems_grow {A} (m ext : mem A) s :
  s_arr s < length m -> slice_elems (m ++ ext) s = slice_elems m s.
Proof. intro H. unfold slice_elems. rewrite app_nth1 by auto. reflexivity. Qed.

Lemma prefix_array ext p :
  nth (s_arr (prefix_slice 0 p)) (prefix_mem 0 ++ ext) [] = map Some (prefix_bytes p).
Proof. destruct p; reflexivity. Qed.

(** Without spare capacity a call only adds to the memory. *)
Lemma prefixed_step ext p n :
  exists ext', let '(m', s) := prefixed 0 (prefix_mem 0 ++ ext) p n in
    m' = prefix_mem 0 ++ ext ++ ext' /\ s_arr s < length m' /\
    slice_elems m' s = prefix_bytes p ++ n.
Proof.
  unfold prefixed, append_list. rewrite prefix_array.
  assert (L : s_arr (prefix_slice 0 p) < length (prefix_mem 0 ++ ext)).
  { rewrite app_length. destruct p; cbn; lia. }
  destruct n as [|c n].
  - exists []. cbn [map app length]. rewrite Nat.add_0_r.
    replace (s_len (prefix_slice 0 p) <=? s_cap (prefix_slice 0 p)) with true
      by (destruct p; reflexivity).
    rewrite firstn_skipn, <- (prefix_array ext p), set_nth_same, app_nil_r by auto.
    split; [reflexivity|]. split; [auto|]. unfold slice_elems.
    cbn [s_arr s_len]. rewrite prefix_array, app_nil_r.
    replace (s_len (prefix_slice 0 p)) with (length (map Some (prefix_bytes p))) by (destruct p; reflexivity).
    rewrite firstn_all. apply somes_map_Some.
  - replace (s_len (prefix_slice 0 p) + length (c :: n) <=? s_cap (prefix_slice 0 p)) with false
      by (symmetry; apply Nat.leb_gt; unfold prefix_slice; cbn [s_len s_cap length]; lia).
    eexists. split; [rewrite <- app_assoc; reflexivity|]. cbn [s_arr]. split; [rewrite (app_length (prefix_mem 0 ++ ext)); cbn [length]; lia|].
    unfold slice_elems. cbn [s_arr s_len]. rewrite app_nth2, Nat.sub_diag by auto. cbn [nth].
    replace (s_len (prefix_slice 0 p)) with (length (map Some (prefix_bytes p))) by (destruct p; reflexivity).
    rewrite firstn_all, <- map_app. rewrite map_length, <- app_length, <- (map_length Some), firstn_all.
    apply somes_map_Some.
Qed.

(** Any sequence of calls: at the end every attribute made still has its own
    name, prefix followed by the name given.  (No spare capacity: see
    [prefix_mem].) *)
Theorem C35_independent calls :
  let '(m', ss) := prefixed_calls 0 (prefix_mem 0) calls in
  map (slice_elems m') ss = map (fun '(p, n) => prefix_bytes p ++ n) calls.
Proof.
  cut (forall calls ext, exists ext',
    let '(m', ss) := prefixed_calls 0 (prefix_mem 0 ++ ext) calls in
    m' = prefix_mem 0 ++ ext ++ ext' /\
    map (slice_elems m') ss = map (fun '(p, n) => prefix_bytes p ++ n) calls).
  { intro G. destruct (G calls []) as [e G']. rewrite app_nil_r in G'.
    destruct (prefixed_calls 0 (prefix_mem 0) calls). apply G'. }
  clear calls. induction calls as [|[p n] calls IH]; intro ext; cbn [prefixed_calls map].
  - exists []. rewrite app_nil_r. auto.
  - destruct (prefixed_step ext p n) as [e1 S]. destruct (prefixed 0 (prefix_mem 0 ++ ext) p n) as [m1 s].
    destruct S as (-> & A & E). destruct (IH (ext ++ e1)) as [e2 R].
    destruct (prefixed_calls 0 (prefix_mem 0 ++ ext ++ e1) calls) as [m2 ss]. destruct R as [-> R].
    exists (e1 ++ e2). rewrite <- (app_assoc ext e1 e2) in *. split; [reflexivity|].
    cbn [map]. rewrite R. f_equal. rewrite <- E.
    rewrite !app_assoc. rewrite <- (app_assoc _ ext e1). apply slice_elems_grow. auto.
Qed.

(** The property stands or falls with the capacity the compiler gives the
    package variables: any spare cell would let two calls interfere. *)
Theorem C35_spare_capacity extra :
  (forall calls,
     let '(m', ss) := prefixed_calls extra (prefix_mem extra) calls in
     map (slice_elems m') ss = map (fun '(p, n) => prefix_bytes p ++ n) calls) <-> extra = 0.
Proof.
  split.
  - intro H. destruct extra as [|extra]; auto. exfalso.
    specialize (H [(Aria, B "a"); (Aria, B "b")]).
    unfold prefixed_calls, prefixed, append_list, prefix_slice, prefix_mem in H.
    cbn in H. discriminate H.
  - intros ->. apply C35_independent.
Qed.

Example C35_ex :
  let '(m', ss) := prefixed_calls 0 (prefix_mem 0)
    [(Aria, B "label"); (Data, B ""); (Aria, B "busy"); (On, B "click"); (Data, B "x")] in
  map (slice_elems m') ss = [B "aria-label"; B "data-"; B "aria-busy"; B "hx-on:click"; B "data-x"].
Proof. vm_compute. reflexivity. Qed.

(** ** C47 *)

Section Styles.
Context {W : UserWorld}.
Variables (o : order) (fr : frame U).
Hypothesis O : ord_ok o.

(** A style declaration: a call of html.Style (or svg.Style), or of the css
    function of the property [p]. *)
Inductive decl := DStyle (vs : list (arg U)) | DProp (p : bytes) (vs : list (arg U)).

(** The calls, made one after the other. *)
Definition decl_node (d : decl) (u : U) : node U * U :=
  match d with DStyle vs => Style vs u | DProp p vs => style_attribute p vs u end.
Fixpoint decl_nodes (ds : list decl) (u : U) : list (node U) * U :=
  match ds with
  | [] => ([], u)
  | d :: ds' => let '(n, u1) := decl_node d u in let '(ns, u2) := decl_nodes ds' u1 in (n :: ns, u2)
  end.

(** The specification: the entries of the list, each as a text node.  A css
    call is one entry, the property name followed by its values; a Style call
    gives one entry per value. *)
Fixpoint entries (ds : list decl) (u : U) : list (node U) :=
  match ds with
  | [] => []
  | DProp p vs :: ds' =>
      let '(n, u1) := Text (AData (GBytes p) :: vs) u in n :: entries ds' u1
  | DStyle vs :: ds' =>
      let '(l, u1) := new_values vs u in map (fun v => NText [v]) l ++ entries ds' u1
  end.

(** The bytes of nodes rendered one after the other, kept apart. *)
Fixpoint each (ns : list (node U)) (s : U * nat) : list bytes * (U * nat) :=
  match ns with
  | [] => ([], s)
  | n :: ns' => let '(b, s1) := page o n fr s in let '(bs, s2) := each ns' s1 in (b :: bs, s2)
  end.

Definition decl_attrs (ns : list (node U)) : list (attr U) := flat_map static_decls ns.

(** The merged values render as the entries. *)
Lemma entries_values ds u s :
  each (entries ds u) s =
  (let '(bs, u') := mapS (sval fr) (flat_map vals (decl_attrs (fst (decl_nodes ds u)))) (fst s) in
   (bs, (u', snd s))).
Proof.
  revert u s; induction ds as [|d ds IH]; intros u s; cbn [entries decl_nodes].
  - cbn. destruct s; reflexivity.
  - destruct d as [vs|p vs]; cbn [decl_node].
    + unfold Style, NewDelimitedAttribute. destruct (new_values vs u) as [l u1].
      specialize (IH u1). destruct (decl_nodes ds u1) as [ns u2]. cbn [fst] in *.
      unfold decl_attrs in *. cbn [flat_map static_decls vals app].
      rewrite mapS_app.
      revert s. induction l as [|v l IHl]; intro s; cbn [map app mapS each].
      * rewrite IH. destruct (mapS (sval fr) _ (fst s)). reflexivity.
      * rewrite page_text. unfold liftU. rewrite svals_one. destruct (sval fr v (fst s)) as [b s1].
        rewrite IHl. cbn [fst snd]. destruct (mapS (sval fr) l s1) as [y1 s2].
        destruct (mapS (sval fr) _ s2). reflexivity.
    + unfold style_attribute, Text, NewConcatValue, NewDelimitedAttribute.
      cbn [new_values new_value value_to_bytes].
      destruct (new_values vs u) as [l u1]. cbn [app].
      specialize (IH u1). destruct (decl_nodes ds u1) as [ns u2]. cbn [fst] in *.
      unfold decl_attrs in *. cbn [flat_map static_decls vals app mapS each]. rewrite page_text. unfold liftU.
      rewrite sval_group by discriminate. destruct (svals fr (Val p None [] :: l) (fst s)) as [b s1].
      rewrite IH. cbn [fst snd]. destruct (mapS (sval fr) _ s1). reflexivity.
Qed.

Lemma decl_delims ds u :
  Forall (fun a => exists vs, a = ADelim (B "style") (B "; ") vs) (decl_attrs (fst (decl_nodes ds u))).
Proof.
  revert u; induction ds as [|d ds IH]; intro u; cbn [decl_nodes]; [constructor|].
  assert (D : exists vs, fst (decl_node d u) = NAttr (ADelim (B "style") (B "; ") vs)).
  { destruct d as [vs|p vs]; cbn [decl_node];
      unfold Style, style_attribute, NewConcatValue, NewDelimitedAttribute; cbn [new_values new_value value_to_bytes];
      destruct (new_values vs u); eexists; reflexivity. }
  destruct (decl_node d u) as [n u1]. destruct D as [vs D]. cbn [fst] in D. subst n.
  specialize (IH u1). destruct (decl_nodes ds u1). cbn [fst] in *. unfold decl_attrs. cbn [flat_map static_decls app].
  constructor; eauto.
Qed.

(** However the declarations were made, the element has one style attribute,
    whose list is the entries in call order: the attribute that the
    declarations of the name style amount to. *)
Theorem C47_one_attribute ds u s :
  ds <> [] ->
  exists a, effective (decl_attrs (fst (decl_nodes ds u))) = Some a /\
    page o (NAttr a) fr s =
    (let '(bs, s') := each (entries ds u) s in
     (B " style=""" ++ delimited (B "; ") bs ++ B """", s')).
Proof.
  intro N. pose proof (decl_delims ds u) as D.
  assert (L : decl_attrs (fst (decl_nodes ds u)) <> []).
  { destruct ds as [|d ds]; [congruence|]. cbn [decl_nodes].
    destruct d as [vs|p vs]; cbn [decl_node];
      unfold Style, style_attribute, NewConcatValue, NewDelimitedAttribute; cbn [new_values new_value value_to_bytes];
      destruct (new_values vs u) as [l u1]; destruct (decl_nodes ds u1); discriminate. }
  rewrite entries_values.
  destruct (decl_attrs (fst (decl_nodes ds u))) as [|a l]; [congruence|].
  inversion D as [|x y [vs ->] D' Ex]; subst.
  rewrite C10_all_delimited.
  2: { eapply Forall_impl; [|exact D']. intros b [w ->]. reflexivity. }
  eexists. split; [reflexivity|]. rewrite page_attr. unfold liftU. cbn [sattr].
  cbn [flat_map vals]. destruct (mapS (sval fr) (vs ++ flat_map vals l) (fst s)) as [bs u'].
  rewrite djoin_delimited. reflexivity.
Qed.

Lemma declared_all n (l : list (attr U)) :
  Forall (fun a => attr_name a = n) l -> declared n l = l.
Proof.
  induction 1 as [|a l H _ IH]; [reflexivity|]. unfold declared in *. cbn [filter].
  rewrite H, beq_refl, IH. reflexivity.
Qed.

(** The whole element: other attributes [args] may stand before, between and
    after the style calls, as long as they are unconditional and have other
    names.  The style attribute appears once, in the place of the first style
    call, and the other attributes are those of the element without styles. *)
Theorem C47_element name args ds u u0 s :
  usable_args args -> ds <> [] ->
  let ns := fst (contents_to_nodes args u) in
  let all := flat_map static_decls ns in
  flat_map (cond_decls []) ns = [] ->
  declared (B "style") all = decl_attrs (fst (decl_nodes ds u0)) ->
  exists pre a post,
    page o (fst (NewElement name args u)) fr s =
      (let '(A, s1) := pages o (map NAttr (pre ++ a :: post)) fr s in
       let '(C, s2) := pages o (non_attrs ns) fr s1 in
       (wrap name A C, s2)) /\
    ~ In (B "style") (map (@attr_name U) (pre ++ post)) /\
    (forall s, page o (NAttr a) fr s =
       (let '(bs, s') := each (entries ds u0) s in
        (B " style=""" ++ delimited (B "; ") bs ++ B """", s'))).
Proof.
  intros H N ns al Z D.
  destruct (C47_one_attribute ds u0 s N) as (a & E & _).
  assert (P : forall s, page o (NAttr a) fr s =
       (let '(bs, s') := each (entries ds u0) s in
        (B " style=""" ++ delimited (B "; ") bs ++ B """", s'))).
  { intro s0. destruct (C47_one_attribute ds u0 s0 N) as (a' & E' & P). congruence. }
  pose proof (C10_static o fr O name args u s H Z) as T. cbv zeta in T.
  fold ns in T. fold al in T.
  assert (I : In (B "style") (names_of al)).
  { destruct (names_of_spec al) as [_ S]. apply S.
    assert (X : exists b, In b (declared (B "style") al)).
    { rewrite D. destruct (decl_attrs (fst (decl_nodes ds u0))) as [|b l]; [discriminate E|]. exists b. left. auto. }
    destruct X as [b X]. apply filter_In in X as [X1 X2]. destruct (beq_spec (attr_name b) (B "style")); [|discriminate].
    rewrite <- e. apply in_map. auto. }
  destruct (in_split _ _ I) as (l1 & l2 & S).
  assert (ND : NoDup (names_of al)) by apply names_of_spec.
  rewrite S in T, ND. rewrite flat_map_app in T. cbn [flat_map] in T. rewrite D, E in T. cbn [oapp app] in T.
  eexists _, a, _. split; [exact T|]. split; [|exact P].
  apply NoDup_remove_2 in ND. intro X. apply ND. rewrite map_app in X. apply in_app_or in X.
  assert (Q : forall l, In (B "style") (map (@attr_name U) (flat_map (fun n => oapp (effective (declared n al))) l)) ->
              In (B "style") l).
  { intros l Hl. apply in_map_iff in Hl as (b & Hb1 & Hb2). apply in_flat_map in Hb2 as (n & Hn & Hb).
    destruct (effective (declared n al)) as [c|] eqn:Ec; [|destruct Hb]. cbn [oapp] in Hb.
    destruct Hb as [<-|[]].
    destruct (in_dec bytes_dec n (map (@attr_name U) al)) as [Y|Y].
    - destruct (effective_some n al Y) as (c' & Ec' & Nc). rewrite Ec in Ec'. injection Ec' as <-. congruence.
    - rewrite effective_none in Ec by auto. discriminate. }
  apply in_or_app. destruct X as [X|X]; [left|right]; apply Q; auto.
Qed.

End Styles.

Section Entries.
Context {W : UserWorld}.
Variables (o : order) (fr : frame U).

(** One entry of a css call: the property followed by its values. *)
Theorem C47_entry p vs u s :
  page o (fst (Text (AData (GBytes p) :: vs) u)) fr s =
  (let '(b, s') := page o (fst (Text vs u)) fr s in (p ++ b, s')).
Proof.
  unfold Text. cbn [new_values new_value value_to_bytes]. destruct (new_values vs u) as [l u1].
  cbn [fst app]. rewrite !page_text. unfold liftU.
  change (Val p None [] :: l) with ([Val p None []] ++ l). rewrite svals_app, svals_one.
  cbn [sval]. destruct (svals fr l (fst s)). reflexivity.
Qed.

(** C35, rendered: the attributes of any history of Aria, Data and On calls,
    rendered after all the calls. *)
Theorem C35_rendered calls vs s i p n :
  nth_error calls i = Some (p, n) ->
  let '(m', ss) := prefixed_calls 0 (prefix_mem 0) calls in
  exists name, nth_error ss i = Some name /\
    page o (NAttr (APlain (slice_elems m' name) vs)) fr s =
    (let '(b, s') := page o (NText vs) fr s in
     (B " " ++ prefix_bytes p ++ n ++ B "=""" ++ b ++ B """", s')).
Proof.
  intro H. pose proof (C35_independent calls) as I.
  destruct (prefixed_calls 0 (prefix_mem 0) calls) as [m' ss].
  assert (E : nth_error (map (slice_elems m') ss) i = Some (prefix_bytes p ++ n)).
  { rewrite I. rewrite (map_nth_error _ _ _ H). reflexivity. }
  destruct (nth_error ss i) as [name|] eqn:En.
  2: { apply nth_error_None in En. rewrite <- (map_length (slice_elems m')) in En.
       apply nth_error_None in En. congruence. }
  exists name. split; auto. rewrite (map_nth_error _ _ _ En) in E. injection E as ->.
  rewrite page_attr, page_text. unfold liftU. cbn [sattr].
  destruct (svals fr vs (fst s)). rewrite <- !app_assoc. reflexivity.
Qed.

End Entries.

(** The name of a css property function: words separated by hyphens, lower
    case. *)
Definition is_upper (c : ascii) : bool :=
  let n := nat_of_ascii c in (65 <=? n) && (n <=? 90).
Definition kebab (s : bytes) : bytes :=
  match s with
  | [] => []
  | c :: s' => lower_char c :: flat_map (fun c => if is_upper c then ["-"%char; lower_char c] else [c]) s'
  end.

Lemma forall_table {X} (f : X -> bool) l x : forallb f l = true -> In x l -> f x = true.
Proof. intros H I. rewrite forallb_forall in H. auto. Qed.

Lemma in_table {X} (f : X -> bool) l x : find f l = Some x -> In x l.
Proof. intro H. apply find_some in H. tauto. Qed.

(** Every css property function declares the property of its name. *)
Theorem C47_properties f k :
  In (f, k) css_property_functions -> exists p, k = KStyle p /\ B p = kebab (B f) ++ B ":".
Proof.
  intro H.
  assert (C : forallb (fun '(f, k) => match k with KStyle p => beq (B p) (kebab (B f) ++ B ":") | _ => false end)
                css_property_functions = true) by (vm_compute; reflexivity).
  pose proof (forall_table _ _ _ C H) as E. cbv beta iota in E. destruct k; try discriminate E.
  eexists. split; [reflexivity|].
  destruct (beq_spec (B property) (kebab (B f) ++ B ":")) as [|N]; [assumption|discriminate].
Qed.

(** [Div(Style("x:1"), css.Color("red"), Id("i"), css.Width(css.Px(3)))]. *)
Example C47_ex :
  let '(px, _, _) := @unit_call demo (B "px") [AData (GInt 3)] (ASlice 0 1 1) (st 0) in
  fst (page listed (fst (NewElement (B "div")
    [ANode (fst (Style [str (B "x:1")] (st 0)));
     ANode (fst (style_attribute (B "color:") [str (B "red")] (st 0)));
     ANode (fst (NewAttribute (B "id") [str (B "i")] (st 0)));
     ANode (fst (style_attribute (B "width:") [AVal px] (st 0)))] (st 0))) fr0 (st 0, 0))
  = B "<div style=""x:1; color:red; width:3px"" id=""i""></div>".
Proof. vm_compute. reflexivity. Qed.

(** The hypotheses of [C47_element] on that element. *)
Example C47_ex_hyp :
  let ds := [DStyle [str (B "x:1")]; DProp (B "color:") [str (B "red")]] in
  let args := [ANode (fst (Style [str (B "x:1")] (st 0)));
               ANode (fst (NewAttribute (B "id") [str (B "i")] (st 0)));
               ANode (fst (style_attribute (B "color:") [str (B "red")] (st 0)))] in
  let ns := fst (contents_to_nodes args (st 0)) in
  @usable_args demo args /\ flat_map (cond_decls []) ns = [] /\
  declared (B "style") (flat_map static_decls ns) = decl_attrs (fst (decl_nodes ds (st 0))).
Proof.
  cbv zeta. split; [|split; vm_compute; reflexivity].
  intros n H. cbn [In] in H. destruct H as [H|[H|[H|[]]]]; injection H as <-; split; try exact I.
  - exact (@api_delimited demo (B "style") (B "; ") [str (B "x:1")] (st 0)).
  - exact (@api_attribute demo (B "id") [str (B "i")] (st 0)).
  - exact (@api_delimited demo (B "style") (B "; ")
             [AVal (fst (NewConcatValue [AData (GBytes (B "color:")); str (B "red")] (st 0)))] (st 0)).
Qed.

(** ** C41 *)

(** The void elements of the HTML standard (13.1.2), and param, which earlier
    versions of the standard list. *)
Definition html_void_names : list bytes :=
  map B ["area"; "base"; "br"; "col"; "embed"; "hr"; "img"; "input"; "link"; "meta"; "param";
         "source"; "track"; "wbr"]%string.

Definition produces (k : fkind) : bytes :=
  match k with
  | KElement t | KVoid t => B t
  | KPlain n | KBool n | KDelim n _ => B n
  | KStyle _ | KUnit _ => []
  end.

(** The html element functions make a void element exactly for the void names;
    the function Track is the exception ([C41_track_refuted]). *)
Theorem C41_void_partial f k :
  In (f, k) html_element_functions -> f <> "Track"%string ->
  (exists t, k = KVoid t /\ In (B t) html_void_names) \/
  (exists t, k = KElement t /\ ~ In (B t) html_void_names).
Proof.
  intros H N.
  assert (C : forallb (fun '(f, k) =>
     beq (B f) (B "Track") ||
     match k with
     | KVoid t => bmem (B t) html_void_names
     | KElement t => negb (bmem (B t) html_void_names)
     | _ => false end) html_element_functions = true) by (vm_compute; reflexivity).
  pose proof (forall_table _ _ _ C H) as E. cbv beta iota in E.
  apply Bool.orb_true_iff in E as [E|E].
  - exfalso. apply N. destruct (beq_spec (B f) (B "Track")) as [Q|]; [|discriminate].
    apply (f_equal string_of_list_ascii) in Q. unfold B in Q.
    rewrite !string_of_list_ascii_of_string in Q. auto.
  - destruct k; try discriminate E.
    + right. exists tag. split; auto. intro X. apply bmem_In in X. rewrite X in E. discriminate.
    + left. exists tag. split; auto. apply bmem_In. auto.
Qed.
Theorem C41_track_refuted :
  exists f k, In (f, k) html_element_functions /\ In (produces k) html_void_names /\
    k = KElement (string_of_list_ascii (produces k)).
Proof.
  exists "Track"%string, (KElement "track"). split; [|split; [|reflexivity]].
  - apply (in_table (fun e => String.eqb (fst e) "Track")
             html_element_functions ("Track"%string, KElement "track")). vm_compute. reflexivity.
  - apply bmem_In. vm_compute. reflexivity.
Qed.
(** What Track renders. *)
Example C41_track_ex :
  fst (page listed (fst (NewElement (B "track") [] (st 0))) fr0 (st 0, 0)) = B "<track></track>".
Proof. vm_compute. reflexivity. Qed.

Definition funs_agree (gen : list (string * string)) (funs : list (string * fkind)) (except : list string) : bool :=
  forallb (fun '(key, f) =>
    existsb (String.eqb f) except ||
    existsb (fun '(g, k) => String.eqb f g && beq (produces k) (B key)) funs) gen.

Lemma funs_agree_spec gen funs except key f :
  funs_agree gen funs except = true -> In (key, f) gen -> ~ In f except ->
  exists k, In (f, k) funs /\ produces k = B key.
Proof.
  intros H I N. pose proof (forall_table _ _ _ H I) as E. cbv beta iota in E.
  apply Bool.orb_true_iff in E as [E|E].
  - exfalso. apply N. apply existsb_exists in E as (x & Hx & E). apply String.eqb_eq in E. subst. auto.
  - apply existsb_exists in E as ([g k] & Hg & E). apply andb_prop in E as [E1 E2].
    apply String.eqb_eq in E1. subst g. exists k. split; auto.
    destruct (beq_spec (produces k) (B key)); [auto|discriminate].
Qed.

(** Every function that a generator table names for a key exists and produces
    that key as its tag or attribute name.  The keys "aria-" and "data-" are
    the exception: Aria and Data take the rest of the name as an argument. *)
Theorem C41_html_elements key f :
  In (key, f) html_generator_elements ->
  exists k, In (f, k) html_element_functions /\ produces k = B key.
Proof.
  intro H. apply (funs_agree_spec html_generator_elements html_element_functions []);
    [vm_compute; reflexivity|auto|intros []].
Qed.
Theorem C41_html_attributes key f :
  In (key, f) html_generator_attributes -> f <> "Aria"%string -> f <> "Data"%string ->
  exists k, In (f, k) html_attribute_functions /\ produces k = B key.
Proof.
  intros H N1 N2.
  apply (funs_agree_spec html_generator_attributes html_attribute_functions ["Aria"%string; "Data"%string]);
    [vm_compute; reflexivity|auto|intros [E|[E|[]]]; auto].
Qed.
Theorem C41_svg_elements key f :
  In (key, f) svg_generator_elements ->
  exists k, In (f, k) svg_element_functions /\ produces k = B key.
Proof.
  intro H. apply (funs_agree_spec svg_generator_elements svg_element_functions []);
    [vm_compute; reflexivity|auto|intros []].
Qed.
Theorem C41_svg_attributes key f :
  In (key, f) svg_generator_attributes ->
  exists k, In (f, k) svg_attribute_functions /\ produces k = B key.
Proof.
  intro H. apply (funs_agree_spec svg_generator_attributes svg_attribute_functions []);
    [vm_compute; reflexivity|auto|intros []].
Qed.

(** The keys the html generator treats as boolean are exactly the names of the
    boolean attribute functions. *)
Theorem C41_booleans name :
  In name html_generator_booleans <-> exists f, In (f, KBool name) html_attribute_functions.
Proof.
  split.
  - intro H.
    assert (C : forallb (fun n => existsb (fun '(_, k) => match k with KBool m => String.eqb n m | _ => false end)
                  html_attribute_functions) html_generator_booleans = true) by (vm_compute; reflexivity).
    pose proof (forall_table _ _ _ C H) as E. cbv beta in E. apply existsb_exists in E as ([f k] & Hf & E).
    destruct k; try discriminate. apply String.eqb_eq in E. subst. eauto.
  - intros [f H].
    assert (C : forallb (fun '(_, k) => match k with KBool m => existsb (String.eqb m) html_generator_booleans
                  | _ => true end) html_attribute_functions = true) by (vm_compute; reflexivity).
    pose proof (forall_table _ _ _ C H) as E. cbv beta iota in E. apply existsb_exists in E as (x & Hx & E).
    apply String.eqb_eq in E. subst. auto.
Qed.

(** The generators look names up in lower case (html/generator.go 56, 73;
    svg/generator.go 54, 71).  A key is reachable if some name finds it. *)
Definition reachable (key : string) : Prop := exists name, lower name = B key.

Lemma lower_lower_char c : lower_char (lower_char c) = lower_char c.
Proof. destruct c as [[] [] [] [] [] [] [] []]; reflexivity. Qed.
Lemma reachable_iff key : reachable key <-> lower (B key) = B key.
Proof.
  split; [|intro H; exists (B key); auto]. intros [n <-]. unfold lower. rewrite map_map.
  apply map_ext. apply lower_lower_char.
Qed.

Theorem C41_html_reachable key f :
  In (key, f) html_generator_elements \/ In (key, f) html_generator_attributes -> reachable key.
Proof.
  intro H. apply reachable_iff.
  assert (C : forallb (fun e => beq (lower (B (fst e))) (B (fst e)))
                (html_generator_elements ++ html_generator_attributes) = true) by (vm_compute; reflexivity).
  apply in_or_app in H. pose proof (forall_table _ _ _ C H) as E. cbn [fst] in E.
  destruct (beq_spec (lower (B key)) (B key)); [auto|discriminate].
Qed.
(** No camel-case key of the svg tables can be found. *)
Theorem C41_svg_reachable key :
  reachable key <-> forall c, In c (B key) -> is_upper c = false.
Proof.
  rewrite reachable_iff. unfold lower. generalize (B key). intro l. split.
  - intros H c Hc. rewrite <- H in Hc. apply in_map_iff in Hc as (d & <- & _).
    destruct d as [[] [] [] [] [] [] [] []]; reflexivity.
  - induction l as [|c l IH]; intro H; [reflexivity|]. cbn [map]. rewrite IH by (intros; apply H; right; auto).
    f_equal. specialize (H c (or_introl eq_refl)). revert H.
    destruct c as [[] [] [] [] [] [] [] []]; intro H; try reflexivity; discriminate H.
Qed.
Theorem C41_svg_reachable_refuted :
  exists key f, In (key, f) svg_generator_elements /\ ~ reachable key.
Proof.
  exists "linearGradient"%string, "LinearGradient"%string. split.
  - apply (in_table (fun e => String.eqb (fst e) "linearGradient")
             svg_generator_elements ("linearGradient"%string, "LinearGradient"%string)). vm_compute. reflexivity.
  - rewrite reachable_iff. vm_compute. discriminate.
Qed.
(** How many: 33 of 64 element keys and 29 of 143 attribute keys. *)
Example C41_svg_unreachable_count :
  let bad := filter (fun e : string * string => negb (beq (lower (B (fst e))) (B (fst e)))) in
  (length (bad svg_generator_elements), length svg_generator_elements,
   length (bad svg_generator_attributes), length svg_generator_attributes) = (33, 64, 29, 143).
Proof. vm_compute. reflexivity. Qed.

(** Ten html element functions have no entry in the generator's table. *)
Theorem C41_all_mapped_refuted :
  exists f k, In (f, k) html_element_functions /\ forall key, ~ In (key, f) html_generator_elements.
Proof.
  exists "Output"%string, (KElement "output"). split.
  - apply (in_table (fun e => String.eqb (fst e) "Output")
             html_element_functions ("Output"%string, KElement "output")). vm_compute. reflexivity.
  - intros key H.
    assert (C : forallb (fun e => negb (String.eqb (snd e) "Output")) html_generator_elements = true)
      by (vm_compute; reflexivity).
    pose proof (forall_table _ _ _ C H) as E. discriminate E.
Qed.
