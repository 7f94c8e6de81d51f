(** C14: the conditions of every element, however deep conditionals are nested. *)
From Coq Require Import Permutation.
From Verif Require Import Bytes IO IOFacts Escape Nodes NodeInd Values Render
  Slices Build Api SpecOut SpecRun SpecElem RenderFacts AttrFacts ApiFacts PageFacts CondFacts
  TagFacts PropValues PropElements PropGroups PropConditions SpecShared SharedFacts Demo.

Section Shared.
Context {W : UserWorld}.
Variables (o : order) (fr : frame U).
Hypothesis O : ord_ok o.

Lemma page_deciding name ns s :
  all tables_ok ns -> all quiet ns ->
  exists l t,
    let '(active, u1) := sactive fr (deciding spare ns) (fst s) in
    Permutation l (tag_spec (flat_map static_decls ns) active) /\
    page o (mk_element name ns) fr s =
      (let '(A, s1) := pages o (map NAttr l) fr (u1, t) in
       let '(C, s2) := pages o (non_attrs ns) fr s1 in
       (wrap name A C, s2)) /\
    page o (mk_void name ns) fr s =
      (let '(A, s1) := pages o (map NAttr l) fr (u1, t) in
       (B "<" ++ name ++ A ++ B ">", s1)).
Proof.
  intros T Q. pose proof (tables_element name ns T) as TE. pose proof (tables_void name ns) as TV.
  pose proof (quiet_element name ns Q) as QE. pose proof (quiet_void name ns) as QV.
  rewrite !page_snode by auto.
  destruct (stag_spec o fr name ns s O) as (conds & active & u1 & l & t & H1 & H2 & H3 & H4 & H5 & H6 & H7 & H8).
  assert (E : conds = deciding spare ns).
  { clear - H7. unfold mk_void in H7. rewrite attributes_deciding in H7.
    destruct (add_attributes (flat_map static_decls ns)). injection H7 as <-. reflexivity. }
  subst conds. rewrite H8. rewrite H7. rewrite attributes_deciding in H6.
  destruct (add_attributes (flat_map static_decls ns)) as [attrs idx]. cbn [fst snd] in *.
  exists l, t. rewrite H3. split; auto. split.
  - cbn [snode]. rewrite H6. unfold non_attrs. rewrite pages_attrs.
    destruct (liftU (sattrs fr l) (u1, t)) as [A s1].
    rewrite (pages_seqS o) by (auto using all_filter).
    destruct (seqS _ _ s1) as [C s2]. unfold wrap, endtag. rewrite <- !app_assoc. reflexivity.
  - cbn [snode]. rewrite H6. reflexivity.
Qed.

(** What is evaluated, and what is rendered, for any content. *)
Theorem C14_exact name args u s :
  usable_args args ->
  let ns := fst (contents_to_nodes args u) in
  exists l t,
    let '(active, u1) := sactive fr (deciding spare ns) (fst s) in
    Permutation l (tag_spec (flat_map static_decls ns) active) /\
    page o (fst (NewElement name args u)) fr s =
      (let '(A, s1) := pages o (map NAttr l) fr (u1, t) in
       let '(C, s2) := pages o (non_attrs ns) fr s1 in
       (wrap name A C, s2)) /\
    page o (fst (NewVoidElement name args u)) fr s =
      (let '(A, s1) := pages o (map NAttr l) fr (u1, t) in
       (B "<" ++ name ++ A ++ B ">", s1)).
Proof.
  intros H ns. destruct (args_usable args u H) as [T Q]. subst ns. unfold NewElement, NewVoidElement.
  destruct (contents_to_nodes args u) as [ns u']. cbn [fst] in *. apply page_deciding; auto.
Qed.

(** Conditions without side effects: an attribute is added exactly if all the
    conditions that decide about it hold. *)
Theorem C14_exact_pure name args u s :
  usable_args args ->
  let ns := fst (contents_to_nodes args u) in
  (forall a c f, In (a, c) (deciding spare ns) -> In f c -> pure fr f) ->
  exists active l t,
    (forall a, In a active <-> exists c, In (a, c) (deciding spare ns) /\ forall f, In f c -> says fr true f) /\
    Permutation l (tag_spec (flat_map static_decls ns) active) /\
    page o (fst (NewElement name args u)) fr s =
      (let '(A, s1) := pages o (map NAttr l) fr (fst s, t) in
       let '(C, s2) := pages o (non_attrs ns) fr s1 in
       (wrap name A C, s2)).
Proof.
  intros H ns P. destruct (C14_exact name args u s H) as (l & t & X). fold ns in X.
  destruct (sactive_pure fr (deciding spare ns) (fst s) P) as (act & E & Ha). rewrite E in X.
  destruct X as (X1 & X2 & _). exists act, l, t. auto.
Qed.

End Shared.

(** The depths at which a list of conditions is full. *)
Fixpoint caps (n : nat) : nat :=
  match n with 0 => 0 | S n' => let c := caps n' in if n' <? c then c else go_grow c end.
Lemma caps_capof n : capof n = caps n.
Proof. induction n as [|n IH]; [reflexivity|]. cbn [capof caps]. rewrite IH. reflexivity. Qed.
Theorem C14_full_depths d : d <= 512 ->
  (spare d = false <-> In d [0; 1; 2; 4; 8; 16; 32; 64; 128; 256; 512]).
Proof.
  intro L.
  assert (G : forallb (fun d => Bool.eqb (negb (d <? caps d)) (existsb (Nat.eqb d) [0; 1; 2; 4; 8; 16; 32; 64; 128; 256; 512])) (seq 0 513) = true)
    by (vm_compute; reflexivity).
  rewrite forallb_forall in G. specialize (G d). rewrite in_seq in G. specialize (G ltac:(lia)).
  apply Bool.eqb_prop in G. unfold spare. rewrite caps_capof, <- negb_true_iff, G, existsb_exists. split.
  - intros (x & Hx & E). apply Nat.eqb_eq in E. subst. auto.
  - intro Hd. exists d. split; auto. apply Nat.eqb_refl.
Qed.

(** The refuting template: the second sibling's condition decides about the
    first one's attribute. *)
Example deciding_ex :
  deciding spare [NConditional cT [] [NConditional cT [] [NConditional cT []
    [NConditional cF [plain "a" "1"] []; NConditional cT [plain "b" "2"] []]]]] =
  [(plain "a" "1", [cT; cT; cT; cT]); (plain "b" "2", [cT; cT; cT; cT])].
Proof. reflexivity. Qed.
(** One level further down the array is a new one: the conditions above are
    copied as they were. *)
Example deciding_deeper :
  deciding spare [NConditional cT [] [NConditional cT [] [NConditional cT []
    [NConditional cF [] [NConditional cT [plain "a" "1"] []]; NConditional cT [plain "b" "2"] []]]]] =
  [(plain "a" "1", [cT; cT; cT; cF; cT]); (plain "b" "2", [cT; cT; cT; cT])].
Proof. reflexivity. Qed.
