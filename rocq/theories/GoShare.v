(** How the objects of the Go heap represent the shared nodes of Sharing.v.

    [ls] gives the address of each attribute.  Constructors change attributes in
    place (element.go 91, 157) and write behind the end of slices; everything
    else that a node consists of stays as it is ([changes]). *)
From Coq Require Import ZArith Lia.
From Verif Require Import Bytes IO IOFacts Nodes NodeInd Values Build Slices Sharing SharingFacts
  GoSyntax Source GoSem GoRun GoRep GoStep GoOwn RefineNode RefineUser RefineIter RefineStart RefineNew RefineMake.
Local Open Scope nat_scope.

Section Share.
Context {W : UserWorld}.
Variable M : go_mode.
Notation C := (go_config M).
Notation sim := (sim C).

(** ** What constructors leave alone *)

Definition changes (ls : list loc) (h h' : heap) : Prop :=
  length h <= length h' /\
  forall l o, nth_error h l = Some o ->
  match o with
  | OArr cs => exists cs', nth_error h' l = Some (OArr cs') /\ length cs <= length cs' /\
                 forall i v, nth_error cs i = Some v -> v <> VNil -> nth_error cs' i = Some v
  | OStruct t _ => (t = "delimitedAttribute"%string -> ~ In l ls) -> nth_error h' l = Some o
  | OMap _ => nth_error h' l = Some o
  end.
Lemma changes_grown ls h h' : grown h h' -> changes ls h h'.
Proof.
  intro G. split; [apply grown_length, G|]. intros l o Ho. pose proof (grown_nth _ _ _ _ G Ho) as Ho'.
  destruct o; auto. eexists. split; [exact Ho'|]. auto.
Qed.
Lemma changes_refl ls h : changes ls h h.
Proof. apply changes_grown, grown_refl. Qed.
Lemma changes_trans ls h h1 h2 : changes ls h h1 -> changes ls h1 h2 -> changes ls h h2.
Proof.
  intros [L1 H1] [L2 H2]. split; [lia|]. intros l o Ho. specialize (H1 l o Ho). destruct o as [t fs|cs|es].
  - intro N. specialize (H1 N). exact (H2 _ _ H1 N).
  - destruct H1 as (cs1 & E1 & B1 & K1). destruct (H2 _ _ E1) as (cs2 & E2 & B2 & K2). exists cs2. split; [exact E2|]. split; [lia|]. auto.
  - exact (H2 _ _ H1).
Qed.
Lemma changes_more ls x h h' : changes ls h h' -> changes (ls ++ x) h h'.
Proof.
  intros [L H]. split; [exact L|]. intros l o Ho. specialize (H l o Ho). destruct o; auto.
  intro N. apply H. intros E I. apply (N E), in_or_app. auto.
Qed.
(** Attributes that did not exist before do not matter. *)
Lemma changes_new ls x h h' : (forall l, In l x -> length h <= l) -> changes (ls ++ x) h h' -> changes ls h h'.
Proof.
  intros Hx [L H]. split; [exact L|]. intros l o Ho. specialize (H l o Ho). destruct o; auto.
  intro N. apply H. intros E I. apply in_app_or in I. destruct I as [I|I]; [exact (N E I)|].
  apply Hx in I. apply nth_lt in Ho. lia.
Qed.

Lemma nth_firstn {X} (l : list X) : forall n i, i < n -> nth_error (firstn n l) i = nth_error l i.
Proof. induction l as [|x l IH]; intros [|n] [|i] H; cbn [firstn nth_error]; try lia; auto. apply IH. lia. Qed.
Lemma firstn_same {X} (l l' : list X) n : n <= length l -> n <= length l' ->
  (forall i v, i < n -> nth_error l i = Some v -> nth_error l' i = Some v) -> firstn n l' = firstn n l.
Proof.
  revert l l'. induction n as [|n IH]; intros l l' H H' K; [reflexivity|].
  destruct l as [|x l], l' as [|y l']; cbn [length] in *; try lia. cbn [firstn].
  pose proof (K 0 x ltac:(lia) eq_refl) as E. injection E as ->. f_equal.
  apply IH; try lia. intros i v Hi Hv. apply (K (S i) v); [lia|exact Hv].
Qed.
Definition full (xs : list gv) : Prop := Forall (fun v => v <> VNil) xs.
Lemma slice_changes ls h h' v xs : slice_is h v xs -> full xs -> changes ls h h' -> slice_is h' v xs.
Proof.
  intros Hs Hf [_ K]. destruct v; cbn [slice_is] in *; auto. destruct Hs as (cs & H1 & H2 & ->).
  destruct (K _ _ H1) as (cs' & E & B & H). exists cs'. split; [exact E|]. split; [lia|].
  symmetry. apply firstn_same; [exact H2|lia|]. intros i x Hi Hx. apply H; [exact Hx|].
  unfold full in Hf. rewrite Forall_forall in Hf. apply Hf. apply nth_error_In with i. rewrite nth_firstn; auto.
Qed.
Lemma all2_full {Y} (R : gv -> Y -> Prop) ys : (forall v y, R v y -> v <> VNil) -> forall xs, all2 R xs ys -> full xs.
Proof.
  intro H. induction ys as [|y ys IH]; intros xs Hx; cbn [all2] in Hx; [subst; constructor|].
  destruct Hx as (x & xs' & -> & Hx & Hr). constructor; [eapply H; eauto|]. apply IH, Hr.
Qed.

Lemma val_not_nil h v x : val_rep M h v x -> v <> VNil.
Proof. destruct x. cbn [val_rep]. intros (? & ? & ? & ? & -> & _). discriminate. Qed.
Lemma val_changes ls h h' : changes ls h h' -> forall x v, val_rep M h v x -> val_rep M h' v x.
Proof.
  intro K. induction x as [b dyn cs IH] using NodeInd.value_ind'; intro v. cbn [val_rep].
  intros (bv & dv & sv & xs & -> & H1 & H2 & H3 & H4). exists bv, dv, sv, xs. split; [reflexivity|]. split; [exact H1|]. split; [exact H2|]. split.
  - eapply slice_changes; eauto. eapply all2_full; [|exact H4]. intros. eapply val_not_nil; eauto.
  - eapply all2_impl; eauto.
Qed.
Lemma vals_changes ls h h' v vs : changes ls h h' -> vals_rep M h v vs -> vals_rep M h' v vs.
Proof.
  intros K (xs & H1 & H2). exists xs. split.
  - eapply slice_changes; eauto. eapply all2_full; [|exact H2]. intros. eapply val_not_nil; eauto.
  - eapply all2_mono; [|exact H2]. intros x y. apply (val_changes ls), K.
Qed.
Lemma struct_changes ls h h' l t fs : changes ls h h' -> t <> "delimitedAttribute"%string ->
  nth_error h l = Some (OStruct t fs) -> nth_error h' l = Some (OStruct t fs).
Proof. intros [_ K] Ht H. apply (K _ _ H). intro E. contradiction. Qed.
Lemma idx_changes ls h h' v idx : changes ls h h' -> idx_rep h v idx -> idx_rep h' v idx.
Proof. intros [_ K] (l & -> & H). exists l. split; [reflexivity|]. exact (K _ _ H). Qed.
Lemma attr_changes ls h h' l a : changes ls h h' -> ~ In l ls -> attr_rep M h (VPtr l) a -> attr_rep M h' (VPtr l) a.
Proof.
  intros K N. destruct a; cbn [attr_rep].
  - intros (l' & nv & sv & E & H1 & H2 & H3). exists l', nv, sv. split; [exact E|]. split; [eapply struct_changes; eauto; discriminate|]. split; [exact H2|eapply vals_changes; eauto].
  - intros (l' & nv & E & H1 & H2). exists l', nv. split; [exact E|]. split; [eapply struct_changes; eauto; discriminate|exact H2].
  - intros (l' & nv & dv & sv & E & H1 & H2 & H3 & H4). exists l', nv, dv, sv. split; [exact E|]. injection E as <-.
    split; [destruct K as [_ K]; apply (K _ _ H1); auto|]. split; [exact H2|]. split; [exact H3|eapply vals_changes; eauto].
Qed.

(** ** Nodes *)

Definition aptr (ls : list loc) (v : gv) (i : nat) : Prop := exists p, nth_error ls i = Some p /\ v = VPtr p.
Definition cptr (ls : list loc) (h : heap) (v : gv) (c : nat * list (condfn U)) : Prop :=
  exists av sv xs,
    v = VStruct "conditionalAttribute" [("attribute"%string, av); ("conditions"%string, sv)] /\
    aptr ls av (fst c) /\ slice_is h sv xs /\ all2 (cond_fun M) xs (snd c).

Fixpoint srep (ls : list loc) (h : heap) (v : gv) (n : snode) {struct n} : Prop :=
  match n with
  | SAttr i => aptr ls v i
  | SLeaf x => node_rep M h v (read_leaf x)
  | SCollection ns =>
      exists l sv xs, v = VPtr l /\ nth_error h l = Some (OStruct "collection" [("nodes"%string, sv)]) /\
        slice_is h sv xs /\ all2 (srep ls h) xs ns
  | SConditional f attrs ns =>
      exists l sv av fv xs zs, v = VPtr l /\
        nth_error h l = Some (OStruct "conditional"
          [("nodes"%string, sv); ("attributes"%string, av); ("fn"%string, fv)]) /\
        slice_is h sv xs /\ all2 (srep ls h) xs ns /\ slice_is h av zs /\ all2 (aptr ls) zs attrs /\ cond_fun M fv f
  | SElement name attrs idx conds ns =>
      exists l nv av iv cv sv zs cs xs, v = VPtr l /\
        nth_error h l = Some (OStruct "element"
          [("name"%string, nv); ("attributes"%string, av); ("attIndices"%string, iv);
           ("conditionals"%string, cv); ("contents"%string, sv)]) /\
        bytes_of nv = Some name /\ slice_is h av zs /\ all2 (aptr ls) zs attrs /\ idx_rep h iv idx /\
        slice_is h cv cs /\ all2 (cptr ls h) cs conds /\ slice_is h sv xs /\ all2 (srep ls h) xs ns
  | SVoid name attrs idx conds =>
      exists l nv av iv cv zs cs, v = VPtr l /\
        nth_error h l = Some (OStruct "voidElement"
          [("name"%string, nv); ("attributes"%string, av); ("attIndices"%string, iv);
           ("conditionals"%string, cv)]) /\
        bytes_of nv = Some name /\ slice_is h av zs /\ all2 (aptr ls) zs attrs /\ idx_rep h iv idx /\
        slice_is h cv cs /\ all2 (cptr ls h) cs conds
  | SIter f ns =>
      exists l sv fv xs, v = VPtr l /\
        nth_error h l = Some (OStruct "iterator" [("nodes"%string, sv); ("fn"%string, fv)]) /\
        slice_is h sv xs /\ all2 (srep ls h) xs ns /\ items_fun M fv f
  | SYield p ns =>
      exists l sv xs, v = VPtr l /\
        nth_error h l = Some (OStruct "yieldIterator" [("fn"%string, VYield p); ("nodes"%string, sv)]) /\
        slice_is h sv xs /\ all2 (srep ls h) xs ns
  | SDocument x ns =>
      exists l pv sv xs, v = VPtr l /\
        nth_error h l = Some (OStruct "document" [("prologue"%string, pv); ("contents"%string, sv)]) /\
        node_rep M h pv (read_leaf x) /\ slice_is h sv xs /\ all2 (srep ls h) xs ns
  end.

Lemma aptr_not_nil ls v i : aptr ls v i -> v <> VNil.
Proof. intros (p & _ & ->). discriminate. Qed.
Lemma cptr_not_nil ls h v c : cptr ls h v c -> v <> VNil.
Proof. intros (? & ? & ? & -> & _). discriminate. Qed.
Lemma srep_not_nil ls h v n : srep ls h v n -> v <> VNil.
Proof.
  destruct n; cbn [srep]; try (intros H ->; split_all; discriminate).
  - apply aptr_not_nil.
  - apply node_not_nil.
Qed.
Lemma cptr_changes ls h h' v c : changes ls h h' -> cptr ls h v c -> cptr ls h' v c.
Proof.
  intros K (av & sv & xs & -> & H1 & H2 & H3). exists av, sv, xs. split; [reflexivity|]. split; [exact H1|]. split; [|exact H3].
  eapply slice_changes; eauto. eapply all2_full; [|exact H3]. intros v f (N & _). exact N.
Qed.
Lemma aptr_more ls x v i : aptr ls v i -> aptr (ls ++ x) v i.
Proof. intros (p & H & ->). exists p. split; [apply nth_app_old, H|reflexivity]. Qed.
Lemma cptr_more ls x h v c : cptr ls h v c -> cptr (ls ++ x) h v c.
Proof. intros (av & sv & xs & -> & H1 & H2). exists av, sv, xs. split; [reflexivity|]. split; [apply aptr_more, H1|exact H2]. Qed.

Lemma leaf_changes ls h h' v x : changes ls h h' -> node_rep M h v (read_leaf x) -> node_rep M h' v (read_leaf x).
Proof.
  intro K. destruct x; cbn [read_leaf node_rep]; intros (l & -> & H); exists l; (split; [reflexivity|]).
  - destruct H as (sv & H1 & H2). exists sv. split; [eapply struct_changes; eauto; discriminate|eapply vals_changes; eauto].
  - destruct H as (sv & H1 & H2). exists sv. split; [eapply struct_changes; eauto; discriminate|eapply vals_changes; eauto].
  - destruct H as (sv & H1 & H2). exists sv. split; [eapply struct_changes; eauto; discriminate|eapply vals_changes; eauto].
  - destruct H as (nv & sv & H1 & H2 & H3). exists nv, sv. split; [eapply struct_changes; eauto; discriminate|]. split; [exact H2|eapply vals_changes; eauto].
  - eapply struct_changes; eauto; discriminate.
  - eapply struct_changes; eauto; discriminate.
Qed.

Ltac sl K H R nn := eapply slice_changes; [exact H| |exact K]; eapply all2_full; [|exact R]; intros ? ?; apply nn.
Lemma srep_changes ls h h' : changes ls h h' -> forall n v, srep ls h v n -> srep ls h' v n.
Proof.
  intro K. induction n using snode_ind'; intro v; cbn [srep].
  - auto.
  - apply leaf_changes with ls, K.
  - intros (l & sv & xs & -> & H1 & H2 & H3). exists l, sv, xs. split; [reflexivity|]. split; [eapply struct_changes; eauto; discriminate|].
    split; [sl K H2 H3 srep_not_nil|eapply all2_impl; eauto].
  - intros (l & sv & av & fv & xs & zs & -> & H1 & H2 & H3 & H4 & H5 & H6). exists l, sv, av, fv, xs, zs. split; [reflexivity|].
    split; [eapply struct_changes; eauto; discriminate|]. split; [sl K H2 H3 srep_not_nil|]. split; [eapply all2_impl; eauto|].
    split; [sl K H4 H5 aptr_not_nil|]. auto.
  - intros (l & nv & av & iv & cv & sv & zs & cs & xs & -> & H1 & H2 & H3 & H4 & H5 & H6 & H7 & H8 & H9).
    exists l, nv, av, iv, cv, sv, zs, cs, xs. split; [reflexivity|].
    split; [eapply struct_changes; eauto; discriminate|]. split; [exact H2|]. split; [sl K H3 H4 aptr_not_nil|]. split; [exact H4|].
    split; [eapply idx_changes; eauto|]. split; [sl K H6 H7 cptr_not_nil|]. split; [eapply all2_mono; [|exact H7]; intros ? ?; apply cptr_changes, K|].
    split; [sl K H8 H9 srep_not_nil|eapply all2_impl; eauto].
  - intros (l & nv & av & iv & cv & zs & cs & -> & H1 & H2 & H3 & H4 & H5 & H6 & H7).
    exists l, nv, av, iv, cv, zs, cs. split; [reflexivity|].
    split; [eapply struct_changes; eauto; discriminate|]. split; [exact H2|]. split; [sl K H3 H4 aptr_not_nil|]. split; [exact H4|].
    split; [eapply idx_changes; eauto|]. split; [sl K H6 H7 cptr_not_nil|]. eapply all2_mono; [|exact H7]; intros ? ?; apply cptr_changes, K.
  - intros (l & sv & fv & xs & -> & H1 & H2 & H3 & H4). exists l, sv, fv, xs. split; [reflexivity|]. split; [eapply struct_changes; eauto; discriminate|].
    split; [sl K H2 H3 srep_not_nil|]. split; [eapply all2_impl; eauto|exact H4].
  - intros (l & sv & xs & -> & H1 & H2 & H3). exists l, sv, xs. split; [reflexivity|]. split; [eapply struct_changes; eauto; discriminate|].
    split; [sl K H2 H3 srep_not_nil|eapply all2_impl; eauto].
  - intros (l & pv & sv & xs & -> & H1 & H0 & H2 & H3). exists l, pv, sv, xs. split; [reflexivity|]. split; [eapply struct_changes; eauto; discriminate|].
    split; [apply leaf_changes with ls h; auto|]. split; [sl K H2 H3 srep_not_nil|eapply all2_impl; eauto].
Qed.
Lemma srep_grown ls h h' v n : grown h h' -> srep ls h v n -> srep ls h' v n.
Proof. intro G. apply srep_changes, changes_grown, G. Qed.
Lemma srep_more ls x h : forall n v, srep ls h v n -> srep (ls ++ x) h v n.
Proof.
  induction n using snode_ind'; intro v; cbn [srep]; auto.
  - apply aptr_more.
  - intros (l & sv & xs & -> & H1 & H2 & H3). exists l, sv, xs. repeat (split; [assumption || reflexivity|]). eapply all2_impl; eauto.
  - intros (l & sv & av & fv & xs & zs & -> & H1 & H2 & H3 & H4 & H5 & H6). exists l, sv, av, fv, xs, zs.
    split; [reflexivity|]. split; [exact H1|]. split; [exact H2|]. split; [eapply all2_impl; eauto|]. split; [exact H4|].
    split; [eapply all2_mono; [|exact H5]; intros ? ?; apply aptr_more|exact H6].
  - intros (l & nv & av & iv & cv & sv & zs & cs & xs & -> & H1 & H2 & H3 & H4 & H5 & H6 & H7 & H8 & H9).
    exists l, nv, av, iv, cv, sv, zs, cs, xs. split; [reflexivity|]. split; [exact H1|]. split; [exact H2|]. split; [exact H3|].
    split; [eapply all2_mono; [|exact H4]; intros ? ?; apply aptr_more|]. split; [exact H5|]. split; [exact H6|].
    split; [eapply all2_mono; [|exact H7]; intros ? ?; apply cptr_more|]. split; [exact H8|eapply all2_impl; eauto].
  - intros (l & nv & av & iv & cv & zs & cs & -> & H1 & H2 & H3 & H4 & H5 & H6 & H7).
    exists l, nv, av, iv, cv, zs, cs. split; [reflexivity|]. split; [exact H1|]. split; [exact H2|]. split; [exact H3|].
    split; [eapply all2_mono; [|exact H4]; intros ? ?; apply aptr_more|]. split; [exact H5|]. split; [exact H6|].
    eapply all2_mono; [|exact H7]; intros ? ?; apply cptr_more.
  - intros (l & sv & fv & xs & -> & H1 & H2 & H3 & H4). exists l, sv, fv, xs. split; [reflexivity|]. split; [exact H1|]. split; [exact H2|].
    split; [eapply all2_impl; eauto|exact H4].
  - intros (l & sv & xs & -> & H1 & H2 & H3). exists l, sv, xs. repeat (split; [assumption || reflexivity|]). eapply all2_impl; eauto.
  - intros (l & pv & sv & xs & -> & H1 & H2 & H3 & H4). exists l, pv, sv, xs. repeat (split; [assumption || reflexivity|]). eapply all2_impl; eauto.
Qed.

(** ** Attributes

    Every attribute is represented; the values of different delimited attributes
    are in different arrays, whose cells behind the end are not used. *)
Definition vslice (h : heap) (p : loc) (sv : gv) : Prop :=
  exists fs, nth_error h p = Some (OStruct "delimitedAttribute" fs) /\ assoc "values" fs = Some sv.
Record sinv (ls : list loc) (h : heap) (sh : Sharing.heap) : Prop := {
  si_len : length ls = length sh;
  si_nodup : NoDup ls;
  si_attr : forall i p a, nth_error ls i = Some p -> nth_error sh i = Some a -> attr_rep M h (VPtr p) a;
  si_spare : forall p sv, In p ls -> vslice h p sv -> spare h sv;
  si_apart : forall p q sv sw, In p ls -> In q ls -> p <> q -> vslice h p sv -> vslice h q sw -> apart sv sw
}.

(** The array at [l] holds no values of an attribute.  [spares]: such arrays
    stay as they are. *)
Definition free (ls : list loc) (h : heap) (l : loc) : Prop := forall p sv, In p ls -> vslice h p sv -> not_at l sv.
Definition spares (ls : list loc) (h h' : heap) : Prop :=
  forall l cs, nth_error h l = Some (OArr cs) -> free ls h l -> nth_error h' l = Some (OArr cs) /\ free ls h' l.
Lemma spares_trans ls h h1 h2 : spares ls h h1 -> spares ls h1 h2 -> spares ls h h2.
Proof. intros H1 H2 l cs Hl F. destruct (H1 l cs Hl F) as [Hl1 F1]. exact (H2 l cs Hl1 F1). Qed.

Lemma aptr_attr ls h sh v i : sinv ls h sh -> aptr ls v i -> attr_rep M h v (deref sh i).
Proof.
  intros I (p & Hp & ->). unfold deref. destruct (nth_error sh i) as [a|] eqn:E.
  - rewrite (nth_error_nth _ _ _ E). exact (si_attr _ _ _ I i p a Hp E).
  - apply nth_error_None in E. rewrite <- (si_len _ _ _ I) in E. apply nth_lt in Hp. lia.
Qed.
Lemma all2_map {X Y Z} (R : X -> Z -> Prop) (f : Y -> Z) : forall ys xs, all2 (fun x y => R x (f y)) xs ys -> all2 R xs (map f ys).
Proof. induction ys as [|y ys IH]; cbn [all2 map]; auto. intros xs (x & xs' & -> & H1 & H2). exists x, xs'. auto. Qed.
(** What the shared nodes look like at the moment. *)
Lemma srep_read ls h sh : sinv ls h sh -> forall n v, srep ls h v n -> node_rep M h v (read sh n).
Proof.
  intro I.
  assert (AA : forall zs attrs, all2 (aptr ls) zs attrs -> all2 (attr_rep M h) zs (map (deref sh) attrs)).
  { intros zs attrs H. apply all2_map. eapply all2_mono; [|exact H]. intros ? ?. apply aptr_attr, I. }
  assert (CC : forall cs conds, all2 (cptr ls h) cs conds -> all2 (cattr_rep M h) cs (map (fun p => (deref sh (fst p), snd p)) conds)).
  { intros cs conds H. apply all2_map. eapply all2_mono; [|exact H]. intros x y (av & sv & xs & -> & H1 & H2 & H3).
    exists av, sv, xs. split; [reflexivity|]. split; [eapply aptr_attr; eauto|]. auto. }
  assert (NN : forall ns, Forall (fun n => forall v, srep ls h v n -> node_rep M h v (read sh n)) ns ->
               forall xs, all2 (srep ls h) xs ns -> all2 (node_rep M h) xs (map (read sh) ns)).
  { intros ns F xs H. apply all2_map. eapply all2_impl; eauto. }
  induction n using snode_ind'; intro v; cbn [srep read node_rep].
  - apply aptr_attr, I.
  - auto.
  - intros (l & sv & xs & -> & H1 & H2 & H3). exists l. split; [reflexivity|]. exists sv, xs. auto.
  - intros (l & sv & av & fv & xs & zs & -> & H1 & H2 & H3 & H4 & H5 & H6). exists l. split; [reflexivity|]. exists sv, av, fv, xs.
    split; [exact H1|]. split; [exact H2|]. split; [auto|]. split; [exists zs; auto|exact H6].
  - intros (l & nv & av & iv & cv & sv & zs & cs & xs & -> & H1 & H2 & H3 & H4 & H5 & H6 & H7 & H8 & H9).
    exists l. split; [reflexivity|]. exists nv, av, iv, cv, sv, xs. split; [exact H1|]. split; [exact H2|]. split; [exists zs; auto|].
    split; [exact H5|]. split; [exists cs; auto|]. auto.
  - intros (l & nv & av & iv & cv & zs & cs & -> & H1 & H2 & H3 & H4 & H5 & H6 & H7).
    exists l. split; [reflexivity|]. exists nv, av, iv, cv. split; [exact H1|]. split; [exact H2|]. split; [exists zs; auto|].
    split; [exact H5|]. exists cs; auto.
  - intros (l & sv & fv & xs & -> & H1 & H2 & H3 & H4). exists l. split; [reflexivity|]. exists sv, fv, xs. auto.
  - intros (l & sv & xs & -> & H1 & H2 & H3). exists l. split; [reflexivity|]. exists sv, xs. auto.
  - intros (l & pv & sv & xs & -> & H1 & H2 & H3 & H4). exists l. split; [reflexivity|]. exists pv, sv, xs. auto.
Qed.
Lemma vslice_grown ls h h' sh p sv : sinv ls h sh -> grown h h' -> In p ls -> vslice h' p sv -> vslice h p sv.
Proof.
  intros I G Hp (fs & H1 & H2). exists fs. split; [|exact H2]. apply In_nth_error in Hp. destruct Hp as [i Hp].
  destruct (nth_error sh i) as [a|] eqn:E; [|apply nth_error_None in E; rewrite <- (si_len _ _ _ I) in E; apply nth_lt in Hp; lia].
  pose proof (si_attr _ _ _ I i p a Hp E) as R.
  assert (X : exists o, nth_error h p = Some o).
  { destruct a; cbn [attr_rep] in R; split_all; match goal with H : VPtr _ = VPtr _ |- _ => injection H as -> end; eauto. }
  destruct X as [o Ho]. rewrite (grown_nth _ _ _ _ G Ho) in H1. congruence.
Qed.
Lemma spares_grown ls h h' sh : sinv ls h sh -> grown h h' -> spares ls h h'.
Proof.
  intros I G l cs Hl F. split; [exact (grown_nth _ _ _ _ G Hl)|]. intros p sv Hp Hv. apply F with p; auto. eapply vslice_grown; eauto.
Qed.
Lemma sinv_grown ls h h' sh : sinv ls h sh -> grown h h' -> sinv ls h' sh.
Proof.
  intros I G. assert (V : forall p sv, In p ls -> vslice h' p sv -> vslice h p sv) by (intros p sv; eapply vslice_grown; eauto).
  constructor; try apply I.
  - intros i p a Hp Ha. eapply attr_keeps; [apply grown_keeps, G|exact (si_attr _ _ _ I i p a Hp Ha)].
  - intros p sv Hp Hv. eapply spare_grown; [|exact G]. apply (si_spare _ _ _ I p); auto.
  - intros p q sv sw Hp Hq N Hv Hw. apply (si_apart _ _ _ I p q); auto.
Qed.
End Share.
