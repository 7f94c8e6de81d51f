(** The nodes, contexts and functions that user code hands to the library. *)
From Coq Require Import ZArith Lia.
From Verif Require Import Bytes IO IOFacts Nodes NodeInd Values Render Build SpecOut Slices GoSyntax Source GoSem GoRun GoRep GoStep GoOwn RefineValue RefineNode.
Local Open Scope nat_scope.

Section User.
Context {W : UserWorld}.
Variable M : go_mode.
Notation C := (go_config M).
Notation sim := (sim C).
Notation reify := (reify C).
Notation reify_opt := (reify_opt C).

(** [makes p h R]: without any effect, [p] adds objects to the heap and ends with
    what [R] says. *)
Definition makes {A} (p : prog A) (h : heap) (R : A -> heap -> Prop) : Prop :=
  forall (FL : floor) A' B (f : A -> prog A') (m : io U B) Q,
  (forall a h', grown h h' -> R a h' -> sim (f a) h' m Q) -> sim (pbind p f) h m Q.

Lemma makes_ret {A} (a : A) h (R : A -> heap -> Prop) : R a h -> makes (PRet a) h R.
Proof. intros H FL A' B f m Q K. apply K; [apply grown_refl|exact H]. Qed.
Lemma makes_bind {A D} (p : prog A) (f : A -> prog D) h R R' :
  makes p h R -> (forall a h', grown h h' -> R a h' -> makes (f a) h' R') -> makes (pbind p f) h R'.
Proof.
  intros H1 H2 FL A' B g m Q K. apply sim_assoc. apply H1. intros a h1 G1 R1. apply (H2 a h1 G1 R1).
  intros d h2 G2 R2. apply K; [eapply grown_trans; eauto|exact R2].
Qed.
Lemma makes_conseq {A} (p : prog A) h (R R' : A -> heap -> Prop) :
  makes p h R -> (forall a h', grown h h' -> R a h' -> R' a h') -> makes p h R'.
Proof. intros H1 H2 FL A' B f m Q K. apply H1. intros. apply K; auto. Qed.
Lemma makes_alloc o h (R : loc -> heap -> Prop) : R (length h) (h ++ [o]) -> makes (alloc o) h R.
Proof. intros H FL A' B f m Q K. apply simb_alloc. apply K; [apply grown_app|exact H]. Qed.
Lemma makes_map {A D} (f : A -> prog D) (P : heap -> D -> A -> Prop) :
  (forall h h' d a, grown h h' -> P h d a -> P h' d a) ->
  forall l, Forall (fun a => forall h, makes (f a) h (fun d h' => P h' d a)) l ->
  forall h, makes (mapP f l) h (fun ds h' => all2 (P h') ds l).
Proof.
  intros Hm l. induction 1 as [|a l Ha _ IH]; intro h; cbn [mapP].
  - apply makes_ret. reflexivity.
  - eapply makes_bind; [apply Ha|]. intros d h1 G1 P1. eapply makes_bind; [apply IH|]. intros ds h2 G2 P2.
    apply makes_ret. exists d, ds. eauto.
Qed.

(** A slice without spare capacity. *)
Definition tight (h : heap) (s : gv) : Prop :=
  exists l cs, s = VSlice l (length cs) /\ nth_error h l = Some (OArr cs).
Lemma tight_keeps h h' s : keeps h h' -> tight h s -> tight h' s.
Proof. intros K (l & cs & -> & H). exists l, cs. split; [auto|]. apply K; [discriminate|auto]. Qed.
Lemma makes_slice vs h : makes (new_slice vs) h (fun s h' => slice_is h' s vs /\ tight h' s).
Proof.
  unfold new_slice. eapply makes_bind; [apply (makes_alloc (OArr vs) h (fun l h' => nth_error h' l = Some (OArr vs)) ), nth_app_new|].
  intros l h1 G1 H1. apply makes_ret. split; [|exists l, vs; auto]. exists vs. split; [auto|]. split; [auto|].
  rewrite firstn_all. reflexivity.
Qed.
Lemma makes_struct t fs h :
  makes (new_struct t fs) h (fun v h' => exists l, v = VPtr l /\ nth_error h' l = Some (OStruct t fs)).
Proof.
  unfold new_struct. eapply makes_bind; [apply (makes_alloc _ h (fun l h' => nth_error h' l = Some (OStruct t fs))), nth_app_new|].
  intros l h1 G1 H1. apply makes_ret. eauto.
Qed.

(** ** Functions *)

Lemma sim_user_cb {FL : floor} {D} (f : ctx U -> U -> D * U) (mk : D -> gv) h lc fr e (Q : list gv -> heap -> D -> Prop) :
  ctx_at h lc fr e -> (forall d, Q [mk d] h d) ->
  sim (PUser lc (fun c u => let '(d, u') := f c u in (PRet [mk d], u'))) h (cb (f (view fr e))) Q.
Proof.
  intros HC K. eapply sim_user; [eapply ctx_snap; exact HC|]. intro u. destruct (f (view fr e) u) as [d u']. cbn [fst snd].
  split; [reflexivity|]. apply sim_ret, K.
Qed.
Lemma dyn_user f : dyn_fun M (VDyn f) f.
Proof.
  split; [discriminate|]. intros FL h lc fr e HC. apply (sim_user_cb f VBytes); [exact HC|]. intro d. eexists. split; [reflexivity|].
  split; [reflexivity|apply grown_refl].
Qed.
Lemma cond_user f : cond_fun M (VCond f) f.
Proof. split; [discriminate|]. intros FL h lc fr e HC. apply (sim_user_cb f VBool); [exact HC|]. intro d. split; [reflexivity|apply grown_refl]. Qed.
Lemma items_user f : items_fun M (VItems f) f.
Proof.
  intros FL h lc fr e HC. apply (sim_user_cb f (fun xs => VAny (GSlice false xs))); [exact HC|]. intro d. eexists. split; [reflexivity|].
  split; [left; eauto|apply grown_refl].
Qed.

(** ** Nodes *)

Lemma makes_value x : forall h, makes (reify_value x) h (fun v h' => val_rep M h' v x).
Proof.
  induction x as [b dyn cs IH] using NodeInd.value_ind'; intro h. cbn [reify_value].
  eapply makes_bind; [apply (makes_map _ (fun h => val_rep M h)); [|exact IH]|].
  { intros h1 h2 d a G. apply val_keeps, grown_keeps, G. }
  intros xs h1 G1 H1. eapply makes_bind; [apply makes_slice|]. intros s h2 G2 (H2 & _). apply makes_ret.
  eexists _, _, _, xs. split; [reflexivity|]. split; [reflexivity|]. split; [|split; [exact H2|]].
  - destruct dyn; [apply dyn_user|reflexivity].
  - eapply all2_mono; [|exact H1]. intros x y. apply val_keeps, grown_keeps, G2.
Qed.
Lemma makes_values vs h : makes (reify_values vs) h (fun v h' => vals_rep M h' v vs /\ tight h' v).
Proof.
  unfold reify_values. eapply makes_bind; [apply (makes_map _ (fun h => val_rep M h))|].
  { intros h1 h2 d a G. apply val_keeps, grown_keeps, G. }
  { apply Forall_forall. intros x _ h0. apply makes_value. }
  intros xs h1 G1 H1. eapply makes_conseq; [apply makes_slice|]. intros s h2 G2 (H2 & H3). split; [|exact H3].
  exists xs. split; [exact H2|]. eapply all2_mono; [|exact H1]. intros x y. apply val_keeps, grown_keeps, G2.
Qed.

(** An attribute that Start may be given: the slice of values of a plain one has
    no spare capacity. *)
Definition tight_attr (h : heap) (v : gv) (a : attr U) : Prop :=
  attr_rep M h v a /\
  match a with
  | APlain _ _ => exists l t fs s, v = VPtr l /\ nth_error h l = Some (OStruct t fs) /\ assoc "values" fs = Some s /\
                (forall fs', OStruct t fs <> OStruct "Context" fs') /\ tight h s
  | _ => True
  end.
Lemma tight_attr_keeps h h' v a : keeps h h' -> tight_attr h v a -> tight_attr h' v a.
Proof.
  intros K (H1 & H2). split; [eapply attr_keeps; eauto|]. destruct a as [n vs| |]; auto.
  destruct H2 as (l & t & fs & s & -> & E1 & E2 & E3 & E4). exists l, t, fs, s. repeat (split; auto). eapply tight_keeps; eauto.
Qed.
Lemma makes_attr a h : makes (reify_attr a) h (fun v h' => tight_attr h' v a).
Proof.
  destruct a as [n vs|n|n d vs]; cbn [reify_attr].
  - eapply makes_bind; [apply makes_values|]. intros s h1 G1 (H1 & T1). eapply makes_conseq; [apply makes_struct|].
    intros v h2 G2 (l & -> & H2). pose proof (grown_keeps _ _ G2) as K. split.
    + exists l, (VBytes n), s. repeat (split; auto). eapply vals_keeps; eauto.
    + exists l, "attribute"%string. eexists _, s. repeat (split; eauto); [discriminate|]. eapply tight_keeps; eauto.
  - eapply makes_conseq; [apply makes_struct|]. intros v h2 G2 (l & -> & H2). split; [|exact I]. exists l, (VBytes n). auto.
  - eapply makes_bind; [apply makes_values|]. intros s h1 G1 (H1 & T1). eapply makes_conseq; [apply makes_struct|].
    intros v h2 G2 (l & -> & H2). pose proof (grown_keeps _ _ G2) as K. split.
    + exists l, (VBytes n), (VBytes d), s. repeat (split; auto). eapply vals_keeps; eauto.
    + exact I.
Qed.
Lemma makes_attrs l h : makes (reify_attrs l) h (fun v h' => attrs_rep M h' v l).
Proof.
  unfold reify_attrs. eapply makes_bind; [apply (makes_map _ tight_attr)|].
  { intros h1 h2 d a G. apply tight_attr_keeps, grown_keeps, G. }
  { apply Forall_forall. intros x _ h0. apply makes_attr. }
  intros xs h1 G1 H1. eapply makes_conseq; [apply makes_slice|]. intros s h2 G2 (H2 & _). exists xs. split; [exact H2|].
  eapply all2_mono; [|exact H1]. intros x y (R & _). eapply attr_keeps; [apply grown_keeps, G2|exact R].
Qed.
Lemma makes_cond c h : makes (reify_cond c) h (fun v h' => cattr_rep M h' v c).
Proof.
  unfold reify_cond. eapply makes_bind; [apply makes_attr|]. intros a h1 G1 (H1 & _). eapply makes_bind; [apply makes_slice|].
  intros s h2 G2 (H2 & _). apply makes_ret. eexists _, _, _. split; [reflexivity|].
  split; [eapply attr_keeps; [apply grown_keeps, G2|exact H1]|]. split; [exact H2|].
  generalize (snd c). induction l as [|f l IH]; cbn [map all2]; [reflexivity|]. eexists _, _. split; [reflexivity|]. split; [apply cond_user|exact IH].
Qed.
Lemma makes_conds l h : makes (reify_conds l) h (fun v h' => cattrs_rep M h' v l).
Proof.
  unfold reify_conds. eapply makes_bind; [apply (makes_map _ (cattr_rep M))|].
  { intros h1 h2 d a G. apply cattr_keeps, grown_keeps, G. }
  { apply Forall_forall. intros x _ h0. apply makes_cond. }
  intros xs h1 G1 H1. eapply makes_conseq; [apply makes_slice|]. intros s h2 G2 (H2 & _). exists xs. split; [exact H2|].
  eapply all2_mono; [|exact H1]. intros x y. apply cattr_keeps, grown_keeps, G2.
Qed.
Lemma makes_indices idx h : makes (reify_indices idx) h (fun v h' => idx_rep h' v idx).
Proof.
  unfold reify_indices. eapply makes_bind; [apply (makes_alloc _ h (fun l h' => nth_error h' l = Some (idx_obj idx)))|].
  - apply nth_app_new.
  - intros l h1 G1 H1. apply makes_ret. exists l. auto.
Qed.

Ltac mk := eapply makes_conseq; [apply makes_struct|]; intros ? ? ?G (? & -> & ?).
(** What user code takes for a node is that node. *)
Definition known_ok : Prop := forall h n v, m_known M h n = Some v -> node_rep M h v n.
Lemma makes_known (p : prog gv) n h : known_ok ->
  makes p h (fun v h' => node_rep M h' v n) ->
  makes (PHeap (fun h => Some (match m_known M h n with Some v => PRet v | None => p end, h))) h (fun v h' => node_rep M h' v n).
Proof.
  intros KN H FL A' B f m Q K. eapply simb_heap; [reflexivity|apply stays_same|]. destruct (m_known M h n) as [v|] eqn:E.
  - cbn [pbind]. apply K; [apply grown_refl|apply KN, E].
  - apply H. exact K.
Qed.
Lemma makes_node n : known_ok -> forall h, makes (reify n) h (fun v h' => node_rep M h' v n).
Proof.
  intro KN. revert n.
  assert (L : forall ns, Forall (fun n => forall h, makes (reify n) h (fun v h' => node_rep M h' v n)) ns ->
    forall h, makes (pbind (mapP reify ns) new_slice) h (fun s h' => nodes_rep M h' s ns)).
  { intros ns H h. eapply makes_bind; [apply (makes_map _ (node_rep M)); [|exact H]|].
    - intros h1 h2 d a G. apply node_keeps, grown_keeps, G.
    - intros xs h1 G1 H1. eapply makes_conseq; [apply makes_slice|]. intros s h2 G2 (H2 & _). exists xs. split; [exact H2|].
      eapply all2_mono; [|exact H1]. intros x y. apply node_keeps, grown_keeps, G2. }
  assert (L' : forall ns, Forall (fun n => forall h, makes (reify n) h (fun v h' => node_rep M h' v n)) ns ->
    forall D (g : gv -> prog D) h R, (forall s h', grown h h' -> nodes_rep M h' s ns -> makes (g s) h' R) ->
    makes (pbind (mapP reify ns) (fun xs => pbind (new_slice xs) g)) h R).
  { intros ns H D g h R K FL A' B f m Q K'. apply sim_assoc.
    eapply (makes_map reify (node_rep M) (fun h1 h2 d a G => node_keeps M h1 h2 (grown_keeps _ _ G) a d) ns H).
    intros xs h1 G1 H1. apply sim_assoc. apply makes_slice. intros s h2 G2 (H2 & _). eapply K; [eapply grown_trans; eauto| |].
    - exists xs. split; [exact H2|]. eapply all2_mono; [|exact H1]. intros x y. apply node_keeps, grown_keeps, G2.
    - intros a h3 G3 R3. apply K'; [|exact R3]. eapply grown_trans; [exact G1|]. eapply grown_trans; eauto. }
  apply (NodeInd.node_ind' (fun n => forall h, makes (reify n) h (fun v h' => node_rep M h' v n)) (fun _ => True)); auto;
    [intros a h|intros name attrs idx conds ns IH h|intros name attrs idx conds h|intros vs h|intros vs h|intros name vs h
    |intros vs h|intros ns IH h|intros f attrs ns IH h|intros f _ h|intros h|intros p _ h|intros f ns IH h|intros p ns IH h
    |intros pr ns IHp IH h]; cbn [GoSem.reify]; apply makes_known; try exact KN.
  - eapply makes_conseq; [apply makes_attr|]. intros v h1 G1 (H1 & _). exact H1.
  - eapply makes_bind; [apply makes_attrs|]. intros a h1 G1 H1. eapply makes_bind; [apply makes_indices|]. intros i h2 G2 H2. cbv beta in *; carry G2.
    eapply makes_bind; [apply makes_conds|]. intros c h3 G3 H3. cbv beta in *; carry G3. apply L'; [exact IH|]. intros s h4 G4 (xs & H4 & H5).
    cbv beta in *; carry G4. mk. cbv beta in *; carry G. cbn [node_rep]. eexists. split; [reflexivity|].
    eexists _, _, _, _, _, _. repeat (split; [eassumption || reflexivity|]). assumption.
  - eapply makes_bind; [apply makes_attrs|]. intros a h1 G1 H1. eapply makes_bind; [apply makes_indices|]. intros i h2 G2 H2. cbv beta in *; carry G2.
    eapply makes_bind; [apply makes_conds|]. intros c h3 G3 H3. cbv beta in *; carry G3. mk. cbv beta in *; carry G. cbn [node_rep]. eexists. split; [reflexivity|].
    eexists _, _, _, _. repeat (split; [eassumption || reflexivity|]). assumption.
  - eapply makes_bind; [apply makes_values|]. intros s h1 G1 (H1 & _). mk. cbv beta in *; carry G. eexists. split; [reflexivity|]. eauto.
  - eapply makes_bind; [apply makes_values|]. intros s h1 G1 (H1 & _). mk. cbv beta in *; carry G. eexists. split; [reflexivity|]. eauto.
  - eapply makes_bind; [apply makes_values|]. intros s h1 G1 (H1 & _). mk. cbv beta in *; carry G. eexists. split; [reflexivity|]. eexists _, _. split; [eassumption|]. eauto.
  - eapply makes_bind; [apply makes_values|]. intros s h1 G1 (H1 & _). mk. cbv beta in *; carry G. eexists. split; [reflexivity|]. eauto.
  - apply L'; [exact IH|]. intros s h1 G1 (xs & H1 & H2). mk. cbv beta in *; carry G. eexists. split; [reflexivity|]. eauto.
  - apply L'; [exact IH|]. intros s h1 G1 (xs & H1 & H2). eapply makes_bind; [apply makes_attrs|]. intros a h2 G2 H3. cbv beta in *; carry G2. mk. cbv beta in *; carry G.
    eexists. split; [reflexivity|]. eexists _, _, _, _. repeat (split; [eassumption|]). apply cond_user.
  - mk. eexists. split; [reflexivity|]. assumption.
  - mk. eexists. split; [reflexivity|]. assumption.
  - mk. eexists. split; [reflexivity|]. assumption.
  - apply L'; [exact IH|]. intros s h1 G1 (xs & H1 & H2). mk. cbv beta in *; carry G. eexists. split; [reflexivity|].
    eexists _, _, _. repeat (split; [eassumption|]). apply items_user.
  - apply L'; [exact IH|]. intros s h1 G1 (xs & H1 & H2). mk. cbv beta in *; carry G. eexists. split; [reflexivity|]. eauto 6.
  - eapply makes_bind with (R := fun v h' => opt_rep M h' v pr).
    { destruct pr as [n|]; cbn [opt_rep]; [apply IHp|apply makes_ret; reflexivity]. }
    intros p h1 G1 H1. apply L'; [exact IH|]. intros s h2 G2 (xs & H2 & H3). mk. eexists. split; [reflexivity|].
    pose proof (opt_keeps M _ _ _ _ (grown_keeps _ _ (grown_trans _ _ _ G2 G)) H1) as H1'. cbv beta in *; carry G.
    eexists _, _, _. split; [eassumption|]. split; [destruct pr; exact H1'|]. eauto.
Qed.
Lemma makes_opt n h : known_ok -> makes (reify_opt n) h (fun v h' => opt_rep M h' v n).
Proof. intro KN. destruct n; cbn [GoSem.reify_opt]; [apply makes_node, KN|apply makes_ret; reflexivity]. Qed.
Lemma makes_opts ns h : known_ok -> makes (mapP reify_opt ns) h (fun xs h' => all2 (opt_rep M h') xs ns).
Proof.
  intro KN. apply (makes_map _ (opt_rep M)).
  - intros h1 h2 d a G. apply opt_keeps, grown_keeps, G.
  - apply Forall_forall. intros x _ h0. apply makes_opt, KN.
Qed.

End User.
