(** The pointer model agrees with the value model on lifted nodes: loops,
    iteration and the Render methods. *)
From Coq Require Import Lia.
From Verif Require Import Bytes IO Escape Nodes Values Render Slices NodeInd IOFacts Pointer Lift PointerFacts.

Section PointerSim.
Context {W : UserWorld}.

(** ** Loops over children *)

Definition agree (n : node U) : Prop := forall fr p err, sim2 fr p err (render n fr err) (prender (lift n) p).
Definition agree_prog (g : iprog U) : Prop :=
  forall fr p stack err, sim2 fr p err (run_imper g fr stack err) (pimper (lift_prog g) p stack).

Definition lift_opt (o : option (node U)) : option pnode := match o with Some n => Some (lift n) | None => None end.

Lemma lift_is_attr n : is_pattr (lift n) = is_attr n.
Proof. destruct n as [| | | | | | | | | |[g|]| | |]; reflexivity. Qed.

Lemma sim_assign fr p : forall ns, Forall agree ns -> forall err,
  sim1 fr p err (each_assign (fun c e => render c fr e) ns err)
       (peach_assign p (fun c => prender c p) (map lift ns)).
Proof.
  intros ns F. induction F as [|c ns Hc _ IH]; intro err; cbn -[bind put_err render prender lift]; [apply sim_ret; reflexivity|].
  eapply sim_bind; [apply Hc|]. intros [x e]. apply sim_put. apply IH.
Qed.
Lemma sim_ignore fr p : forall ns, Forall agree ns -> forall err,
  sim1 fr p err (each_ignore (fun c e => render c fr e) ns err)
       (peach_ignore (fun c => prender c p) (map lift ns)).
Proof.
  intros ns F. induction F as [|c ns Hc _ IH]; intro err; cbn -[bind put_err render prender lift]; [apply sim_ret; reflexivity|].
  eapply sim_bind; [apply Hc|]. intros [x e]. apply IH.
Qed.
Lemma sim_until fr p : forall ns, Forall agree ns -> forall err,
  sim (A := unit) unit_of snd fr p err (each_until (fun c e => render c fr e) ns err)
       (peach_until p (fun _ => false) (fun c => prender c p) (map lift ns)).
Proof.
  intros ns F. induction F as [|c ns Hc _ IH]; intro err; cbn -[bind put_err render prender lift]; [apply sim_ret; reflexivity|].
  eapply sim_bind; [apply Hc|]. intros [[x|] e]; apply sim_put; [apply sim_ret; reflexivity|apply IH].
Qed.
Lemma sim_content_until fr p : forall ns, Forall agree ns -> forall err,
  sim (A := unit) unit_of snd fr p err (each_content_until (fun c e => render c fr e) ns err)
       (peach_until p is_pattr (fun c => prender c p) (map lift ns)).
Proof.
  intros ns F. induction F as [|c ns Hc _ IH]; intro err; cbn -[bind put_err render prender lift]; [apply sim_ret; reflexivity|].
  rewrite lift_is_attr. destruct (is_attr c); [apply IH|].
  eapply sim_bind; [apply Hc|]. intros [[x|] e]; apply sim_put; [apply sim_ret; reflexivity|apply IH].
Qed.
Lemma sim_content_ignore fr p : forall ns, Forall (optP agree) ns -> forall err,
  sim1 fr p err (each_content_ignore (fun c e => render c fr e) ns err)
       (peach_content (fun c => prender c p) (map lift_opt ns)).
Proof.
  intros ns F. induction F as [|[c|] ns Hc _ IH]; intro err; cbn -[bind put_err render prender lift]; [apply sim_ret; reflexivity| |apply IH].
  rewrite lift_is_attr. destruct (is_attr c); [apply IH|].
  eapply sim_bind; [apply Hc|]. intros [x e]. apply IH.
Qed.
Lemma sim_item fr p : forall ns, Forall agree ns -> forall err,
  sim2 fr p err (each_item (fun c e => render c fr e) ns err)
       (peach_item (fun c => prender c p) (map lift ns)).
Proof.
  intros ns F. induction F as [|c ns Hc _ IH]; intro err; cbn -[bind put_err render prender lift]; [apply sim_ret; reflexivity|].
  eapply sim_bind; [apply Hc|]. intros [[x|] e]; [apply sim_ret; reflexivity|apply IH].
Qed.

(** The last line of a Render method. *)
Lemma sim_return fr p err pf (pp : io pstate unit) :
  sim1 fr p err pf pp -> sim2 fr p err (bind pf (fun e => Ret (e, e))) (bind pp (fun _ => ret_err p)).
Proof. intro H. apply sim1_bind; [exact H|]. intro. apply sim_ret_err2. Qed.

Lemma until_same E (r : renderer) : forall ns e w x w',
  run E (each_until r ns e) w = (x, w') -> fst x = snd x.
Proof.
  induction ns as [|c ns IH]; intros e w x w' H; cbn in H; [inversion H; reflexivity|].
  rewrite run_bind in H. destruct (run E (r c e) w) as [[[y|] e'] w1]; [inversion H; reflexivity|].
  eapply IH. exact H.
Qed.
Lemma content_until_same E (r : renderer) : forall ns e w x w',
  run E (each_content_until r ns e) w = (x, w') -> fst x = snd x.
Proof.
  induction ns as [|c ns IH]; intros e w x w' H; cbn in H; [inversion H; reflexivity|].
  destruct (is_attr c); [eapply IH; exact H|].
  rewrite run_bind in H. destruct (run E (r c e) w) as [[[y|] e'] w1]; [inversion H; reflexivity|].
  eapply IH. exact H.
Qed.
Lemma sim_return_same fr p err pf (pp : io pstate unit) :
  (forall E w x w', run E pf w = (x, w') -> fst x = snd x) ->
  sim (X := option error * option error) (A := unit) unit_of snd fr p err pf pp ->
  sim2 fr p err pf (bind pp (fun _ => ret_err p)).
Proof.
  intros S H E lg u t h C. destruct (H E lg u t h C) as (h' & x & w & R1 & R2 & X).
  exists h', x, w. split; [exact R1|]. split; [|exact X].
  rewrite run_bind, R2. cbn [bind ret_err get run w_u w_log w_tick snd].
  rewrite (ctx_err _ _ _ _ (ctx_ext _ _ _ _ _ _ C X)), (S _ _ _ _ R1). reflexivity.
Qed.

(** A callback whose result decides what is done next. *)
Lemma sim_cb {X A Y Z} (res : X -> A) er fr p err (f : ctx U -> U -> Y * U) (kf : Y -> io U X) (g : Y -> Z)
    (kp : Z -> io pstate A) :
  (forall u, let y := fst (f (view fr err) u) in sim res er fr p err (kf y) (kp (g y))) ->
  sim res er fr p err
    (Cb (fun u => let '(y, u') := f (view fr err) u in (kf y, u')))
    (Cb (fun s => let '(z, s') := (let '(y, u') := f (view_at (snd s) (ptr_of (ptr p))) (fst s) in (g y, (u', snd s))) in
                  (kp z, s'))).
Proof.
  intros H E lg u t h C. cbn [run w_u w_log w_tick fst snd]. unfold ptr_of, ptr. cbn [c_data].
  assert (V : view_at h p = view fr err) by apply C. rewrite V.
  specialize (H u). cbn zeta in H.
  destruct (f (view fr err) u) as [y u']. apply H. exact C.
Qed.

(** ** A context below another one *)

Definition under (h : heap) (p q : cref) (data : option mref) (err : option error) : Prop :=
  p < q /\ q < length h /\ o_parent (obj h q) = Some p /\ o_data (obj h q) = data /\ o_err (obj h q) = err.
(** As [ext], with [q] free. *)
Definition ext_but (h h' : heap) (p : cref) (e : option error) (q : cref) : Prop :=
  length h <= length h' /\ ordered h' /\
  forall z, z < length h -> z <> q -> obj h' z = if z =? p then with_err e (obj h z) else obj h z.

Lemma ext_but_refl h p fr err q : ctx_ok h p fr err -> ext_but h h p err q.
Proof.
  intro C. pose proof (ext_refl _ _ _ _ C) as (A & D & G). split; [exact A|]. split; [exact D|]. intros; auto.
Qed.
Lemma ext_but_trans h1 h2 h3 p e e' q : ext_but h1 h2 p e q -> ext_but h2 h3 p e' q -> ext_but h1 h3 p e' q.
Proof.
  intros (L1 & O1 & S1) (L2 & O2 & S2). split; [lia|]. split; [exact O2|].
  intros z Hz Nz. rewrite S2, S1 by (assumption || lia). destruct (z =? p); reflexivity.
Qed.
Lemma ctx_ext_but h h' p fr err e q : p < q -> ctx_ok h p fr err -> ext_but h h' p e q -> ctx_ok h' p fr e.
Proof.
  intros PQ C (L' & O' & S). pose proof (ctx_parent _ _ _ _ C) as P.
  destruct C as (L & O & V). split; [lia|]. split; [exact O'|].
  unfold view_at, view in *. cbn [view_in] in *. rewrite (S p L), Nat.eqb_refl by lia.
  cbn [with_err o_err o_data o_cargo o_parent].
  injection V as V1 V2 V3 V4. rewrite V2, V3. f_equal. rewrite <- V4.
  destruct (o_parent (obj h p)) as [z|] eqn:Q; [|reflexivity]. cbn. f_equal.
  pose proof (O p z L Q). apply view_in_same; auto; try lia.
  intros y Hy. rewrite S by lia. destruct (Nat.eqb_spec y p); [lia|reflexivity].
Qed.

(** [ictx.Data = d; ictx.Cargo = item] *)
Lemma put_item_ok h p fr oerr q data ierr d item :
  ctx_ok h p fr oerr -> under h p q data ierr ->
  let h1 := set_nth h q (CObj (o_err (obj h q)) d item (o_parent (obj h q))) in
  ctx_ok h1 q (Frame d item (Some (view fr oerr))) ierr /\ ctx_ok h1 p fr oerr /\ under h1 p q d ierr /\
  ext_but h h1 p oerr q.
Proof.
  intros C (PQ & LQ & P & D & Er) h1.
  assert (X : ext_but h h1 p oerr q).
  { pose proof (ctx_err _ _ _ _ C) as QE. destruct C as (L & O & V). unfold h1.
    split; [rewrite set_nth_length; lia|]. split.
    - intros z y Lz. rewrite set_nth_length in Lz. rewrite obj_set by assumption.
      destruct (Nat.eqb_spec z q); [subst; cbn; apply O; assumption|apply O; assumption].
    - intros z Lz Nz. rewrite obj_set by assumption. destruct (Nat.eqb_spec z q); [contradiction|].
      destruct (Nat.eqb_spec z p); [|reflexivity]. subst z oerr. symmetry. apply with_err_same. }
  pose proof (ctx_ext_but _ _ _ _ _ _ _ PQ C X) as C1.
  assert (U1 : under h1 p q d ierr).
  { unfold under, h1. rewrite set_nth_length, obj_set, Nat.eqb_refl by exact LQ. cbn. auto. }
  split; [|split; [exact C1|split; [exact U1|exact X]]].
  split; [apply U1|]. split; [exact (proj1 (proj2 C1))|].
  assert (O1 : ordered h1) by exact (proj1 (proj2 C1)). assert (L1 : p < length h1) by exact (proj1 C1).
  destruct U1 as (_ & LQ1 & P1 & D1 & E1). unfold view_at. change (view_in (S q) h1 q) with
    (Ctx (o_err (obj h1 q)) (o_data (obj h1 q)) (o_cargo (obj h1 q)) (option_map (view_in q h1) (o_parent (obj h1 q)))).
  rewrite E1, D1, P1. unfold view at 1. cbn [option_map f_data f_cargo f_parent]. f_equal.
  - unfold h1. rewrite obj_set, Nat.eqb_refl by assumption. reflexivity.
  - f_equal. rewrite (view_in_enough h1 O1 p q (S p)); try lia. apply C1.
Qed.

(** After rendering with [q]. *)
Lemma ext_inner h h' p fr oerr q d ierr e :
  ctx_ok h p fr oerr -> under h p q d ierr -> ext h h' q e ->
  ctx_ok h' p fr oerr /\ under h' p q d e /\ ext_but h h' p oerr q.
Proof.
  intros C (PQ & LQ & P & D & Er) (L & O & S).
  assert (X : ext_but h h' p oerr q).
  { split; [exact L|]. split; [exact O|]. intros z Lz Nz. rewrite S by assumption.
    destruct (Nat.eqb_spec z q); [contradiction|]. destruct (Nat.eqb_spec z p); [|reflexivity].
    subst z. rewrite <- (ctx_err _ _ _ _ C). symmetry. apply with_err_same. }
  split; [exact (ctx_ext_but _ _ _ _ _ _ _ PQ C X)|]. split; [|exact X].
  unfold under. rewrite (S q LQ), Nat.eqb_refl. cbn. repeat split; auto. lia.
Qed.

(** [ctx.Error = e] *)
Lemma put_outer h p fr oerr q d ierr e :
  ctx_ok h p fr oerr -> under h p q d ierr ->
  let h1 := set_nth h p (with_err e (obj h p)) in
  ctx_ok h1 p fr e /\ under h1 p q d ierr /\ ext_but h h1 p e q.
Proof.
  intros C (PQ & LQ & P & D & Er) h1.
  assert (X : ext h h1 p e) by (destruct C as (L & O & V); apply ext_set; assumption).
  pose proof (ctx_ext _ _ _ _ _ _ C X) as C1.
  assert (X' : ext_but h h1 p e q) by (destruct X as (A & G & S); split; [exact A|split; [exact G|intros; auto]]).
  assert (QQ : obj h1 q = obj h q).
  { destruct X as (A & G & S). rewrite S by assumption. destruct (Nat.eqb_spec q p); [lia|reflexivity]. }
  split; [exact C1|]. split; [|exact X']. unfold under. rewrite QQ. unfold h1. rewrite set_nth_length. auto.
Qed.

Lemma sim_iter fr p q ns : Forall agree ns -> forall items oerr E lg u t h data ierr,
  ctx_ok h p fr oerr -> under h p q data ierr ->
  exists h' x w,
    run E (iter_loop (fun ifr => each_item (fun c e => render c ifr e) ns) (f_data fr) (view fr oerr) oerr items ierr)
        (World lg u t) = (x, w) /\
    run E (piter (peach_item (fun c => prender c q) (map lift ns)) p q items) (World lg (u, h) t)
      = (fst x, World (w_log w) (w_u w, h') (w_tick w)) /\ ext_but h h' p (snd x) q.
Proof.
  intro F. induction items as [|item items IH]; intros oerr E lg u t h data ierr C Q.
  - exists h, (None, oerr), (World lg u t). cbn. split; [reflexivity|split; [reflexivity|apply (ext_but_refl _ _ _ _ q C)]].
  - cbn [iter_loop piter].
    destruct (put_item_ok h p fr oerr q data ierr (item_data item (f_data fr)) item C Q) as (Cq & C1 & Q1 & X1).
    set (h1 := set_nth h q _) in *.
    assert (R : forall A (k : unit -> io pstate A),
      run E (bind (match item with GMap m => Ret (Some m) | _ => bind (get p) (fun o => Ret (o_data o)) end)
               (fun d => bind (put_item q d item) k)) (World lg (u, h) t) = run E (k tt) (World lg (@pair U heap u h1) t)).
    { intros A k. rewrite run_bind.
      assert (G : run E (match item with GMap m => Ret (Some m) | _ => bind (get p) (fun o => Ret (o_data o)) end)
                    (World lg (u, h) t) = (item_data item (f_data fr), World lg (u, h) t)).
      { rewrite <- (ctx_data _ _ _ _ C). destruct item; reflexivity. }
      rewrite G. reflexivity. }
    rewrite R. clear R.
    destruct (sim_item (Frame (item_data item (f_data fr)) item (Some (view fr oerr))) q ns F ierr E lg u t h1 Cq)
      as (h2 & [r ierr'] & [l2 u2 t2] & R1 & R2 & X2).
    cbn [fst snd w_log w_u w_tick] in R2, X2.
    destruct (ext_inner _ _ _ _ _ _ _ _ _ C1 Q1 X2) as (C2 & Q2 & X3).
    rewrite run_bind, R1, run_bind, R2. destruct r as [e|].
    + destruct (put_outer _ _ _ _ _ _ _ (Some e) C2 Q2) as (C3 & Q3 & X4).
      eexists _, (Some e, Some e), _. split; [reflexivity|]. split; [reflexivity|].
      eapply ext_but_trans; [exact X1|]. eapply ext_but_trans; [exact X3|exact X4].
    + destruct (IH oerr E l2 u2 t2 h2 _ ierr' C2 Q2) as (h3 & x & w & R3 & R4 & X4).
      exists h3, x, w. split; [exact R3|]. split; [exact R4|].
      eapply ext_but_trans; [exact X1|]. eapply ext_but_trans; [exact X3|exact X4].
Qed.

Lemma sim_yield fr p q ns : Forall agree ns -> forall y oerr E lg u t h data ierr,
  ctx_ok h p fr oerr -> under h p q data ierr ->
  exists h' x w,
    run E (yield_loop (fun ifr => each_item (fun c e => render c ifr e) ns) fr data y oerr ierr)
        (World lg u t) = (x, w) /\
    run E (bind (pyield (peach_item (fun c => prender c q) (map lift ns)) p q (lift_yield y)) (fun _ => ret_err p))
        (World lg (u, h) t)
      = (fst x, World (w_log w) (w_u w, h') (w_tick w)) /\ ext_but h h' p (snd x) q.
Proof.
  intro F. fix IH 1. intros y oerr E lg u t h data ierr C Q. destruct y as [|item y|k].
  - exists h, (oerr, oerr), (World lg u t). cbn [yield_loop lift_yield pyield bind ret_err get run fst snd w_u w_log w_tick]. rewrite (ctx_err _ _ _ _ C).
    split; [reflexivity|split; [reflexivity|apply (ext_but_refl _ _ _ _ q C)]].
  - cbn [yield_loop lift_yield pyield].
    destruct (put_item_ok h p fr oerr q data ierr (item_data item data) item C Q) as (Cq & C1 & Q1 & X1).
    set (h1 := set_nth h q _) in *.
    assert (R : forall A (k : unit -> io pstate A),
      run E (bind (match item with GMap m => Ret (Some m) | _ => bind (get q) (fun o => Ret (o_data o)) end)
               (fun d => bind (put_item q d item) k)) (World lg (u, h) t) = run E (k tt) (World lg (@pair U heap u h1) t)).
    { intros A k. rewrite run_bind.
      assert (G : run E (match item with GMap m => Ret (Some m) | _ => bind (get q) (fun o => Ret (o_data o)) end)
                    (World lg (u, h) t) = (item_data item data, World lg (u, h) t)).
      { destruct Q as (_ & _ & _ & D & _). rewrite <- D. destruct item; reflexivity. }
      rewrite G. reflexivity. }
    assert (A : forall (r : io pstate unit),
      run E (bind (bind (match item with GMap m => Ret (Some m) | _ => bind (get q) (fun o => Ret (o_data o)) end)
               (fun d => bind (put_item q d item) (fun _ => r))) (fun _ => ret_err p)) (World lg (u, h) t)
      = run E (bind r (fun _ => ret_err p)) (World lg (@pair U heap u h1) t)).
    { intro r. rewrite run_bind, R, run_bind. reflexivity. }
    rewrite A. clear R A.
    destruct (sim_item (Frame (item_data item data) item (Some (view fr oerr))) q ns F ierr E lg u t h1 Cq)
      as (h2 & [r ierr'] & [l2 u2 t2] & R1 & R2 & X2).
    cbn [fst snd w_log w_u w_tick] in R2, X2.
    destruct (ext_inner _ _ _ _ _ _ _ _ _ C1 Q1 X2) as (C2 & Q2 & X3).
    rewrite run_bind, R1. rewrite run_bind. rewrite run_bind, R2. destruct r as [e|].
    + destruct (put_outer _ _ _ _ _ _ _ (Some e) C2 Q2) as (C3 & Q3 & X4).
      destruct (IH y (Some e) E l2 u2 t2 _ _ ierr' C3 Q3) as (h3 & x & w & R3 & R4 & X5).
      exists h3, x, w. split; [exact R3|]. split; [rewrite run_bind in R4; exact R4|].
      eapply ext_but_trans; [exact X1|]. eapply ext_but_trans; [exact X3|].
      eapply ext_but_trans; [exact X4|exact X5].
    + destruct (IH y oerr E l2 u2 t2 h2 _ ierr' C2 Q2) as (h3 & x & w & R3 & R4 & X4).
      exists h3, x, w. split; [exact R3|]. split; [rewrite run_bind in R4; exact R4|].
      eapply ext_but_trans; [exact X1|]. eapply ext_but_trans; [exact X3|exact X4].
  - cbn [yield_loop lift_yield pyield bind run w_u w_log w_tick fst snd]. unfold ptr_of, ptr. cbn [c_data].
    assert (V : view_at h p = view fr oerr) by apply C. rewrite V.
    pose proof (fun u => IH (fst (k (view fr oerr) u))) as IHk. specialize (IHk u).
    destruct (k (view fr oerr) u) as [y u']. cbn [fst] in IHk. apply (IHk _ _ _ _ _ _ _ _ C Q).
Qed.

(** ** A new context *)

Lemma ordered_snoc h o : ordered h -> (forall q, o_parent o = Some q -> q < length h) -> ordered (h ++ [o]).
Proof.
  intros O H p q L Q. rewrite app_length in L. cbn in L.
  destruct (Nat.eq_dec p (length h)) as [->|N].
  - rewrite obj_last in Q. apply H. exact Q.
  - rewrite obj_app in Q by lia. apply O; [lia|exact Q].
Qed.

Lemma alloc_ctx_ok : forall c h, ordered h ->
  let h' := fst (alloc_ctx h c) in let q := snd (alloc_ctx h c) in
  length h <= q /\ q < length h' /\ ordered h' /\ view_at h' q = c /\ (forall z, z < length h -> obj h' z = obj h z).
Proof.
  fix IH 1. intros [e d g par] h O. destruct par as [c'|].
  - specialize (IH c' h O). cbn [alloc_ctx]. destruct (alloc_ctx h c') as [h1 q]. cbn [fst snd] in *.
    destruct IH as (A & B0 & O1 & V & S).
    assert (O2 : ordered (h1 ++ [CObj e d g (Some q)])).
    { apply ordered_snoc; [exact O1|]. cbn. intros z Z. injection Z as <-. exact B0. }
    rewrite app_length. cbn [length]. repeat split; try lia; auto.
    + unfold view_at. cbn [view_in]. rewrite obj_last. cbn [o_err o_data o_cargo o_parent option_map]. f_equal. f_equal.
      rewrite <- V. rewrite (view_in_same h1); auto.
      * apply view_in_enough; auto; lia.
      * intros z Hz. apply obj_app. lia.
    + intros z Hz. rewrite obj_app by lia. apply S. exact Hz.
  - cbn [alloc_ctx fst snd]. rewrite app_length. cbn [length].
    assert (O2 : ordered (h ++ [CObj e d g None])).
    { apply ordered_snoc; [exact O|]. cbn. discriminate. }
    repeat split; try lia; auto.
    + unfold view_at. cbn [view_in]. rewrite obj_last. reflexivity.
    + intros z Hz. apply obj_app. lia.
Qed.

Lemma new_under h p fr err : ctx_ok h p fr err ->
  let h1 := h ++ [CObj err None GNil (Some p)] in ctx_ok h1 p fr err /\ under h1 p (length h) None err.
Proof.
  intros C h1. assert (L : p < length h) by exact (proj1 C). split.
  - assert (X : ext h h1 p err).
    { split; [unfold h1; rewrite app_length; lia|]. split.
      - apply ordered_snoc; [exact (proj1 (proj2 C))|]. cbn. intros z Z. injection Z as <-. exact L.
      - intros z Hz. unfold h1. rewrite obj_app by exact Hz. apply (proj2 (proj2 (ext_refl _ _ _ _ C))). exact Hz. }
    exact (ctx_ext _ _ _ _ _ _ C X).
  - unfold under, h1. rewrite app_length, obj_last. cbn. repeat split; lia.
Qed.
Lemma ext_alloc h o h' p e : ext_but (h ++ [o]) h' p e (length h) -> ext h h' p e.
Proof.
  intros (A & O & S). rewrite app_length in A, S. cbn in A, S. split; [lia|]. split; [exact O|].
  intros z Hz. rewrite S by lia. rewrite obj_app by exact Hz. reflexivity.
Qed.

(** ** The Render methods *)

Theorem agree_all : (forall n, agree n) /\ (forall g, agree_prog g).
Proof.
  apply node_iprog_ind; unfold agree, agree_prog.
  - intros a fr p err. cbn [render lift prender]. apply sim_return, sim_attr.
  - intros name attrs idx conds contents F fr p err. cbn [render lift prender].
    apply sim1_bind; [apply sim_write|intro]. apply sim1_bind; [apply sim_write|intro].
    apply sim1_bind; [apply sim_attributes|intro]. apply sim1_bind; [apply sim_write|intro].
    apply sim1_bind; [apply sim_assign; exact F|intro]. apply sim_return, sim_close.
  - intros name attrs idx conds fr p err. cbn [render lift prender].
    apply sim1_bind; [apply sim_write|intro]. apply sim1_bind; [apply sim_write|intro].
    apply sim1_bind; [apply sim_attributes|intro]. apply sim_return, sim_write.
  - intros vs fr p err. cbn [render lift prender]. apply sim_return, sim_values.
  - intros vs fr p err. cbn [render lift prender].
    apply sim1_bind; [apply sim_write|intro]. apply sim1_bind; [apply sim_values|intro]. apply sim_return, sim_write.
  - intros name vs fr p err. cbn [render lift prender].
    apply sim1_bind; [apply sim_write|intro]. apply sim1_bind; [apply sim_write|intro].
    apply sim1_bind; [apply sim_write|intro]. apply sim1_bind; [apply sim_values|intro]. apply sim_return, sim_write.
  - intros vs fr p err. cbn [render lift prender]. apply sim_return, sim_values.
  - intros ns F fr p err. cbn [render lift prender].
    apply sim_return_same; [intros; eapply content_until_same; eassumption|]. apply sim_content_until. exact F.
  - intros fn attrs ns F fr p err. cbn [render lift prender].
    apply (sim_call fst snd fr p err fn
      (fun b : bool => if b then each_until (fun c e => render c fr e) ns err else Ret (err, err))).
    intros [|].
    + apply sim_return_same; [intros; eapply until_same; eassumption|]. apply sim_until. exact F.
    + cbn [bind]. apply sim_ret_err2.
  - intros f F fr p err. cbn [render lift prender].
    apply (sim_cb fst snd fr p err f
      (fun ns => bind (each_content_ignore (fun c e => render c fr e) ns err) (fun e => Ret (e, e)))
      (map lift_opt) (fun ns => bind (peach_content (fun c => prender c p) ns) (fun _ => ret_err p))).
    intro u. apply sim_return, sim_content_ignore. apply F.
  - intros fr p err. cbn [render lift prender]. apply sim_ret; reflexivity.
  - intros g H fr p err. cbn [render lift prender]. apply H.
  - intros fn ns F fr p err. cbn [render lift prender]. apply sim_get. intros o Ho Hd. rewrite Ho.
    destruct err as [e|]; [apply sim_ret; reflexivity|].
    apply (sim_call fst snd fr p None fn
      (fun items => iter_loop (fun ifr => each_item (fun c e => render c ifr e) ns) (f_data fr) (view fr None) None items None)).
    intros [|item items]; [apply sim_ret; reflexivity|]. apply sim_get. intros o' Ho' _. rewrite Ho'.
    intros E lg u t h C. destruct (new_under h p fr None C) as (C1 & U1).
    destruct (sim_iter fr p (length h) ns F (item :: items) None E lg u t _ _ _ C1 U1) as (h' & x & w & R1 & R2 & X2).
    exists h', x, w. split; [exact R1|]. split; [exact R2|]. eapply ext_alloc. exact X2.
  - intros y ns F fr p err. cbn [render lift prender]. apply sim_get. intros o Ho Hd. rewrite Ho.
    destruct err as [e|]; [apply sim_ret; reflexivity|].
    intros E lg u t h C. destruct (new_under h p fr None C) as (C1 & U1).
    destruct (sim_yield fr p (length h) ns F y None E lg u t _ _ _ C1 U1) as (h' & x & w & R1 & R2 & X2).
    exists h', x, w. split; [exact R1|]. split; [exact R2|]. eapply ext_alloc. exact X2.
  - intros pr ns Hp F fr p err. cbn [render lift prender].
    apply sim1_bind; [|intro; apply sim_return, sim_ignore; exact F].
    destruct pr as [c|]; [|apply sim_ret; reflexivity].
    eapply sim_bind; [apply Hp|]. intros [x e]. apply sim_ret; reflexivity.
  - intros e fr p stack err. cbn [run_imper lift_prog pimper]. apply sim_ret; reflexivity.
  - intros k F fr p stack err. cbn [run_imper lift_prog pimper].
    apply (sim_cb fst snd fr p err k (fun g => run_imper g fr stack err) lift_prog (fun g => pimper g p stack)).
    intro u. apply F.
  - intros s k H fr p stack err. cbn [run_imper lift_prog pimper]. apply sim1_bind; [apply sim_write|intro]. apply H.
  - intros s k H fr p stack err. cbn [run_imper lift_prog pimper]. apply sim1_bind; [apply sim_write|intro]. apply H.
  - intros ns k F H fr p stack err. cbn [run_imper lift_prog pimper].
    apply sim1_bind; [apply sim_content_ignore; exact F|intro]. apply H.
  - intros name v attrs k _ H fr p stack err. cbn [run_imper lift_prog pimper].
    apply sim1_bind; [apply sim_start|intro]. apply H.
  - intros k H fr p [|n s] err; cbn [run_imper lift_prog pimper]; [apply H|].
    apply sim1_bind; [apply sim_close|intro]. apply H.
  - intros k H fr p stack err. cbn [run_imper lift_prog pimper].
    apply sim1_bind; [apply sim_close_all|intro]. apply H.
  - intros n [fr'|] k Hn Hk fr p stack err; cbn [run_imper lift_prog pimper].
    + intros E lg u t h C. cbn [run w_u w_log w_tick fst snd].
      pose proof (alloc_ctx_ok (view fr' None) h (proj1 (proj2 C))) as A. cbn zeta in A.
      destruct (alloc_ctx h (view fr' None)) as [h1 q]. cbn [fst snd] in A. destruct A as (A1 & A2 & A3 & A4 & A5).
      assert (Cq : ctx_ok h1 q fr' None) by (split; [exact A2|split; [exact A3|exact A4]]).
      destruct (Hn fr' q None E lg u t h1 Cq) as (h2 & [r e] & [l2 u2 t2] & R1 & R2 & X2).
      cbn [fst snd w_log w_u w_tick] in R2, X2. cbn [pimper].
      rewrite (run_bind E (render n fr' None)), R1, (run_bind E (prender (lift n) q)).
      unfold pstate in R2 |- *. rewrite R2.
      cbn [pimper run w_u w_log w_tick fst snd].
      rewrite (ctx_err _ _ _ _ (ctx_ext _ _ _ _ _ _ Cq X2)).
      assert (X : ext h h2 p err).
      { destruct X2 as (B1 & B2 & B3). split; [lia|]. split; [exact B2|]. intros z Hz.
        rewrite B3, A5 by lia. destruct (Nat.eqb_spec z q); [lia|].
        apply (proj2 (proj2 (ext_refl _ _ _ _ C))). exact Hz. }
      destruct (Hk r e fr p stack err E l2 u2 t2 h2 (ctx_ext _ _ _ _ _ _ C X)) as (h3 & x & w & R3 & R4 & X3).
      exists h3, x, w. split; [exact R3|]. split; [exact R4|]. eapply ext_trans; eassumption.
    + eapply sim_bind; [apply Hn|]. intros [r e]. cbn [fst snd pimper].
      intros E lg u t h C. cbn [run w_u w_log w_tick fst snd]. unfold ptr_of, ptr. cbn [c_data].
      rewrite (ctx_err _ _ _ _ C). apply Hk. exact C.
  - intros d k Hk fr p stack err. cbn [run_imper lift_prog pimper].
    intros E lg u t h C. cbn [run w_u w_log w_tick]. destruct (e_wr E lg d) as [m e]. apply Hk. exact C.
  - intros e k Hk fr p stack err. cbn [run_imper lift_prog pimper].
    intros E lg u t h C. cbn [run w_u w_log w_tick]. unfold ptr_of, ptr, set_obj. cbn [c_data fst snd].
    assert (X : ext h (set_nth h p (with_err e (obj h p))) p e).
    { destruct C as (L & O & V). apply ext_set; assumption. }
    destruct (Hk fr p stack e E lg u t _ (ctx_ext _ _ _ _ _ _ C X)) as (h3 & x & w & R3 & R4 & X3).
    exists h3, x, w. split; [exact R3|]. split; [exact R4|]. eapply ext_trans; eassumption.
Qed.

Theorem lift_agree n fr p err : sim2 fr p err (render n fr err) (prender (lift n) p).
Proof. apply agree_all. Qed.

End PointerSim.
