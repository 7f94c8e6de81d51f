(** The pointer model agrees with the value model on lifted nodes. *)
From Coq Require Import Lia.
From Verif Require Import Bytes IO Escape Nodes Values Render Slices NodeInd IOFacts Pointer Lift.

Section PointerFacts.
Context {W : UserWorld}.

(** ** Heaps *)

Lemma set_nth_length {A} (l : list A) i x : length (set_nth l i x) = length l.
Proof. revert i. induction l as [|y l IH]; intros [|i]; cbn; auto. Qed.
Lemma nth_set_nth {A} (l : list A) i j x d :
  i < length l -> nth j (set_nth l i x) d = if j =? i then x else nth j l d.
Proof.
  revert i j. induction l as [|y l IH]; intros [|i] [|j] L; cbn in *; try lia; auto.
  apply IH. lia.
Qed.
Lemma obj_set h p o q : p < length h -> obj (set_nth h p o) q = if q =? p then o else obj h q.
Proof. intro. apply nth_set_nth. assumption. Qed.
Lemma obj_app h l q : q < length h -> obj (h ++ l) q = obj h q.
Proof. intro. apply app_nth1. assumption. Qed.
Lemma obj_last h o : obj (h ++ [o]) (length h) = o.
Proof. unfold obj. rewrite app_nth2 by lia. rewrite Nat.sub_diag. reflexivity. Qed.

Definition ordered (h : heap) : Prop :=
  forall p q, p < length h -> o_parent (obj h p) = Some q -> q < p.

Lemma view_in_enough h : ordered h -> forall p f1 f2,
  p < length h -> p < f1 -> p < f2 -> view_in f1 h p = view_in f2 h p.
Proof.
  intro O. intro p. induction p as [p IH] using (well_founded_induction Wf_nat.lt_wf). intros f1 f2 L1 L2 L3.
  destruct f1 as [|f1], f2 as [|f2]; try lia. cbn [view_in]. f_equal.
  destruct (o_parent (obj h p)) as [q|] eqn:Q; [|reflexivity]. cbn. f_equal.
  pose proof (O p q L1 Q). apply IH; lia.
Qed.

(** The view at [p] depends on the objects up to [p] only. *)
Lemma view_in_same h h' : ordered h -> forall p f,
  p < length h -> p < f -> (forall q, q <= p -> obj h' q = obj h q) -> view_in f h' p = view_in f h p.
Proof.
  intro O. intro p. induction p as [p IH] using (well_founded_induction Wf_nat.lt_wf). intros f L F S.
  destruct f as [|f]; [lia|]. cbn [view_in]. rewrite (S p) by lia. f_equal.
  destruct (o_parent (obj h p)) as [q|] eqn:Q; [|reflexivity]. cbn. f_equal.
  pose proof (O p q L Q). apply IH; try lia. intros. apply S. lia.
Qed.

(** The context at [p] has the fields [fr] and [err]. *)
Definition ctx_ok (h : heap) (p : cref) (fr : frame U) (err : option error) : Prop :=
  p < length h /\ ordered h /\ view_at h p = view fr err.

(** The new heap differs in the Error of [p] and in new objects. *)
Definition ext (h h' : heap) (p : cref) (e : option error) : Prop :=
  length h <= length h' /\ ordered h' /\
  forall q, q < length h -> obj h' q = if q =? p then with_err e (obj h q) else obj h q.

Lemma ctx_err h p fr err : ctx_ok h p fr err -> o_err (obj h p) = err.
Proof. intros (L & O & V). unfold view_at, view in V. cbn in V. congruence. Qed.
Lemma ctx_data h p fr err : ctx_ok h p fr err -> o_data (obj h p) = f_data fr.
Proof. intros (L & O & V). unfold view_at, view in V. cbn in V. congruence. Qed.

Lemma ctx_parent h p fr err : ctx_ok h p fr err ->
  option_map (view_in p h) (o_parent (obj h p)) = f_parent fr.
Proof. intros (L & O & V). unfold view_at, view in V. cbn [view_in] in V. congruence. Qed.

Lemma ctx_ext h h' p fr err e : ctx_ok h p fr err -> ext h h' p e -> ctx_ok h' p fr e.
Proof.
  intros C (L' & O' & S). pose proof (ctx_parent _ _ _ _ C) as P.
  destruct C as (L & O & V). split; [lia|]. split; [exact O'|].
  unfold view_at, view in *. cbn [view_in] in *. rewrite (S p L), Nat.eqb_refl. cbn [with_err o_err o_data o_cargo o_parent].
  injection V as V1 V2 V3 V4. rewrite V2, V3. f_equal. rewrite <- V4.
  destruct (o_parent (obj h p)) as [q|] eqn:Q; [|reflexivity]. cbn. f_equal.
  pose proof (O p q L Q). apply view_in_same; auto; try lia.
  intros z Hz. rewrite S by lia. destruct (Nat.eqb_spec z p); [lia|reflexivity].
Qed.

Lemma with_err_same o : with_err (o_err o) o = o.
Proof. destruct o. reflexivity. Qed.
Lemma with_err_twice e e' o : with_err e (with_err e' o) = with_err e o.
Proof. reflexivity. Qed.

Lemma ext_refl h p fr err : ctx_ok h p fr err -> ext h h p err.
Proof.
  intro C. pose proof (ctx_err _ _ _ _ C) as Q. destruct C as (L & O & V).
  split; [lia|]. split; [exact O|]. intros q Hq. destruct (Nat.eqb_spec q p); [|reflexivity].
  subst q. rewrite <- Q. symmetry. apply with_err_same.
Qed.
Lemma ext_trans h1 h2 h3 p e e' : ext h1 h2 p e -> ext h2 h3 p e' -> ext h1 h3 p e'.
Proof.
  intros (L1 & O1 & S1) (L2 & O2 & S2). split; [lia|]. split; [exact O2|].
  intros q Hq. rewrite S2, S1 by lia. destruct (q =? p); reflexivity.
Qed.
Lemma ext_set h p e : p < length h -> ordered h -> ext h (set_nth h p (with_err e (obj h p))) p e.
Proof.
  intros L O. split; [rewrite set_nth_length; lia|]. split.
  - intros z q Lz. rewrite set_nth_length in Lz. rewrite obj_set by assumption.
    destruct (Nat.eqb_spec z p); [subst; cbn; apply O; assumption|apply O; assumption].
  - intros q Lq. rewrite obj_set by assumption. destruct (Nat.eqb_spec q p); subst; reflexivity.
Qed.

(** ** Simulation *)

Definition sim {X A} (res : X -> A) (er : X -> option error) (fr : frame U) (p : cref) (err : option error)
  (pf : io U X) (pp : io pstate A) : Prop :=
  forall E lg u t h, ctx_ok h p fr err ->
  exists h' x w, run E pf (World lg u t) = (x, w) /\
    run E pp (World lg (u, h) t) = (res x, World (w_log w) (w_u w, h') (w_tick w)) /\
    ext h h' p (er x).

Definition unit_of {X} (_ : X) : unit := tt.
(** The shape of the model's results. *)
Definition sim1 := @sim (option error) unit unit_of (fun e => e).
Definition sim2 := @sim (option error * option error) (option error) fst snd.

Lemma sim_ret {X A} (res : X -> A) er fr p err x a :
  er x = err -> res x = a -> sim res er fr p err (Ret x) (Ret a).
Proof.
  intros H1 H2 E lg u t h C. exists h, x, (World lg u t). cbn. subst a.
  repeat split; rewrite ?H1; try (eapply ext_refl; eassumption).
Qed.

Lemma sim_bind {X A Y B} (res : X -> A) er (res' : Y -> B) er' fr p err pf pp kf kp :
  sim res er fr p err pf pp ->
  (forall x, sim res' er' fr p (er x) (kf x) (kp (res x))) ->
  sim res' er' fr p err (bind pf kf) (bind pp kp).
Proof.
  intros H K E lg u t h C. destruct (H E lg u t h C) as (h1 & x & w & R1 & R2 & X1).
  pose proof (ctx_ext _ _ _ _ _ _ C X1) as C1.
  destruct w as [l1 u1 t1]. cbn in R2.
  destruct (K x E l1 u1 t1 h1 C1) as (h2 & y & w2 & R3 & R4 & X2).
  exists h2, y, w2. rewrite run_bind, R1. split; [exact R3|]. rewrite run_bind, R2. split; [exact R4|].
  eapply ext_trans; eassumption.
Qed.

(** Steps of the pointer program alone. *)
Lemma sim_get {X A} (res : X -> A) er fr p err pf kp :
  (forall o, o_err o = err -> o_data o = f_data fr -> sim res er fr p err pf (kp o)) ->
  sim res er fr p err pf (bind (get p) kp).
Proof.
  intros H E lg u t h C. cbn [bind get run w_u w_log w_tick snd].
  apply H; [apply (ctx_err _ _ _ _ C)|apply (ctx_data _ _ _ _ C)|exact C].
Qed.
Lemma sim_put {X A} (res : X -> A) er fr p err e pf kp :
  sim res er fr p e pf (kp tt) -> sim res er fr p err pf (bind (put_err p e) kp).
Proof.
  intros H E lg u t h C. cbn [bind put_err run w_u w_log w_tick snd fst]. unfold set_obj. cbn [fst snd].
  assert (HX : ext h (set_nth h p (with_err e (obj h p))) p e).
  { destruct C as (L & O & V). apply ext_set; assumption. }
  destruct (H E lg u t _ (ctx_ext _ _ _ _ _ _ C HX)) as (h' & x & w & R1 & R2 & X2).
  exists h', x, w. split; [exact R1|]. split; [exact R2|]. eapply ext_trans; eassumption.
Qed.
(** [return ctx.Error] *)
Lemma sim_end {X A} (res : X -> A) er fr p err x k :
  er x = err -> k err = res x -> sim res er fr p err (Ret x) (bind (ret_err p) (fun e => Ret (k e))).
Proof.
  intros H1 H2 E lg u t h C. cbn [bind ret_err get run w_u w_log w_tick snd].
  rewrite (ctx_err _ _ _ _ C), H2. exists h, x, (World lg u t). rewrite H1.
  repeat split; eapply ext_refl; eassumption.
Qed.
Lemma sim_ret_err2 fr p err : sim2 fr p err (Ret (err, err)) (ret_err p).
Proof.
  intros E lg u t h C. cbn [bind ret_err get run w_u w_log w_tick snd].
  rewrite (ctx_err _ _ _ _ C). exists h, (err, err), (World lg u t).
  repeat split; eapply ext_refl; eassumption.
Qed.

Lemma sim_call {X A Y} (res : X -> A) er fr p err (f : ctx U -> U -> Y * U) kf kp :
  (forall y, sim res er fr p err (kf y) (kp y)) ->
  sim res er fr p err (Cb (fun u => let '(y, u') := f (view fr err) u in (kf y, u')))
                      (bind (call (lift_fn f) p) kp).
Proof.
  intros H E lg u t h C. cbn [bind call run w_u w_log w_tick]. unfold lift_fn, ptr_of, ptr. cbn [c_data fst snd].
  assert (V : view_at h p = view fr err) by apply C. rewrite V.
  destruct (f (view fr err) u) as [y u']. cbn [bind run w_u w_log w_tick]. apply H. exact C.
Qed.

Lemma sim_write fr p err d : sim1 fr p err (ctx_write d err) (pwrite p d).
Proof.
  unfold ctx_write, pwrite. apply sim_get. intros o He _. rewrite He. destruct err as [e|].
  - apply sim_ret; reflexivity.
  - intros E lg u t h C. cbn [run w_log w_u w_tick]. destruct (e_wr E lg d) as [n e].
    cbn [run w_log w_u w_tick put_err fst snd]. unfold set_obj. cbn [fst snd].
    eexists _, e, _. split; [reflexivity|]. split; [reflexivity|].
    destruct C as (L & O & V). apply ext_set; assumption.
Qed.

Lemma sim_wr fr p err d :
  @sim (bool * option error) bool fst snd fr p err (Wr d (fun n e => Ret (0 <? n, e))) (pwr p d).
Proof.
  intros E lg u t h C. unfold pwr. cbn [run w_log w_u w_tick]. destruct (e_wr E lg d) as [n e].
  cbn [run w_log w_u w_tick put_err bind fst snd]. unfold set_obj. cbn [fst snd].
  eexists _, (0 <? n, e), _. split; [reflexivity|]. split; [reflexivity|].
  destruct C as (L & O & V). apply ext_set; assumption.
Qed.

Lemma sim_pick {X A} (res : X -> A) er fr p err ks kf kp :
  (forall o, sim res er fr p err (kf o) (kp o)) -> sim res er fr p err (Pick ks kf) (Pick ks kp).
Proof. intros H E lg u t h C. cbn [run w_log w_u w_tick]. apply H. exact C. Qed.

Definition simv := @sim (bool * option error) (bool * option error) (fun x => x) snd.

Lemma sim_wr_end fr p err d :
  simv fr p err (Wr d (fun n e => Ret (0 <? n, e)))
    (w <- pwr p d ;; e <- ret_err p ;; Ret (w, e)).
Proof.
  intros E lg u t h C. destruct (sim_wr fr p err d E lg u t h C) as (h' & x & w & R1 & R2 & X).
  exists h', x, w. split; [exact R1|]. rewrite run_bind, R2. split; [|exact X].
  pose proof (ctx_ext _ _ _ _ _ _ C X) as C'. destruct x as [b e]. cbn [fst snd] in *.
  cbn [bind ret_err get run w_u w_log w_tick snd].
  rewrite (ctx_err _ _ _ _ C'). reflexivity.
Qed.

Lemma sim_value fr p : forall v err, simv fr p err (value_render fr v err) (pvalue p (lift_value v)).
Proof.
  intro v. induction v as [b d cs IH] using value_ind'. intro err.
  destruct d as [f|].
  - cbn [value_render lift_value option_map pvalue].
    apply (sim_call (fun x : bool * option error => x) snd fr p err f
             (fun data => Wr data (fun n e => Ret (0 <? n, e)))).
    intro data. apply sim_wr_end.
  - destruct cs as [|c cs]; [apply sim_wr_end|].
    cbn [lift_value option_map map].
    change (lift_value c :: map lift_value cs) with (map lift_value (c :: cs)).
    remember (c :: cs) as l eqn:El.
    assert (G : forall k err, simv fr p err
      ((fix go (cs : list (value U)) (l : nat) (err : option error) : io U (bool * option error) :=
         match cs with
         | [] => Ret (0 <? l, err)
         | c :: cs' => '(written, e) <- value_render fr c err ;; go cs' (if written then S l else l) e
         end) l k err)
      (w <- (fix go (cs : list (value pstate)) (l : nat) : io pstate bool :=
              match cs with
              | [] => Ret (0 <? l)
              | c :: cs' =>
                  '(written, e) <- pvalue p c ;; _ <- put_err p e ;;
                  go cs' (if written then S l else l)
              end) (map lift_value l) k ;;
       e <- ret_err p ;; Ret (w, e))).
    { clear El. induction IH as [|c' l Hc _ IHl]; intros k err'.
      - cbn [map bind]. apply (sim_end (fun x : bool * option error => x) snd); reflexivity.
      - cbn [map]. intros E lg u t h C.
        destruct (Hc err' E lg u t h C) as (h1 & x & w & R1 & R2 & X1).
        destruct x as [written e]. destruct w as [l1 u1 t1]. cbn [fst snd w_log w_u w_tick] in *.
        pose proof (ctx_ext _ _ _ _ _ _ C X1) as C1.
        assert (X2 : ext h1 (set_nth h1 p (with_err e (obj h1 p))) p e).
        { destruct C1 as (L & O & V). apply ext_set; assumption. }
        destruct (IHl (if written then S k else k) e E l1 u1 t1 _ (ctx_ext _ _ _ _ _ _ C1 X2))
          as (h2 & y & w2 & R3 & R4 & X3).
        exists h2, y, w2. rewrite run_bind, R1. split; [exact R3|]. split.
        + rewrite run_bind in R4 |- *. rewrite run_bind, R2.
          cbn [bind put_err run w_log w_u w_tick fst snd]. unfold set_obj. cbn [fst snd]. exact R4.
        + eapply ext_trans; [exact X1|]. eapply ext_trans; [exact X2|exact X3]. }
    specialize (G 0 err). subst l. exact G.
Qed.

Lemma sim_values fr p : forall vs err, sim1 fr p err (values_render fr vs err) (pvalues p (map lift_value vs)).
Proof.
  induction vs as [|v vs IH]; intro err; cbn [values_render map pvalues]; [apply sim_ret; reflexivity|].
  eapply sim_bind; [apply sim_value|]. intros [b e]. apply IH.
Qed.
Lemma sim_delim fr p d : forall vs s err,
  sim1 fr p err (delim_render fr d vs s err) (pdelim p d (map lift_value vs) s).
Proof.
  induction vs as [|v vs IH]; intros s err; cbn [delim_render map pdelim]; [apply sim_ret; reflexivity|].
  eapply (sim_bind unit_of (fun e => e)).
  - destruct s; [apply sim_write|apply sim_ret; reflexivity].
  - intro e. eapply sim_bind; [apply sim_value|]. intros [b e']. apply IH.
Qed.

Lemma sim1_bind {Y B} (res' : Y -> B) er' fr p err pf (pp : io pstate unit) kf kp :
  sim1 fr p err pf pp -> (forall e, sim res' er' fr p e (kf e) (kp tt)) ->
  sim res' er' fr p err (bind pf kf) (bind pp kp).
Proof. intros H K. eapply sim_bind; [exact H|]. exact K. Qed.

Lemma sim_attr fr p a err : sim1 fr p err (attr_render fr a err) (pattr p (lift_attr a)).
Proof.
  destruct a as [n vs|n|n d vs]; unfold attr_render, pattr; cbn [lift_attr].
  - repeat (apply sim1_bind; [first [apply sim_write|apply sim_values]|intro]). apply sim_write.
  - repeat (apply sim1_bind; [first [apply sim_write|apply sim_values]|intro]). apply sim_write.
  - repeat (apply sim1_bind; [first [apply sim_write|apply sim_delim]|intro]). apply sim_write.
Qed.

(** ** Attributes *)

Lemma sim_conds {X A} (res : X -> A) er fr p err : forall cs kf kp,
  (forall b, sim res er fr p err (kf b) (kp b)) ->
  sim res er fr p err (bind (conds_eval fr err cs) kf) (bind (pconds p (map (fun f => lift_fn f) cs)) kp).
Proof.
  induction cs as [|f cs IH]; intros kf kp H; cbn [conds_eval map pconds bind]; [apply H|].
  intros E lg u t h C. cbn [bind call run w_u w_log w_tick].
  unfold lift_fn at 1. unfold ptr_of, ptr. cbn [c_data fst snd].
  assert (V : view_at h p = view fr err) by apply C. rewrite V.
  destruct (f (view fr err) u) as [[] u']; cbn [bind run w_u w_log w_tick].
  - apply IH; assumption.
  - apply H. exact C.
Qed.

Lemma sim_active {X A} (res : X -> A) er fr p err : forall cas kf kp,
  (forall l, sim res er fr p err (kf l) (kp (map lift_attr l))) ->
  sim res er fr p err (bind (active_attrs fr err cas) kf) (bind (pactive p (map lift_cond cas)) kp).
Proof.
  induction cas as [|[a cs] cas IH]; intros kf kp H; cbn [active_attrs map pactive bind].
  - apply (H []).
  - change (lift_cond (a, cs)) with (lift_attr a, map (fun f => lift_fn f) cs).
    assert (A1 : forall E w, run E (bind (bind (conds_eval fr err cs) (fun b => bind (active_attrs fr err cas)
               (fun l => Ret (if b then a :: l else l)))) kf) w =
             run E (bind (conds_eval fr err cs) (fun b => bind (active_attrs fr err cas)
               (fun l => kf (if b then a :: l else l)))) w).
    { intros. rewrite !run_bind. destruct (run E (conds_eval fr err cs) w). rewrite !run_bind.
      destruct (run E (active_attrs fr err cas) w0). reflexivity. }
    assert (A2 : forall E w, run E (bind (bind (pconds p (map (fun f => lift_fn f) cs))
                 (fun b => bind (pactive p (map lift_cond cas))
               (fun l => Ret (if b then lift_attr a :: l else l)))) kp) w =
             run E (bind (pconds p (map (fun f => lift_fn f) cs)) (fun b => bind (pactive p (map lift_cond cas))
               (fun l => kp (if b then lift_attr a :: l else l)))) w).
    { intros. rewrite !run_bind. destruct (run E (pconds p (map (fun f => lift_fn f) cs)) w). rewrite !run_bind.
      destruct (run E (pactive p (map lift_cond cas)) w0). reflexivity. }
    intros E lg u t h C.
    pose proof (sim_conds res er fr p err cs
      (fun b => bind (active_attrs fr err cas) (fun l => kf (if b then a :: l else l)))
      (fun b => bind (pactive p (map lift_cond cas)) (fun l => kp (if b then lift_attr a :: l else l)))) as G.
    destruct G with (E := E) (lg := lg) (u := u) (t := t) (h := h) as (h' & x & w & R1 & R2 & X1).
    + intro b. apply IH. intro l. destruct b; [apply (H (a :: l))|apply (H l)].
    + exact C.
    + exists h', x, w. rewrite A1, A2. auto.
Qed.

Lemma lift_name a : attr_name (lift_attr a) = attr_name a.
Proof. destruct a; reflexivity. Qed.
Lemma lift_ev_get l name : @ev_get PW (map lift_attr l) name = map lift_attr (ev_get l name).
Proof.
  induction l as [|a l IH]; [reflexivity|]. unfold ev_get in *. cbn [map filter].
  rewrite lift_name. destruct (beq (attr_name a) name); cbn [map]; [f_equal|]; exact IH.
Qed.
Lemma lift_ev_names l : @ev_names PW (map lift_attr l) = ev_names l.
Proof. induction l as [|a l IH]; [reflexivity|]. cbn [map ev_names]. rewrite lift_name, IH. reflexivity. Qed.
Lemma lift_all_values l : @all_values PW (map lift_attr l) = map lift_value (all_values l).
Proof.
  induction l as [|a l IH]; [reflexivity|]. unfold all_values in *. cbn [map flat_map].
  rewrite map_app, <- IH. destruct a; reflexivity.
Qed.
Lemma lift_last l a : last (map lift_attr l) (lift_attr a) = lift_attr (last l a).
Proof. induction l as [|b l IH]; [reflexivity|]. destruct l as [|c l]; [reflexivity|]. exact IH. Qed.
Lemma lift_resolve_static a es : @resolve_static PW (lift_attr a) (map lift_attr es) = lift_attr (resolve_static a es).
Proof.
  destruct a; unfold resolve_static; cbn [lift_attr].
  - exact (lift_last es (APlain name vs)).
  - exact (lift_last es (ABool name)).
  - rewrite map_app, lift_all_values. reflexivity.
Qed.
Lemma lift_resolve_dynamic a es : @resolve_dynamic PW (lift_attr a) (map lift_attr es) = lift_attr (resolve_dynamic a es).
Proof. exact (lift_resolve_static a es). Qed.

Lemma sim_static fr p attrs idx ev : forall names err,
  sim1 fr p err (static_loop fr attrs idx ev names err)
       (peach p (pchoose_static (map lift_attr attrs) idx (map lift_attr ev)) names).
Proof.
  induction names as [|name names IH]; intro err; cbn [static_loop peach]; [apply sim_ret; reflexivity|].
  apply sim1_bind; [|intro; apply IH]. unfold pchoose_static.
  destruct (idx_get idx name) as [i|]; [|apply sim_ret; reflexivity].
  rewrite nth_error_map. destruct (nth_error attrs i) as [a|]; [|apply sim_ret; reflexivity]. cbn [option_map].
  rewrite lift_ev_get. destruct (ev_get ev name) as [|x es]; [apply sim_attr|].
  change (map lift_attr (x :: es)) with (lift_attr x :: map lift_attr es) at 1. cbv iota.
  change (@resolve_static PW (lift_attr a) (lift_attr x :: map lift_attr es))
    with (@resolve_static PW (lift_attr a) (map lift_attr (x :: es))).
  rewrite lift_resolve_static. apply sim_attr.
Qed.
Lemma sim_dynamic fr p idx ev : forall names err,
  sim1 fr p err (dynamic_loop fr idx ev names err) (peach p (pchoose_dynamic idx (map lift_attr ev)) names).
Proof.
  induction names as [|name names IH]; intro err; cbn [dynamic_loop peach]; [apply sim_ret; reflexivity|].
  apply sim1_bind; [|intro; apply IH]. unfold pchoose_dynamic.
  destruct (idx_get idx name) as [i|]; [apply sim_ret; reflexivity|].
  rewrite lift_ev_get. destruct (ev_get ev name) as [|x es]; [apply sim_ret; reflexivity|].
  cbn [map]. rewrite lift_resolve_dynamic. apply sim_attr.
Qed.
Lemma sim_attrs fr p : forall attrs err, sim1 fr p err (attrs_render fr attrs err) (pattrs p (map lift_attr attrs)).
Proof.
  induction attrs as [|a attrs IH]; intro err; cbn [attrs_render map pattrs]; [apply sim_ret; reflexivity|].
  apply sim1_bind; [apply sim_attr|intro; apply IH].
Qed.
Lemma sim_attributes fr p attrs idx conds err :
  sim1 fr p err (render_attributes fr attrs idx conds err)
       (pattributes p (map lift_attr attrs) idx (map lift_cond conds)).
Proof.
  unfold render_attributes, pattributes. apply sim_active. intros [|a l]; [apply sim_attrs|].
  change (map lift_attr (a :: l)) with (lift_attr a :: map lift_attr l) at 1. cbv iota.
  apply sim_pick. intro names. apply sim1_bind; [apply sim_static|]. intro e.
  rewrite <- (lift_ev_names (a :: l)). apply sim_pick. intro names'. apply sim_dynamic.
Qed.

(** ** Imperative tags *)

Definition lift_entry (x : bytes * option (list (value U))) : bytes * option (list (value pstate)) :=
  (fst x, option_map (map lift_value) (snd x)).

Lemma lift_interpose d vs : @interpose PW d (map lift_value vs) = map lift_value (interpose d vs).
Proof.
  induction vs as [|v vs IH]; [reflexivity|]. cbn [map interpose].
  destruct vs as [|v' vs]; [reflexivity|]. cbn [map] in *. rewrite IH. reflexivity.
Qed.
Lemma lift_append d : forall vs avs,
  @append_delim PW d (map lift_value avs) (map lift_value vs) = map lift_value (append_delim d avs vs).
Proof.
  induction vs as [|v vs IH]; intro avs; [reflexivity|]. cbn [map append_delim]. rewrite <- IH. f_equal.
  rewrite map_app. f_equal. destruct avs as [|x avs]; [reflexivity|].
  cbn [map]. rewrite map_app. reflexivity.
Qed.
Lemma lift_keys acc : map fst (map lift_entry acc) = map fst acc.
Proof. rewrite map_map. reflexivity. Qed.
Lemma lift_upd acc name f f' :
  (forall x, f' (option_map (map lift_value) x) = option_map (map lift_value) (f x)) ->
  upd_assoc (map lift_entry acc) name f' = map lift_entry (upd_assoc acc name f).
Proof.
  intro H. induction acc as [|[n x] acc IH]; [reflexivity|]. cbn [map upd_assoc]. unfold lift_entry at 1. cbn [fst snd].
  destruct (beq n name); cbn [map]; unfold lift_entry at 2; cbn [fst snd].
  - rewrite H. reflexivity.
  - rewrite IH. reflexivity.
Qed.
Lemma lift_start_add acc a : @start_add PW (map lift_entry acc) (lift_attr a) = map lift_entry (start_add acc a).
Proof.
  unfold start_add. rewrite lift_name, lift_keys. destruct (bmem (attr_name a) (map fst acc)).
  - apply lift_upd. intro x. destruct a as [n vs|n|n d vs]; cbn [lift_attr]; try reflexivity.
    destruct vs as [|v vs]; [reflexivity|].
    change (map lift_value (v :: vs)) with (lift_value v :: map lift_value vs). cbv iota.
    change (lift_value v :: map lift_value vs) with (map lift_value (v :: vs)).
    destruct x as [avs|]; cbn [option_map].
    + rewrite lift_append. reflexivity.
    + rewrite <- lift_append. reflexivity.
  - rewrite map_app. f_equal. cbn [map]. f_equal. unfold lift_entry. cbn [fst snd]. f_equal.
    destruct a as [n vs|n|n d vs]; cbn [lift_attr option_map]; try reflexivity. rewrite lift_interpose. reflexivity.
Qed.
Lemma lift_start_attrs : forall l acc,
  fold_left (@start_add PW)
    (flat_map (fun o => match o with Some (NAttr a) => [lift_attr a] | _ => [] end) l) (map lift_entry acc)
  = map lift_entry (start_attrs l acc).
Proof.
  induction l as [|[n|] l IH]; intro acc; cbn [flat_map start_attrs app]; [reflexivity| |apply IH].
  destruct n; cbn [app]; try apply IH. cbn [fold_left]. rewrite lift_start_add. apply IH.
Qed.
Lemma sim_start_render fr p : forall l err,
  sim1 fr p err (start_render fr l err) (pstart_render p (map lift_entry l)).
Proof.
  induction l as [|[n vs] l IH]; intro err; cbn [start_render map pstart_render]; [apply sim_ret; reflexivity|].
  unfold lift_entry at 1. cbn [fst snd].
  apply sim1_bind; [apply sim_write|intro]. apply sim1_bind; [apply sim_write|intro].
  apply sim1_bind; [|intro; apply IH].
  destruct vs as [vs|]; cbn [option_map]; [|apply sim_ret; reflexivity].
  apply sim1_bind; [apply sim_write|intro]. apply sim1_bind; [apply sim_values|intro]. apply sim_write.
Qed.
Lemma sim_start fr p name attrs err :
  sim1 fr p err (start_tag fr name attrs err)
    (pstart p name (flat_map (fun o => match o with Some (NAttr a) => [lift_attr a] | _ => [] end) attrs)).
Proof.
  unfold start_tag, pstart.
  apply sim1_bind; [apply sim_write|intro]. apply sim1_bind; [apply sim_write|intro].
  apply sim1_bind; [|intro].
  { match goal with |- sim1 _ _ _ _ (pstart_render _ ?l) =>
      replace l with (map lift_entry (start_attrs attrs [])) by (symmetry; exact (lift_start_attrs attrs [])) end.
    apply sim_start_render. }
  apply sim_write.
Qed.
Lemma sim_close fr p name err : sim1 fr p err (close_tag name err) (pclose p name).
Proof. unfold close_tag, pclose. repeat (apply sim1_bind; [apply sim_write|intro]). apply sim_write. Qed.
Lemma sim_close_all fr p : forall stack err, sim1 fr p err (close_all stack err) (pclose_all p stack).
Proof.
  induction stack as [|n s IH]; intro err; cbn [close_all pclose_all]; [apply sim_ret; reflexivity|].
  apply sim1_bind; [apply sim_close|intro; apply IH].
Qed.
End PointerFacts.
