(** C81: goroutines that share not only nodes and templates (C80) but also the
    writer.

    template.go 11-12 says of Execute that a template may be executed safely in
    parallel, but that the output may be interleaved if the executions share a
    writer.  Here any number of goroutines render and execute, all with the one
    writer, which answers each call as it likes by all the calls it has got.  A call of
    Write is one step (GoShared.v), so the writer has to be safe for concurrent use. *)
From Coq Require Import ZArith Lia.
From Verif Require Import Bytes IO IOFacts Nodes Values Render Build Slices SpecOut SpecErr SpecRun Api ApiFacts PropErrors Template PropTemplate GoSyntax Source GoSem GoRun GoRep GoStep GoThreads GoShared RefineNode RefineUser RefineIter RefineAll RefineTemplate PropTemplateGo PropGo GoExamples Demo PropThreads.
Local Open Scope nat_scope.

(** [mixed ps out]: [out] is made by taking pieces from the fronts of the [ps] until
    they are all used up. *)
Inductive mixed : list bytes -> bytes -> Prop :=
| mixed_end ps : Forall (fun p => p = []) ps -> mixed ps []
| mixed_take ps i x p out : nth_error ps i = Some (x ++ p) -> mixed (set_nth ps i p) out -> mixed ps (x ++ out).

Section Claims.
Context {W : UserWorld}.
Variable M : go_mode.
Hypothesis MO : mode_ok M.
Notation C := (go_config M).

(** The task with a writer of its own, and nothing written yet. *)
Definition given (v : writer) (k : task (W := W)) : task := Task (k_job k) (k_own k) (Env v (e_ord (k_env k))) (k_world k).
Definition fresh (k : task (W := W)) : Prop := w_log (k_world k) = [].
(** What it writes alone, to a writer that accepts everything. *)
Definition whole (k : task (W := W)) : bytes :=
  accepted (w_log (snd (run (Env healthy (e_ord (k_env k))) (job_alone (k_job k)) (k_world k)))).

Lemma given_ok V g ks : Forall (task_ok M g) ks -> forall j,
  exists ks', with_writers V j (map start ks) = map start ks' /\ Forall (task_ok M g) ks' /\
    forall i k, nth_error ks i = Some k -> nth_error ks' i = Some (given (V (j + i)) k).
Proof.
  induction 1 as [|k ks (O & J) _ IH]; intro j.
  - exists []. split; [reflexivity|]. split; [constructor|]. intros [|i] k; discriminate.
  - destruct (IH (S j)) as (ks' & E1 & E2 & E3). exists (given (V j) k :: ks'). cbn [map with_writers]. rewrite E1. split; [reflexivity|].
    split; [constructor; [split; [exact O|exact J]|exact E2]|]. intros [|i] k0; cbn [nth_error].
    + intros [= <-]. rewrite Nat.add_0_r. reflexivity.
    + intro H. rewrite (E3 _ _ H). do 2 f_equal. replace (S j + i) with (j + S i) by lia. reflexivity.
Qed.
Lemma start_logged ks : Forall fresh ks -> logged (map start ks) [].
Proof.
  intros H i t Ht. rewrite nth_error_map in Ht. destruct (nth_error ks i) as [k|] eqn:Hk; [|discriminate]. cbn [option_map] in Ht. inversion Ht; subst.
  rewrite Forall_forall in H. exact (H _ (nth_error_In _ _ Hk)).
Qed.
Lemma Forall2_at {X Y} (R : X -> Y -> Prop) l l' : Forall2 R l l' -> forall i x, nth_error l i = Some x -> exists y, nth_error l' i = Some y /\ R x y.
Proof. induction 1 as [|x y l l' H _ IH]; intros [|i] z; cbn [nth_error]; try discriminate; [intros [= <-]; eauto|eauto]. Qed.

(** With any writers that give the recorded answers. *)
Lemma shared_as wr V g ks sched g' ts' L : Forall (task_ok M g) ks -> Forall fresh ks ->
  sturns C wr sched g (map start ks) [] g' ts' L -> (forall i, agrees (V i) 0 (of i L)) ->
  g' = g /\ (s_rest C wr g' ts' L -> forall i k, nth_error ks i = Some k ->
    exists t, nth_error ts' i = Some t /\ ended g (given (V i) k) t /\ w_log (t_world t) = of i L).
Proof.
  intros HK HF T HV. pose proof (start_logged ks HF) as HL.
  pose proof (follow_turns C wr V sched _ _ _ _ _ _ HL T HV) as T'. destruct (given_ok V g ks HK 0) as (ks' & E1 & E2 & E3). rewrite E1 in T'.
  destruct (C80_goroutines M MO g ks' E2) as (total & X). destruct (X _ _ _ T') as (-> & _ & _ & Y). split; [reflexivity|].
  intros R i k Hk. specialize (Y (rest_any C wr V g ts' L R)). specialize (E3 i k Hk). cbn [Nat.add] in E3.
  destruct (Forall2_at _ _ _ Y _ _ E3) as (t & Ht & En). rewrite with_writers_nth in Ht.
  destruct (nth_error ts' i) as [t'|] eqn:Ht'; [|discriminate]. cbn [option_map] in Ht. inversion Ht; subst; clear Ht.
  exists t'. split; [reflexivity|]. split; [exact En|]. destruct (logged_turns C _ _ _ _ _ _ _ _ HL T) as (HL' & _). exact (HL' _ _ Ht').
Qed.

(** C81.  Whatever the writer and the schedule, nothing shared is ever changed, and
    when the goroutines have come to rest each of them has done what it does alone
    with some writer of its own; the calls it has made are those that the shared
    writer got from it, with the answers that the shared writer gave. *)
Theorem C81_goroutines wr g ks sched g' ts' L : Forall (task_ok M g) ks -> Forall fresh ks ->
  sturns C wr sched g (map start ks) [] g' ts' L ->
  g' = g /\ answered wr L /\
  (s_rest C wr g' ts' L -> exists V, forall i k, nth_error ks i = Some k ->
    exists t, nth_error ts' i = Some t /\ ended g (given (V i) k) t /\ w_log (t_world t) = of i L).
Proof.
  intros HK HF T.
  assert (An : answered wr L). { eapply answered_turns; [apply start_logged; exact HF| |exact T]. intros [|? ?]; discriminate. }
  destruct (shared_as wr (fun i => replayed (of i L) healthy) g ks sched g' ts' L HK HF T (fun i => replayed_agrees _ _ 0)) as (E0 & Y).
  split; [exact E0|]. split; [exact An|]. intro R. eexists. exact (Y R).
Qed.

(** From every moment on, all can go on to the end. *)
Theorem C81_ends wr g ks sched g' ts' L : Forall (task_ok M g) ks -> Forall fresh ks ->
  sturns C wr sched g (map start ks) [] g' ts' L ->
  exists more ts2 L2, sturns C wr (sched ++ more) g (map start ks) [] g ts2 L2 /\ s_rest C wr g ts2 L2.
Proof.
  intros HK HF T. pose proof (start_logged ks HF) as HL.
  assert (F : forall m, exists more ts2 L2, sturns C wr (sched ++ more) g (map start ks) [] g ts2 L2 /\ length ts2 = length ks /\
    forall i t, i < m -> nth_error ts2 i = Some t -> done t).
  { induction m as [|m (more & ts2 & L2 & T2 & Le & D)].
    - exists [], ts', L. rewrite app_nil_r. destruct (C81_goroutines wr g ks sched g' ts' L HK HF T) as (E0 & _). subst g'.
      split; [exact T|]. split; [|lia]. rewrite <- (map_length start ks). symmetry. exact (sturns_length C _ _ _ _ _ _ _ _ T).
    - destruct (nth_error ts2 m) as [t|] eqn:Ht.
      + set (V := fun i => replayed (of i L2) (fun h d => wr (map snd L2 ++ skipn (length (of i L2)) h) d)).
        pose proof (follow_turns C wr V _ _ _ _ _ _ _ HL T2 (fun i => replayed_agrees _ _ _)) as T'.
        destruct (given_ok V g ks HK 0) as (ks' & E1 & E2 & _). rewrite E1 in T'.
        destruct (tasks_going M MO g ks' E2) as (rs & k & G & _). destruct (going_turns C g _ _ _ _ _ _ G T') as (_ & _ & G' & _).
        destruct (going_nth C g _ _ _ G' m _ ltac:(rewrite with_writers_nth, Ht; reflexivity)) as (j & x & own & w & Go).
        unfold goes in Go. cbn [t_env t_code t_own t_world option_map Nat.add] in Go.
        destruct (logged_turns C _ _ _ _ _ _ _ _ HL T2) as (HL' & _).
        destruct (alone C wr m g j t ts2 L2 (V m) x own w Ht) as (s2 & L3 & T3); [|exact Go|].
        * intros l d. unfold V, replayed. rewrite (HL' _ _ Ht). rewrite (proj2 (nth_error_None _ _)) by (rewrite app_length; lia).
          rewrite skipn_app, skipn_all, Nat.sub_diag. reflexivity.
        * exists (more ++ s2). eexists _, L3. split; [rewrite app_assoc; eapply sturns_app; eassumption|].
          split; [rewrite set_nth_length; exact Le|]. intros i t' Hi Ht'. destruct (Nat.eq_dec m i) as [<-|Dm].
          -- rewrite (set_nth_same _ _ _ _ Ht) in Ht'. inversion Ht'; subst. exists x. reflexivity.
          -- rewrite (set_nth_other _ _ _ _ Dm) in Ht'. apply (D i); [lia|exact Ht'].
      + exists more, ts2, L2. split; [exact T2|]. split; [exact Le|]. intros i t Hi Hit. destruct (Nat.eq_dec m i) as [<-|Dm]; [congruence|]. apply (D i); [lia|exact Hit]. }
  destruct (F (length ks)) as (more & ts2 & L2 & T2 & Le & D). exists more, ts2, L2. split; [exact T2|].
  intros n i. unfold sturn. destruct (nth_error ts2 i) as [t|] eqn:Ht; [|reflexivity].
  destruct (D i t) as (x & Ex); [rewrite <- Le; apply nth_error_Some; congruence|exact Ht|]. rewrite Ex. reflexivity.
Qed.

(** If the writer dies, then of each goroutine it has got a beginning of what that
    writes alone; and if it has refused a call of a goroutine that renders with no
    user code that could hide it, this goroutine returns an error. *)
Theorem C81_dying wr g ks sched g' ts' L i k : Forall (task_ok M g) ks -> Forall fresh ks -> dying wr ->
  sturns C wr sched g (map start ks) [] g' ts' L -> s_rest C wr g' ts' L -> nth_error ks i = Some k ->
  (exists rest, whole k = accepted (of i L) ++ rest) /\
  exists t, nth_error ts' i = Some t /\
    match k_job k with
    | Rendering _ n _ _ None => tame any_data n -> failed (of i L) = true -> exists e, t_code t = Code (PRet [VErr e]) KNil
    | _ => True
    end.
Proof.
  intros HK HF Dy T R Hk. destruct (C81_goroutines wr g ks sched g' ts' L HK HF T) as (_ & An & _).
  destruct (shared_as wr (fun i => mortal (replayed (of i L) healthy)) g ks sched g' ts' L HK HF T) as (_ & Z).
  { intro j. apply mortal_agrees, (dying_mortal wr L Dy An). }
  destruct (Z R i k Hk) as (t & Ht & En & El). clear Z. set (v := mortal (replayed (of i L) healthy)) in *.
  assert (Dv : dying v) by apply mortal_dying.
  rewrite Forall_forall in HF. pose proof (HF _ (nth_error_In _ _ Hk)) as Fk. unfold fresh in Fk.
  unfold ended in En. cbn [given k_env k_job k_world] in En. unfold whole. destruct k as [j a E w]. cbn [k_env k_job k_world] in *.
  destruct w as [l u tick]. cbn [w_log] in Fk. subst l. split.
  - destruct (dying_prefix v (e_ord E) (job_alone j) u tick Dv) as (rest & P). exists rest. rewrite P. f_equal.
    destruct (run (Env v (e_ord E)) (job_alone j) (World [] u tick)) as [r w']. destruct En as (_ & Ew & _). cbn [snd]. congruence.
  - exists t. split; [exact Ht|]. destruct j as [n0 n lc fr [e0|]|tv tm d c]; auto. intros Tm Fl. cbn [job_alone] in En.
    pose proof (C21_reported_partial (e_ord E) n fr (u, tick) v (dying_keeps v Dv) Tm) as X. unfold outcome_of in X. cbn [fst snd] in X.
    destruct (run (Env v (e_ord E)) (render n fr None) (World [] u tick)) as [[r e] w']. cbn [fst snd] in *. destruct En as (E1 & E2 & _).
    rewrite El in E2 || idtac. destruct X as (X & _); [rewrite <- E2, El; exact Fl|]. destruct r as [r|]; [|contradiction]. exists r. exact E1.
Qed.

(** A goroutine all of whose calls were accepted has done what it does with a
    writer that accepts everything: for a page made by the constructors, with no
    user code that reports an error, it has returned nil, and the bytes that the
    writer got from it are the page. *)
Definition accepts (c : wcall) : Prop := wc_n c = length (wc_data c) /\ wc_err c = None.
Lemma accepts_agrees l : Forall accepts l -> agrees healthy 0 l.
Proof. intros H pre c post -> _. apply Forall_app in H as (_ & H). inversion H as [|? ? (H1 & H2) _]; subst. unfold healthy. congruence. Qed.
Theorem C81_accepted wr g ks sched g' ts' L i k : Forall (task_ok M g) ks -> Forall fresh ks ->
  sturns C wr sched g (map start ks) [] g' ts' L -> s_rest C wr g' ts' L -> nth_error ks i = Some k -> Forall accepts (of i L) ->
  exists t, nth_error ts' i = Some t /\ ended g (given healthy k) t /\ accepted (of i L) = whole k.
Proof.
  intros HK HF T R Hk HA.
  destruct (shared_as wr (fun j => if j =? i then healthy else replayed (of j L) healthy) g ks sched g' ts' L HK HF T) as (_ & Z).
  { intro j. destruct (Nat.eqb_spec j i) as [->|]; [apply accepts_agrees, HA|apply replayed_agrees]. }
  destruct (Z R i k Hk) as (t & Ht & En & El). rewrite Nat.eqb_refl in En. exists t. split; [exact Ht|]. split; [exact En|].
  rewrite <- El. unfold ended in En. cbn [given k_env k_job k_world] in En. unfold whole.
  destruct (run (Env healthy (e_ord (k_env k))) (job_alone (k_job k)) (k_world k)) as [r w']. destruct En as (_ & -> & _). reflexivity.
Qed.
Theorem C81_pages wr g ks sched g' ts' L i v n lc fr a E u tick : Forall (task_ok M g) ks -> Forall fresh ks ->
  sturns C wr sched g (map start ks) [] g' ts' L -> s_rest C wr g' ts' L ->
  nth_error ks i = Some (Task (Rendering v n lc fr None) a E (World [] u tick)) -> api n -> quiet n -> Forall accepts (of i L) ->
  accepted (of i L) = fst (snode (e_ord E) n fr (u, tick)) /\
  exists t, nth_error ts' i = Some t /\ t_code t = Code (PRet [VNil]) KNil /\ ctx_at (g ++ t_own t) lc fr None.
Proof.
  intros HK HF T R Hk A Q HA. destruct (C81_accepted wr g ks sched g' ts' L i _ HK HF T R Hk HA) as (t & Ht & En & Ea). rewrite Ea.
  assert (O : ord_ok (e_ord E)). { rewrite Forall_forall in HK. exact (proj1 (HK _ (nth_error_In _ _ Hk))). }
  pose proof (C19_healthy (e_ord E) n fr (u, tick) O A Q) as Z. unfold outcome_of in Z. cbn [fst snd] in Z.
  unfold ended in En. unfold whole. cbn [given k_env k_job k_world job_alone e_ord] in *.
  destruct (run (Env healthy (e_ord E)) (render n fr None) (World [] u tick)) as [[r e] w']. cbn [fst snd job_left] in *.
  destruct Z as (-> & -> & _ & Z & _). destruct En as (E1 & _ & E3). split; [exact Z|]. exists t. auto.
Qed.

(** The output is a mixture of what the goroutines write alone. *)
Lemma accepted_cons c l : accepted (c :: l) = firstn (wc_n c) (wc_data c) ++ accepted l.
Proof. reflexivity. Qed.
Lemma mixed_traffic : forall L ps, (forall i p, nth_error ps i = Some p -> accepted (of i L) = p) -> (forall i c, In (i, c) L -> i < length ps) ->
  mixed ps (accepted (map snd L)).
Proof.
  induction L as [|[i c] L IH]; intros ps H1 H2; cbn [map snd].
  - constructor. apply Forall_forall. intros p Hp. apply In_nth_error in Hp as (i & Hi). rewrite <- (H1 i p Hi). reflexivity.
  - rewrite accepted_cons. destruct (nth_error ps i) as [p|] eqn:Hp; [|apply nth_error_None in Hp; specialize (H2 i c (or_introl eq_refl)); lia].
    apply (mixed_take _ i _ (accepted (of i L))).
    + etransitivity; [exact Hp|]. f_equal. rewrite <- (H1 _ _ Hp). unfold of. cbn [filter fst]. rewrite Nat.eqb_refl. reflexivity.
    + apply IH.
      * intros j q Hq. destruct (Nat.eq_dec i j) as [<-|D]; [rewrite (set_nth_same _ _ _ _ Hp) in Hq; congruence|].
        rewrite (set_nth_other _ _ _ _ D) in Hq. rewrite <- (H1 j q Hq). unfold of. cbn [filter fst]. destruct (Nat.eqb_spec i j); [contradiction|reflexivity].
      * intros j d Hj. rewrite set_nth_length. apply (H2 j d). right. exact Hj.
Qed.
Theorem C81_mixed wr g ks sched g' ts' L : Forall (task_ok M g) ks -> Forall fresh ks -> (forall h d, wr h d = (length d, None)) ->
  sturns C wr sched g (map start ks) [] g' ts' L -> s_rest C wr g' ts' L ->
  mixed (map whole ks) (accepted (map snd L)).
Proof.
  intros HK HF Hw T R. destruct (C81_goroutines wr g ks sched g' ts' L HK HF T) as (_ & An & _). apply mixed_traffic.
  - intros i p Hp. rewrite nth_error_map in Hp. destruct (nth_error ks i) as [k|] eqn:Hk; [|discriminate]. cbn [option_map] in Hp. inversion Hp; subst.
    destruct (C81_accepted wr g ks sched g' ts' L i k HK HF T R Hk) as (t & _ & _ & X); [|exact X].
    apply Forall_forall. intros c Hc. unfold of in Hc. apply in_map_iff in Hc as ([j c'] & <- & Hc). apply filter_In in Hc as (Hc & _).
    apply in_split in Hc as (l1 & l2 & ->). specialize (An l1 j c' l2 eq_refl). rewrite Hw in An. inversion An. cbn [snd]. split; congruence.
  - intros i c Hc. rewrite map_length, <- (map_length start ks). apply (sturns_range C _ _ _ _ _ _ _ _ T) in Hc as [[]|Hc]. exact Hc.
Qed.

(** *** Schedules that can be computed *)
Fixpoint splay (wr : writer) (n : nat) (sched : list nat) (g : heap) (ts : list (thread (list gv))) (L : traffic) : heap * list (thread (list gv)) * traffic :=
  match sched with
  | [] => (g, ts, L)
  | i :: sched' => match sturn C wr n i g ts L with
                   | Some (g1, ts1, L1) => splay wr n sched' g1 ts1 L1
                   | None => splay wr n sched' g ts L
                   end
  end.
Lemma splay_turns wr n sched : forall g ts L g' ts' L', splay wr n sched g ts L = (g', ts', L') -> exists s, sturns C wr s g ts L g' ts' L'.
Proof.
  induction sched as [|i sched IH]; intros g ts L g' ts' L'; cbn [splay].
  - intros [= <- <- <-]. exists []. cbn [sturns]. auto.
  - destruct (sturn C wr n i g ts L) as [[[g1 ts1] L1]|] eqn:T; intro H; [|eauto]. destruct (IH _ _ _ _ _ _ H) as (s & X). exists ((n, i) :: s). cbn [sturns]. eauto.
Qed.
Lemma splay_followed wr n sched g ts L : exists s, sturns C wr s g ts L (fst (fst (splay wr n sched g ts L))) (snd (fst (splay wr n sched g ts L))) (snd (splay wr n sched g ts L)).
Proof. apply (splay_turns wr n sched). destruct (splay wr n sched g ts L) as [[? ?] ?]. reflexivity. Qed.
Lemma returned_s_rest wr g ts L : Forall (fun t => exists x : list gv, t_code t = Code (PRet x) KNil) ts -> s_rest C wr g ts L.
Proof.
  intros H n i. unfold sturn. destruct (nth_error ts i) as [t|] eqn:X; [|reflexivity]. rewrite Forall_forall in H.
  destruct (H t (nth_error_In _ _ X)) as (x & Hx). rewrite Hx. reflexivity.
Qed.
End Claims.

(** ** Cases *)

(** The two goroutines of PropThreads.v, with one writer. *)
Definition root1 : gv (W := demo) := Eval vm_compute in match built_nodes with Some (v, _) => v | None => VNil end.
Definition heap1 : heap (W := demo) := Eval vm_compute in match built_nodes with Some (_, g) => g | None => [] end.
Definition tasks1 : list (task (W := demo)) := two_tasks heap1 root1.
(** The hypotheses. *)
Example C81_example : Forall (task_ok the_mode heap1) tasks1 /\ Forall fresh tasks1.
Proof.
  split; [|repeat constructor]. destruct C80_example as (v & g & Eb & HK).
  assert (X : built_nodes = Some (root1, heap1)) by (vm_compute; reflexivity). rewrite X in Eb. injection Eb as <- <-. exact HK.
Qed.
Definition shared (wr : writer) (l : list nat) := splay the_mode wr 100 l heap1 (map start tasks1) [].
Definition outcome (wr : writer) (l : list nat) : bytes * list bytes * list bool :=
  let '(_, ts, L) := shared wr l in (accepted (map snd L), [accepted (of 0 L); accepted (of 1 L)], map returned ts).
(** One after the other, the pages are; in turns, they are mixed. *)
Example apart : outcome healthy (rounds 2000 [0] ++ rounds 2000 [1]) = (busy_bytes ++ busy_bytes, [busy_bytes; busy_bytes], [true; true]).
Proof. vm_compute. reflexivity. Qed.
Example in_turns_shared : fst (fst (outcome healthy (rounds 100 [0; 1]))) = B "<<pp  idid=""=""77"""">>".
Proof. vm_compute. reflexivity. Qed.
(** The writer accepts fifty bytes and then fails with 7: both goroutines return it. *)
Definition returns (t : thread (W := demo) (list gv)) : option (list gv) :=
  let 'Code p K := t_code t in
  match K in kont _ X return prog X -> option (list gv) with
  | KNil => fun p => match p with PRet x => Some x | _ => None end
  | KPush _ _ => fun _ => None
  end p.
Example fails_for_both : outcome (dies_after 50 7) (rounds 2000 [0; 1]) =
  (firstn 50 (fst (fst (outcome healthy (rounds 2000 [0; 1])))), [firstn 26 busy_bytes; firstn 24 busy_bytes], [true; true]) /\
  map returns (snd (fst (shared (dies_after 50 7) (rounds 2000 [0; 1])))) = [Some [VErr 7]; Some [VErr 7]].
Proof. split; vm_compute; reflexivity. Qed.
(** The hypotheses of [C81_dying] and [C81_pages]: two goroutines render the page of
    PropErrors.v to one writer. *)
Example C81_pages_example : exists v g,
  let ks := [Task (Rendering v report_page (length g) fr0 None) [ctx_obj None (Some 0) GNil VNil] E0 (World [] (st 0) 0);
             Task (Rendering v report_page (length g) fr0 None) [ctx_obj None (Some 0) GNil VNil] E0 (World [] (st 1) 0)] in
  Forall (task_ok the_mode g) ks /\ Forall fresh ks /\ api report_page /\ quiet report_page /\ tame any_data report_page /\ dying (dies_after 16 7).
Proof.
  assert (X : GoRun.sim (go_config the_mode) (pbind (reify (go_config the_mode) report_page) PRet) [] (Ret tt : io (@U demo) unit) (fun v h' _ => node_rep the_mode h' v report_page)).
  { apply makes_node; [apply mode_known, the_mode_ok|]. intros v h1 G1 H1. apply sim_ret. exact H1. }
  apply sim_eta in X. destruct (sim_never _ _ _ _ _ X E0 (World [] (st 0) 0) listed_ok) as (k & v & h & R & HN). exists v, h. cbv zeta.
  assert (T : SpecOut.tables_ok report_page) by (repeat split; cbn; repeat constructor; cbn; tauto).
  split.
  - repeat apply Forall_cons; [| |constructor]; (split; [exact listed_ok|]; split; [exact HN|]; split; [exact T|]; split; [|apply Nat.le_refl];
      exists VNil; split; [apply nth_app_new|]; split; [constructor|apply Nat.le_0_l]).
  - split; [repeat constructor|]. split; [exact report_page_api|]. split; [exact report_page_quiet|]. destruct C21_example as (D & _ & Tm & _). auto.
Qed.

(** The pages are not whole in general, as the comment in template.go says. *)
Theorem C81_whole_pages_refuted : exists g ks sched ts L, Forall (task_ok the_mode g) ks /\ Forall fresh ks /\
  sturns (go_config the_mode) healthy sched g (map start ks) [] g ts L /\ s_rest (go_config the_mode) healthy g ts L /\
  map whole ks = [busy_bytes; busy_bytes] /\ accepted (map snd L) <> busy_bytes ++ busy_bytes.
Proof.
  destruct C81_example as (HK & HF).
  destruct (splay_followed the_mode healthy 100 (rounds 2000 [0; 1]) heap1 (map start tasks1) []) as (s & T).
  pose proof (C81_goroutines the_mode the_mode_ok healthy heap1 tasks1 s _ _ _ HK HF T) as (Eg & _). rewrite Eg in T.
  eexists heap1, tasks1, s, _, _. split; [exact HK|]. split; [exact HF|]. split; [exact T|].
  split; [apply returned_s_rest, all_returned; vm_compute; reflexivity|]. split; [vm_compute; reflexivity|].
  intro H. apply (f_equal (fun b => beq b (busy_bytes ++ busy_bytes))) in H. vm_compute in H. discriminate.
Qed.
