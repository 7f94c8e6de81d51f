(** C80: any number of goroutines render nodes and execute templates that they
    share, each with a context of its own.

    What the goroutines share is the heap [g]: nodes, templates, and everything
    these point to, and also parent contexts.  Each goroutine has its own context,
    among its own objects, its own writer, and its own state of user code.  GoThreads.v says
    what a step of a goroutine is; the schedule is arbitrary.  The claims are about
    the translated Go source (Source.v).

    The Render methods: element.go 68-74, 128-139, attribute.go 15-130, value.go 35-51,
    iterate.go 76-167, imperative.go 38-61 and the others; Execute: template.go 14-28,
    whose comment says that a template may be executed safely in parallel. *)
From Coq Require Import ZArith Lia.
From Verif Require Import Bytes IO IOFacts Nodes Values Render Build Slices SpecOut SpecRun Api ApiFacts PropErrors Template PropTemplate GoSyntax Source GoSem GoRun GoRep GoStep GoThreads RefineNode RefineUser RefineIter RefineAll RefineTemplate PropTemplateGo PropGo GoExamples Demo.
Local Open Scope nat_scope.

Section Claims.
Context {W : UserWorld}.
Variable M : go_mode.
Hypothesis MO : mode_ok M.
Notation C := (go_config M).

(** What a goroutine is to do. *)
Inductive job :=
| Rendering (v : gv) (n : node U) (lc : loc) (fr : frame U) (e : option error)
| Executing (tv : gv) (t : template) (d : option mref) (c : gval U).
Definition job_code (j : job) : prog (list gv) :=
  match j with
  | Rendering v _ lc _ _ => invoke v "Render" [VPtr lc] false
  | Executing tv _ d c => call_execute tv d c
  end.
(** The node or template is among the shared objects, and the context is not. *)
Definition job_ok (g a : heap) (j : job) : Prop :=
  match j with
  | Rendering v n lc fr e => node_rep M g v n /\ SpecOut.tables_ok n /\ ctx_at (g ++ a) lc fr e /\ length g <= lc
  | Executing tv t _ _ => template_rep M g tv t /\ Forall piece_ok t
  end.
(** What it comes to when it is alone, by the model: the error returned and, for
    Render, the one left in the context. *)
Definition job_alone (j : job) : io U (option error * option error) :=
  match j with
  | Rendering _ n _ fr e => render n fr e
  | Executing _ t d c => bind (execute t d c) (fun x => Ret (x, None))
  end.
Definition job_left (j : job) (h : heap) (r : option error) : Prop :=
  match j with
  | Rendering _ _ lc fr _ => ctx_at h lc fr r
  | Executing _ _ _ _ => True
  end.

Record task := Task { k_job : job; k_own : heap; k_env : env; k_world : world U }.
Definition task_ok (g : heap) (k : task) : Prop := ord_ok (e_ord (k_env k)) /\ job_ok g (k_own k) (k_job k).
Definition start (k : task) : thread (list gv) := Thread (Code (job_code (k_job k)) KNil) (k_own k) (k_env k) (k_world k).
(** The goroutine has returned, with the calls of its writer, the state of user
    code, and the errors that the model has for its job alone. *)
Definition ended (g : heap) (k : task) (t : thread (list gv)) : Prop :=
  let '(r, w) := run (k_env k) (job_alone (k_job k)) (k_world k) in
  t_code t = Code (PRet [verr (fst r)]) KNil /\ t_world t = w /\ job_left (k_job k) (g ++ t_own t) (snd r).

Lemma ctx_floor (g h : heap) lc fr e : ctx_at h lc fr e -> length g <= lc -> ctx_at (FL := length g) h lc fr e.
Proof. intros (pv & H1 & H2 & _) B. exists pv. auto. Qed.
Lemma ctx_ground (FL : floor) h lc fr e : ctx_at (FL := FL) h lc fr e -> ctx_at (FL := ground) h lc fr e.
Proof. intros (pv & H1 & H2 & _). exists pv. split; [exact H1|]. split; [exact H2|apply Nat.le_0_l]. Qed.

Lemma job_sim g a j : job_ok g a j ->
  GoRun.sim (FL := length g) C (job_code j) (g ++ a) (job_alone j) (fun vs h' r => vs = [verr (fst r)] /\ job_left j h' (snd r)).
Proof.
  destruct j as [v n lc fr e|tv t d c]; cbn [job_ok job_code job_alone job_left].
  - intros (HN & T & HC & B).
    eapply sim_conseq; [apply (proj1 (every_node M (FL := length g) MO) n (g ++ a) lc fr e v)|].
    + apply ctx_floor; auto.
    + eapply node_keeps; [|exact HN]. apply grown_keeps. exists a. reflexivity.
    + exact T.
    + intros vs h' r (-> & _ & HC'). split; [reflexivity|]. exact (ctx_ground _ _ _ _ _ HC').
  - intros (Ht & T). apply sim_eta. eapply sim_bind.
    + apply (Execute_spec_f M MO (FL := length g) tv t d c (g ++ a)); [unfold base; rewrite app_length; lia| |exact T].
      eapply template_grown; [|exact Ht]. exists a. reflexivity.
    + intros vs h' r [-> _]. apply sim_ret. split; [reflexivity|exact I].
Qed.

Lemma tasks_going g ks : Forall (task_ok g) ks ->
  exists rs k, going C g (map start ks) rs k /\
    Forall2 (ended g) ks (map (fun '(E, (x, own, w)) => Thread (Code (PRet x) KNil) own E w) (combine (map t_env (map start ks)) rs)).
Proof.
  induction 1 as [|t ks (O & J) _ (rs & k & G & R)]; [exists [], 0; split; constructor|].
  destruct (sim_goes C _ g (k_own t) _ _ (k_env t) (k_world t) O (job_sim g (k_own t) (k_job t) J)) as (k1 & x & own & H & -> & HL).
  eexists ((_, own, _) :: rs), (k1 + k). cbn [map combine]. split.
  - constructor; [exact H|exact G].
  - constructor; [|exact R]. unfold ended. destruct (run (k_env t) (job_alone (k_job t)) (k_world t)) as [r w] eqn:X. cbn [fst snd] in *.
    cbn [t_code t_world t_own]. auto.
Qed.

(** C80.  Whatever the schedule, nothing shared is ever changed, not even for a
    moment: [sched] is every schedule that can be followed, those that stop in the
    middle among them.  The goroutines come to rest after a number of steps that
    does not depend on the schedule, and then each of them has done exactly what
    it would have done alone. *)
Theorem C80_goroutines g ks : Forall (task_ok g) ks ->
  exists total, forall sched g' ts', turns C sched g (map start ks) g' ts' ->
    g' = g /\ length sched <= total /\ (length sched = total <-> at_rest C g' ts') /\
    (at_rest C g' ts' -> Forall2 (ended g) ks ts').
Proof.
  intro H. destruct (tasks_going g ks H) as (rs & k & G & R). exists k. intros sched g' ts' T.
  destruct (every_schedule C g _ rs k G sched g' ts' T) as (-> & L & X & Y). repeat split; auto; try apply X.
  intro Z. rewrite (Y Z). exact R.
Qed.
(** No goroutine is ever stuck or waits for another one: from every moment on, all
    can go on to the end. *)
Theorem C80_ends g ks sched g' ts' : Forall (task_ok g) ks -> turns C sched g (map start ks) g' ts' ->
  exists more ts2, turns C (sched ++ more) g (map start ks) g ts2 /\ at_rest C g ts2 /\ Forall2 (ended g) ks ts2.
Proof.
  intros H T. destruct (C80_goroutines g ks H) as (total & X). destruct (tasks_going g ks H) as (rs & k & G & _).
  destruct (can_finish C g _ rs k G sched g' ts' T) as (more & g2 & ts2 & T2 & R). destruct (X _ _ _ T2) as (-> & _ & _ & Y).
  exists more, ts2. auto.
Qed.

(** For pages: every goroutine that renders a page made by the constructors, with
    no user code that reports an error, to a writer that accepts everything, writes
    the page of the reference rendering, whole and with nothing of the other
    goroutines in between, and returns nil. *)
Theorem C80_pages g ks sched g' ts' i v n lc fr a o u tick t :
  Forall (task_ok g) ks -> turns C sched g (map start ks) g' ts' -> at_rest C g' ts' ->
  nth_error ks i = Some (Task (Rendering v n lc fr None) a (Env healthy o) (World [] u tick)) -> nth_error ts' i = Some t ->
  api n -> quiet n ->
  t_code t = Code (PRet [VNil]) KNil /\ accepted (w_log (t_world t)) = fst (snode o n fr (u, tick)) /\ ctx_at (g ++ t_own t) lc fr None.
Proof.
  intros H T R Hk Ht A Q. destruct (C80_goroutines g ks H) as (total & X). destruct (X _ _ _ T) as (-> & _ & _ & Y). specialize (Y R).
  assert (En : ended g (Task (Rendering v n lc fr None) a (Env healthy o) (World [] u tick)) t).
  { clear -Y Hk Ht. revert i Hk Ht. induction Y as [|k x ks ts Z _ IH]; intros [|i] Hk Ht; try discriminate; cbn [nth_error] in *; [congruence|eauto]. }
  assert (O : ord_ok o). { rewrite Forall_forall in H. exact (proj1 (H _ (nth_error_In _ _ Hk))). }
  pose proof (C19_healthy o n fr (u, tick) O A Q) as Z. unfold outcome_of in Z. cbn [fst snd] in Z.
  unfold ended in En. cbn [k_env k_job k_world job_alone] in En.
  destruct (run (Env healthy o) (render n fr None) (World [] u tick)) as [[r e] w'] eqn:Hr. cbn [fst snd job_left] in *.
  destruct Z as (-> & -> & _ & Z & _). destruct En as (E1 & E2 & E3). rewrite E2. auto.
Qed.

(** *** Schedules that can be computed *)

Fixpoint play (n : nat) (sched : list nat) (g : heap) (ts : list (thread (list gv))) : heap * list (thread (list gv)) :=
  match sched with
  | [] => (g, ts)
  | i :: sched' => match turn C n i g ts with
                   | Some (g1, ts1) => play n sched' g1 ts1
                   | None => play n sched' g ts
                   end
  end.
Lemma play_turns n sched : forall g ts g' ts', play n sched g ts = (g', ts') -> exists s, turns C s g ts g' ts'.
Proof.
  induction sched as [|i sched IH]; intros g ts g' ts'; cbn [play].
  - intros [= <- <-]. exists []. cbn [turns]. auto.
  - destruct (turn C n i g ts) as [[g1 ts1]|] eqn:T; intro H; [|eauto]. destruct (IH _ _ _ _ H) as (s & X). exists ((n, i) :: s). cbn [turns]. eauto.
Qed.
Lemma play_followed n sched g ts : exists s, turns C s g ts (fst (play n sched g ts)) (snd (play n sched g ts)).
Proof. apply (play_turns n sched). apply surjective_pairing. Qed.
Lemma returned_rest g ts : Forall (fun t => exists x : list gv, t_code t = Code (PRet x) KNil) ts -> at_rest C g ts.
Proof.
  intros H n i. unfold turn. destruct (nth_error ts i) as [t|] eqn:X; [|reflexivity]. rewrite Forall_forall in H.
  destruct (H t (nth_error_In _ _ X)) as (x & Hx). rewrite Hx. reflexivity.
Qed.
End Claims.

(** ** Cases *)

(** Two goroutines take turns in rendering the busy node of GoExamples.v, with
    different data, orders and states of user code. *)
Definition built_nodes : option (gv (W := demo) * heap (W := demo)) :=
  match go_run (go_config the_mode) 3000 E0 (reify (go_config the_mode) busy_node) [] (World [] (st 0) 0) with Some (ROk v h _) => Some (v, h) | _ => None end.
Definition two_tasks (g : heap (W := demo)) (v : gv) : list task :=
  [Task (Rendering v busy_node (length g) frn None) [ctx_obj None None GNil VNil] E0 (World [] (st 0) 0);
   Task (Rendering v busy_node (length g) fr0 None) [ctx_obj None (Some 0) GNil VNil] (Env healthy reversed) (World [] (st 5) 0)].
Fixpoint rounds (n : nat) (l : list nat) : list nat := match n with 0 => [] | S n' => l ++ rounds n' l end.
Definition seen (t : thread (W := demo) (list gv)) : bytes * @U demo * bool :=
  (accepted (w_log (t_world t)), w_u (t_world t), match t_code t with Code (PRet _) KNil => true | _ => false end).
Definition followed (l : list nat) : option (list (bytes * @U demo * bool)) :=
  match built_nodes with Some (v, g) => Some (map seen (snd (play the_mode 100 l g (map start (two_tasks g v))))) | None => None end.
Definition busy_bytes : bytes := B "<p id=""7"">1</p><ul class=""x y"">a&lt;b</ul><p id=""7"">a&amp;b</p><ul class=""x y"">a&lt;b</ul>".
(** In turns, two steps of the one and one of the other; in the middle; and one
    after the other. *)
Example in_turns : followed (rounds 2000 [0; 1; 0]) = Some [(busy_bytes, st 1, true); (busy_bytes, st 6, true)].
Proof. vm_compute. reflexivity. Qed.
Example in_the_middle : followed (rounds 200 [0; 1; 0]) = Some [(B "<p id=""7"">1</p><ul class=""x y"">a&lt;b</ul><", st 1, false); (B "<p id=""7"">1</p><ul", st 6, false)].
Proof. vm_compute. reflexivity. Qed.
Example one_by_one : followed (rounds 2000 [1] ++ rounds 2000 [0]) = Some [(busy_bytes, st 1, true); (busy_bytes, st 6, true)].
Proof. vm_compute. reflexivity. Qed.
(** The hypotheses of [C80_goroutines]. *)
Example C80_example : exists v g, built_nodes = Some (v, g) /\ Forall (task_ok the_mode g) (two_tasks g v).
Proof.
  assert (X : GoRun.sim (go_config the_mode) (pbind (reify (go_config the_mode) busy_node) PRet) [] (Ret tt : io (@U demo) unit) (fun v h' _ => node_rep the_mode h' v busy_node)).
  { apply makes_node; [apply mode_known, the_mode_ok|]. intros v h1 G1 H1. apply sim_ret. exact H1. }
  apply sim_eta in X. destruct (sim_never _ _ _ _ _ X E0 (World [] (st 0) 0) listed_ok) as (k & v & h & R & HN). exists v, h.
  split.
  - assert (Y : exists v' h' w', go_run (go_config the_mode) 3000 E0 (reify (go_config the_mode) busy_node) [] (World [] (st 0) 0) = Some (ROk v' h' w')) by (eexists _, _, _; vm_compute; reflexivity).
    destruct Y as (v' & h' & w' & Y). unfold built_nodes. rewrite Y. pose proof (run_unique _ _ _ _ _ _ _ _ _ _ Y R) as Q. inversion Q. reflexivity.
  - assert (K : forall e d o s w fr, ord_ok o -> fr = Frame d GNil None -> task_ok the_mode h (Task (Rendering v busy_node (length h) fr e) [ctx_obj e d GNil VNil] (Env s o) w)).
    { intros e d o s w fr O ->. split; [exact O|]. cbn [k_own k_job job_ok]. split; [exact HN|]. split; [apply busy_tables|]. split; [|auto].
      exists VNil. split; [apply nth_app_new|]. split; [constructor|apply Nat.le_0_l]. }
    apply Forall_cons; [|apply Forall_cons; [|constructor]]; apply K; try reflexivity; [exact listed_ok|exact reversed_ok].
Qed.

(** That the context is the goroutine's own is needed: when two goroutines render
    with the same context, what one of them writes depends on the schedule. The
    writer refuses the text of the first one and accepts that of the second one,
    whatever came before; the second one is an iteration. If the first is first, then the second one writes
    nothing. *)
Definition picky : writer := fun _ d => if beq d (B "bad") then (0, Some 7) else (length d, None).
Definition bad_node : node (@U demo) := NText [Val (B "bad") None []].
Definition good_node : node (@U demo) := NIter (fun _ u => ([GInt 1], u)) [NText [Val (B "x") None []]].
Definition one_context : prog (W := demo) (gv * gv * loc) :=
  pbind (reify (go_config the_mode) bad_node) (fun a => pbind (reify (go_config the_mode) good_node) (fun b => pbind (alloc (ctx_obj None None GNil VNil)) (fun l => PRet (a, b, l)))).
Definition both (a b : gv) (l : loc) : list (thread (list gv)) :=
  [Thread (Code (invoke a "Render" [VPtr l] false) KNil) [] (Env picky listed) (World [] (st 0) 0);
   Thread (Code (invoke b "Render" [VPtr l] false) KNil) [] (Env picky listed) (World [] (st 0) 0)].
Definition written (t : thread (W := demo) (list gv)) : bytes := accepted (w_log (t_world t)).
Definition heap0 : heap (W := demo) :=
  Eval vm_compute in match go_run (go_config the_mode) 3000 E0 one_context [] (World [] (st 0) 0) with Some (ROk _ h _) => h | _ => [] end.
Definition roots0 : gv * gv * loc :=
  Eval vm_compute in match go_run (go_config the_mode) 3000 E0 one_context [] (World [] (st 0) 0) with Some (ROk x _ _) => x | _ => (VNil, VNil, 0) end.
Lemma one_context_built : node_rep the_mode heap0 (fst (fst roots0)) bad_node /\ node_rep the_mode heap0 (snd (fst roots0)) good_node /\ ctx_at heap0 (snd roots0) frn None.
Proof.
  assert (X : GoRun.sim (go_config the_mode) one_context [] (Ret tt : io (@U demo) unit)
    (fun x h' _ => node_rep the_mode h' (fst (fst x)) bad_node /\ node_rep the_mode h' (snd (fst x)) good_node /\ ctx_at h' (snd x) frn None)).
  { unfold one_context. apply makes_node; [apply mode_known, the_mode_ok|]. intros a h1 G1 H1. apply makes_node; [apply mode_known, the_mode_ok|]. intros b h2 G2 H2. apply simb_alloc. apply sim_ret. cbn [fst snd].
    split; [eapply node_keeps; [|exact H1]; apply grown_keeps; eapply grown_trans; [exact G2|apply grown_app]|].
    split; [eapply node_keeps; [|exact H2]; apply grown_keeps, grown_app|].
    exists VNil. split; [apply nth_app_new|]. split; [constructor|apply Nat.le_0_l]. }
  assert (Y : go_run (go_config the_mode) 3000 E0 one_context [] (World [] (st 0) 0) = Some (ROk roots0 heap0 (World [] (st 0) 0))) by (vm_compute; reflexivity).
  destruct (sim_never _ _ _ _ _ X E0 (World [] (st 0) 0) listed_ok) as (k & r & h & R & HN). cbn [run snd] in R.
  pose proof (run_unique _ _ _ _ _ _ _ _ _ _ Y R) as Q. injection Q as <- <-. exact HN.
Qed.
Definition first_last : list nat := rounds 400 [1] ++ rounds 400 [0].
Definition first_first : list nat := rounds 400 [0] ++ rounds 400 [1].
Definition returned (t : thread (W := demo) (list gv)) : bool := match t_code t with Code (PRet _) KNil => true | _ => false end.
Lemma all_returned ts : forallb returned ts = true -> Forall (fun t => exists x : list gv, t_code t = Code (PRet x) KNil) ts.
Proof.
  intro H. apply Forall_forall. intros t Ht. rewrite forallb_forall in H. specialize (H t Ht). unfold returned in H.
  destruct (t_code t) as [X p K]. destruct p; try discriminate. destruct K; try discriminate. eauto.
Qed.
Theorem C80_shared_context_refuted : exists g a b l s1 g1 ts1 s2 g2 ts2,
  node_rep the_mode g a bad_node /\ node_rep the_mode g b good_node /\ ctx_at g l frn None /\
  turns (go_config the_mode) s1 g (both a b l) g1 ts1 /\ at_rest (go_config the_mode) g1 ts1 /\
  turns (go_config the_mode) s2 g (both a b l) g2 ts2 /\ at_rest (go_config the_mode) g2 ts2 /\
  map written ts1 = [[]; B "x"] /\ map written ts2 = [[]; []].
Proof.
  destruct one_context_built as (H1 & H2 & H3).
  destruct (play_followed the_mode 100 first_last heap0 (both (fst (fst roots0)) (snd (fst roots0)) (snd roots0))) as (s1 & T1).
  destruct (play_followed the_mode 100 first_first heap0 (both (fst (fst roots0)) (snd (fst roots0)) (snd roots0))) as (s2 & T2).
  eexists heap0, (fst (fst roots0)), (snd (fst roots0)), (snd roots0), s1, _, _, s2, _, _.
  split; [exact H1|]. split; [exact H2|]. split; [exact H3|]. split; [exact T1|]. split; [apply returned_rest, all_returned; vm_compute; reflexivity|].
  split; [exact T2|]. split; [apply returned_rest, all_returned; vm_compute; reflexivity|]. split; vm_compute; reflexivity.
Qed.
