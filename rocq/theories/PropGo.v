(** C69-C71: the Render methods themselves, as translated from the Go source.

    The claims are about [go_run] of the translated source (Source.v, GoSem.v);
    where the model occurs at all, it is through the reference rendering of
    SpecOut.v. *)
From Coq Require Import ZArith Lia.
From Verif Require Import Bytes IO IOFacts Nodes Values Render Build SpecOut SpecRun SpecErr Api ApiFacts PropErrors GoSyntax Source GoSem GoRun GoRep GoStep RefineNode RefineUser RefineIter RefineAll GoExamples Demo.
Local Open Scope nat_scope.

Section Claims.
Context {W : UserWorld}.
Variable M : go_mode.
Hypothesis MO : mode_ok M.
Notation C := (go_config M).

(** C69.  Render returns: it does not loop for ever, and it meets no nil
    pointer, no index out of range, no failing type assertion.  [h] is any heap
    in which [v] is a node and [lc] a context. *)
Theorem C69_returns n h v lc fr e E w :
  node_rep M h v n -> ctx_at h lc fr e -> SpecOut.tables_ok n -> ord_ok (e_ord E) ->
  exists fuel r h' w', go_run C fuel E (invoke v "Render" [VPtr lc] false) h w = Some (ROk [verr r] h' w').
Proof.
  intros HN HC T O. destruct (sim_never _ _ _ _ _ (proj1 (every_node M MO) n h lc fr e v HC HN T) E w O) as (fuel & a & h' & R & -> & _).
  eauto.
Qed.

(** The same from an empty heap, for everything the constructors make: with the
    node and a context built first, a run of any length that ends is no panic. *)
Theorem C69_no_panic n fr e E w fuel r :
  api n -> ord_ok (e_ord E) -> go_run C fuel E (render_source M n fr e) [] w = Some r -> forall w', r <> RPanic w'.
Proof.
  intros A O R w' ->. destruct (source_renders_only M n fr e E w fuel _ MO (proj1 api_tables n A) O R) as (h' & X). discriminate.
Qed.
Theorem C69_ends n fr e E w : api n -> ord_ok (e_ord E) -> exists fuel a h' w', go_run C fuel E (render_source M n fr e) [] w = Some (ROk a h' w').
Proof.
  intros A O. destruct (source_renders M n fr e E w MO (proj1 api_tables n A) O) as (fuel & h' & R). eauto.
Qed.

(** C70.  Of all structs, arrays and maps there were, only the context that
    Render was given may have changed, and of that only Error. *)
Definition same_but_error (lc : loc) (h h' : heap) : Prop :=
  forall l o, nth_error h l = Some o ->
  nth_error h' l = Some o \/
  l = lc /\ exists e e' d g p, o = ctx_obj e d g p /\ nth_error h' l = Some (ctx_obj e' d g p).
Theorem C70_memory n h v lc fr e E w :
  node_rep M h v n -> ctx_at h lc fr e -> SpecOut.tables_ok n -> ord_ok (e_ord E) ->
  exists fuel r h' w', go_run C fuel E (invoke v "Render" [VPtr lc] false) h w = Some (ROk [verr r] h' w') /\ same_but_error lc h h'.
Proof.
  intros HN HC T O. destruct (sim_never _ _ _ _ _ (proj1 (every_node M MO) n h lc fr e v HC HN T) E w O) as (fuel & a & h' & R & -> & K & HC').
  eexists fuel, _, h', _. split; [exact R|]. intros l o Ho. destruct (Nat.eq_dec l lc) as [->|N].
  - right. split; [auto|]. destruct HC as (p & H1 & _). destruct HC' as (p' & H1' & _).
    destruct K as (_ & (fs & fs' & A1 & A2 & A3) & _). rewrite H1 in A1, Ho. rewrite H1' in A2. inversion A1. inversion A2. inversion Ho. subst.
    cbn in A3. inversion A3. subst. eauto 10.
  - left. destruct K as (_ & _ & K). auto.
Qed.

(** Rendering the node once more, with any context, is therefore rendering the
    same node. *)
Theorem C70_again n h v lc fr e E w :
  node_rep M h v n -> ctx_at h lc fr e -> SpecOut.tables_ok n -> ord_ok (e_ord E) ->
  exists fuel r h' w', go_run C fuel E (invoke v "Render" [VPtr lc] false) h w = Some (ROk [verr r] h' w') /\
    forall m x, node_rep M h x m -> node_rep M h' x m.
Proof.
  intros HN HC T O. destruct (sim_never _ _ _ _ _ (proj1 (every_node M MO) n h lc fr e v HC HN T) E w O) as (fuel & a & h' & R & -> & K & HC').
  eexists fuel, _, h', _. split; [exact R|]. intros m x. apply node_keeps. eapply kept_keeps; eauto.
Qed.

(** C71.  On a writer that accepts everything the source writes the page of the
    reference rendering and returns no error. *)
Theorem C71_page o n fr u t :
  ord_ok o -> api n -> quiet n ->
  exists fuel h' w', go_run C fuel (Env healthy o) (render_source M n fr None) [] (World [] u t) = Some (ROk (None, None) h' w') /\
    accepted (w_log w') = fst (snode o n fr (u, t)).
Proof.
  intros O A Q. destruct (source_renders M n fr None (Env healthy o) (World [] u t) MO (proj1 api_tables n A) O) as (fuel & h' & R).
  pose proof (C19_healthy o n fr (u, t) O A Q) as H. unfold outcome_of in H. cbn [fst snd] in H.
  destruct (run (Env healthy o) (render n fr None) (World [] u t)) as [[r e] w'] eqn:X. cbn [fst snd] in *.
  destruct H as (-> & -> & _ & H & _). exists fuel, h', w'. auto.
Qed.

(** On any writer: the source makes the calls the model makes, returns what it
    returns, and leaves the user's state as the model does. *)
Theorem C71_calls n fr e E w : api n -> ord_ok (e_ord E) ->
  exists fuel h', go_run C fuel E (render_source M n fr e) [] w = Some (ROk (fst (run E (render n fr e) w)) h' (snd (run E (render n fr e) w))).
Proof. intros A O. apply source_renders; auto. apply api_tables, A. Qed.

(** There is a heap with any node and any context without parents. *)
Lemma represented n d g e (E : env) (w : world U) : ord_ok (e_ord E) -> exists h v lc, node_rep M h v n /\ ctx_at h lc (Frame d g None) e.
Proof.
  intro O.
  assert (X : GoRun.sim C (pbind (reify C n) (fun v => pbind (alloc (ctx_obj e d g VNil)) (fun l => PRet (v, l)))) [] (Ret tt : io U unit)
      (fun a h' _ => node_rep M h' (fst a) n /\ ctx_at h' (snd a) (Frame d g None) e)).
  { apply makes_node; [apply mode_known, MO|]. intros v h1 G1 H1. apply simb_alloc. apply sim_ret. cbn [fst snd]. split.
    - eapply node_keeps; [|exact H1]. apply grown_keeps, grown_app.
    - exists VNil. split; [apply nth_app_new|]. split; [constructor|apply Nat.le_0_l]. }
  destruct (sim_never _ _ _ _ _ X E w O) as (fuel & [v l] & h & _ & H). exists h, v, l. exact H.
Qed.
End Claims.

(** C69, C70: the hypotheses hold of a busy node; C71: of a page built by the
    constructors. *)
Example C69_example : exists h v lc, node_rep the_mode h v busy_node /\ ctx_at h lc frn None /\ SpecOut.tables_ok busy_node /\ mode_ok the_mode.
Proof.
  destruct (represented the_mode the_mode_ok busy_node None GNil None E0 (World [] (st 0) 0) listed_ok) as (h & v & lc & H1 & H2).
  exists h, v, lc. split; [exact H1|]. split; [exact H2|]. split; [apply busy_tables|apply the_mode_ok].
Qed.
Example C71_example : api report_page /\ quiet report_page /\
  match go_run (go_config the_mode) 3000 E0 (render_source the_mode report_page fr0 None) [] (World [] (st 0) 0) with
  | Some (ROk r _ w) => Some (r, accepted (w_log w))
  | _ => None
  end = Some ((None, None), B "<div id=""i"">hello</div>itemitem<p>x&lt;y</p>").
Proof. split; [apply report_page_api|]. split; [apply report_page_quiet|]. vm_compute. reflexivity. Qed.
