(** C19-C23, C27, C50: writers that fail, and what is reported.

    Throughout, the order of map iterations is arbitrary, callbacks are
    arbitrary and the user state is arbitrary. *)
From Verif Require Import Bytes IO IOFacts Escape Nodes NodeInd Values Render Build SpecOut SpecErr
  RenderFacts Api ApiFacts ErrFacts SpecRun PageFacts Demo.

Section Errors.
Context {W : UserWorld}.

(** What a caller of Render sees, for an arbitrary environment and a context
    whose Error may already be set: the returned error, ctx.Error afterwards
    and the calls made on the writer. *)
Definition outcome_of (E : env) (n : node U) (fr : frame U) (err : option error) (s : U * nat)
  : option error * option error * list wcall :=
  let '(r, w) := run E (render n fr err) (World [] (fst s) (snd s)) in (r, w_log w).

Lemma outcome_calls E n fr s : snd (outcome_of E n fr None s) = calls E n fr s.
Proof. unfold outcome_of, calls. destruct (run _ _ _) as [r w]. reflexivity. Qed.

(** C19.  A writer that accepts everything: no error is returned or left in the
    context and exactly the reference rendering is written. *)
Theorem C19_healthy o n fr s :
  ord_ok o -> api n -> quiet n ->
  let '(r, e, l) := outcome_of (Env healthy o) n fr None s in
  r = None /\ e = None /\ failed l = false /\
  accepted l = fst (snode o n fr s) /\ accepted l = fst (page o n fr s).
Proof.
  intros O A Q. pose proof (proj1 api_tables n A) as T.
  pose proof (result_ok o n fr s O T Q) as R. pose proof (page_snode o n fr s O T Q) as P.
  unfold outcome_of, result, page in *.
  destruct (run_log (Env healthy o) (render n fr None) (World [] (fst s) (snd s))) as (l & L & An).
  destruct (run _ _ _) as [[r e] w]. cbn [fst snd w_log app e_wr] in *. injection R as -> ->.
  repeat split; auto.
  - rewrite L. apply (proj1 (answered_healthy [] l An)).
  - rewrite <- P. reflexivity.
Qed.

(** C20.  A writer that dies at some moment: what it accepted is a prefix of
    what a healthy writer receives; if it dies after exactly [k] bytes, it has
    accepted the first [k] bytes of it. *)
Theorem C20_prefix o n fr s wr :
  dying wr ->
  exists rest, fst (page o n fr s) = accepted (calls (Env wr o) n fr s) ++ rest.
Proof. intro D. apply dying_prefix. exact D. Qed.

Theorem C20_exact o n fr s k e :
  accepted (calls (Env (dies_after k e) o) n fr s) = firstn k (fst (page o n fr s)).
Proof. apply dies_after_exact. Qed.

(** If nothing was reported by the writer, everything was received. *)
Theorem C20_complete o n fr s wr :
  dying wr -> failed (calls (Env wr o) n fr s) = false ->
  accepted (calls (Env wr o) n fr s) = fst (page o n fr s).
Proof.
  intros D F. unfold calls, page in *. cbn [fst].
  destruct (run_diverge healthy wr o (render n fr None) (World [] (fst s) (snd s)))
    as [Hs | (q & d & n1 & e1 & n2 & e2 & r1 & r2 & H1 & H2 & H3 & H4 & H5 & H6 & H7 & H8 & H9)].
  - rewrite Hs. reflexivity.
  - exfalso.
    cbn [w_log app] in *. unfold healthy in H5. injection H5 as <- <-.
    rewrite H2, failed_app in F. apply orb_false_iff in F as [Fq F2].
    pose proof (D q d) as Dq. rewrite Fq, H6 in Dq. cbn [fst snd] in Dq.
    destruct e2; [discriminate|]. destruct Dq as [X|[_ X]]; congruence.
Qed.

(** C21, C22.  Invariants for writers that, once failed, keep failing. *)
Definition keeps_failing (wr : writer) : Prop :=
  forall h d, failed h = true -> snd (wr h d) <> None.
Lemma dying_keeps wr : dying wr -> keeps_failing wr.
Proof. intros D h d F. specialize (D h d). rewrite F in D. apply D. Qed.

Definition reported (err : option error) (h : list wcall) : Prop :=
  failed h = true -> err <> None.
(** ... the error is one the writer returned. *)
Definition from_writer (err : option error) (h : list wcall) : Prop :=
  err <> None -> exists c, In c h /\ wc_err c = err.

Lemma failed_snoc h d k e : failed (h ++ [WCall d k e]) = failed h || (match e with Some _ => true | None => false end).
Proof. rewrite failed_app. cbn. rewrite orb_false_r. reflexivity. Qed.

Lemma reported_rule wr o :
  keeps_failing wr ->
  (forall n, tame any_data n -> forall fr e, keeps2 (Env wr o) reported e (render n fr e)).
Proof.
  intro K. apply (render_keeps (Env wr o) any_data reported).
  - intros h d H. unfold reported, answer in *. rewrite failed_snoc. cbn [e_wr].
    destruct (failed h); [destruct (H eq_refl eq_refl)|]. destruct (snd (wr h d)); cbn; congruence.
  - intros err h d _ H. unfold reported, answer in *. rewrite failed_snoc. cbn [e_wr].
    destruct (failed h) eqn:F; [intros _; apply K; exact F|]. destruct (snd (wr h d)); cbn; congruence.
  - intros x h l H1 H2. unfold reported in *. intro F. destruct (H2 F eq_refl).
Qed.

Lemma from_writer_rule E :
  (forall n, tame any_data n -> forall fr e, keeps2 E from_writer e (render n fr e)).
Proof.
  assert (X : forall h d, from_writer (snd (e_wr E h d)) (answer E h d)).
  { intros h d _. unfold answer. eexists. split; [apply in_or_app; right; left; reflexivity|]. reflexivity. }
  apply (render_keeps E any_data from_writer); auto.
  intros x h l H1 _ N. destruct (H1 N) as (c & Hc & He). exists c. split; auto. apply in_or_app; auto.
Qed.

(** C21 for templates whose Imperative functions return ctx.Error, and a writer
    that keeps failing once it failed (dying writers are such).
    Missing for the full claim: Imperative functions that return nil, for which
    it is false (C21_refuted). *)
Theorem C21_reported_partial o n fr s wr :
  keeps_failing wr -> tame any_data n ->
  let '(r, e, l) := outcome_of (Env wr o) n fr None s in
  failed l = true -> r <> None /\ e <> None.
Proof.
  intros K T. pose proof (reported_rule wr o K n T fr None (World [] (fst s) (snd s))) as X.
  unfold outcome_of. destruct (run _ _ _) as [[r e] w]. cbn [fst snd w_log] in X.
  destruct X as [X1 X2]; [discriminate|]. auto.
Qed.

(** ... in particular output that is not complete is always reported. *)
Theorem C21_truncated_partial o n fr s wr :
  dying wr -> tame any_data n ->
  let '(r, e, l) := outcome_of (Env wr o) n fr None s in
  accepted l <> fst (page o n fr s) -> r <> None /\ e <> None.
Proof.
  intros D T. pose proof (C21_reported_partial o n fr s wr (dying_keeps wr D) T) as X.
  pose proof (C20_complete o n fr s wr D) as C. rewrite <- outcome_calls in C.
  destruct (outcome_of _ _ _ _ _) as [[r e] l]. cbn [snd] in C. intro N. apply X.
  destruct (failed l); [reflexivity|]. destruct (N (C eq_refl)).
Qed.

(** Every element reports a failure, whatever is inside it (Imperative functions
    included), because it ends with a write of its own. *)
Lemma write_reports wr o d e w :
  keeps_failing wr -> reported (fst (run (Env wr o) (ctx_write d e) w)) (w_log (snd (run (Env wr o) (ctx_write d e) w))).
Proof.
  intros K. destruct e as [x|]; [intros _; discriminate|]. cbn [ctx_write run e_wr].
  pose proof (K (w_log w) d) as Kw. destruct (wr (w_log w) d) as [k e] eqn:Ew. cbn [run fst snd w_log] in *.
  unfold reported. rewrite failed_snoc. destruct (failed (w_log w)); [intros _; auto|].
  destruct e; cbn; congruence.
Qed.
Theorem C21_element o name attrs idx conds ns fr err s wr :
  keeps_failing wr ->
  let '(r, e, l) := outcome_of (Env wr o) (NElement name attrs idx conds ns) fr err s in
  failed l = true -> r <> None /\ e <> None.
Proof.
  intro K. unfold outcome_of. cbn [render]. rewrite !run_bind.
  destruct (run _ (ctx_write (B "<") err) _) as [e1 w1]. rewrite !run_bind.
  destruct (run _ (ctx_write name e1) w1) as [e2 w2]. rewrite !run_bind.
  destruct (run _ (render_attributes _ _ _ _ _) w2) as [e3 w3]. rewrite !run_bind.
  destruct (run _ (ctx_write (B ">") e3) w3) as [e4 w4]. rewrite !run_bind.
  destruct (run _ (each_assign _ _ _) w4) as [e5 w5]. unfold close_tag. rewrite !run_bind.
  destruct (run _ (ctx_write (B "</") e5) w5) as [e6 w6]. rewrite !run_bind.
  destruct (run _ (ctx_write name e6) w6) as [e7 w7].
  pose proof (write_reports wr o (B ">") e7 w7 K) as X.
  destruct (run _ (ctx_write (B ">") e7) w7) as [e8 w8]. cbn [run fst snd] in *. auto.
Qed.
Theorem C21_void o name attrs idx conds fr err s wr :
  keeps_failing wr ->
  let '(r, e, l) := outcome_of (Env wr o) (NVoid name attrs idx conds) fr err s in
  failed l = true -> r <> None /\ e <> None.
Proof.
  intro K. unfold outcome_of. cbn [render]. rewrite !run_bind.
  destruct (run _ (ctx_write (B "<") err) _) as [e1 w1]. rewrite !run_bind.
  destruct (run _ (ctx_write name e1) w1) as [e2 w2]. rewrite !run_bind.
  destruct (run _ (render_attributes _ _ _ _ _) w2) as [e3 w3]. rewrite !run_bind.
  pose proof (write_reports wr o (B ">") e3 w3 K) as X.
  destruct (run _ (ctx_write (B ">") e3) w3) as [e8 w8]. cbn [run fst snd] in *. auto.
Qed.

(** C22.  Whatever the writer, ctx.Error and the returned error are nil or an
    error the writer returned during this rendering. *)
Theorem C22_origin_partial E n fr s :
  tame any_data n ->
  let '(r, e, l) := outcome_of E n fr None s in
  (r <> None -> exists c, In c l /\ wc_err c = r) /\
  (e <> None -> exists c, In c l /\ wc_err c = e).
Proof.
  intros T. pose proof (from_writer_rule E n T fr None (World [] (fst s) (snd s))) as X.
  unfold outcome_of. destruct (run _ _ _) as [[r e] w]. cbn [fst snd w_log] in X.
  apply X. intro N; destruct (N eq_refl).
Qed.

(** The first error of a history. *)
Definition first_error (h : list wcall) : option error :=
  match find (fun c => match wc_err c with Some _ => true | None => false end) h with
  | Some c => wc_err c
  | None => None
  end.

(** C22 for a writer that, once it fails, fails with the same error for ever (a
    closed connection).  Missing: writers that recover, or return different
    errors, for which it is false (C22_refuted). *)
Theorem C22_first_partial o n fr s wr e0 :
  keeps_failing wr -> (forall h d, snd (wr h d) = None \/ snd (wr h d) = Some e0) -> tame any_data n ->
  let '(r, e, l) := outcome_of (Env wr o) n fr None s in
  r = first_error l /\ e = first_error l.
Proof.
  intros K S T. pose proof (C21_reported_partial o n fr s wr K T) as X.
  pose proof (C22_origin_partial (Env wr o) n fr s T) as Y.
  unfold outcome_of in *.
  destruct (run_log (Env wr o) (render n fr None) (World [] (fst s) (snd s))) as (l & L & An).
  destruct (run _ _ _) as [[r e] w]. cbn [fst snd w_log app e_wr] in *. rewrite L in *.
  assert (Only : forall c, In c l -> wc_err c = None \/ wc_err c = Some e0).
  { clear - An S. revert An. generalize (@nil wcall). induction l as [|c l IH]; intros h An x Hx; [destruct Hx|].
    destruct An as [A1 A2]. destruct Hx as [<-|Hx]; [|apply (IH _ A2 x Hx)].
    specialize (S h (wc_data c)). rewrite A1 in S. exact S. }
  unfold first_error. destruct (find _ l) as [c|] eqn:Fc.
  - apply find_some in Fc as [F1 F2].
    assert (failed l = true) as Fl. { apply existsb_exists. exists c. auto. }
    destruct (X Fl) as [X1 X2]. destruct Y as [Y1 Y2].
    destruct (Only c F1) as [Z|Z]; rewrite Z in *; [discriminate|].
    split.
    + destruct (Y1 X1) as (c' & C1 & C2). destruct (Only c' C1); congruence.
    + destruct (Y2 X2) as (c' & C1 & C2). destruct (Only c' C1); congruence.
  - assert (N : forall c, In c l -> wc_err c = None).
    { intros c Hc. pose proof (find_none _ _ Fc c Hc) as Z. cbv beta in Z. destruct (wc_err c); congruence. }
    destruct Y as [Y1 Y2]. split.
    + destruct r; [|reflexivity]. destruct Y1 as (c' & C1 & C2); [discriminate|]. rewrite (N c' C1) in C2. discriminate.
    + destruct e; [|reflexivity]. destruct Y2 as (c' & C1 & C2); [discriminate|]. rewrite (N c' C1) in C2. discriminate.
Qed.

(** What the last call of the writer answered (nil if there was none). *)
Definition last_error (h : list wcall) : option error :=
  match rev h with c :: _ => wc_err c | [] => None end.

(** C22, exactly: whatever the writer does, Render returns the answer to the
    last call of the writer, and ctx.Error is the same.  So an earlier error is
    lost just when a later write succeeds or fails differently.  (Templates
    without IterateYield, for which it is false: C22_yield_refuted.) *)
Theorem C22_last_call_partial E n fr s :
  tame any_data n -> no_yield n ->
  let '(r, e, l) := outcome_of E n fr None s in
  r = last_error l /\ e = last_error l.
Proof.
  intros T Y.
  assert (A : forall h d, snd (e_wr E h d) = last_error (answer E h d)).
  { intros h d. unfold last_error, answer. rewrite rev_unit. reflexivity. }
  pose proof (proj1 (render_keeps_yields E any_data (fun err h => err = last_error h)
    (fun h d _ => A h d) (fun _ h d _ _ => A h d) false ltac:(discriminate)) n T (or_intror Y) fr None
    (World [] (fst s) (snd s)) eq_refl) as X.
  unfold outcome_of. destruct (run _ _ _) as [[r e] w]. exact X.
Qed.
(** ... in particular Render returns nil exactly when the last write succeeded. *)
Theorem C22_nil_partial E n fr s :
  tame any_data n -> no_yield n ->
  let '(r, e, l) := outcome_of E n fr None s in
  r = None <-> (forall l' c, l = l' ++ [c] -> wc_err c = None).
Proof.
  intros T Y. pose proof (C22_last_call_partial E n fr s T Y) as X.
  destruct (outcome_of E n fr None s) as [[r e] l]. destruct X as [-> _]. unfold last_error.
  destruct l as [|c l _] using rev_ind.
  - split; auto. intros _ l' c H. destruct l'; discriminate.
  - rewrite rev_unit. split; [|intro H; apply (H l c eq_refl)].
    intros H l' c' E'. apply app_inj_tail in E' as [_ <-]. exact H.
Qed.

(** C23.  For templates without values (text, attribute values, comments, ...),
    and any writer: the failing call is the last one.  Missing: templates with
    values, for which it is false (C23_refuted): Value.render calls the writer
    without looking at ctx.Error. *)
Definition stops (err : option error) (h : list wcall) : Prop :=
  (failed h = true -> err <> None) /\
  (forall h1 c h2, h = h1 ++ c :: h2 -> wc_err c <> None -> h2 = []).

Theorem C23_stops_partial E n fr s :
  tame no_data n ->
  let '(r, e, l) := outcome_of E n fr None s in
  (forall l1 c l2, l = l1 ++ c :: l2 -> wc_err c <> None -> l2 = []) /\
  (failed l = true -> r <> None /\ e <> None).
Proof.
  intro T.
  assert (R : forall n, tame no_data n -> forall fr e, keeps2 E stops e (render n fr e)).
  { apply (render_keeps E no_data stops).
    - intros h d [H1 H2]. unfold stops, answer.
      destruct (failed h) eqn:F; [destruct (H1 eq_refl eq_refl)|]. split.
      + rewrite failed_snoc, F. destruct (snd (e_wr E h d)); cbn; congruence.
      + intros h1 c h2 Hh Hc. destruct (exists_last (l := c :: h2)) as (h3 & c' & Hl); [discriminate|].
        rewrite Hl, app_assoc in Hh. apply app_inj_tail in Hh as [Hh _].
        destruct h3 as [|x h3]; [injection Hl as _ ->; reflexivity|].
        injection Hl as <- ->. specialize (H2 h1 c h3 Hh Hc). subst h3.
        exfalso. assert (failed h = true); [|congruence].
        rewrite Hh, failed_app. cbn. destruct (wc_err c); [apply orb_true_r|congruence].
    - intros err h d [].
    - intros x h l [H1 _] [H2 H3]. split; auto. intro F. destruct (H2 F eq_refl). }
  pose proof (R n T fr None (World [] (fst s) (snd s))) as X.
  unfold outcome_of. destruct (run _ _ _) as [[r e] w]. cbn [fst snd w_log] in X.
  destruct X as [[X1 X2] [X3 X4]]; [|split; auto]. split; [discriminate|].
  intros h1 c h2 H. destruct h1; discriminate.
Qed.

(** C23, for every template: a call of the writer that comes directly after a
    failed one hands over the data of a value.  Tags, attribute names, quotes,
    doctypes, delimiters, ... are never offered to a writer that just failed.
    ([tame P]: the values of the template write only data with property [P].)
    Missing for the full claim: the values themselves (C23_refuted). *)
Definition only_after (P : bytes -> Prop) (err : option error) (h : list wcall) : Prop :=
  (last_error h <> None -> err <> None) /\
  (forall h1 c1 c2 h2, h = h1 ++ c1 :: c2 :: h2 -> wc_err c1 <> None -> P (wc_data c2)).

Lemma two_before {A} (h : list A) x h1 c1 c2 h2 : h ++ [x] = h1 ++ c1 :: c2 :: h2 ->
  (h = h1 ++ [c1] /\ x = c2 /\ h2 = []) \/ (exists h3, h = h1 ++ c1 :: c2 :: h3).
Proof.
  intro H. destruct h2 as [|y h2 _] using rev_ind.
  - left. change (h1 ++ [c1; c2]) with (h1 ++ [c1] ++ [c2]) in H. rewrite app_assoc in H.
    apply app_inj_tail in H as [-> ->]. auto.
  - right. exists h2. rewrite app_comm_cons, app_comm_cons, app_assoc in H. apply app_inj_tail in H as [-> _]. reflexivity.
Qed.

Theorem C23_only_values_partial (P : bytes -> Prop) E n fr s :
  tame P n ->
  let '(r, e, l) := outcome_of E n fr None s in
  forall l1 c1 c2 l2, l = l1 ++ c1 :: c2 :: l2 -> wc_err c1 <> None -> P (wc_data c2).
Proof.
  intro T.
  assert (A : forall h d, (last_error (answer E h d) <> None -> snd (e_wr E h d) <> None)).
  { intros h d. unfold last_error, answer. rewrite rev_unit. auto. }
  assert (R : forall n, tame P n -> forall fr e, keeps2 E (only_after P) e (render n fr e)).
  { apply (render_keeps E P (only_after P)).
    - intros h d [H1 H2]. split; [apply A|]. unfold answer. intros h1 c1 c2 h2 Hh Hc.
      apply two_before in Hh as [(-> & <- & _)|[h3 ->]]; [|eapply H2; eauto].
      exfalso. apply H1; [|reflexivity]. unfold last_error. rewrite rev_unit. exact Hc.
    - intros err h d HP [H1 H2]. split; [apply A|]. unfold answer. intros h1 c1 c2 h2 Hh Hc.
      apply two_before in Hh as [(-> & <- & _)|[h3 ->]]; [exact HP|eapply H2; eauto].
    - intros x h l [H1 _] [H2 H3]. split; [|exact H3]. intro F. destruct (H2 F eq_refl). }
  pose proof (R n T fr None (World [] (fst s) (snd s))) as X.
  unfold outcome_of. destruct (run _ _ _) as [[r e] w]. cbn [fst snd w_log] in X.
  destruct X as [[_ X] _]; [|exact X]. split; [intro N; exact N|].
  intros h1 c1 c2 h2 H. destruct h1; discriminate.
Qed.

(** C50 for templates without values.  Missing: templates with values, for
    which it is false (C50_refuted). *)
Theorem C50_silent_partial E n fr s e0 :
  tame no_data n -> outcome_of E n fr (Some e0) s = (Some e0, Some e0, []).
Proof.
  intro T.
  assert (R : forall n, tame no_data n -> forall fr e,
             keeps2 E (fun e h => e = Some e0 /\ h = []) e (render n fr e)).
  { apply (render_keeps E no_data (fun e h => e = Some e0 /\ h = [])).
    - intros h d [H _]. discriminate.
    - intros err h d [].
    - intros x h l _ [H _]. discriminate. }
  pose proof (R n T fr (Some e0) (World [] (fst s) (snd s))) as X.
  unfold outcome_of. destruct (run _ _ _) as [[r e] w]. cbn [fst snd w_log] in X.
  destruct X as [[-> ->] [-> _]]; auto.
Qed.

(** For every template: the first thing written to the writer, if anything is, is
    the data of a value; if nothing is, the error is still there and returned. *)
Theorem C50_values_first_partial (P : bytes -> Prop) E n fr s e0 :
  tame P n ->
  let '(r, e, l) := outcome_of E n fr (Some e0) s in
  match l with
  | [] => r = Some e0 /\ e = Some e0
  | c :: _ => P (wc_data c)
  end.
Proof.
  intro T.
  set (J := fun (err : option error) (h : list wcall) => match h with [] => err = Some e0 | c :: _ => P (wc_data c) end).
  assert (R : forall n, tame P n -> forall fr e, keeps2 E J e (render n fr e)).
  { apply (render_keeps E P J); unfold J, answer.
    - intros [|c h] d H; [discriminate|exact H].
    - intros err [|c h] d V H; [exact V|exact H].
    - intros x [|c h] [|c' l] H1 H2; cbn [app] in *; auto. }
  pose proof (R n T fr (Some e0) (World [] (fst s) (snd s))) as X.
  unfold outcome_of. destruct (run _ _ _) as [[r e] w]. cbn [fst snd w_log] in X.
  destruct X as [X1 X2]; [reflexivity|]. unfold J in *. destruct (w_log w) as [|c l]; auto.
Qed.

(** C27.  An iterator entered with ctx.Error set does nothing at all: the world
    is the same afterwards (the user's function is not even called). *)
Theorem C27_entered_in_error E f ns fr e w :
  run E (render (NIter f ns) fr (Some e)) w = ((Some e, Some e), w).
Proof. reflexivity. Qed.
Theorem C27_yield_entered_in_error E p ns fr e w :
  run E (render (NYield p ns) fr (Some e)) w = ((Some e, Some e), w).
Proof. reflexivity. Qed.

(** Iterating over a fixed list of items. *)
Definition items_fn (l : list (gval U)) : ctx U -> U -> list (gval U) * U := fun _ u => (l, u).

Lemma iter_stop E body data parent l1 l2 ierr w e x w' :
  run E (iter_loop body data parent None l1 ierr) w = ((Some e, x), w') ->
  x = Some e /\ run E (iter_loop body data parent None (l1 ++ l2) ierr) w = ((Some e, Some e), w').
Proof.
  revert ierr w; induction l1 as [|it l1 IH]; intros ierr w H; cbn [iter_loop app] in *.
  - discriminate.
  - rewrite run_bind in *. destruct (run E (body _ ierr) w) as [[r e'] w1]. destruct r as [r|].
    + cbn in *. injection H as -> <- ->. auto.
    + apply IH. exact H.
Qed.

(** If iterating over [l1] fails, the error is also in ctx.Error, and items that
    come later change nothing: no call on the writer, no callback, nothing. *)
Theorem C27_stops_at_item E ns fr l1 w e x w' :
  run E (render (NIter (items_fn l1) ns) fr None) w = ((Some e, x), w') ->
  x = Some e /\
  forall l2, run E (render (NIter (items_fn (l1 ++ l2)) ns) fr None) w = ((Some e, Some e), w').
Proof.
  cbn [render]. unfold items_fn. cbn [run]. intro H. split.
  - apply (iter_stop E _ _ _ _ [] _ _ _ _ _ H).
  - intro l2. apply (iter_stop E _ _ _ _ l2 _ _ _ _ _ H).
Qed.

(** If rendering the nodes [ns1] for an item fails, the nodes after them are not
    rendered. *)
Theorem C27_stops_at_node E ns1 ns2 fr it w e x w' :
  run E (render (NIter (items_fn [it]) ns1) fr None) w = ((Some e, x), w') ->
  x = Some e /\
  forall l2, run E (render (NIter (items_fn (it :: l2)) (ns1 ++ ns2)) fr None) w = ((Some e, Some e), w').
Proof.
  cbn [render]. unfold items_fn. cbn [run iter_loop]. rewrite !run_bind.
  intro H.
  set (fr' := Frame (item_data it (f_data fr)) it (Some (view fr None))) in *.
  set (w0 := World (w_log w) (w_u w) (w_tick w)) in *.
  assert (S : forall ierr w0 r e' w1,
    run E (each_item (fun c e => render c fr' e) ns1 ierr) w0 = ((Some r, e'), w1) ->
    run E (each_item (fun c e => render c fr' e) (ns1 ++ ns2) ierr) w0 = ((Some r, e'), w1)).
  { clear. induction ns1 as [|c ns1 IH]; intros ierr w0 r e' w1 H; [discriminate|].
    change (run E ('(x, e') <- render c fr' ierr ;;
      match x with None => each_item (fun c e => render c fr' e) ns1 e' | Some x => Ret (Some x, e') end) w0
      = (Some r, e', w1)) in H.
    change (run E ('(x, e') <- render c fr' ierr ;;
      match x with None => each_item (fun c e => render c fr' e) (ns1 ++ ns2) e' | Some x => Ret (Some x, e') end) w0
      = (Some r, e', w1)).
    rewrite run_bind in *. destruct (run E (render c fr' ierr) w0) as [[x e1] w2].
    destruct x; [exact H|]. apply IH. exact H. }
  destruct (run E (each_item _ ns1 None) w0) as [[r e'] w1] eqn:R.
  destruct r as [r|]; [|discriminate]. cbn in H. injection H as -> <- ->.
  split; [reflexivity|]. intros l2. rewrite run_bind. rewrite (S _ _ _ _ _ R). reflexivity.
Qed.

End Errors.

(** ** Examples *)

(** A page with text, attributes, iteration and an Imperative that reports. *)
Definition honest : iprog (@U demo) :=
  IStart (B "p") false [] (IWriteString (B "x<y") (IEndAll (IRead (fun c u => (IRet (c_error c), u))))).
Definition item_text : node (@U demo) :=
  fst (Text [AVal (Val [] (Some (fun c u => (B "item", u))) [])] (st 0)).
Definition two_items : ctx (@U demo) -> @U demo -> list (gval (@U demo)) * @U demo :=
  fun _ u => ([GNil; GBool true], S u).
Definition report_page : node (@U demo) :=
  Collection
    [Some (fst (NewElement (B "div")
       [ANode (fst (NewAttribute (B "id") [str (B "i")] (st 0))); str (B "hello")] (st 0)));
     Some (NIter two_items [item_text]);
     Some (Imperative (Some honest))].
Lemma some_inj {A} (x y : A) : Some x = Some y -> y = x.
Proof. congruence. Qed.
Lemma anode_inj (x y : node (@U demo)) : ANode x = ANode y -> y = x.
Proof. congruence. Qed.
Lemma report_page_api : api report_page.
Proof.
  apply api_collection. intros n [H|[H|[H|[]]]]; apply some_inj in H; subst n.
  - apply api_element. intros n [H|[H|[]]]; [|discriminate]. apply anode_inj in H; subst n. apply api_attribute.
  - apply (api_iterate (Some two_items) [Some item_text]).
    + intros c [H|[]]. apply some_inj in H; subst c. apply api_text.
    + reflexivity.
  - apply api_imperative. repeat constructor.
Qed.
Lemma report_page_quiet : quiet report_page.
Proof. cbn. repeat split; auto. Qed.

Example C19_example :
  api report_page /\ quiet report_page /\
  fst (page listed report_page fr0 (st 0, 0)) = B "<div id=""i"">hello</div>itemitem<p>x&lt;y</p>".
Proof.
  split; [exact report_page_api|]. split; [exact report_page_quiet|]. vm_compute. reflexivity.
Qed.

(** C20: dying in the middle of the text. *)
Example C20_example :
  accepted (calls (Env (dies_after 16 7) listed) report_page fr0 (st 0, 0)) = B "<div id=""i"">hell".
Proof. vm_compute. reflexivity. Qed.

(** C21, C22: the same page reports that death with the writer's error. *)
Example C21_example :
  dying (dies_after 16 7) /\ keeps_failing (dies_after 16 7) /\ tame any_data report_page /\
  fst (outcome_of (Env (dies_after 16 7) listed) report_page fr0 None (st 0, 0)) = (Some 7, Some 7).
Proof.
  split; [apply dies_after_dying|]. split; [apply dying_keeps, dies_after_dying|]. split.
  - cbn. repeat split; auto; try (intros v d _ _; exact I).
    + intros e H. injection H as <-. reflexivity.
    + intro H. destruct (H (c_error c) eq_refl).
  - vm_compute. reflexivity.
Qed.
Example C22_example : forall h d,
  snd (dies_after 16 7 h d) = None \/ snd (dies_after 16 7 h d) = Some 7.
Proof.
  intros h d. unfold dies_after. destruct (failed h); [right; reflexivity|].
  destruct (_ <=? _); [left|right]; reflexivity.
Qed.
(** ... and with an element around an Imperative that says nothing. *)
Definition silent : node (@U demo) := Imperative (Some (IWriteRaw (B "x") (IRet None))).
Example C21_element_example :
  fst (outcome_of (Env (dies_after 3 7) listed) (mk_element (B "p") [silent]) fr0 None (st 0, 0))
    = (Some 7, Some 7) /\
  failed (calls (Env (dies_after 3 7) listed) (mk_element (B "p") [silent]) fr0 (st 0, 0)) = true.
Proof. split; vm_compute; reflexivity. Qed.

(** C21 as stated is false: an Imperative function that returns nil after a
    failed write.  On its own, Render returns nil; in a Collection, ctx.Error is
    cleared as well. *)
Theorem C21_refuted : exists n (s : @U demo * nat),
  api n /\
  let '(r, e, l) := outcome_of (Env (dies_after 0 7) listed) n fr0 None s in
  failed l = true /\ accepted l <> fst (page listed n fr0 s) /\ r = None /\ e = None.
Proof.
  exists (Collection [Some silent]), (st 0, 0). split.
  - apply api_collection. intros n [H|[]]. apply some_inj in H; subst n. apply api_imperative.
    repeat constructor.
  - vm_compute. repeat split. discriminate.
Qed.

(** C22 as stated is false: the writer's first call fails, the second does not,
    and Render returns nil. *)
Definition hiccup : writer := fun h d => match h with [] => (0, Some 7) | _ => (length d, None) end.
Definition two_texts : node (@U demo) := fst (Text [str (B "one"); str (B "two")] (st 0)).
Theorem C22_refuted : exists n wr (s : @U demo * nat),
  api n /\
  let '(r, e, l) := outcome_of (Env wr listed) n fr0 None s in
  first_error l = Some 7 /\ r = None /\ e = None.
Proof.
  exists two_texts, hiccup, (st 0, 0). split; [apply api_text|]. vm_compute. auto.
Qed.
(** Even for a writer that never recovers: the last error is kept, not the
    first. *)
Definition counting : writer := fun h d => (0, Some (length h)).
Theorem C22_last_kept_refuted : exists n wr (s : @U demo * nat),
  api n /\ dying wr /\
  let '(r, e, l) := outcome_of (Env wr listed) n fr0 None s in
  first_error l = Some 0 /\ r = Some 1 /\ e = Some 1.
Proof.
  exists two_texts, counting, (st 0, 0). split; [apply api_text|]. split.
  - intros h d. destruct (failed h); [split; [reflexivity|discriminate]|].
    right. split; [apply Nat.le_0_l|discriminate].
  - vm_compute. auto.
Qed.

(** With IterateYield the error of the first item outlives the success of the
    second. *)
Theorem C22_yield_refuted : exists n wr (s : @U demo * nat),
  api n /\ tame any_data n /\
  let '(r, e, l) := outcome_of (Env wr listed) n fr0 None s in
  r = Some 7 /\ last_error l = None.
Proof.
  exists (NYield (YYield GNil (YYield GNil YRet)) [fst (Text [str (B "one")] (st 0))]), hiccup, (st 0, 0).
  split.
  { apply (api_iterate_yield (Some (YYield GNil (YYield GNil YRet))) [Some (fst (Text [str (B "one")] (st 0)))]); [|reflexivity].
    intros n [H|[]]. apply some_inj in H; subst n. apply api_text. }
  split; [split; [intros v d _ _; exact I|exact I]|]. vm_compute. auto.
Qed.
(** The hypotheses of C22_last_call, and a lost error. *)
Example C22_last_call_example :
  tame any_data two_texts /\ no_yield two_texts /\
  let '(r, e, l) := outcome_of (Env hiccup listed) two_texts fr0 None (st 0, 0) in
  r = None /\ last_error l = None /\ first_error l = Some 7.
Proof. split; [vm_compute; intros; exact I|]. split; [exact I|]. vm_compute. auto. Qed.

(** C23 as stated is false: the second value is offered to the writer, and
    accepted, after the first one failed. *)
Theorem C23_refuted : exists n wr (s : @U demo * nat),
  api n /\ exists c1 c2,
  calls (Env wr listed) n fr0 s = [c1; c2] /\ wc_err c1 <> None /\ wc_n c2 > 0.
Proof.
  exists two_texts, hiccup, (st 0, 0). split; [apply api_text|].
  eexists _, _. split; [vm_compute; reflexivity|]. cbn. split; [discriminate|]. apply Nat.lt_0_succ.
Qed.

(** The hypotheses of C23_only_values: after the failure of the text, the end
    tag of the first paragraph and the tags of the second one are skipped. *)
Definition two_paragraphs : node (@U demo) :=
  fst (NewElement (B "div")
    [ANode (fst (NewElement (B "p") [str (B "one")] (st 0)));
     ANode (fst (NewElement (B "p") [str (B "two")] (st 0)))] (st 0)).
Definition trips (m : nat) : writer := fun h d => if length h =? m then (0, Some 7) else (length d, None).
Example C23_only_values_example :
  tame (fun d => d = B "one" \/ d = B "two") two_paragraphs /\
  map wc_data (calls (Env (trips 6) listed) two_paragraphs fr0 (st 0, 0)) =
    [B "<"; B "div"; B ">"; B "<"; B "p"; B ">"; B "one"; B "two"; B "</"; B "p"; B ">"; B "</"; B "div"; B ">"].
Proof.
  split; [|vm_compute; reflexivity]. cbn. repeat split; auto; intros v d [<-|[]] ->; auto.
Qed.

(** C50 as stated is false: text is written, and the error forgotten. *)
Theorem C50_refuted : exists n (s : @U demo * nat),
  api n /\
  let '(r, e, l) := outcome_of (Env healthy listed) n fr0 (Some 7) s in
  accepted l = B "onetwo" /\ r = None /\ e = None.
Proof. exists two_texts, (st 0, 0). split; [apply api_text|]. vm_compute. auto. Qed.

(** C23, C50: a page without values. *)
Definition bare_page : node (@U demo) :=
  Collection
    [Some (fst (NewElement (B "div")
       [ANode (NewBooleanAttribute (B "hidden")); ANode (fst (NewVoidElement (B "br") [] (st 0)))] (st 0)));
     Some (fst (NewElement (B "p") [] (st 0)))].
Example C23_example :
  tame no_data bare_page /\
  outcome_of (Env (dies_after 15 7) listed) bare_page fr0 None (st 0, 0) =
  (Some 7, Some 7,
   [WCall (B "<") 1 None; WCall (B "div") 3 None; WCall (B " ") 1 None; WCall (B "hidden") 6 None;
    WCall (B ">") 1 None; WCall (B "<") 1 None; WCall (B "br") 2 None; WCall (B ">") 0 (Some 7)]).
Proof. split; [cbn; auto 20|]. vm_compute. reflexivity. Qed.
Example C50_example :
  outcome_of (Env healthy listed) bare_page fr0 (Some 7) (st 0, 0) = (Some 7, Some 7, []).
Proof. vm_compute. reflexivity. Qed.
Example C50_values_first_example :
  tame (fun d => d = B "one" \/ d = B "two") two_paragraphs /\
  let '(r, e, l) := outcome_of (Env healthy listed) two_paragraphs fr0 (Some 7) (st 0, 0) in
  accepted l = B "one</p><p>two</p></div>" /\ r = None /\ e = None.
Proof.
  split; [|vm_compute; auto]. cbn. repeat split; auto; intros v d [<-|[]] ->; auto.
Qed.

(** C27: the second of three items fails. *)
Example C27_example :
  let '(r, e, l) := outcome_of (Env (dies_after 6 7) listed)
    (NIter (items_fn [GNil; GBool true; GNil]) [item_text; item_text]) fr0 None (st 0, 0) in
  r = Some 7 /\ e = Some 7 /\ length l = 2.
Proof. vm_compute. auto. Qed.
