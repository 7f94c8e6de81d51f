(** Goroutines that share a writer.

    As in GoThreads.v, but there is one writer for all goroutines: it answers a call
    by the history of all calls made to it.  A call of Write is one step. *)
From Coq Require Import ZArith Lia.
From Verif Require Import Bytes IO IOFacts Nodes Slices GoSyntax GoSem GoRun GoThreads.

Section Shared.
Context {W : UserWorld}.
Variable C : config.
Context {A : Type}.
Implicit Types (t : thread A) (ts : list (thread A)).

(** The calls that the writer has got, and from which goroutine. *)
Definition traffic := list (nat * wcall).
Definition of (i : nat) (L : traffic) : list wcall := map snd (filter (fun x => fst x =? i) L).

(** One step of the goroutine number [i].  What it adds to its own log are the
    calls it has made in this step. *)
Definition sturn (wr : writer) (n i : nat) (g : heap) (ts : list (thread A)) (L : traffic) : option (heap * list (thread A) * traffic) :=
  match nth_error ts i with
  | Some t =>
      match tstep C n (Env (fun _ d => wr (map snd L) d) (e_ord (t_env t))) (t_code t) (g ++ t_own t) (t_world t) with
      | Some (c', h', w') =>
          Some (firstn (length g) h', set_nth ts i (Thread c' (skipn (length g) h') (t_env t) w'),
                L ++ map (pair i) (skipn (length (w_log (t_world t))) (w_log w')))
      | None => None
      end
  | None => None
  end.
Fixpoint sturns (wr : writer) (sched : list (nat * nat)) (g : heap) (ts : list (thread A)) (L : traffic) (g' : heap) (ts' : list (thread A)) (L' : traffic) : Prop :=
  match sched with
  | [] => g = g' /\ ts = ts' /\ L = L'
  | (n, i) :: sched' => exists g1 ts1 L1, sturn wr n i g ts L = Some (g1, ts1, L1) /\ sturns wr sched' g1 ts1 L1 g' ts' L'
  end.
Definition s_rest (wr : writer) (g : heap) (ts : list (thread A)) (L : traffic) : Prop := forall n i, sturn wr n i g ts L = None.

Lemma sturns_app wr s1 s2 : forall g ts L g1 ts1 L1 g2 ts2 L2,
  sturns wr s1 g ts L g1 ts1 L1 -> sturns wr s2 g1 ts1 L1 g2 ts2 L2 -> sturns wr (s1 ++ s2) g ts L g2 ts2 L2.
Proof.
  induction s1 as [|[n i] s1 IH]; intros g ts L g1 ts1 L1 g2 ts2 L2; cbn [sturns app]; [intros (-> & -> & ->); auto|].
  intros (g' & ts' & L' & T & H) H2. exists g', ts', L'. eauto.
Qed.

(** A step makes one call or none, and with the same answer to it, it is the same step. *)
Lemma tstep_log n E (c : code A) h w c' h' w' : tstep C n E c h w = Some (c', h', w') ->
  (w_log w' = w_log w /\ forall E', e_ord E' = e_ord E -> tstep C n E' c h w = Some (c', h', w')) \/
  (exists d m e, w_log w' = w_log w ++ [WCall d m e] /\ e_wr E (w_log w) d = (m, e) /\
    forall E', e_wr E' (w_log w) d = (m, e) -> tstep C n E' c h w = Some (c', h', w')).
Proof.
  destruct c as [X p K]. destruct p as [a| |k|l k|k|d k|ks k|q args sp k|b s k]; cbn [tstep]; intro H.
  - left. destruct K; inversion H; subst; auto.
  - discriminate.
  - left. destruct (k h) as [[q h1]|]; inversion H; subst; auto.
  - left. destruct (snapshot n h l) as [cx|]; [|discriminate]. destruct (k cx (w_u w)). inversion H; subst; auto.
  - left. destruct (k (w_u w)). inversion H; subst; auto.
  - right. destruct (e_wr E (w_log w) d) as [m e] eqn:Q. inversion H; subst. exists d, m, e. split; [reflexivity|]. split; [exact Q|].
    intros E' ->. reflexivity.
  - left. inversion H; subst. split; [reflexivity|]. intros E' ->. reflexivity.
  - left. inversion H; subst; auto.
  - left. inversion H; subst; auto.
Qed.
(** Whether there is a step does not depend on the writer. *)
Lemma tstep_any n E E' (c : code A) h w : tstep C n E c h w = None -> tstep C n E' c h w = None.
Proof.
  destruct c as [X p K]. destruct p as [a| |k|l k|k|d k|ks k|q args sp k|b s k]; cbn [tstep]; auto.
  - destruct (e_wr E (w_log w) d), (e_wr E' (w_log w) d). discriminate.
  - discriminate.
Qed.

(** The goroutines, each with a writer of its own. *)
Fixpoint with_writers (V : nat -> writer) (i : nat) (ts : list (thread A)) : list (thread A) :=
  match ts with
  | [] => []
  | t :: ts' => Thread (t_code t) (t_own t) (Env (V i) (e_ord (t_env t))) (t_world t) :: with_writers V (S i) ts'
  end.
Lemma with_writers_nth V ts : forall i j, nth_error (with_writers V j ts) i =
  option_map (fun t => Thread (t_code t) (t_own t) (Env (V (j + i)) (e_ord (t_env t))) (t_world t)) (nth_error ts i).
Proof.
  induction ts as [|t ts IH]; intros [|i] j; cbn [with_writers nth_error option_map]; auto.
  - rewrite Nat.add_0_r. reflexivity.
  - rewrite IH. replace (S j + i) with (j + S i) by lia. reflexivity.
Qed.
Lemma with_writers_set V t ts : forall i j, with_writers V j (set_nth ts i t) =
  set_nth (with_writers V j ts) i (Thread (t_code t) (t_own t) (Env (V (j + i)) (e_ord (t_env t))) (t_world t)).
Proof.
  induction ts as [|t' ts IH]; intros [|i] j; cbn [with_writers set_nth]; auto.
  - rewrite Nat.add_0_r. reflexivity.
  - rewrite IH. replace (S j + i) with (j + S i) by lia. reflexivity.
Qed.
Lemma set_nth_same {X} (l : list X) i x y : nth_error l i = Some y -> nth_error (set_nth l i x) i = Some x.
Proof. revert i. induction l as [|z l IH]; intros [|i]; cbn; try discriminate; auto. Qed.
Lemma set_nth_other {X} (l : list X) i j x : i <> j -> nth_error (set_nth l i x) j = nth_error l j.
Proof. revert i j. induction l as [|z l IH]; intros [|i] [|j]; cbn; intro H; auto; contradiction. Qed.

Lemma of_app i L1 L2 : of i (L1 ++ L2) = of i L1 ++ of i L2.
Proof. unfold of. rewrite filter_app, map_app. reflexivity. Qed.
Lemma of_own i l : of i (map (pair i) l) = l.
Proof. unfold of. induction l as [|c l IH]; cbn [map filter fst]; [reflexivity|]. rewrite Nat.eqb_refl. cbn [map snd]. f_equal. exact IH. Qed.
Lemma of_other i j l : i <> j -> of j (map (pair i) l) = [].
Proof. intro D. unfold of. induction l as [|c l IH]; cbn [map filter fst]; [reflexivity|]. destruct (Nat.eqb_spec i j); [contradiction|]. exact IH. Qed.

(** Every goroutine's log has the calls it has made. *)
Definition logged (ts : list (thread A)) (L : traffic) : Prop := forall i t, nth_error ts i = Some t -> w_log (t_world t) = of i L.
Lemma logged_turn wr n i g ts L g1 ts1 L1 : logged ts L -> sturn wr n i g ts L = Some (g1, ts1, L1) ->
  logged ts1 L1 /\ exists l, L1 = L ++ map (pair i) l /\ length l <= 1 /\ Forall (fun c => wr (map snd L) (wc_data c) = (wc_n c, wc_err c)) l.
Proof.
  intros HL. unfold sturn. destruct (nth_error ts i) as [t|] eqn:Ht; [|discriminate].
  destruct (tstep C n _ _ _ _) as [[[c' h'] w']|] eqn:S0; [|discriminate]. intro H. inversion H; subst; clear H.
  assert (Z : exists l, w_log w' = w_log (t_world t) ++ l /\ length l <= 1 /\ Forall (fun c => wr (map snd L) (wc_data c) = (wc_n c, wc_err c)) l).
  { destruct (tstep_log _ _ _ _ _ _ _ _ S0) as [(X & _)|(d & m & e & X & Y & _)].
    - exists []. rewrite app_nil_r. repeat split; auto.
    - exists [WCall d m e]. repeat split; auto. }
  destruct Z as (l & Z & Ll & Fl). rewrite Z, skipn_app, skipn_all, Nat.sub_diag. cbn [app skipn]. split; [|eauto].
  intros j u Hj. rewrite of_app. destruct (Nat.eq_dec i j) as [<-|D].
  - rewrite (set_nth_same _ _ _ _ Ht) in Hj. inversion Hj; subst. cbn [t_world]. rewrite Z, of_own, (HL _ _ Ht). reflexivity.
  - rewrite (set_nth_other _ _ _ _ D) in Hj. rewrite of_other, app_nil_r by exact D. auto.
Qed.
Lemma logged_turns wr sched : forall g ts L g' ts' L', logged ts L -> sturns wr sched g ts L g' ts' L' -> logged ts' L' /\ exists X, L' = L ++ X.
Proof.
  induction sched as [|[n i] sched IH]; intros g ts L g' ts' L' HL; cbn [sturns].
  - intros (-> & -> & ->). split; [exact HL|]. exists []. symmetry. apply app_nil_r.
  - intros (g1 & ts1 & L1 & H1 & H2). destruct (logged_turn _ _ _ _ _ _ _ _ _ HL H1) as (HL1 & l & -> & _).
    destruct (IH _ _ _ _ _ _ HL1 H2) as (HL2 & X & ->). split; [exact HL2|]. rewrite <- app_assoc. eauto.
Qed.
(** The writer's answers are the recorded ones. *)
Definition answered (wr : writer) (L : traffic) : Prop :=
  forall pre i c post, L = pre ++ (i, c) :: post -> wr (map snd pre) (wc_data c) = (wc_n c, wc_err c).
Lemma answered_turns wr sched : forall g ts L g' ts' L', logged ts L -> answered wr L -> sturns wr sched g ts L g' ts' L' -> answered wr L'.
Proof.
  induction sched as [|[n i] sched IH]; intros g ts L g' ts' L' HL HA; cbn [sturns].
  - intros (-> & -> & ->). exact HA.
  - intros (g1 & ts1 & L1 & H1 & H2). destruct (logged_turn _ _ _ _ _ _ _ _ _ HL H1) as (HL1 & l & -> & Ll & Fl).
    eapply IH; [exact HL1| |exact H2]. intros pre j c post E0. destruct l as [|c0 [|? ?]]; [|clear IH|cbn in Ll; lia].
    + cbn [map] in E0. rewrite app_nil_r in E0. eauto.
    + cbn [map] in E0. destruct (@exists_last _ ((j, c) :: post)) as (p2 & x & Ex); [discriminate|].
      rewrite Ex, app_assoc in E0. apply app_inj_tail in E0 as (E0 & <-). destruct p2 as [|y p2].
      * rewrite app_nil_r in E0. cbn [app] in Ex. inversion Ex; subst. inversion Fl; subst; auto.
      * cbn [app] in Ex. inversion Ex; subst. eapply HA. reflexivity.
Qed.

(** The writer [v] gives the recorded answers from the call number [k] on. *)
Definition agrees (v : writer) (k : nat) (l : list wcall) : Prop :=
  forall pre c post, l = pre ++ c :: post -> k <= length pre -> v pre (wc_data c) = (wc_n c, wc_err c).

Lemma follow_turn wr V n i g ts L g1 ts1 L1 X : logged ts L -> sturn wr n i g ts L = Some (g1, ts1, L1) ->
  (forall j, agrees (V j) (length (of j L)) (of j (L1 ++ X))) ->
  turn C n i g (with_writers V 0 ts) = Some (g1, with_writers V 0 ts1).
Proof.
  intros HL H HV. specialize (HV i).
  unfold sturn in H. unfold turn. rewrite with_writers_nth. destruct (nth_error ts i) as [t|] eqn:Ht; [|discriminate].
  cbn [option_map t_env t_code t_own t_world].
  destruct (tstep C n _ _ _ _) as [[[c' h'] w']|] eqn:S0; [|discriminate]. inversion H; subst; clear H.
  assert (S1 : tstep C n (Env (V (0 + i)) (e_ord (t_env t))) (t_code t) (g ++ t_own t) (t_world t) = Some (c', h', w')).
  { destruct (tstep_log _ _ _ _ _ _ _ _ S0) as [(_ & Y)|(d & m & e & X1 & _ & Y)]; [apply Y; reflexivity|].
    apply Y. cbn [e_wr Nat.add]. rewrite (HL _ _ Ht). apply (HV (of i L) (WCall d m e) (of i X)); [|lia].
    rewrite X1, skipn_app, skipn_all, Nat.sub_diag. cbn [app skipn]. rewrite !of_app, of_own, <- app_assoc. reflexivity. }
  rewrite S1. rewrite with_writers_set. reflexivity.
Qed.
Lemma follow_turns wr V sched : forall g ts L g' ts' L', logged ts L -> sturns wr sched g ts L g' ts' L' ->
  (forall j, agrees (V j) (length (of j L)) (of j L')) ->
  turns C sched g (with_writers V 0 ts) g' (with_writers V 0 ts').
Proof.
  induction sched as [|[n i] sched IH]; intros g ts L g' ts' L' HL; cbn [sturns turns].
  - intros (-> & -> & ->) _. auto.
  - intros (g1 & ts1 & L1 & H1 & H2) HV. pose proof (logged_turn _ _ _ _ _ _ _ _ _ HL H1) as (HL1 & l & EL & _).
    destruct (logged_turns _ _ _ _ _ _ _ _ HL1 H2) as (_ & X & EX). subst L'.
    exists g1, (with_writers V 0 ts1). split; [eapply follow_turn; eauto|].
    apply (IH _ _ _ _ _ _ HL1 H2). intros j pre c post E0 Hk. apply (HV j pre c post E0).
    rewrite EL, of_app, app_length in Hk. lia.
Qed.
Lemma rest_any wr V g ts L : s_rest wr g ts L -> at_rest C g (with_writers V 0 ts).
Proof.
  intros R n i. specialize (R n i). unfold sturn in R. unfold turn. rewrite with_writers_nth. destruct (nth_error ts i) as [t|]; [|reflexivity].
  cbn [option_map t_env t_code t_own t_world]. destruct (tstep C n _ _ _ _) as [[[? ?] ?]|] eqn:S0 in R; [discriminate|].
  rewrite (tstep_any _ _ _ _ _ _ S0). reflexivity.
Qed.
Lemma any_rest wr V g ts L : at_rest C g (with_writers V 0 ts) -> s_rest wr g ts L.
Proof.
  intros R n i. specialize (R n i). unfold sturn. unfold turn in R. rewrite with_writers_nth in R. destruct (nth_error ts i) as [t|]; [|reflexivity].
  cbn [option_map t_env t_code t_own t_world] in R. destruct (tstep C n _ _ _ _) as [[[? ?] ?]|] eqn:S0 in R; [discriminate|].
  rewrite (tstep_any _ _ _ _ _ _ S0). reflexivity.
Qed.

(** ** The writer that one goroutine sees

    It gives the recorded answers, and from then on those of [more].  If the shared
    writer is one that dies, so is this one. *)
Definition replayed (l : list wcall) (more : writer) : writer := fun h d =>
  match nth_error l (length h) with Some c => (wc_n c, wc_err c) | None => more h d end.
Lemma replayed_agrees l more k : agrees (replayed l more) k l.
Proof.
  intros pre c post -> _. unfold replayed. rewrite nth_error_app2, Nat.sub_diag by lia. reflexivity.
Qed.
Definition mortal (v : writer) : writer := fun h d =>
  let r := v h d in
  if failed h then (if (fst r =? 0) && match snd r with Some _ => true | None => false end then r else (0, Some 0))
  else match snd r with
       | None => (length d, None)
       | Some _ => if fst r <=? length d then r else (length d, None)
       end.
Lemma mortal_dying v : dying (mortal v).
Proof.
  intros h d. unfold mortal. destruct (v h d) as [m e]. cbn [fst snd]. destruct (failed h).
  - destruct (Nat.eqb_spec m 0) as [->|]; cbn [andb]; [destruct e|]; cbn [fst snd]; split; auto; discriminate.
  - destruct e as [e|]; [|left; reflexivity]. destruct (Nat.leb_spec m (length d)); [right; cbn [fst snd]; split; [assumption|discriminate]|left; reflexivity].
Qed.
(** On answers that a dying writer could give, it is the same. *)
Lemma mortal_same v h d : (if failed h then fst (v h d) = 0 /\ snd (v h d) <> None else v h d = (length d, None) \/ (fst (v h d) <= length d /\ snd (v h d) <> None)) ->
  mortal v h d = v h d.
Proof.
  unfold mortal. destruct (v h d) as [m e]. cbn [fst snd]. destruct (failed h).
  - intros [-> H]. destruct e; [reflexivity|contradiction].
  - intros [H|[H1 H2]]; [inversion H; reflexivity|]. destruct e; [|contradiction]. apply Nat.leb_le in H1. rewrite H1. reflexivity.
Qed.
Lemma failed_app l1 l2 : failed (l1 ++ l2) = failed l1 || failed l2.
Proof. unfold failed. apply existsb_app. Qed.
Lemma failed_of i L : failed (of i L) = true -> failed (map snd L) = true.
Proof.
  unfold of, failed. induction L as [|[j c] L IH]; cbn [filter map fst snd existsb]; [auto|].
  destruct (j =? i); cbn [map snd existsb]; intro H; apply orb_true_iff; [apply orb_true_iff in H as [H|H]; auto|auto].
Qed.
(** A call of one goroutine among all calls. *)
Lemma of_split i pre c post : forall L, of i L = pre ++ c :: post -> exists L1 L2, L = L1 ++ (i, c) :: L2 /\ of i L1 = pre.
Proof.
  intro L. revert pre. induction L as [|[j x] L IH]; intros pre H; [destruct pre; discriminate|].
  unfold of in H. cbn [filter fst] in H. destruct (Nat.eqb_spec j i) as [->|D].
  - cbn [map snd] in H. destruct pre as [|y pre]; cbn [app] in H; inversion H; subst.
    + exists [], L. auto.
    + destruct (IH pre H2) as (L1 & L2 & -> & <-). exists ((i, y) :: L1), L2. split; [reflexivity|]. unfold of. cbn [filter fst]. rewrite Nat.eqb_refl. reflexivity.
  - destruct (IH pre H) as (L1 & L2 & -> & <-). exists ((j, x) :: L1), L2. split; [reflexivity|]. unfold of. cbn [filter fst]. destruct (Nat.eqb_spec j i); [contradiction|reflexivity].
Qed.
Definition mortal_ok (L : traffic) : Prop :=
  forall i pre c post, of i L = pre ++ c :: post ->
  if failed pre then wc_n c = 0 /\ wc_err c <> None
  else (wc_n c, wc_err c) = (length (wc_data c), None) \/ (wc_n c <= length (wc_data c) /\ wc_err c <> None).
Lemma dying_mortal wr L : dying wr -> answered wr L -> mortal_ok L.
Proof.
  intros Dy An i pre c post H. destruct (of_split i pre c post L H) as (L1 & L2 & EL & <-).
  pose proof (An _ _ _ _ EL) as X. pose proof (Dy (map snd L1) (wc_data c)) as Y. rewrite X in Y. cbn [fst snd] in Y.
  destruct (failed (of i L1)) eqn:F; [rewrite (failed_of _ _ F) in Y; exact Y|].
  destruct (failed (map snd L1)); [|exact Y]. right. destruct Y as [-> Y]. split; [lia|exact Y].
Qed.
Lemma mortal_agrees L i more : mortal_ok L -> agrees (mortal (replayed (of i L) more)) 0 (of i L).
Proof.
  intros HM pre c post H _. pose proof (replayed_agrees (of i L) more 0 pre c post H (Nat.le_0_l _)) as S.
  rewrite mortal_same; [exact S|]. rewrite S. cbn [fst snd]. specialize (HM i pre c post H). exact HM.
Qed.

Lemma sturns_length wr sched : forall g ts L g' ts' L', sturns wr sched g ts L g' ts' L' -> length ts = length ts'.
Proof.
  induction sched as [|[n i] sched IH]; intros g ts L g' ts' L'; cbn [sturns]; [intros (_ & -> & _); reflexivity|].
  intros (g1 & ts1 & L1 & H1 & H2). rewrite <- (IH _ _ _ _ _ _ H2). unfold sturn in H1. destruct (nth_error ts i); [|discriminate].
  destruct (tstep _ _ _ _ _ _) as [[[? ?] ?]|]; [|discriminate]. inversion H1; subst. rewrite set_nth_length. reflexivity.
Qed.
Lemma sturns_range wr sched : forall g ts L g' ts' L', sturns wr sched g ts L g' ts' L' -> forall i c, In (i, c) L' -> In (i, c) L \/ i < length ts.
Proof.
  induction sched as [|[n j] sched IH]; intros g ts L g' ts' L'; cbn [sturns]; [intros (_ & _ & ->); auto|].
  intros (g1 & ts1 & L1 & H1 & H2) i c Hc. unfold sturn in H1. destruct (nth_error ts j) as [t|] eqn:Ht; [|discriminate].
  destruct (tstep _ _ _ _ _ _) as [[[? ?] ?]|]; [|discriminate]. inversion H1; subst.
  destruct (IH _ _ _ _ _ _ H2 i c Hc) as [X|X]; [|rewrite set_nth_length in X; auto].
  apply in_app_iff in X as [X|X]; [auto|]. apply in_map_iff in X as (? & X & _). inversion X; subst. right. apply nth_error_Some. congruence.
Qed.
(** ** Coming to the end *)
Definition done t : Prop := exists x, t_code t = Code (PRet x) KNil.
Lemma going_nth g ts rs k : going C g ts rs k -> forall i t, nth_error ts i = Some t -> exists j x own w, goes C g j t x own w.
Proof.
  induction 1 as [|t ts x own w rs k j Ht G IH]; intros [|i] u; cbn [nth_error]; try discriminate; [intros [= <-]; eauto 6|eauto].
Qed.
Lemma set_nth_twice {X} (l : list X) i x y : set_nth (set_nth l i x) i y = set_nth l i y.
Proof. revert i. induction l as [|z l IH]; intros [|i]; cbn; auto. f_equal. auto. Qed.
(** One goroutine runs to its end while the others wait. *)
Lemma alone wr i g : forall k t ts L0 V x own w, nth_error ts i = Some t -> 
  (forall l d, V (w_log (t_world t) ++ l) d = wr (map snd L0 ++ l) d) ->
  gets C (FL := length g) k (Env V (e_ord (t_env t))) (t_code t) (g ++ t_own t) (t_world t) (Code (PRet x) KNil) (g ++ own) w ->
  exists sched L', sturns wr sched g ts L0 g (set_nth ts i (Thread (Code (PRet x) KNil) own (t_env t) w)) L'.
Proof.
  induction k as [|k IH]; intros t ts L0 V x own w Ht HV; cbn [gets].
  - intros (E1 & E2 & E3). apply app_inv_head in E2. subst own w. exists [], L0. cbn [sturns]. split; [reflexivity|]. split; [|reflexivity].
    rewrite <- E1. destruct t as [c o E w]. cbn [t_code t_own t_env t_world] in *. clear -Ht. revert i Ht. induction ts as [|u ts IH]; intros [|i] H; cbn in *; try discriminate; [congruence|]. f_equal. auto.
  - intros (n & c1 & h1 & w1 & S1 & St & G). destruct (stays_shared _ _ _ St) as (F & Hh).
    set (t1 := Thread c1 (skipn (length g) h1) (t_env t) w1).
    assert (Z : exists l, w_log w1 = w_log (t_world t) ++ l /\ tstep C n (Env (fun _ d => wr (map snd L0) d) (e_ord (t_env t))) (t_code t) (g ++ t_own t) (t_world t) = Some (c1, h1, w1)).
    { destruct (tstep_log _ _ _ _ _ _ _ _ S1) as [(X & Y)|(d & m & e & X & Y & Z)].
      - exists []. rewrite app_nil_r. split; [exact X|]. apply Y. reflexivity.
      - exists [WCall d m e]. split; [exact X|]. apply Z. cbn [e_wr] in *. specialize (HV [] d). rewrite !app_nil_r in HV. rewrite <- HV. exact Y. }
    destruct Z as (l & El & S2).
    destruct (IH t1 (set_nth ts i t1) (L0 ++ map (pair i) l) V x own w) as (sched & L' & H).
    + apply (set_nth_same _ _ _ _ Ht).
    + intros l' d. cbn [t1 t_world]. rewrite El, <- app_assoc, HV, map_app, map_map, <- app_assoc. cbn [snd]. rewrite map_id. reflexivity.
    + cbn [t1 t_env t_code t_own t_world]. rewrite <- Hh. exact G.
    + exists ((n, i) :: sched), L'. cbn [sturns]. exists g, (set_nth ts i t1), (L0 ++ map (pair i) l). split.
      * unfold sturn. rewrite Ht, S2, F, El, skipn_app, skipn_all, Nat.sub_diag. reflexivity.
      * rewrite set_nth_twice in H. exact H.
Qed.
End Shared.
Arguments done {W A}.
