(** Facts about interaction programs that do not depend on what they render. *)
From Verif Require Import Bytes IO.

Section Facts.
Context {U : Type}.
Notation io := (io U).
Notation world := (world U).

(** Induction principle that gives the hypothesis for every answer. *)
Section Ind.
Context {A : Type} (P : io A -> Prop).
Hypothesis HRet : forall a, P (Ret a).
Hypothesis HWr : forall d k, (forall n e, P (k n e)) -> P (Wr d k).
Hypothesis HCb : forall k, (forall u, P (fst (k u))) -> P (Cb k).
Hypothesis HPick : forall ks k, (forall o, P (k o)) -> P (Pick ks k).
Fixpoint io_ind' (p : io A) : P p :=
  match p with
  | Ret a => HRet a
  | Wr d k => HWr d k (fun n e => io_ind' (k n e))
  | Cb k => HCb k (fun u => io_ind' (fst (k u)))
  | Pick ks k => HPick ks k (fun o => io_ind' (k o))
  end.
End Ind.

Lemma run_bind {A B} E (p : io A) (f : A -> io B) w :
  run E (bind p f) w = let '(a, w') := run E p w in run E (f a) w'.
Proof.
  revert w. induction p as [a|d k IH|k IH|ks k IH] using io_ind'; intro w; simpl.
  - reflexivity.
  - destruct (e_wr E (w_log w) d) as [n e]. apply IH.
  - destruct (k (w_u w)) as [p' u'] eqn:Ek.
    specialize (IH (w_u w)). rewrite Ek in IH. apply IH.
  - apply IH.
Qed.

Lemma accepted_app l1 l2 : accepted (l1 ++ l2) = accepted l1 ++ accepted l2.
Proof. unfold accepted. rewrite map_app, concat_app. reflexivity. Qed.
Lemma offered_app l1 l2 : offered (l1 ++ l2) = offered l1 ++ offered l2.
Proof. unfold offered. rewrite map_app, concat_app. reflexivity. Qed.
Lemma failed_app l1 l2 : failed (l1 ++ l2) = failed l1 || failed l2.
Proof. unfold failed. apply existsb_app. Qed.

(** The calls in [l], made after the history [h], were answered by [w]. *)
Fixpoint answered (w : writer) (h l : list wcall) : Prop :=
  match l with
  | [] => True
  | c :: l' => w h (wc_data c) = (wc_n c, wc_err c) /\ answered w (h ++ [c]) l'
  end.

Lemma answered_app w h l1 l2 :
  answered w h (l1 ++ l2) <-> answered w h l1 /\ answered w (h ++ l1) l2.
Proof.
  revert h; induction l1 as [|c l1 IH]; intro h; simpl.
  - rewrite app_nil_r. tauto.
  - rewrite IH, <- app_assoc. simpl. tauto.
Qed.

(** A run extends the log, with answers of the writer. *)
Lemma run_log {A} E (p : io A) w :
  exists l, w_log (snd (run E p w)) = w_log w ++ l /\ answered (e_wr E) (w_log w) l.
Proof.
  revert w. induction p as [a|d k IH|k IH|ks k IH] using io_ind'; intro w; simpl.
  - exists []. rewrite app_nil_r. simpl; auto.
  - destruct (e_wr E (w_log w) d) as [n e] eqn:Ew.
    destruct (IH n e (World (w_log w ++ [WCall d n e]) (w_u w) (w_tick w))) as (l & H1 & H2).
    simpl in *. exists (WCall d n e :: l). rewrite H1, <- app_assoc. simpl. auto.
  - destruct (k (w_u w)) as [p' u'] eqn:Ek.
    specialize (IH (w_u w) (World (w_log w) u' (w_tick w))). rewrite Ek in IH. exact IH.
  - apply (IH _ (World (w_log w) (w_u w) (S (w_tick w)))).
Qed.

(** Two runs of one program that differ only in the writer are the same up to
    the first call that the writers answer differently. *)
Lemma run_diverge {A} w1 w2 o (p : io A) w :
  run (Env w1 o) p w = run (Env w2 o) p w \/
  exists q d n1 e1 n2 e2 r1 r2,
    w_log (snd (run (Env w1 o) p w)) = w_log w ++ q ++ WCall d n1 e1 :: r1 /\
    w_log (snd (run (Env w2 o) p w)) = w_log w ++ q ++ WCall d n2 e2 :: r2 /\
    answered w1 (w_log w) q /\ answered w2 (w_log w) q /\
    w1 (w_log w ++ q) d = (n1, e1) /\ w2 (w_log w ++ q) d = (n2, e2) /\
    (n1, e1) <> (n2, e2) /\
    answered w1 (w_log w ++ q ++ [WCall d n1 e1]) r1 /\
    answered w2 (w_log w ++ q ++ [WCall d n2 e2]) r2.
Proof.
  revert w. induction p as [a|d k IH|k IH|ks k IH] using io_ind'; intro w; simpl.
  - left; reflexivity.
  - destruct (w1 (w_log w) d) as [n1 e1] eqn:E1.
    destruct (w2 (w_log w) d) as [n2 e2] eqn:E2.
    assert (Hdec : (n1, e1) = (n2, e2) \/ (n1, e1) <> (n2, e2)).
    { destruct (Nat.eq_dec n1 n2) as [->|Hn]; [|right; congruence].
      destruct e1 as [x|], e2 as [y|]; try (right; congruence); [|left; reflexivity].
      destruct (Nat.eq_dec x y) as [->|Hx]; [left; reflexivity|right; congruence]. }
    destruct Hdec as [Heq|Hne].
    + inversion Heq; subst n2 e2.
      destruct (IH n1 e1 (World (w_log w ++ [WCall d n1 e1]) (w_u w) (w_tick w)))
        as [Hs | (q & d' & a1 & b1 & a2 & b2 & r1 & r2 & H1 & H2 & H3 & H4 & H5 & H6 & H7 & H8 & H9)].
      * left; exact Hs.
      * right. simpl in *. rewrite <- !app_assoc in *. simpl in *.
        exists (WCall d n1 e1 :: q), d', a1, b1, a2, b2, r1, r2.
        simpl. repeat split; auto.
    + right.
      destruct (run_log (Env w1 o) (k n1 e1) (World (w_log w ++ [WCall d n1 e1]) (w_u w) (w_tick w)))
        as (l1 & H1 & H1').
      destruct (run_log (Env w2 o) (k n2 e2) (World (w_log w ++ [WCall d n2 e2]) (w_u w) (w_tick w)))
        as (l2 & H2 & H2').
      simpl in *. rewrite <- !app_assoc in *. simpl in *.
      exists [], d, n1, e1, n2, e2, l1, l2. simpl. rewrite app_nil_r.
      repeat split; auto.
  - destruct (k (w_u w)) as [p' u'] eqn:Ek.
    specialize (IH (w_u w) (World (w_log w) u' (w_tick w))). rewrite Ek in IH. exact IH.
  - apply (IH _ (World (w_log w) (w_u w) (S (w_tick w)))).
Qed.

(** What a healthy writer logs. *)
Lemma answered_healthy h l :
  answered healthy h l -> failed l = false /\ accepted l = offered l.
Proof.
  revert h; induction l as [|c l IH]; intros h H; simpl in *; auto.
  destruct H as [H1 H2]. unfold healthy in H1. injection H1 as Hn He.
  apply IH in H2 as [H2 H3]. rewrite <- He. split; auto.
  unfold accepted, offered in *. simpl. rewrite <- Hn, firstn_all, H3. reflexivity.
Qed.

(** After a failure a dying writer accepts nothing. *)
Lemma answered_dead w h l :
  dying w -> failed h = true -> answered w h l -> accepted l = [].
Proof.
  intro D. revert h; induction l as [|c l IH]; intros h F H; simpl in *; auto.
  destruct H as [H1 H2]. pose proof (D h (wc_data c)) as Hd. rewrite F, H1 in Hd.
  simpl in Hd. destruct Hd as [Hn _].
  unfold accepted in *. simpl. rewrite Hn. simpl. apply (IH (h ++ [c])); auto.
  rewrite failed_app, F. reflexivity.
Qed.

(** A dying writer that receives a program's output ends up with a prefix of
    what a healthy writer would have received. *)
Theorem dying_prefix {A} w o (p : io A) u t :
  dying w ->
  exists rest,
    accepted (w_log (snd (run (Env healthy o) p (World [] u t)))) =
    accepted (w_log (snd (run (Env w o) p (World [] u t)))) ++ rest.
Proof.
  intro D.
  destruct (run_diverge healthy w o p (World [] u t))
    as [Hs | (q & d & n1 & e1 & n2 & e2 & r1 & r2 & H1 & H2 & H3 & H4 & H5 & H6 & H7 & H8 & H9)].
  - rewrite Hs. exists []. rewrite app_nil_r. reflexivity.
  - simpl in *. unfold healthy in H5. injection H5 as <- <-.
    destruct (answered_healthy _ _ H3) as [F _].
    pose proof (D q d) as Hd. rewrite F, H6 in Hd. simpl in Hd.
    destruct Hd as [Hd|[Hle Hne]]; [congruence|].
    assert (Hr2 : accepted r2 = []).
    { apply (answered_dead w (q ++ [WCall d n2 e2])); auto.
      rewrite failed_app. simpl. destruct e2; [|congruence]. rewrite orb_true_r. reflexivity. }
    rewrite H1, H2, !accepted_app. simpl.
    change (accepted (WCall d (length d) None :: r1)) with (firstn (length d) d ++ accepted r1).
    change (accepted (WCall d n2 e2 :: r2)) with (firstn n2 d ++ accepted r2).
    rewrite Hr2, firstn_all, app_nil_r.
    exists (skipn n2 d ++ accepted r1).
    rewrite <- app_assoc, (app_assoc (firstn n2 d)), firstn_skipn. reflexivity.
Qed.

Lemma dies_after_dying n e : dying (dies_after n e).
Proof.
  intros h d. unfold dies_after. destruct (failed h); simpl.
  - split; [reflexivity|discriminate].
  - destruct (length d <=? n - length (accepted h)) eqn:E; [left; reflexivity|].
    right; simpl. apply Nat.leb_gt in E. split; [lia|discriminate].
Qed.

(** With the writer that fails after [n] bytes the prefix has length [n], or
    is everything. *)
Lemma answered_dies_len n e h l :
  answered (dies_after n e) h l -> failed h = false -> length (accepted h) <= n ->
  (failed l = false /\ length (accepted (h ++ l)) <= n /\ accepted l = offered l) \/
  (failed l = true /\ length (accepted (h ++ l)) = n).
Proof.
  revert h; induction l as [|c l IH]; intros h H F L.
  - left. rewrite app_nil_r. auto.
  - simpl in H. destruct H as [H1 H2]. unfold dies_after in H1. rewrite F in H1.
    destruct (length (wc_data c) <=? n - length (accepted h)) eqn:E.
    + injection H1 as Hn He. apply Nat.leb_le in E.
      assert (Hc : accepted [c] = wc_data c).
      { unfold accepted. simpl. rewrite <- Hn, firstn_all, app_nil_r. reflexivity. }
      destruct (IH (h ++ [c])) as [(A1 & A2 & A3)|(A1 & A2)]; auto.
      * rewrite failed_app, F. simpl. rewrite <- He. reflexivity.
      * rewrite accepted_app, app_length, Hc. lia.
      * left. rewrite <- app_assoc in A2. simpl in A2. split; [|split]; auto.
        -- simpl. rewrite <- He, A1. reflexivity.
        -- change (accepted (c :: l)) with (accepted ([c] ++ l)).
           rewrite accepted_app, A3, Hc. reflexivity.
      * right. rewrite <- app_assoc in A2. split; auto. simpl. rewrite <- He. exact A1.
    + injection H1 as Hn He. apply Nat.leb_gt in E. right. split.
      * simpl. rewrite <- He. reflexivity.
      * change (h ++ c :: l) with (h ++ [c] ++ l). rewrite !accepted_app.
        assert (accepted l = []) as ->.
        { apply (answered_dead _ _ _ (dies_after_dying n e)) in H2; auto.
          rewrite failed_app, F. simpl. rewrite <- He. reflexivity. }
        unfold accepted at 2. simpl. rewrite !app_nil_r, app_length, firstn_length. lia.
Qed.

Theorem dies_after_exact {A} n e o (p : io A) u t :
  accepted (w_log (snd (run (Env (dies_after n e) o) p (World [] u t)))) =
  firstn n (accepted (w_log (snd (run (Env healthy o) p (World [] u t))))).
Proof.
  destruct (run_diverge healthy (dies_after n e) o p (World [] u t))
    as [Hs | (q & d & n1 & e1 & n2 & e2 & r1 & r2 & H1 & H2 & H3 & H4 & H5 & H6 & H7 & H8 & H9)].
  - rewrite Hs.
    destruct (run_log (Env (dies_after n e) o) p (World [] u t)) as (l & Hl & Ha).
    simpl in *. rewrite Hl. pose proof Hs as Hs'.
    destruct (run_log (Env healthy o) p (World [] u t)) as (l' & Hl' & Ha'). simpl in *.
    rewrite Hs in Hl'. rewrite Hl in Hl'. subst l'.
    destruct (answered_healthy _ _ Ha') as [F _].
    destruct (answered_dies_len n e [] l Ha eq_refl) as [(A1 & A2 & A3)|(A1 & A2)];
      simpl; try lia; try congruence.
    simpl in A2. symmetry. apply firstn_all2. exact A2.
  - simpl in *. unfold healthy in H5. injection H5 as <- <-.
    destruct (answered_healthy _ _ H3) as [F Hoff].
    assert (Hall : answered (dies_after n e) [] (q ++ WCall d n2 e2 :: r2)).
    { apply answered_app. split; auto. simpl. auto. }
    assert (HF : e2 <> None).
    { pose proof (dies_after_dying n e q d) as Hd. rewrite F, H6 in Hd. simpl in Hd.
      destruct Hd as [Hd|[_ Hd]]; congruence. }
    destruct (answered_dies_len n e [] _ Hall eq_refl) as [(A1 & A2 & A3)|(A1 & A2)];
      simpl; try lia.
    { rewrite failed_app in A1. simpl in A1. destruct e2; [|congruence].
      rewrite orb_true_r in A1. discriminate. }
    simpl in A2. rewrite H1, H2. rewrite <- A2 at 1.
    assert (Hr2 : accepted r2 = []).
    { apply (answered_dead (dies_after n e) (q ++ [WCall d n2 e2])); auto.
      - apply dies_after_dying.
      - rewrite failed_app. destruct e2; [|congruence]. simpl. apply orb_true_r. }
    assert (Hn2 : n2 <= length d).
    { pose proof (dies_after_dying n e q d) as Hd. rewrite F, H6 in Hd. simpl in Hd.
      destruct Hd as [Hd|[Hd _]]; [congruence|exact Hd]. }
    rewrite !accepted_app.
    change (accepted (WCall d (length d) None :: r1)) with (firstn (length d) d ++ accepted r1).
    change (accepted (WCall d n2 e2 :: r2)) with (firstn n2 d ++ accepted r2).
    rewrite Hr2, firstn_all, app_nil_r.
    rewrite <- (firstn_skipn n2 d) at 3.
    rewrite <- !app_assoc, (app_assoc (accepted q)).
    set (X := accepted q ++ firstn n2 d).
    rewrite firstn_app, Nat.sub_diag, firstn_all. simpl. rewrite app_nil_r. reflexivity.
Qed.

(** ** Running against a healthy writer *)

(** The same as [run] with a healthy writer, with the bytes in place of the
    log. *)
Fixpoint hrun {A} (o : order) (p : io A) (u : U) (t : nat) : A * bytes * U * nat :=
  match p with
  | Ret a => (a, [], u, t)
  | Wr d k =>
      let '(a, b, u', t') := hrun o (k (length d) None) u t in (a, d ++ b, u', t')
  | Cb k => let '(p', u') := k u in hrun o p' u' t
  | Pick ks k => hrun o (k (o t ks)) u (S t)
  end.

Lemma run_hrun {A} o (p : io A) w :
  let '(a, b, u', t') := hrun o p (w_u w) (w_tick w) in
  let '(a', w') := run (Env healthy o) p w in
  a' = a /\ accepted (w_log w') = accepted (w_log w) ++ b /\ w_u w' = u' /\ w_tick w' = t'.
Proof.
  revert w. induction p as [a|d k IH|k IH|ks k IH] using io_ind'; intro w; simpl.
  - rewrite app_nil_r. auto.
  - specialize (IH (length d) None (World (w_log w ++ [WCall d (length d) None]) (w_u w) (w_tick w))).
    simpl in IH. destruct (hrun o (k (length d) None) (w_u w) (w_tick w)) as [[[a b] u'] t'].
    destruct (run (Env healthy o) (k (length d) None) _) as [a' w'].
    destruct IH as (H1 & H2 & H3 & H4). repeat split; auto.
    rewrite H2, accepted_app. unfold accepted at 2. simpl.
    rewrite firstn_all, app_nil_r, <- app_assoc. reflexivity.
  - destruct (k (w_u w)) as [p' u'] eqn:Ek.
    specialize (IH (w_u w) (World (w_log w) u' (w_tick w))). rewrite Ek in IH. exact IH.
  - apply (IH _ (World (w_log w) (w_u w) (S (w_tick w)))).
Qed.

Lemma hrun_bind {A B} o (p : io A) (f : A -> io B) u t :
  hrun o (bind p f) u t =
  let '(a, b1, u1, t1) := hrun o p u t in
  let '(r, b2, u2, t2) := hrun o (f a) u1 t1 in
  (r, b1 ++ b2, u2, t2).
Proof.
  revert u t. induction p as [a|d k IH|k IH|ks k IH] using io_ind'; intros u t; simpl.
  - destruct (hrun o (f a) u t) as [[[? ?] ?] ?]. reflexivity.
  - rewrite IH. destruct (hrun o (k (length d) None) u t) as [[[a b] u'] t'].
    destruct (hrun o (f a) u' t') as [[[? ?] ?] ?]. rewrite app_assoc. reflexivity.
  - destruct (k u) as [p' u'] eqn:Ek. specialize (IH u). rewrite Ek in IH. apply IH.
  - apply IH.
Qed.

End Facts.
