(** Facts about programs over memory: goroutines that store only to arrays of
    their own do not interfere; what the two appending pieces of code show. *)
From Coq Require Import Lia.
From Verif Require Import Bytes IO Nodes Values Render Slices Memory.

Section Facts.
Context {W : UserWorld}.
Local Open Scope nat_scope.

(** Whatever it loads and whichever arrays it is given, the program stores to
    no shared array, and its result is a [Q]. *)
Fixpoint safe {A} (Q : A -> Prop) (p : mprog A) : Prop :=
  match p with
  | MRet a => Q a
  | MLoad _ _ k => forall v, safe Q (k v)
  | MStore (Own _) _ _ k => safe Q k
  | MStore (Shared _) _ _ _ => False
  | MAlloc _ k => forall i, safe Q (k i)
  | MShow _ k => safe Q k
  end.
Definition anything {A} (_ : A) : Prop := True.

Lemma safe_bind {A B} (Q : A -> Prop) (R : B -> Prop) p f :
  safe Q p -> (forall a, Q a -> safe R (f a)) -> safe R (mbind p f).
Proof.
  intros H F. induction p as [a|x j k IH|[x|x] j v k IH|c k IH|o k IH]; cbn [mbind safe] in *; auto.
Qed.
Lemma safe_weaken {A} (Q R : A -> Prop) p : (forall a, Q a -> R a) -> safe Q p -> safe R p.
Proof.
  intros F H. induction p as [a|x j k IH|[x|x] j v k IH|c k IH|o k IH]; cbn [safe] in *; auto.
Qed.

(** Noninterference. *)
Lemma nth_set_nth {A} (l : list A) i x j :
  nth_error (set_nth l i x) j =
  if i =? j then match nth_error l j with Some _ => Some x | None => None end else nth_error l j.
Proof.
  revert i j. induction l as [|y l IH]; intros [|i] [|j]; cbn; auto. destruct (i =? j); reflexivity.
Qed.

Lemma safe_step {A} (Q : A -> Prop) sh t : safe Q (t_prog t) ->
  fst (tstep sh t) = sh /\ safe Q (t_prog (snd (tstep sh t))) /\
  alone (t_prog (snd (tstep sh t))) sh (t_own (snd (tstep sh t))) (t_out (snd (tstep sh t))) =
  alone (t_prog t) sh (t_own t) (t_out t).
Proof.
  destruct t as [p own tr]. unfold tstep. cbn [t_prog t_own t_out].
  destruct p as [a|x j k|[x|x] j v k|c k|o k]; cbn; auto. intros [].
Qed.

Theorem noninterference {A} (Q : A -> Prop) sched : forall sh ts,
  Forall (fun t => safe Q (t_prog t)) ts ->
  fst (interleave sched sh ts) = sh /\
  Forall2 (fun t t' => safe Q (t_prog t') /\
      alone (t_prog t') sh (t_own t') (t_out t') = alone (t_prog t) sh (t_own t) (t_out t))
    ts (snd (interleave sched sh ts)).
Proof.
  assert (R : forall sh (ts : list (thread A)), Forall (fun t => safe Q (t_prog t)) ts ->
     Forall2 (fun t t' => safe Q (t_prog t') /\
        alone (t_prog t') sh (t_own t') (t_out t') = alone (t_prog t) sh (t_own t) (t_out t)) ts ts).
  { induction 1; constructor; auto. }
  induction sched as [|i sched IH]; intros sh ts H; cbn [interleave].
  - split; [reflexivity|]. apply R, H.
  - destruct (nth_error ts i) as [t|] eqn:E; [|apply IH, H].
    assert (S : safe Q (t_prog t)).
    { rewrite Forall_forall in H. apply H. eapply nth_error_In; eauto. }
    destruct (safe_step Q sh t S) as (S1 & S2 & S3).
    destruct (tstep sh t) as [sh' t'] eqn:Et. cbn [fst snd] in *. subst sh'.
    assert (H' : Forall2 (fun t t' => safe Q (t_prog t') /\
        alone (t_prog t') sh (t_own t') (t_out t') = alone (t_prog t) sh (t_own t) (t_out t))
        ts (set_nth ts i t')).
    { clear IH Et. revert i E. induction H as [|t0 ts H0 H IHts]; intros i E.
      - destruct i; discriminate.
      - destruct i as [|i]; cbn in *.
        + inversion E; subst. constructor; auto.
        + constructor; auto. }
    assert (G : Forall (fun t => safe Q (t_prog t)) (set_nth ts i t')).
    { clear - H'. induction H' as [|? ? ? ? [X _] ? ?]; constructor; auto. }
    destruct (IH sh (set_nth ts i t') G) as [I1 I2]. split; [exact I1|].
    revert I2. generalize (snd (interleave sched sh (set_nth ts i t'))).
    clear - H'. induction H' as [|a b l m Hab _ IHl]; intros l' X; inversion X; subst; constructor.
    + destruct Hab as [Ha Hb]. match goal with K : _ /\ alone _ _ _ _ = _ |- _ => destruct K as [Hc Hd] end.
      split; auto. congruence.
    + apply IHl. assumption.
Qed.

(** ** What the pieces of code do, alone *)

Lemma alone_bind {A B} (p : mprog A) (f : A -> mprog B) : forall sh own tr,
  alone (mbind p f) sh own tr =
  (let '(a, sh', own', tr') := alone p sh own tr in alone (f a) sh' own' tr').
Proof.
  induction p as [a|x j k IH|[x|x] j v k IH|c k IH|o k IH]; intros; cbn [mbind alone]; auto.
Qed.

Lemma len_set_nth {A} (l : list A) i x : length (set_nth l i x) = length l.
Proof. revert i. induction l; intros [|i]; cbn; auto. Qed.
Lemma nth_set_nth' {A} (l : list A) i x j d :
  nth j (set_nth l i x) d = if (i =? j) && (i <? length l) then x else nth j l d.
Proof.
  revert i j. induction l as [|y l IH]; intros [|i] [|j]; cbn; auto.
  - rewrite andb_false_r. reflexivity.
  - rewrite IH. cbn. reflexivity.
Qed.

Lemma put_len m i j v : length (put m i j v) = length m.
Proof. apply len_set_nth. Qed.
Lemma put_at m i j v : length (nth i (put m i j v) []) = length (nth i m []).
Proof.
  unfold put. rewrite nth_set_nth', Nat.eqb_refl. cbn [andb]. destruct (i <? length m); auto.
  apply len_set_nth.
Qed.
Lemma put_other m i j v b : b <> i -> nth b (put m i j v) [] = nth b m [].
Proof.
  intro H. unfold put. rewrite nth_set_nth'. destruct (Nat.eqb_spec i b); [congruence|reflexivity].
Qed.
Lemma put_cell m i j v k : i < length m -> j < length (nth i m []) ->
  cell (put m i j v) i k = if j =? k then v else cell m i k.
Proof.
  intros H K. unfold cell, put. rewrite nth_set_nth', Nat.eqb_refl. apply Nat.ltb_lt in H. rewrite H. cbn [andb].
  rewrite nth_set_nth'. apply Nat.ltb_lt in K. rewrite K, andb_true_r. reflexivity.
Qed.

(** The array of [x] is not the goroutine's array [a]. *)
Definition apart (x : addr) (a : nat) : Prop := match x with Shared _ => True | Own b => b <> a end.

Lemma load_apart sh own own' x a k : apart x a ->
  (forall b, b <> a -> nth b own' [] = nth b own []) -> load sh own' x k = load sh own x k.
Proof. destruct x as [i|b]; cbn; auto. intros H F. unfold cell. rewrite F; auto. Qed.

Lemma mcopy_alone n : forall x i a j sh own tr,
  a < length own -> j + n <= length (nth a own []) -> apart x a ->
  exists own', alone (mcopy n x i (Own a) j) sh own tr = (tt, sh, own', tr) /\
    length own' = length own /\ length (nth a own' []) = length (nth a own []) /\
    (forall b, b <> a -> nth b own' [] = nth b own []) /\
    (forall k, cell own' a k = if (j <=? k) && (k <? j + n) then load sh own x (i + (k - j)) else cell own a k).
Proof.
  induction n as [|n IH]; intros x i a j sh own tr Ha Hj Hx; cbn [mcopy alone].
  - exists own. repeat split; auto. intro k. destruct (Nat.leb_spec j k); cbn [andb]; auto.
    destruct (Nat.ltb_spec k (j + 0)); [lia|auto].
  - set (v := load sh own x i).
    destruct (IH x (S i) a (S j) sh (put own a j v) tr) as (own' & E1 & E2 & E3 & E4 & E5); auto.
    { rewrite put_len; auto. } { rewrite put_at. lia. }
    exists own'. split; [exact E1|]. rewrite E2, E3, put_len, put_at.
    repeat split; auto.
    + intros b Hb. rewrite E4, put_other; auto.
    + intro k. rewrite E5, put_cell by lia.
      rewrite (load_apart sh own (put own a j v) x a) by (auto; intros; apply put_other; auto).
      destruct (Nat.eqb_spec j k) as [->|N].
      * replace (S k <=? k) with false by (symmetry; apply Nat.leb_gt; lia). cbn [andb].
        replace (k <=? k) with true by (symmetry; apply Nat.leb_le; lia).
        replace (k <? k + S n) with true by (symmetry; apply Nat.ltb_lt; lia). cbn [andb].
        rewrite Nat.sub_diag, Nat.add_0_r. reflexivity.
      * destruct (Nat.leb_spec (S j) k); destruct (Nat.leb_spec j k); try lia; cbn [andb]; auto.
        destruct (Nat.ltb_spec k (S j + n)); destruct (Nat.ltb_spec k (j + S n)); try lia; auto.
        f_equal. lia.
Qed.

(** A slice that holds the values [vs]. *)
Definition holds (sh own : arrays) (s : mslice) (vs : list (value U)) : Prop :=
  m_len s = length vs /\ forall k, k < m_len s -> load sh own (m_at s) k = nth k (map Some vs) None.

(** A slice an append to which stores only to arrays of the goroutine. *)
Definition private (s : mslice) : Prop :=
  match m_at s with Shared _ => m_len s = m_cap s | Own _ => True end.

(** The array is there and is as large as the capacity says. *)
Definition real (own : arrays) (s : mslice) : Prop :=
  m_len s <= m_cap s /\
  match m_at s with
  | Shared _ => True
  | Own a => m_cap s = 0 \/ (a < length own /\ length (nth a own []) = m_cap s)
  end.

(** The array of the goroutine that the slice may write to. *)
Definition target (s : mslice) : option nat :=
  match m_at s with Own a => if m_cap s =? 0 then None else Some a | Shared _ => None end.

Definition is_shared (s : mslice) : Prop := match m_at s with Shared _ => True | Own _ => False end.

(** Arrays other than [s]'s own are as before. *)
Definition frame_but (t : option nat) (own own' : arrays) : Prop :=
  length own <= length own' /\
  forall b, b < length own -> t <> Some b -> nth b own' [] = nth b own [].
Definition target_ok (own : arrays) (s s' : mslice) : Prop :=
  target s' = None \/ target s' = target s \/ exists a, target s' = Some a /\ length own <= a.

Lemma frame_refl t own : frame_but t own own.
Proof. split; auto. Qed.

Lemma holds_frame t sh own own' s vs :
  frame_but t own own' -> (target s = None \/ target s <> t) -> real own s ->
  holds sh own s vs -> holds sh own' s vs.
Proof.
  intros [F1 F2] T [R1 R2] [H1 H2]. split; auto. intros k Hk. rewrite <- H2 by auto.
  destruct (m_at s) as [i|a] eqn:Ea; cbn; auto. unfold cell. rewrite F2; auto.
  - destruct R2; lia.
  - unfold target in T. rewrite Ea in T. destruct (Nat.eqb_spec (m_cap s) 0); [lia|].
    destruct T as [T|T]; [discriminate|auto].
Qed.
Lemma real_frame t own own' s :
  frame_but t own own' -> (target s = None \/ target s <> t) -> real own s -> real own' s.
Proof.
  intros [F1 F2] T [R1 R2]. split; auto.
  destruct (m_at s) as [i|a] eqn:Ea; auto. destruct R2 as [R2|[R2 R3]]; [left; auto|].
  destruct (Nat.eqb_spec (m_cap s) 0) as [Z|Z]; [left; auto|]. right. split; [lia|].
  rewrite F2; auto. unfold target in T. rewrite Ea in T. destruct (m_cap s); [lia|].
  destruct T as [T|T]; [discriminate|auto].
Qed.

Lemma nth_app_some (vs ws : list (value U)) k :
  nth k (map Some (vs ++ ws)) None =
  if k <? length vs then nth k (map Some vs) None else nth (k - length vs) (map Some ws) None.
Proof.
  rewrite map_app. destruct (Nat.ltb_spec k (length vs)).
  - rewrite app_nth1; auto. rewrite map_length; auto.
  - rewrite app_nth2 by (rewrite map_length; lia). rewrite map_length. reflexivity.
Qed.

Lemma own_app_len (own : arrays) c : length (own ++ [repeat None c]) = S (length own).
Proof. rewrite app_length. cbn. lia. Qed.
Lemma own_app_new (own : arrays) c : nth (length own) (own ++ [repeat None c]) [] = repeat None c.
Proof. rewrite app_nth2 by lia. rewrite Nat.sub_diag. reflexivity. Qed.
Lemma own_app_old (own : arrays) c b : b < length own -> nth b (own ++ [repeat None c]) [] = nth b own [].
Proof. intro. apply app_nth1. auto. Qed.

(** [append(s, src...)] with the source in a template's array. *)
Lemma mappend_alone g s src vs ws sh own tr : grows g ->
  private s -> real own s -> holds sh own s vs -> is_shared src -> holds sh own src ws ->
  exists s' own', alone (mappend g s src) sh own tr = (s', sh, own', tr) /\
    private s' /\ real own' s' /\ holds sh own' s' (vs ++ ws) /\ frame_but (target s) own own' /\
    target_ok own s s'.
Proof.
  intros G P [R1 R2] [H1 H2] Sh [K1 K2]. unfold mappend.
  destruct (Nat.leb_spec (m_len s + m_len src) (m_cap s)) as [L|L].
  - destruct (Nat.eq_dec (m_len src) 0) as [Z|Z].
    { rewrite alone_bind, Z. cbn [mcopy alone]. rewrite Nat.add_0_r.
      assert (ws = []) by (destruct ws; [auto|cbn in K1; lia]). subst ws. rewrite app_nil_r.
      eexists _, own. split; [reflexivity|]. unfold private, real, holds, target, target_ok. cbn [m_at m_len m_cap].
      repeat split; auto. }
    destruct (m_at s) as [i|a] eqn:Ea.
    { unfold private in P. rewrite Ea in P. lia. }
    destruct R2 as [R2|[R2 R3]]; [lia|].
    rewrite alone_bind.
    destruct (mcopy_alone (m_len src) (m_at src) 0 a (m_len s) sh own tr) as (own' & E1 & E2 & E3 & E4 & E5); auto; try lia.
    { unfold is_shared in Sh. destruct (m_at src); [exact I|contradiction]. }
    rewrite E1. cbn [alone]. eexists _, own'. split; [reflexivity|].
    split; [exact I|]. split.
    { split; cbn [m_at m_len m_cap]; auto. right. split; lia. }
    split.
    { split; cbn [m_at m_len m_cap]; [rewrite app_length; lia|]. intros k Hk. cbn [load].
      rewrite E5, nth_app_some, <- H1.
      destruct (Nat.leb_spec (m_len s) k); destruct (Nat.ltb_spec k (m_len s)); try lia; cbn [andb].
      - replace (k <? m_len s + m_len src) with true by (symmetry; apply Nat.ltb_lt; lia).
        rewrite K2 by lia. reflexivity.
      - apply H2. auto. }
    split.
    { split; [lia|]. intros b Hb Hn. apply E4. intro; subst b. apply Hn. unfold target. rewrite Ea.
      destruct (m_cap s); [lia|reflexivity]. }
    right. left. unfold target. cbn [m_at m_cap]. rewrite Ea. reflexivity.
  - cbn [alone]. set (c := g (m_cap s) (m_len s + m_len src)).
    assert (Hc : m_len s + m_len src <= c) by apply G.
    set (own0 := own ++ [repeat None c]). set (a := length own).
    assert (A0 : a < length own0) by (unfold own0; rewrite own_app_len; unfold a; lia).
    assert (A1 : length (nth a own0 []) = c).
    { unfold own0, a. rewrite own_app_new. apply repeat_length. }
    assert (Ap : m_len s = 0 \/ apart (m_at s) a).
    { destruct (m_at s) as [i|b] eqn:Eb; [right; exact I|]. destruct R2 as [R2|[R2 R3]]; [left; lia|].
      right. cbn. unfold a. lia. }
    assert (L0 : forall k, k < m_len s -> load sh own0 (m_at s) k = load sh own (m_at s) k).
    { intros k Hk. destruct (m_at s) as [i|b] eqn:Eb; [reflexivity|]. cbn. unfold cell, own0.
      rewrite own_app_old; auto. destruct R2; lia. }
    assert (C1 : exists own1, alone (mcopy (m_len s) (m_at s) 0 (Own a) 0) sh own0 tr = (tt, sh, own1, tr) /\
      length own1 = length own0 /\ length (nth a own1 []) = c /\
      (forall b, b <> a -> nth b own1 [] = nth b own0 []) /\
      (forall k, k < m_len s -> cell own1 a k = load sh own (m_at s) k)).
    { destruct Ap as [Z|Ap].
      - rewrite Z. exists own0. cbn. repeat split; auto. intros; lia.
      - destruct (mcopy_alone (m_len s) (m_at s) 0 a 0 sh own0 tr) as (own1 & E1 & E2 & E3 & E4 & E5); auto; try lia.
        exists own1. repeat split; auto; try lia. intros k Hk. rewrite E5. cbn [Nat.leb andb Nat.add].
        replace (k <? m_len s) with true by (symmetry; apply Nat.ltb_lt; lia). rewrite Nat.sub_0_r. apply L0; auto. }
    destruct C1 as (own1 & E1 & E2 & E3 & E4 & E5). rewrite alone_bind, E1, alone_bind.
    destruct (mcopy_alone (m_len src) (m_at src) 0 a (m_len s) sh own1 tr) as (own2 & F1 & F2 & F3 & F4 & F5); auto; try lia.
    { unfold is_shared in Sh. destruct (m_at src); [exact I|contradiction]. }
    rewrite F1. cbn [alone]. eexists _, own2. split; [reflexivity|].
    split; [exact I|]. split.
    { split; cbn [m_at m_len m_cap]; auto. right. split; [lia|]. rewrite F3. exact E3. }
    split.
    { split; cbn [m_at m_len m_cap]; [rewrite app_length; lia|]. intros k Hk. cbn [load].
      rewrite F5, nth_app_some, <- H1.
      destruct (Nat.leb_spec (m_len s) k); destruct (Nat.ltb_spec k (m_len s)); try lia; cbn [andb].
      - replace (k <? m_len s + m_len src) with true by (symmetry; apply Nat.ltb_lt; lia).
        assert (X : load sh own1 (m_at src) (0 + (k - m_len s)) = load sh own (m_at src) (k - m_len s)).
        { unfold is_shared in Sh. destruct (m_at src); [reflexivity|contradiction]. }
        rewrite X. rewrite K2 by lia. reflexivity.
      - rewrite E5 by auto. apply H2. auto. }
    split.
    { unfold own0 in E2. rewrite own_app_len in E2. split; [lia|]. intros b Hb _.
      rewrite F4 by (unfold a; lia). rewrite E4 by (unfold a; lia). unfold own0. apply own_app_old. auto. }
    unfold target_ok, target. cbn [m_at m_cap]. fold c. destruct (c =? 0); [left; reflexivity|].
    right. right. exists a. split; [reflexivity|unfold a; lia].
Qed.

(** [append(s, v)]. *)
Lemma mappend1_alone g s v vs sh own tr : grows g ->
  private s -> real own s -> holds sh own s vs ->
  exists s' own', alone (mappend1 g s (Some v)) sh own tr = (s', sh, own', tr) /\
    private s' /\ real own' s' /\ holds sh own' s' (vs ++ [v]) /\ frame_but (target s) own own' /\
    target_ok own s s'.
Proof.
  intros G P [R1 R2] [H1 H2]. unfold mappend1.
  assert (N1 : forall k, k < S (m_len s) -> k <> m_len s -> k < m_len s) by lia.
  destruct (Nat.leb_spec (S (m_len s)) (m_cap s)) as [L|L].
  - destruct (m_at s) as [i|a] eqn:Ea.
    { unfold private in P. rewrite Ea in P. lia. }
    destruct R2 as [R2|[R2 R3]]; [lia|].
    cbn [alone]. eexists _, _. split; [reflexivity|].
    split; [exact I|]. split.
    { split; cbn [m_at m_len m_cap]; auto. right. rewrite put_len, put_at. auto. }
    split.
    { split; cbn [m_at m_len m_cap]; [rewrite app_length; cbn; lia|]. intros k Hk. cbn [load].
      rewrite put_cell by lia. rewrite nth_app_some, <- H1. destruct (Nat.eqb_spec (m_len s) k) as [<-|N].
      - rewrite Nat.ltb_irrefl, Nat.sub_diag. reflexivity.
      - replace (k <? m_len s) with true by (symmetry; apply Nat.ltb_lt; lia). apply H2. lia. }
    split.
    { split; [rewrite put_len; auto|]. intros b Hb Hn. apply put_other. intro; subst b. apply Hn. unfold target. rewrite Ea.
      destruct (m_cap s); [lia|reflexivity]. }
    right. left. unfold target. cbn [m_at m_cap]. rewrite Ea. reflexivity.
  - cbn [alone]. set (c := g (m_cap s) (S (m_len s))).
    assert (Hc : S (m_len s) <= c) by apply G.
    set (own0 := own ++ [repeat None c]). set (a := length own).
    assert (A0 : a < length own0) by (unfold own0; rewrite own_app_len; unfold a; lia).
    assert (A1 : length (nth a own0 []) = c).
    { unfold own0, a. rewrite own_app_new. apply repeat_length. }
    assert (Ap : m_len s = 0 \/ apart (m_at s) a).
    { destruct (m_at s) as [i|b] eqn:Eb; [right; exact I|]. destruct R2 as [R2|[R2 R3]]; [left; lia|].
      right. cbn. unfold a. lia. }
    assert (L0 : forall k, k < m_len s -> load sh own0 (m_at s) k = load sh own (m_at s) k).
    { intros k Hk. destruct (m_at s) as [i|b] eqn:Eb; [reflexivity|]. cbn. unfold cell, own0.
      rewrite own_app_old; auto. destruct R2; lia. }
    assert (C1 : exists own1, alone (mcopy (m_len s) (m_at s) 0 (Own a) 0) sh own0 tr = (tt, sh, own1, tr) /\
      length own1 = length own0 /\ length (nth a own1 []) = c /\
      (forall b, b <> a -> nth b own1 [] = nth b own0 []) /\
      (forall k, k < m_len s -> cell own1 a k = load sh own (m_at s) k)).
    { destruct Ap as [Z|Ap].
      - rewrite Z. exists own0. cbn. repeat split; auto. intros; lia.
      - destruct (mcopy_alone (m_len s) (m_at s) 0 a 0 sh own0 tr) as (own1 & E1 & E2 & E3 & E4 & E5); auto; try lia.
        exists own1. repeat split; auto; try lia. intros k Hk. rewrite E5. cbn [Nat.leb andb Nat.add].
        replace (k <? m_len s) with true by (symmetry; apply Nat.ltb_lt; lia). rewrite Nat.sub_0_r. apply L0; auto. }
    destruct C1 as (own1 & E1 & E2 & E3 & E4 & E5). rewrite alone_bind, E1. cbn [alone].
    eexists _, _. split; [reflexivity|].
    split; [exact I|]. split.
    { split; cbn [m_at m_len m_cap]; auto. right. rewrite put_len, put_at. split; [lia|exact E3]. }
    split.
    { split; cbn [m_at m_len m_cap]; [rewrite app_length; cbn; lia|]. intros k Hk. cbn [load].
      rewrite put_cell by lia. rewrite nth_app_some, <- H1. destruct (Nat.eqb_spec (m_len s) k) as [<-|N].
      - rewrite Nat.ltb_irrefl, Nat.sub_diag. reflexivity.
      - replace (k <? m_len s) with true by (symmetry; apply Nat.ltb_lt; lia).
        rewrite E5 by lia. apply H2. lia. }
    split.
    { unfold own0 in E2. rewrite own_app_len in E2. split; [rewrite put_len; lia|]. intros b Hb _.
      rewrite put_other by (unfold a; lia). rewrite E4 by (unfold a; lia). unfold own0. apply own_app_old. auto. }
    unfold target_ok, target. cbn [m_at m_cap]. fold c. destruct (c =? 0); [left; reflexivity|].
    right. right. exists a. split; [reflexivity|unfold a; lia].
Qed.

(** Rendering shows the values the slice holds. *)
Lemma mvalues_alone n : forall x j sh own tr vs, length vs = n ->
  (forall k, k < n -> load sh own x (j + k) = nth k (map Some vs) None) ->
  alone (mvalues n x j) sh own tr = (tt, sh, own, tr ++ map (fun v => OVal (Some v)) vs).
Proof.
  induction n as [|n IH]; intros x j sh own tr vs L H; cbn [mvalues alone].
  - destruct vs; [|discriminate]. rewrite app_nil_r. reflexivity.
  - destruct vs as [|v vs]; [discriminate|]. pose proof (H 0 ltac:(lia)) as H0. rewrite Nat.add_0_r in H0.
    rewrite H0. cbn [map nth]. rewrite (IH x (S j) sh own _ vs); [|auto|].
    + rewrite <- app_assoc. reflexivity.
    + intros k Hk. pose proof (H (S k) ltac:(lia)) as H1. rewrite Nat.add_succ_r in H1. exact H1.
Qed.
Lemma holds_shown sh own s vs tr : holds sh own s vs ->
  alone (mvalues (m_len s) (m_at s) 0) sh own tr = (tt, sh, own, tr ++ map (fun v => OVal (Some v)) vs).
Proof. intros [H1 H2]. apply mvalues_alone; auto. Qed.

(** What a functional attribute shows. *)
Definition shown (a : attr U) : list out :=
  match a with
  | APlain n vs => OAttr n None :: map (fun v => OVal (Some v)) vs ++ [OEnd]
  | ABool n => [OBool n]
  | ADelim n d vs => OAttr n (Some d) :: map (fun v => OVal (Some v)) vs ++ [OEnd]
  end.

(** A template's attribute node in memory. *)
Definition stored (sh : arrays) (m : mattr) (a : attr U) : Prop :=
  match m, a with
  | MPlain n s, APlain n' vs => n = n' /\ is_shared s /\ holds sh [] s vs
  | MBool n, ABool n' => n = n'
  | MDelim n d s, ADelim n' d' vs => n = n' /\ d = d' /\ is_shared s /\ holds sh [] s vs
  | _, _ => False
  end.

Lemma holds_shared sh own own' s vs : is_shared s -> holds sh own s vs -> holds sh own' s vs.
Proof.
  intros S [H1 H2]. split; auto. intros k Hk. rewrite <- H2 by auto. unfold is_shared in S.
  destruct (m_at s); [reflexivity|contradiction].
Qed.

Lemma mrender_alone sh own m a tr : stored sh m a ->
  alone (mrender m) sh own tr = (tt, sh, own, tr ++ shown a).
Proof.
  destruct m as [n s|n|n d s], a as [n' vs|n'|n' d' vs]; cbn [stored]; try contradiction.
  - intros (-> & S & H). cbn [mrender alone]. rewrite alone_bind.
    rewrite (holds_shown sh own s vs) by (eapply holds_shared; eauto). cbn [alone shown].
    rewrite <- !app_assoc. reflexivity.
  - intros ->. reflexivity.
  - intros (-> & -> & S & H). cbn [mrender alone]. rewrite alone_bind.
    rewrite (holds_shown sh own s vs) by (eapply holds_shared; eauto). cbn [alone shown].
    rewrite <- !app_assoc. reflexivity.
Qed.
Lemma mdelim_alone sh own n d s vs tr : holds sh own s vs ->
  alone (mrender (MDelim n d s)) sh own tr = (tt, sh, own, tr ++ shown (ADelim n d vs)).
Proof.
  intro H. cbn [mrender alone]. rewrite alone_bind. rewrite (holds_shown sh own s vs) by auto. cbn [alone shown].
  rewrite <- !app_assoc. reflexivity.
Qed.

Lemma stored_last sh d d' l l' : stored sh d d' -> Forall2 (stored sh) l l' ->
  stored sh (last l d) (last l' d').
Proof.
  intros H F. induction F as [|x y l l' Hxy F IH]; [exact H|].
  destruct F; [exact Hxy|exact IH].
Qed.

(** ** renderAttributes *)

Definition opt2 {A B} (R : A -> B -> Prop) (x : option A) (y : option B) : Prop :=
  match x, y with Some a, Some b => R a b | None, None => True | _, _ => False end.

(** The attribute each name renders as: what Render.v says. *)
Definition resolved (x : option (attr U) * list (attr U)) : list (attr U) :=
  match x with
  | (Some a, []) => [a]
  | (Some a, es) => [resolve_static a es]
  | (None, []) => []
  | (None, first :: rest) => [resolve_dynamic first rest]
  end.

Lemma mappend_all_alone g sh : grows g -> forall l l', Forall2 (stored sh) l l' ->
  forall s own vs tr, private s -> real own s -> holds sh own s vs -> ~ is_shared s ->
  exists s' own', alone (mappend_all g s l) sh own tr = (s', sh, own', tr) /\
    private s' /\ real own' s' /\ holds sh own' s' (vs ++ all_values l') /\ ~ is_shared s'.
Proof.
  intros G l l' F. induction F as [|m a l l' H F IH]; intros s own vs tr P R K N.
  - exists s, own. cbn. rewrite app_nil_r. auto 6.
  - cbn [mappend_all].
    assert (X : forall sl ws, is_shared sl -> holds sh [] sl ws ->
       exists s' own', alone (mbind (mappend g s sl) (fun s' => mappend_all g s' l)) sh own tr = (s', sh, own', tr) /\
         private s' /\ real own' s' /\ holds sh own' s' (vs ++ ws ++ all_values l') /\ ~ is_shared s').
    { intros sl ws S Hs. rewrite alone_bind.
      destruct (mappend_alone g s sl vs ws sh own tr G P R K S) as (s1 & own1 & E & P1 & R1 & K1 & F1 & T1).
      { eapply holds_shared; eauto. }
      rewrite E. rewrite app_assoc. apply IH; auto.
      unfold mappend in E. destruct (m_len s + m_len sl <=? m_cap s).
      - rewrite alone_bind in E. destruct (alone (mcopy _ _ _ _ _) _ _ _) as [[[? ?] ?] ?]. cbn in E.
        inversion E; subst. exact N.
      - cbn [alone] in E. rewrite alone_bind in E. destruct (alone (mcopy _ _ _ _ _) _ _ _) as [[[? ?] ?] ?].
        rewrite alone_bind in E. destruct (alone (mcopy _ _ _ _ _) _ _ _) as [[[? ?] ?] ?]. cbn in E.
        inversion E; subst. intros []. }
    unfold all_values. cbn [flat_map]. fold (all_values l').
    destruct m as [n sl|n|n d sl], a as [n' ws|n'|n' d' ws]; cbn [stored] in H; try contradiction; cbn [get_values attr_values].
    + destruct H as (-> & S & H). apply X; auto.
    + apply IH; auto.
    + destruct H as (-> & -> & S & H). apply X; auto.
Qed.

Lemma use_delim_alone g sh n d sl ws l l' s own tr : grows g ->
  is_shared sl -> holds sh [] sl ws -> Forall2 (stored sh) l l' ->
  private s -> real own s -> ~ is_shared s ->
  exists s' own', alone (use_delim g s n d sl l) sh own tr =
      (s', sh, own', tr ++ shown (ADelim n d (ws ++ all_values l'))) /\
    private s' /\ real own' s' /\ ~ is_shared s'.
Proof.
  intros G S H F P R N. unfold use_delim. rewrite alone_bind.
  set (s0 := MSlice (m_at s) 0 (m_cap s)).
  assert (P0 : private s0). { unfold private, s0, is_shared in *. cbn. destruct (m_at s); [destruct (N I)|exact I]. }
  assert (R0 : real own s0). { unfold real, s0 in *. cbn. split; [lia|apply R]. }
  assert (K0 : holds sh own s0 []). { split; [reflexivity|]. unfold s0. cbn. intros; lia. }
  destruct (mappend_alone g s0 sl [] ws sh own tr G P0 R0 K0 S) as (s1 & own1 & E & P1 & R1 & K1 & F1 & T1).
  { eapply holds_shared; eauto. }
  assert (N1 : ~ is_shared s1).
  { unfold mappend in E. destruct (m_len s0 + m_len sl <=? m_cap s0).
    - rewrite alone_bind in E. destruct (alone (mcopy _ _ _ _ _) _ _ _) as [[[? ?] ?] ?]. cbn in E.
      inversion E; subst. exact N.
    - cbn [alone] in E. rewrite alone_bind in E. destruct (alone (mcopy _ _ _ _ _) _ _ _) as [[[? ?] ?] ?].
      rewrite alone_bind in E. destruct (alone (mcopy _ _ _ _ _) _ _ _) as [[[? ?] ?] ?]. cbn in E.
      inversion E; subst. intros []. }
  rewrite E, alone_bind. cbn [app] in K1.
  destruct (mappend_all_alone g sh G l l' F s1 own1 ws tr P1 R1 K1 N1) as (s2 & own2 & E2 & P2 & R2 & K2 & N2).
  rewrite E2, alone_bind. rewrite (mdelim_alone sh own2 n d s2 _ tr K2). cbn [alone].
  exists s2, own2. auto.
Qed.

Lemma use_names_alone g sh : grows g -> forall l l',
  Forall2 (fun x y => opt2 (stored sh) (fst x) (fst y) /\ Forall2 (stored sh) (snd x) (snd y)) l l' ->
  forall s own tr, private s -> real own s -> ~ is_shared s ->
  exists own', alone (use_names g s l) sh own tr =
    (tt, sh, own', tr ++ flat_map shown (flat_map resolved l')).
Proof.
  intros G l l' F. induction F as [|[ms act] [fs act'] l l' [H1 H2] F IH]; intros s own tr P R N.
  - exists own. cbn. rewrite app_nil_r. reflexivity.
  - cbn [use_names fst snd] in *. rewrite alone_bind.
    assert (X : exists s' own', alone (use_name g s ms act) sh own tr =
        (s', sh, own', tr ++ flat_map shown (resolved (fs, act'))) /\ private s' /\ real own' s' /\ ~ is_shared s').
    { destruct ms as [m|], fs as [a|]; cbn [opt2] in H1; try contradiction.
      - destruct act as [|m2 act].
        + inversion H2; subst. cbn [use_name resolved flat_map]. rewrite alone_bind, (mrender_alone sh own m a) by auto.
          cbn [alone]. rewrite app_nil_r. exists s, own. auto.
        + assert (D : use_name g s (Some m) (m2 :: act) =
              match m with MDelim n d own => use_delim g s n d own (m2 :: act)
              | _ => mbind (mrender (last (m2 :: act) m)) (fun _ => MRet s) end) by reflexivity.
          rewrite D. assert (D' : resolved (Some a, act') = [resolve_static a act']) by (inversion H2; subst; reflexivity).
          rewrite D'. cbn [flat_map]. rewrite app_nil_r. clear D D'.
          destruct m as [n sl|n|n d sl], a as [n' ws|n'|n' d' ws]; cbn [stored] in H1; try contradiction.
          * rewrite alone_bind, (mrender_alone sh own _ (last act' (APlain n' ws))) by (apply stored_last; [exact H1|exact H2]).
            exists s, own. auto.
          * rewrite alone_bind, (mrender_alone sh own _ (last act' (ABool n'))) by (apply stored_last; [exact H1|exact H2]).
            exists s, own. auto.
          * destruct H1 as (-> & -> & S & H1). apply use_delim_alone; auto.
      - destruct H2 as [|m a act act' Hm H2].
        + cbn. exists s, own. rewrite app_nil_r. auto.
        + cbn [resolved flat_map]. rewrite app_nil_r.
          destruct m as [n sl|n|n d sl], a as [n' ws|n'|n' d' ws]; cbn [stored] in Hm; try contradiction; cbn [use_name].
          * rewrite alone_bind, (mrender_alone sh own _ (last act' (APlain n' ws))) by (apply stored_last; [exact Hm|exact H2]).
            exists s, own. auto.
          * rewrite alone_bind, (mrender_alone sh own _ (last act' (ABool n'))) by (apply stored_last; [exact Hm|exact H2]).
            exists s, own. auto.
          * destruct Hm as (-> & -> & S & Hm). apply use_delim_alone; auto. }
    destruct X as (s' & own' & E & P' & R' & N'). rewrite E.
    destruct (IH s' own' (tr ++ flat_map shown (resolved (fs, act'))) P' R' N') as [own2 E2].
    exists own2. rewrite E2. cbn [flat_map]. rewrite flat_map_app, app_assoc. reflexivity.
Qed.

Theorem use_attributes_alone g sh l l' tr : grows g ->
  Forall2 (fun x y => opt2 (stored sh) (fst x) (fst y) /\ Forall2 (stored sh) (snd x) (snd y)) l l' ->
  exists own', alone (use_attributes g l) sh [] tr = (tt, sh, own', tr ++ flat_map shown (flat_map resolved l')).
Proof.
  intros G F. unfold use_attributes. apply use_names_alone; auto.
  - exact I.
  - split; cbn; auto.
Qed.

(** It stores to no shared array. *)
Lemma mcopy_safe n x i a j : safe anything (mcopy n x i (Own a) j).
Proof. revert i j. induction n as [|n IH]; intros i j; cbn; [exact I|]. intro. apply IH. Qed.
Lemma mappend_safe g s src : private s -> (m_len s + m_len src <= m_cap s -> m_len src <> 0 -> ~ is_shared s) ->
  safe (fun s' => (m_at s' = m_at s /\ m_cap s' = m_cap s /\ m_len s' = m_len s + m_len src) \/ ~ is_shared s') (mappend g s src).
Proof.
  intros P N. unfold mappend. destruct (Nat.leb_spec (m_len s + m_len src) (m_cap s)) as [L|L].
  - apply safe_bind with (Q := anything).
    + destruct (m_at s) as [i|a] eqn:Ea; [|apply mcopy_safe].
      destruct (m_len src) as [|n] eqn:En; [exact I|]. exfalso. apply N; auto. unfold is_shared. rewrite Ea. exact I.
    + intros _ _. cbn. left. auto.
  - cbn [safe]. intro i. eapply safe_bind; [apply mcopy_safe|]. intros _ _.
    eapply safe_bind; [apply mcopy_safe|]. intros _ _. cbn. right. intros [].
Qed.
Lemma mvalues_safe n x j : safe anything (mvalues n x j).
Proof. revert j. induction n as [|n IH]; intro j; cbn; [exact I|]. intro. apply IH. Qed.
Lemma mrender_safe m : safe anything (mrender m).
Proof.
  destruct m; cbn; auto; [eapply safe_bind; [apply mvalues_safe|intros; exact I]
                         |exact I|eapply safe_bind; [apply mvalues_safe|intros; exact I]].
Qed.
Lemma mappend_safe' g s src : ~ is_shared s -> safe (fun s' => ~ is_shared s') (mappend g s src).
Proof.
  intro N. eapply safe_weaken; [|apply mappend_safe; auto].
  - intros a [(E & _)|K]; auto. unfold is_shared in *. rewrite E. exact N.
  - unfold private. unfold is_shared in N. destruct (m_at s); [destruct (N I)|exact I].
Qed.
Lemma mappend_all_safe g l : forall s, ~ is_shared s -> safe (fun s' => ~ is_shared s') (mappend_all g s l).
Proof.
  induction l as [|m l IH]; intros s N; cbn [mappend_all]; [exact N|].
  destruct (get_values m); [|apply IH, N]. eapply safe_bind; [apply mappend_safe', N|]. intros s' N'. apply IH, N'.
Qed.
Lemma use_delim_safe g s n d own more : ~ is_shared s -> safe (fun s' => ~ is_shared s') (use_delim g s n d own more).
Proof.
  intro N. unfold use_delim. eapply safe_bind; [apply mappend_safe'; exact N|]. intros s1 N1.
  eapply safe_bind; [apply mappend_all_safe, N1|]. intros s2 N2.
  eapply safe_bind; [apply mrender_safe|]. intros _ _. exact N2.
Qed.
Theorem use_attributes_safe g l : safe anything (use_attributes g l).
Proof.
  unfold use_attributes.
  assert (G : forall s, ~ is_shared s -> safe anything (use_names g s l)).
  { induction l as [|[ms act] l IH]; intros s N; cbn [use_names]; [exact I|].
    eapply safe_bind with (Q := fun s' => ~ is_shared s'); [|intros s' N'; apply IH, N'].
    destruct ms as [m|]; cbn [use_name].
    - destruct act as [|m2 act].
      + eapply safe_bind; [apply mrender_safe|intros; exact N].
      + destruct m; try (eapply safe_bind; [apply mrender_safe|intros; exact N]). apply use_delim_safe, N.
    - destruct act as [|m2 act]; [exact N|].
      destruct m2; try (eapply safe_bind; [apply mrender_safe|intros; exact N]). apply use_delim_safe, N. }
  apply G. intros [].
Qed.

End Facts.
