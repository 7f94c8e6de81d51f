(** Several goroutines over one memory.

    A goroutine is a program with a call stack, run one step at a time. The memory
    has a part that all goroutines share and, for each goroutine, the objects it
    has allocated itself. A goroutine reads and writes both; a write to the shared
    part is seen by all the others. Any order of steps is possible. *)
From Coq Require Import ZArith Lia.
From Verif Require Import Bytes IO IOFacts Nodes Slices GoSyntax GoSem GoRun.

Section Threads.
Context {W : UserWorld}.
Variable C : config.

(** What is still to be done when the program at the top ends. *)
Inductive kont (A : Type) : Type -> Type :=
| KNil : kont A A
| KPush (X Y : Type) (f : X -> prog Y) (K : kont A Y) : kont A X.
Arguments KNil {A}. Arguments KPush {A X Y}.
Inductive code (A : Type) : Type := Code (X : Type) (p : prog X) (K : kont A X).
Arguments Code {A X}.

(** One step; [n] is the budget for looking at a context (GoSem.v, [snapshot]).
    Nothing comes after the end, [PRet] with nothing more to be done, or a panic. *)
Definition tstep {A} (n : nat) (E : env) (c : code A) (h : heap) (w : world U) : option (code A * heap * world U) :=
  let 'Code p K := c in
  match p with
  | PRet x => match K in kont _ X return X -> option (code A * heap * world U) with
              | KNil => fun _ => None
              | KPush f K' => fun x => Some (Code (f x) K', h, w)
              end x
  | PPanic => None
  | PHeap k => match k h with
               | Some (q, h') => Some (Code q K, h', w)
               | None => Some (Code PPanic K, h, w)
               end
  | PUser l k => match snapshot n h l with
                 | Some c => let '(q, u') := k c (w_u w) in Some (Code q K, h, World (w_log w) u' (w_tick w))
                 | None => None
                 end
  | PState k => let '(q, u') := k (w_u w) in Some (Code q K, h, World (w_log w) u' (w_tick w))
  | PWrite d k => let '(m, e) := e_wr E (w_log w) d in
                  Some (Code (k m e) K, h, World (w_log w ++ [WCall d m e]) (w_u w) (w_tick w))
  | PPick ks k => Some (Code (k (e_ord E (w_tick w) ks)) K, h, World (w_log w) (w_u w) (S (w_tick w)))
  | PCall c args sp k => Some (Code (body_of C c args sp) (KPush k K), h, w)
  | PLoop b s k => Some (Code (b s) (KPush (fun r => match r with inl s' => PLoop b s' k | inr x => k x end) K), h, w)
  end.

Lemma tstep_mono {A} n m E (c : code A) h w r : n <= m -> tstep n E c h w = Some r -> tstep m E c h w = Some r.
Proof.
  intro Hm. destruct c as [X p K]. destruct p; cbn [tstep]; auto.
  destruct (snapshot n h l) as [c|] eqn:S; [|discriminate]. rewrite (snapshot_mono n m h l c Hm S). auto.
Qed.
(** A goroutine by itself has no choice. *)
Lemma tstep_unique {A} n m E (c : code A) h w r r' : tstep n E c h w = Some r -> tstep m E c h w = Some r' -> r = r'.
Proof.
  intros H H'. apply (tstep_mono n (Nat.max n m)) in H; [|lia]. apply (tstep_mono m (Nat.max n m)) in H'; [|lia]. congruence.
Qed.

(** [k] steps of one goroutine, none of which writes below the floor. *)
Fixpoint gets {FL : floor} {A} (k : nat) (E : env) (c : code A) (h : heap) (w : world U) (c' : code A) (h' : heap) (w' : world U) : Prop :=
  match k with
  | 0 => c = c' /\ h = h' /\ w = w'
  | S k' => exists n c1 h1 w1, tstep n E c h w = Some (c1, h1, w1) /\ stays h h1 /\ gets k' E c1 h1 w1 c' h' w'
  end.

Lemma gets_trans {FL : floor} {A} i j E (c : code A) h w c1 h1 w1 c2 h2 w2 :
  gets i E c h w c1 h1 w1 -> gets j E c1 h1 w1 c2 h2 w2 -> gets (i + j) E c h w c2 h2 w2.
Proof.
  revert c h w. induction i as [|i IH]; cbn [gets Nat.add]; intros c h w.
  - intros (-> & -> & ->). auto.
  - intros (n & c' & h' & w' & H1 & H2 & H3) H4. exists n, c', h', w'. eauto.
Qed.
Lemma gets_first {FL : floor} {A} n k E (c : code A) h w c1 h1 w1 c2 h2 w2 :
  tstep n E c h w = Some (c1, h1, w1) -> stays h h1 -> gets k E c1 h1 w1 c2 h2 w2 -> gets (S k) E c h w c2 h2 w2.
Proof. intros. cbn [gets]. exists n, c1, h1, w1. auto. Qed.

(** The steps of a run. *)
Lemma ran_gets {FL : floor} E n : forall X (p : prog X) h w x h' w', ran C n E p h w (ROk x h' w') ->
  forall A (K : kont A X), exists k, gets k E (Code p K) h w (Code (PRet x) K) h' w'.
Proof.
  induction n as [|n IH]; [contradiction|]. intros X p h w x h' w'.
  destruct p as [a| |k|l k|k|d k|ks k|c args sp k|b s k]; cbn [ran]; intros R A K.
  - inversion R; subst. exists 0. cbn [gets]. auto.
  - discriminate.
  - destruct (k h) as [[q h1]|] eqn:Q; [|discriminate]. destruct R as [Hs R]. destruct (IH _ _ _ _ _ _ _ R A K) as (j & G). exists (S j).
    eapply (gets_first 0); [cbn [tstep]; rewrite Q; reflexivity|exact Hs|exact G].
  - destruct (snapshot n h l) as [c|] eqn:Sn; [|contradiction]. destruct (k c (w_u w)) as [q u'] eqn:Q.
    destruct (IH _ _ _ _ _ _ _ R A K) as (j & G). exists (S j).
    eapply (gets_first n); [cbn [tstep]; rewrite Sn, Q; reflexivity|apply stays_same|exact G].
  - destruct (k (w_u w)) as [q u'] eqn:Q. destruct (IH _ _ _ _ _ _ _ R A K) as (j & G). exists (S j).
    eapply (gets_first 0); [cbn [tstep]; rewrite Q; reflexivity|apply stays_same|exact G].
  - destruct (e_wr E (w_log w) d) as [m e] eqn:Q. destruct (IH _ _ _ _ _ _ _ R A K) as (j & G). exists (S j).
    eapply (gets_first 0); [cbn [tstep]; rewrite Q; reflexivity|apply stays_same|exact G].
  - destruct (IH _ _ _ _ _ _ _ R A K) as (j & G). exists (S j).
    eapply (gets_first 0); [reflexivity|apply stays_same|exact G].
  - destruct R as [(vs & h1 & w1 & R1 & R2)|(w1 & _ & R)]; [|discriminate].
    destruct (IH _ _ _ _ _ _ _ R1 A (KPush k K)) as (j1 & G1). destruct (IH _ _ _ _ _ _ _ R2 A K) as (j2 & G2).
    exists (S (j1 + S j2)). eapply (gets_first 0); [reflexivity|apply stays_same|]. eapply gets_trans; [exact G1|].
    eapply (gets_first 0); [reflexivity|apply stays_same|exact G2].
  - destruct R as [(s' & h1 & w1 & R1 & R2)|[(y & h1 & w1 & R1 & R2)|(w1 & _ & R)]]; [| |discriminate];
      destruct (IH _ _ _ _ _ _ _ R1 A (KPush (fun r => match r with inl s' => PLoop b s' k | inr x => k x end) K)) as (j1 & G1);
      destruct (IH _ _ _ _ _ _ _ R2 A K) as (j2 & G2);
      (exists (S (j1 + S j2)); eapply (gets_first 0); [reflexivity|apply stays_same|]; eapply gets_trans; [exact G1|];
       eapply (gets_first 0); [reflexivity|apply stays_same|exact G2]).
Qed.

(** ** All goroutines *)

Record thread (A : Type) := Thread { t_code : code A; t_own : heap; t_env : env; t_world : world U }.
Arguments Thread {A}. Arguments t_code {A}. Arguments t_own {A}. Arguments t_env {A}. Arguments t_world {A}.

(** One step of the goroutine number [i]: it finds the shared objects and its own,
    and leaves them as its step does. *)
Definition turn {A} (n i : nat) (g : heap) (ts : list (thread A)) : option (heap * list (thread A)) :=
  match nth_error ts i with
  | Some t =>
      match tstep n (t_env t) (t_code t) (g ++ t_own t) (t_world t) with
      | Some (c', h', w') => Some (firstn (length g) h', set_nth ts i (Thread c' (skipn (length g) h') (t_env t) w'))
      | None => None
      end
  | None => None
  end.
(** The goroutines take turns in the order of the schedule. *)
Fixpoint turns {A} (sched : list (nat * nat)) (g : heap) (ts : list (thread A)) (g' : heap) (ts' : list (thread A)) : Prop :=
  match sched with
  | [] => g = g' /\ ts = ts'
  | (n, i) :: sched' => exists g1 ts1, turn n i g ts = Some (g1, ts1) /\ turns sched' g1 ts1 g' ts'
  end.
Lemma turns_app {A} s1 s2 : forall g (ts : list (thread A)) g1 ts1 g2 ts2,
  turns s1 g ts g1 ts1 -> turns s2 g1 ts1 g2 ts2 -> turns (s1 ++ s2) g ts g2 ts2.
Proof.
  induction s1 as [|[n i] s1 IH]; intros g ts g1 ts1 g2 ts2; cbn [turns app]; [intros (-> & ->); auto|].
  intros (g' & ts' & T & H) H2. exists g', ts'. eauto.
Qed.
(** No goroutine can go on. *)
Definition at_rest {A} (g : heap) (ts : list (thread A)) : Prop := forall n i, turn n i g ts = None.

Section Sound.
Context {A : Type}.
Implicit Types (t : thread A) (ts : list (thread A)).

(** A goroutine that, alone, comes to an end without writing to what is shared. *)
Definition goes (g : heap) (k : nat) (t : thread A) (x : A) (own : heap) (w : world U) : Prop :=
  gets (FL := length g) k (t_env t) (t_code t) (g ++ t_own t) (t_world t) (Code (PRet x) KNil) (g ++ own) w.

Lemma stays_shared (g a h : heap) : stays (FL := length g) (g ++ a) h -> firstn (length g) h = g /\ h = g ++ skipn (length g) h.
Proof.
  intro St.
  assert (F : firstn (length g) h = g).
  { unfold stays, base in St. clear -St. revert h St. induction g as [|o g IH]; intros h St; [reflexivity|].
    pose proof (St 0 o ltac:(cbn [length]; lia) eq_refl) as H0. destruct h as [|o' h]; [discriminate|]. cbn [nth_error] in H0. inversion H0; subst.
    cbn [length firstn]. f_equal. apply IH. intros l x Hl Hx. exact (St (S l) x ltac:(cbn [length]; lia) Hx). }
  split; [exact F|]. transitivity (firstn (length g) h ++ skipn (length g) h); [symmetry; apply firstn_skipn|]. rewrite F. reflexivity.
Qed.

Lemma set_nth_length {X} (l : list X) i x : length (set_nth l i x) = length l.
Proof. revert i. induction l as [|y l IH]; intros [|i]; cbn [set_nth length]; auto. Qed.

(** What is left to do, per goroutine, and how it will end. *)
Inductive going (g : heap) : list (thread A) -> list (A * heap * world U) -> nat -> Prop :=
| going_nil : going g [] [] 0
| going_cons t ts x own w rs k j : goes g k t x own w -> going g ts rs j -> going g (t :: ts) ((x, own, w) :: rs) (k + j).

Lemma going_turn g n i g1 ts ts1 rs k : going g ts rs k -> turn n i g ts = Some (g1, ts1) ->
  g1 = g /\ exists k', k = S k' /\ going g ts1 rs k' /\ map t_env ts1 = map t_env ts.
Proof.
  intro G. revert i ts1. induction G as [|t ts x own w rs k j Ht G IH]; intros i ts1 H.
  - unfold turn in H. destruct i; discriminate.
  - destruct i as [|i].
    + unfold turn in H. cbn [nth_error] in H. destruct (tstep n _ _ _ _) as [[[c' h'] w']|] eqn:S0; [|discriminate].
      cbn [set_nth] in H. inversion H; subst; clear H. unfold goes in Ht. destruct k as [|k]; cbn [gets] in Ht.
      * destruct Ht as (E1 & _). rewrite E1 in S0. discriminate.
      * destruct Ht as (m & c1 & h1 & w1 & S1 & St & Ht). pose proof (tstep_unique _ _ _ _ _ _ _ _ S0 S1) as Q. inversion Q; subst; clear Q.
        destruct (stays_shared _ _ _ St) as (F & Hh). split; [exact F|]. exists (k + j). split; [reflexivity|]. split; [|reflexivity].
        constructor; [|exact G]. unfold goes. cbn [t_env t_code t_own t_world]. rewrite <- Hh. exact Ht.
    + assert (H' : exists ts2, turn n i g ts = Some (g1, ts2) /\ ts1 = t :: ts2).
      { unfold turn in *. cbn [nth_error] in H. destruct (nth_error ts i) as [t'|]; [|discriminate].
        destruct (tstep n _ _ _ _) as [[[c' h'] w']|]; [|discriminate]. cbn [set_nth] in H. inversion H; subst. eauto. }
      destruct H' as (ts2 & H' & ->). destruct (IH _ _ H') as (-> & k' & -> & G' & Em). split; [reflexivity|].
      exists (k + k'). split; [lia|]. split; [constructor; auto|]. cbn [map]. rewrite Em. reflexivity.
Qed.

Lemma going_turns g sched : forall ts rs k g' ts', going g ts rs k -> turns sched g ts g' ts' ->
  g' = g /\ length sched <= k /\ going g ts' rs (k - length sched) /\ map t_env ts' = map t_env ts.
Proof.
  induction sched as [|[n i] sched IH]; intros ts rs k g' ts' G; cbn [turns length].
  - intros (-> & ->). rewrite Nat.sub_0_r. repeat split; auto. lia.
  - intros (g1 & ts1 & H1 & H2). destruct (going_turn _ _ _ _ _ _ _ _ G H1) as (-> & k' & -> & G' & Em).
    destruct (IH _ _ _ _ _ G' H2) as (-> & L & G2 & Em2). repeat split; auto; [lia|congruence].
Qed.

(** Someone can go on as long as something is left to do. *)
Lemma going_on g ts rs k : going g ts rs (S k) -> exists n i r, turn n i g ts = Some r.
Proof.
  intro G. remember (S k) as s eqn:Es. revert k Es. induction G as [|t ts x own w rs k0 j Ht G IH]; intros k Es; [discriminate|].
  destruct k0 as [|k0].
  - destruct (IH k Es) as (n & i & r & H). exists n, (S i). unfold turn in *. cbn [nth_error]. destruct (nth_error ts i) as [t'|]; [|discriminate].
    destruct (tstep n _ _ _ _) as [[[c' h'] w']|]; [|discriminate]. eexists. reflexivity.
  - unfold goes in Ht. cbn [gets] in Ht. destruct Ht as (n & c1 & h1 & w1 & S1 & _). exists n, 0. unfold turn. cbn [nth_error]. rewrite S1. eexists. reflexivity.
Qed.
(** Nothing is left to do: all have ended. *)
Lemma going_end g ts rs : going g ts rs 0 ->
  ts = map (fun '(E, (x, own, w)) => Thread (Code (PRet x) KNil) own E w) (combine (map t_env ts) rs).
Proof.
  intro G. remember 0 as z eqn:Ez. revert Ez. induction G as [|t ts x own w rs k j Ht G IH]; intro Ez; [reflexivity|].
  assert (k = 0) by lia. assert (j = 0) by lia. subst. cbn [map combine]. f_equal; [|auto].
  unfold goes in Ht. cbn [gets] in Ht. destruct Ht as (E1 & E2 & E3). apply app_inv_head in E2. destruct t as [c o E w']. cbn [t_code t_own t_env t_world] in *. congruence.
Qed.

(** Whatever the schedule: the shared objects stay as they are, the goroutines take
    [k] turns in all and come to rest with what each would have come to alone. *)
Theorem every_schedule g ts rs k : going g ts rs k ->
  forall sched g' ts', turns sched g ts g' ts' ->
  g' = g /\ length sched <= k /\
  (length sched = k <-> at_rest g' ts') /\
  (at_rest g' ts' -> ts' = map (fun '(E, (x, own, w)) => Thread (Code (PRet x) KNil) own E w) (combine (map t_env ts) rs)).
Proof.
  intros G sched g' ts' H. destruct (going_turns _ _ _ _ _ _ _ G H) as (-> & L & G' & Em).
  assert (Z : at_rest g ts' -> length sched = k).
  { intro R. destruct (k - length sched) as [|j] eqn:Q; [lia|]. destruct (going_on _ _ _ _ G') as (n & i & r & T). rewrite R in T. discriminate. }
  split; [reflexivity|]. split; [exact L|]. split; [split; [|exact Z]|].
  - intros Ek n i. destruct (turn n i g ts') as [[g1 ts1]|] eqn:T; [|reflexivity].
    destruct (going_turn _ _ _ _ _ _ _ _ G' T) as (_ & k' & X & _). lia.
  - intro R. rewrite (Z R), Nat.sub_diag in G'. rewrite (going_end _ _ _ G') at 1. rewrite Em. reflexivity.
Qed.
(** And every schedule that stopped early can be continued to one that comes to rest. *)
Theorem can_finish g ts rs k : going g ts rs k ->
  forall sched g' ts', turns sched g ts g' ts' -> exists more g2 ts2, turns (sched ++ more) g ts g2 ts2 /\ at_rest g2 ts2.
Proof.
  intros G sched g' ts' H. destruct (going_turns _ _ _ _ _ _ _ G H) as (-> & L & G' & _).
  assert (F : forall j ts1, going g ts1 rs j -> exists more g2 ts2, turns more g ts1 g2 ts2 /\ at_rest g2 ts2).
  { induction j as [|j IH]; intros ts1 G1.
    - exists [], g, ts1. split; [cbn [turns]; auto|]. intros n i. destruct (turn n i g ts1) as [[g1 ts2]|] eqn:T; [|reflexivity].
      destruct (going_turn _ _ _ _ _ _ _ _ G1 T) as (_ & k' & X & _). discriminate.
    - destruct (going_on _ _ _ _ G1) as (n & i & [g1 ts2] & T). destruct (going_turn _ _ _ _ _ _ _ _ G1 T) as (-> & k' & X & G2 & _).
      inversion X; subst. destruct (IH _ G2) as (more & g2 & ts3 & H1 & H2). exists ((n, i) :: more), g2, ts3. split; [|exact H2].
      cbn [turns]. eauto. }
  destruct (F _ _ G') as (more & g2 & ts2 & H1 & H2). exists more, g2, ts2. split; [|exact H2].
  eapply turns_app; eauto.
Qed.
(** What simulates a program of the model above the shared objects is such a goroutine. *)
Lemma stays_trans {FL : floor} h1 h2 h3 : stays h1 h2 -> stays h2 h3 -> stays h1 h3.
Proof. intros X Y l o Hl Ho. auto. Qed.
Lemma gets_stays {FL : floor} k E (c : code A) : forall h w c' h' w', gets k E c h w c' h' w' -> stays h h'.
Proof.
  revert c. induction k as [|k IH]; cbn [gets]; intros c h w c' h' w'.
  - intros (_ & -> & _). apply stays_same.
  - intros (n & c1 & h1 & w1 & _ & X & Y). eapply stays_trans; eauto.
Qed.
Theorem sim_goes {B} (p : prog A) g a (m : io U B) Q E w :
  ord_ok (e_ord E) -> sim (FL := length g) C p (g ++ a) m Q ->
  exists k x own, goes g k (Thread (Code p KNil) a E w) x own (snd (run E m w)) /\ Q x (g ++ own) (fst (run E m w)).
Proof.
  intros O H. destruct (H E w O) as [(n & x & h' & R & HQ)|[[] _]].
  destruct (ran_gets E n _ _ _ _ _ _ _ R A KNil) as (k & G). pose proof (gets_stays _ _ _ _ _ _ _ _ G) as St.
  destruct (stays_shared _ _ _ St) as (_ & Eh). exists k, x, (skipn (length g) h'). unfold goes. cbn [t_env t_code t_own t_world]. rewrite <- Eh. auto.
Qed.
End Sound.
End Threads.
Arguments KNil {W A}. Arguments KPush {W A X Y}. Arguments Code {W A X}.
Arguments Thread {W A}. Arguments t_code {W A}. Arguments t_own {W A}. Arguments t_env {W A}. Arguments t_world {W A}.
