(** Running the Go semantics: the budget does not matter, and how a Go program
    simulates a program of the model. *)
From Coq Require Import ZArith Lia.
From Verif Require Import Bytes IO IOFacts Nodes Slices GoSyntax GoSem.

(** Whether a panic is one of the outcomes that are claimed; by default it is not. *)
Class panics := may_panic : Prop.
#[global] Instance never : panics | 100 := False.
#[global] Typeclasses Opaque panics.

(** What lies below this location may not be written to, not even for a moment;
    by default nothing does. *)
Class floor := base : nat.
#[global] Instance ground : floor | 100 := 0.
#[global] Typeclasses Opaque floor.

Section Run.
Context {W : UserWorld}.
Variable C : config.

(** ** The budget *)

Lemma snapshot_mono n m h l c : n <= m -> snapshot n h l = Some c -> snapshot m h l = Some c.
Proof.
  revert m l c. induction n as [|n IH]; [discriminate|]. intros [|m] l c Hm; [lia|].
  cbn [snapshot]. destruct (nth_error h l) as [[tag fs| |]|]; try discriminate.
  destruct (negb (tag =? "Context")%string); [discriminate|].
  destruct (assoc "Error" fs) as [ve|]; [|discriminate]. destruct (assoc "Data" fs) as [vd|]; [|discriminate].
  destruct (assoc "Cargo" fs) as [vc|]; [|discriminate]. destruct (assoc "Parent" fs) as [vp|]; [|discriminate].
  destruct (err_of ve) as [e|]; [|discriminate].
  destruct (match vd with VNil => Some None | VAny (GMap m) => Some (Some m) | _ => None end) as [d|]; [|discriminate].
  destruct (match vc with VNil => Some GNil | VAny g => Some g | _ => None end) as [g|]; [|discriminate].
  destruct vp; try discriminate; auto.
  destruct (snapshot n h l0) as [cp|] eqn:S; cbn [option_map]; [|discriminate].
  intro H. rewrite (IH m l0 cp) by (auto; lia). exact H.
Qed.

Lemma run_mono E n : forall m A (p : prog A) h w r, n <= m ->
  go_run C n E p h w = Some r -> go_run C m E p h w = Some r.
Proof.
  induction n as [|n IH]; [discriminate|]. intros [|m] A p h w r Hm; [lia|]. apply le_S_n in Hm.
  destruct p as [a| |k|l k|k|d k|ks k|c args sp k|b s k]; cbn [go_run].
  - auto.
  - auto.
  - destruct (k h) as [[q h']|]; [apply IH, Hm|auto].
  - destruct (snapshot n h l) as [c|] eqn:S; [|discriminate]. rewrite (snapshot_mono n m h l c Hm S).
    destruct (k c (w_u w)) as [q u']. apply IH, Hm.
  - destruct (k (w_u w)) as [q u']. apply IH, Hm.
  - destruct (e_wr E (w_log w) d) as [x e]. apply IH, Hm.
  - apply IH, Hm.
  - destruct (go_run C n E (body_of C c args sp) h w) as [[vs h' w'|w']|] eqn:S; try discriminate;
      rewrite (IH m _ _ _ _ _ Hm S); [apply IH, Hm|auto].
  - destruct (go_run C n E (b s) h w) as [[[s'|x] h' w'|w']|] eqn:S; try discriminate;
      rewrite (IH m _ _ _ _ _ Hm S); [apply IH, Hm|apply IH, Hm|auto].
Qed.

(** A program has one outcome, whatever the budget. *)
Theorem run_unique E n m A (p : prog A) h w r r' :
  go_run C n E p h w = Some r -> go_run C m E p h w = Some r' -> r = r'.
Proof.
  intros H H'. apply (run_mono E n (Nat.max n m)) in H; [|lia].
  apply (run_mono E m (Nat.max n m)) in H'; [|lia]. congruence.
Qed.

Lemma run_bind E n : forall A B (p : prog A) (f : A -> prog B) h w a h1 w1 m r,
  go_run C n E p h w = Some (ROk a h1 w1) -> go_run C m E (f a) h1 w1 = Some r ->
  go_run C (n + m) E (pbind p f) h w = Some r.
Proof.
  induction n as [|n IH]; [discriminate|]. intros A B p f h w a h1 w1 m r.
  destruct p as [x| |k|l k|k|d k|ks k|c args sp k|b s k]; cbn [go_run pbind Nat.add]; try discriminate.
  - intros H H'. inversion H; subst. change (go_run C (S n + m) E (f a) h1 w1 = Some r).
    apply (run_mono E m); [lia|exact H'].
  - destruct (k h) as [[q h']|]; try discriminate. intros. eapply IH; eauto.
  - destruct (snapshot n h l) as [c|] eqn:S; [|discriminate].
    rewrite (snapshot_mono n (n + m) h l c ltac:(lia) S).
    destruct (k c (w_u w)) as [q u']. intros. eapply IH; eauto.
  - destruct (k (w_u w)) as [q u']. intros. eapply IH; eauto.
  - destruct (e_wr E (w_log w) d) as [x e]. intros. eapply IH; eauto.
  - intros. eapply IH; eauto.
  - destruct (go_run C n E (body_of C c args sp) h w) as [[vs h' w'|w']|] eqn:S; try discriminate.
    rewrite (run_mono E n (n + m) _ _ _ _ _ ltac:(lia) S). intros. eapply IH; eauto.
  - destruct (go_run C n E (b s) h w) as [[[s'|x] h' w'|w']|] eqn:S; try discriminate;
      rewrite (run_mono E n (n + m) _ _ _ _ _ ltac:(lia) S); intros.
    + change (PLoop b s' (fun r => pbind (k r) f)) with (pbind (PLoop b s' k) f). eapply IH; eauto.
    + eapply IH; eauto.
Qed.

Lemma run_bind_inv E n : forall A B (p : prog A) (f : A -> prog B) h w r,
  go_run C n E (pbind p f) h w = Some r ->
  (exists a h1 w1, go_run C n E p h w = Some (ROk a h1 w1) /\ go_run C n E (f a) h1 w1 = Some r) \/
  (exists w1, go_run C n E p h w = Some (RPanic w1) /\ r = RPanic w1).
Proof.
  induction n as [|n IH]; [discriminate|]. intros A B p f h w r.
  assert (K : forall (q : prog A) h w, go_run C n E (pbind q f) h w = Some r ->
    (exists a h1 w1, go_run C n E q h w = Some (ROk a h1 w1) /\ go_run C (S n) E (f a) h1 w1 = Some r) \/
    (exists w1, go_run C n E q h w = Some (RPanic w1) /\ r = RPanic w1)).
  { intros q h' w' H. destruct (IH _ _ q f h' w' r H) as [(a & h1 & w1 & X & Y)|X]; [|auto]. left.
    exists a, h1, w1. split; [exact X|]. apply (run_mono E n); [lia|exact Y]. }
  destruct p as [x| |k|l k|k|d k|ks k|c args sp k|b s k].
  - cbn [pbind]. intro H. left. exists x, h, w. split; [reflexivity|exact H].
  - cbn [go_run pbind]. intro H. inversion H. right. eauto.
  - cbn [go_run pbind]. destruct (k h) as [[q h']|].
    + apply K.
    + intro H. inversion H. right. eauto.
  - cbn [go_run pbind]. destruct (snapshot n h l) as [c|]; [|discriminate].
    destruct (k c (w_u w)) as [q u']. apply K.
  - cbn [go_run pbind]. destruct (k (w_u w)) as [q u']. apply K.
  - cbn [go_run pbind]. destruct (e_wr E (w_log w) d) as [x e]. apply K.
  - cbn [go_run pbind]. apply K.
  - cbn [go_run pbind]. destruct (go_run C n E (body_of C c args sp) h w) as [[vs h' w'|w']|]; try discriminate.
    + apply K.
    + intro H. inversion H. right. eauto.
  - cbn [go_run pbind]. destruct (go_run C n E (b s) h w) as [[[s'|x] h' w'|w']|]; try discriminate.
    + change (PLoop b s' (fun r => pbind (k r) f)) with (pbind (PLoop b s' k) f). apply K.
    + apply K.
    + intro H. inversion H. right. eauto.
Qed.

Lemma run_assoc E n : forall A B D (p : prog A) (f : A -> prog B) (g : B -> prog D) h w,
  go_run C n E (pbind (pbind p f) g) h w = go_run C n E (pbind p (fun x => pbind (f x) g)) h w.
Proof.
  induction n as [|n IH]; [reflexivity|]. intros A B D p f g h w.
  destruct p as [x| |k|l k|k|d k|ks k|c args sp k|b s k]; cbn [go_run pbind]; auto.
  - destruct (k h) as [[q h']|]; auto.
  - destruct (snapshot n h l) as [c|]; auto. destruct (k c (w_u w)) as [q u']. auto.
  - destruct (k (w_u w)) as [q u']. auto.
  - destruct (e_wr E (w_log w) d) as [x e]. auto.
  - destruct (go_run C n E (body_of C c args sp) h w) as [[vs h' w'|w']|]; auto.
  - destruct (go_run C n E (b s) h w) as [[[s'|x] h' w'|w']|]; auto.
    change (PLoop b s' (fun r => pbind (pbind (k r) f) g)) with (pbind (pbind (PLoop b s' k) f) g). rewrite IH. reflexivity.
Qed.

Lemma run_panic E n : forall A B (p : prog A) (f : A -> prog B) h w w',
  go_run C n E p h w = Some (RPanic w') -> go_run C n E (pbind p f) h w = Some (RPanic w').
Proof.
  induction n as [|n IH]; [discriminate|]. intros A B p f h w w'.
  destruct p as [x| |k|l k|k|d k|ks k|c args sp k|b s k]; cbn [go_run pbind]; try discriminate; auto.
  - intro H. inversion H; auto.
  - destruct (k h) as [[q h']|]; auto. intro H. inversion H; auto.
  - destruct (snapshot n h l) as [c|]; [|discriminate]. destruct (k c (w_u w)) as [q u']. auto.
  - destruct (k (w_u w)) as [q u']. auto.
  - destruct (e_wr E (w_log w) d) as [x e]. auto.
  - destruct (go_run C n E (body_of C c args sp) h w) as [[vs h' w1|w1]|]; auto; intro H; inversion H; auto.
  - destruct (go_run C n E (b s) h w) as [[[s'|x] h' w1|w1]|]; auto; [|intro H; inversion H; auto|discriminate].
    change (PLoop b s' (fun r => pbind (k r) f)) with (pbind (PLoop b s' k) f). auto.
Qed.

(** ** Runs that leave alone what lies below the floor *)

Section Floor.
Context {FL : floor}.

Definition stays (h h' : heap) : Prop := forall l o, l < base -> nth_error h l = Some o -> nth_error h' l = Some o.
Lemma stays_same h : stays h h.
Proof. intros l o _ H. exact H. Qed.
Lemma stays_alloc h o : stays h (h ++ [o]).
Proof. intros l x _ H. rewrite nth_error_app1; [exact H|]. apply nth_error_Some. congruence. Qed.
Lemma stays_update h l o : base <= l -> stays h (set_nth h l o).
Proof.
  intros B i x Hi. clear -B Hi. assert (N : i <> l) by lia. clear B Hi. revert l i N. induction h as [|y h IH]; intros [|l] [|i] N; cbn [set_nth nth_error]; try (intros; congruence); try lia.
  apply IH. lia.
Qed.

(** [ran n E p h w r]: [go_run n E p h w = Some r] by steps that all leave what
    lies below the floor as it is. *)
Fixpoint ran (n : nat) {A : Type} (E : env) (p : prog A) (h : heap) (w : world U) (r : result A) : Prop :=
  match n with
  | 0 => False
  | S n' =>
      match p with
      | PRet a => r = ROk a h w
      | PPanic => r = RPanic w
      | PHeap k => match k h with Some (q, h') => stays h h' /\ ran n' E q h' w r | None => r = RPanic w end
      | PUser l k =>
          match snapshot n' h l with
          | Some c => let '(q, u') := k c (w_u w) in ran n' E q h (World (w_log w) u' (w_tick w)) r
          | None => False
          end
      | PState k => let '(q, u') := k (w_u w) in ran n' E q h (World (w_log w) u' (w_tick w)) r
      | PWrite d k =>
          let '(m, e) := e_wr E (w_log w) d in
          ran n' E (k m e) h (World (w_log w ++ [WCall d m e]) (w_u w) (w_tick w)) r
      | PPick ks k => ran n' E (k (e_ord E (w_tick w) ks)) h (World (w_log w) (w_u w) (S (w_tick w))) r
      | PCall c args sp k =>
          (exists vs h' w', ran n' E (body_of C c args sp) h w (ROk vs h' w') /\ ran n' E (k vs) h' w' r) \/
          (exists w', ran n' E (body_of C c args sp) h w (RPanic w') /\ r = RPanic w')
      | PLoop b s k =>
          (exists s' h' w', ran n' E (b s) h w (ROk (inl s') h' w') /\ ran n' E (PLoop b s' k) h' w' r) \/
          (exists x h' w', ran n' E (b s) h w (ROk (inr x) h' w') /\ ran n' E (k x) h' w' r) \/
          (exists w', ran n' E (b s) h w (RPanic w') /\ r = RPanic w')
      end
  end.

Lemma ran_run E n : forall A (p : prog A) h w r, ran n E p h w r -> go_run C n E p h w = Some r.
Proof.
  induction n as [|n IH]; [contradiction|]. intros A p h w r.
  destruct p as [a| |k|l k|k|d k|ks k|c args sp k|b s k]; cbn [go_run ran].
  - congruence.
  - congruence.
  - destruct (k h) as [[q h']|]; [intros [_ H]; auto|congruence].
  - destruct (snapshot n h l) as [c|]; [|contradiction]. destruct (k c (w_u w)) as [q u']. auto.
  - destruct (k (w_u w)) as [q u']. auto.
  - destruct (e_wr E (w_log w) d) as [x e]. auto.
  - auto.
  - intros [(vs & h' & w' & H1 & H2)|(w' & H1 & ->)]; rewrite (IH _ _ _ _ _ H1); auto.
  - intros [(s' & h' & w' & H1 & H2)|[(x & h' & w' & H1 & H2)|(w' & H1 & ->)]]; rewrite (IH _ _ _ _ _ H1); auto.
Qed.

Lemma ran_mono E n : forall m A (p : prog A) h w r, n <= m -> ran n E p h w r -> ran m E p h w r.
Proof.
  induction n as [|n IH]; [contradiction|]. intros [|m] A p h w r Hm; [lia|]. apply le_S_n in Hm.
  destruct p as [a| |k|l k|k|d k|ks k|c args sp k|b s k]; cbn [ran].
  - auto.
  - auto.
  - destruct (k h) as [[q h']|]; [|auto]. intros [H1 H2]. split; [exact H1|]. eapply IH; eauto.
  - destruct (snapshot n h l) as [c|] eqn:S; [|contradiction]. rewrite (snapshot_mono n m h l c Hm S).
    destruct (k c (w_u w)) as [q u']. apply IH, Hm.
  - destruct (k (w_u w)) as [q u']. apply IH, Hm.
  - destruct (e_wr E (w_log w) d) as [x e]. apply IH, Hm.
  - apply IH, Hm.
  - intros [(vs & h' & w' & H1 & H2)|(w' & H1 & ->)]; [left; exists vs, h', w'|right; exists w']; split; eauto.
  - intros [(s' & h' & w' & H1 & H2)|[(x & h' & w' & H1 & H2)|(w' & H1 & ->)]];
      [left; exists s', h', w'|right; left; exists x, h', w'|right; right; exists w']; split; eauto.
Qed.

Lemma ran_bind E n : forall A B (p : prog A) (f : A -> prog B) h w a h1 w1 m r,
  ran n E p h w (ROk a h1 w1) -> ran m E (f a) h1 w1 r -> ran (n + m) E (pbind p f) h w r.
Proof.
  induction n as [|n IH]; [contradiction|]. intros A B p f h w a h1 w1 m r.
  destruct p as [x| |k|l k|k|d k|ks k|c args sp k|b s k]; cbn [ran pbind Nat.add]; try discriminate.
  - intros H H'. inversion H; subst. change (ran (S n + m) E (f x) h w r). apply (ran_mono E m); [lia|exact H'].
  - destruct (k h) as [[q h']|]; try discriminate. intros [H1 H2] H3. split; [exact H1|]. eapply IH; eauto.
  - destruct (snapshot n h l) as [c|] eqn:S; [|contradiction].
    rewrite (snapshot_mono n (n + m) h l c ltac:(lia) S).
    destruct (k c (w_u w)) as [q u']. intros. eapply IH; eauto.
  - destruct (k (w_u w)) as [q u']. intros. eapply IH; eauto.
  - destruct (e_wr E (w_log w) d) as [x e]. intros. eapply IH; eauto.
  - intros. eapply IH; eauto.
  - intros [(vs & h' & w' & H1 & H2)|(w' & H1 & H2)] H3; [|discriminate]. left. exists vs, h', w'.
    split; [eapply ran_mono; [|exact H1]; lia|]. eapply IH; eauto.
  - intros [(s' & h' & w' & H1 & H2)|[(x & h' & w' & H1 & H2)|(w' & H1 & H2)]] H3; [left|right; left|discriminate].
    + exists s', h', w'. split; [eapply ran_mono; [|exact H1]; lia|].
      change (PLoop b s' (fun r => pbind (k r) f)) with (pbind (PLoop b s' k) f). eapply IH; eauto.
    + exists x, h', w'. split; [eapply ran_mono; [|exact H1]; lia|]. eapply IH; eauto.
Qed.

Lemma ran_bind_inv E n : forall A B (p : prog A) (f : A -> prog B) h w r,
  ran n E (pbind p f) h w r ->
  (exists a h1 w1, ran n E p h w (ROk a h1 w1) /\ ran n E (f a) h1 w1 r) \/
  (exists w1, ran n E p h w (RPanic w1) /\ r = RPanic w1).
Proof.
  induction n as [|n IH]; [contradiction|]. intros A B p f h w r.
  assert (K : forall (q : prog A) h w, ran n E (pbind q f) h w r ->
    (exists a h1 w1, ran n E q h w (ROk a h1 w1) /\ ran (S n) E (f a) h1 w1 r) \/
    (exists w1, ran n E q h w (RPanic w1) /\ r = RPanic w1)).
  { intros q h' w' H. destruct (IH _ _ q f h' w' r H) as [(a & h1 & w1 & X & Y)|X]; [|auto]. left.
    exists a, h1, w1. split; [exact X|]. apply (ran_mono E n); [lia|exact Y]. }
  destruct p as [x| |k|l k|k|d k|ks k|c args sp k|b s k].
  - cbn [pbind]. intro H. left. exists x, h, w. split; [reflexivity|exact H].
  - cbn [ran pbind]. intro H. right. eauto.
  - cbn [ran pbind]. destruct (k h) as [[q h']|].
    + intros [H1 H2]. destruct (K _ _ _ H2) as [(a & h1 & w1 & X & Y)|(w1 & X & Y)]; [left; exists a, h1, w1|right; exists w1]; auto.
    + intro H. right. eauto.
  - cbn [ran pbind]. destruct (snapshot n h l) as [c|]; [|contradiction].
    destruct (k c (w_u w)) as [q u']. apply K.
  - cbn [ran pbind]. destruct (k (w_u w)) as [q u']. apply K.
  - cbn [ran pbind]. destruct (e_wr E (w_log w) d) as [x e]. apply K.
  - cbn [ran pbind]. apply K.
  - cbn [ran pbind]. intros [(vs & h' & w' & H1 & H2)|(w' & H1 & ->)]; [|right; eauto 6].
    destruct (K _ _ _ H2) as [(a & h1 & w1 & X & Y)|(w1 & X & Y)]; [left; exists a, h1, w1|right; exists w1]; split; auto; left; exists vs, h', w'; auto.
  - cbn [ran pbind]. intros [(s' & h' & w' & H1 & H2)|[(x & h' & w' & H1 & H2)|(w' & H1 & ->)]]; [| |right; eauto 7].
    + change (PLoop b s' (fun r => pbind (k r) f)) with (pbind (PLoop b s' k) f) in H2.
      destruct (K _ _ _ H2) as [(a & h1 & w1 & X & Y)|(w1 & X & Y)]; [left; exists a, h1, w1|right; exists w1]; split; auto; left; exists s', h', w'; auto.
    + destruct (K _ _ _ H2) as [(a & h1 & w1 & X & Y)|(w1 & X & Y)]; [left; exists a, h1, w1|right; exists w1]; split; auto; right; left; exists x, h', w'; auto.
Qed.

Lemma ran_panic E n : forall A B (p : prog A) (f : A -> prog B) h w w',
  ran n E p h w (RPanic w') -> ran n E (pbind p f) h w (RPanic w').
Proof.
  induction n as [|n IH]; [contradiction|]. intros A B p f h w w'.
  destruct p as [x| |k|l k|k|d k|ks k|c args sp k|b s k]; cbn [ran pbind]; try discriminate; auto.
  - intro H. inversion H; auto.
  - destruct (k h) as [[q h']|]; [intros [H1 H2]; auto|]. intro H. inversion H; auto.
  - destruct (snapshot n h l) as [c|]; [|contradiction]. destruct (k c (w_u w)) as [q u']. auto.
  - destruct (k (w_u w)) as [q u']. auto.
  - destruct (e_wr E (w_log w) d) as [x e]. auto.
  - intros [(vs & h' & w1 & H1 & H2)|(w1 & H1 & H2)]; [left; exists vs, h', w1; auto|right; exists w1; split; [auto|congruence]].
  - intros [(s' & h' & w1 & H1 & H2)|[(x & h' & w1 & H1 & H2)|(w1 & H1 & H2)]].
    + left. exists s', h', w1. split; [exact H1|]. change (PLoop b s' (fun r => pbind (k r) f)) with (pbind (PLoop b s' k) f). auto.
    + right. left. exists x, h', w1. auto.
    + right. right. exists w1. split; [exact H1|congruence].
Qed.

Lemma ran_assoc E n : forall A B D (p : prog A) (f : A -> prog B) (g : B -> prog D) h w r,
  ran n E (pbind p (fun x => pbind (f x) g)) h w r -> ran n E (pbind (pbind p f) g) h w r.
Proof.
  induction n as [|n IH]; [auto|]. intros A B D p f g h w r.
  destruct p as [x| |k|l k|k|d k|ks k|c args sp k|b s k]; cbn [ran pbind]; auto.
  - destruct (k h) as [[q h']|]; auto. intros [H1 H2]. auto.
  - destruct (snapshot n h l) as [c|]; auto. destruct (k c (w_u w)) as [q u']. auto.
  - destruct (k (w_u w)) as [q u']. auto.
  - destruct (e_wr E (w_log w) d) as [x e]. auto.
  - intros [(vs & h' & w' & H1 & H2)|H]; [left; exists vs, h', w'; auto|right; exact H].
  - intros [(s' & h' & w' & H1 & H2)|[(x & h' & w' & H1 & H2)|H]]; [left; exists s', h', w'|right; left; exists x, h', w'|right; right; exact H].
    + split; [exact H1|]. change (PLoop b s' (fun r => pbind (pbind (k r) f) g)) with (pbind (pbind (PLoop b s' k) f) g). apply IH. exact H2.
    + auto.
Qed.
End Floor.

(** Above the ground every run is one. *)
Lemma run_ran E n : forall A (p : prog A) h w r, go_run C n E p h w = Some r -> ran (FL := ground) n E p h w r.
Proof.
  assert (G : forall h h', stays (FL := ground) h h') by (intros h h' l o H; unfold base, ground in H; lia).
  induction n as [|n IH]; [discriminate|]. intros A p h w r.
  destruct p as [a| |k|l k|k|d k|ks k|c args sp k|b s k]; cbn [go_run ran].
  - congruence.
  - congruence.
  - destruct (k h) as [[q h']|]; [auto|congruence].
  - destruct (snapshot n h l) as [c|]; [|discriminate]. destruct (k c (w_u w)) as [q u']. auto.
  - destruct (k (w_u w)) as [q u']. auto.
  - destruct (e_wr E (w_log w) d) as [x e]. auto.
  - auto.
  - destruct (go_run C n E (body_of C c args sp) h w) as [[vs h' w'|w']|] eqn:R; try discriminate; intro H.
    + left. exists vs, h', w'. auto.
    + right. exists w'. split; [auto|congruence].
  - destruct (go_run C n E (b s) h w) as [[[s'|x] h' w'|w']|] eqn:R; try discriminate; intro H.
    + left. exists s', h', w'. auto.
    + right. left. exists x, h', w'. auto.
    + right. right. exists w'. split; [auto|congruence].
Qed.

(** ** Simulation

    The Go program [p], run from heap [h], does what the program [m] of the model
    does: the same calls of the writer and of user code, the same map
    iterations; results and final heap are related by [Q].  Where that is said
    ([panics]) it may end in a Go panic instead.  What lies below the floor is
    never written to. *)
Definition sim {FL : floor} {P : panics} {A B : Type} (p : prog A) (h : heap) (m : io U B) (Q : A -> heap -> B -> Prop) : Prop :=
  forall E w, ord_ok (e_ord E) ->
  (exists n a h', ran n E p h w (ROk a h' (snd (run E m w))) /\ Q a h' (fst (run E m w))) \/
  (may_panic /\ exists n w', ran n E p h w (RPanic w')).

(** ** Rules *)

Section Rules.
Context {FL : floor} {P : panics}.
Context {A B D : Type}.
Implicit Types (p : prog A) (h : heap) (m : io U B) (Q : A -> heap -> B -> Prop).

Lemma sim_conseq p h m Q (Q' : A -> heap -> B -> Prop) :
  sim p h m Q -> (forall a h' b, Q a h' b -> Q' a h' b) -> sim p h m Q'.
Proof. intros H X E w O. destruct (H E w O) as [(n & a & h' & R & Z)|F]; [left|right; exact F]. exists n, a, h'. auto. Qed.

Lemma sim_ret a h b Q : Q a h b -> sim (PRet a) h (Ret b) Q.
Proof. intros H E w O. left. exists 1, a, h. split; [reflexivity|exact H]. Qed.
Lemma sim_panic h m Q : may_panic -> sim PPanic h m Q.
Proof. intros H E w O. right. split; [exact H|]. exists 1, w. reflexivity. Qed.

Lemma sim_assoc (q : prog D) (f : D -> prog A) {A'} (g : A -> prog A') h m (Q : A' -> heap -> B -> Prop) :
  sim (pbind q (fun x => pbind (f x) g)) h m Q -> sim (pbind (pbind q f) g) h m Q.
Proof.
  intros H E w O. destruct (H E w O) as [(n & a & h' & R & Z)|(F & n & w' & R)]; [left|right; split; [exact F|]].
  - exists n, a, h'. split; [apply ran_assoc, R|exact Z].
  - exists n, w'. apply ran_assoc, R.
Qed.

Lemma sim_bind {A' B'} p h m (R : A -> heap -> B -> Prop) (f : A -> prog A') (g : B -> io U B')
  (Q : A' -> heap -> B' -> Prop) :
  sim p h m R -> (forall a h' b, R a h' b -> sim (f a) h' (g b) Q) -> sim (pbind p f) h (bind m g) Q.
Proof.
  intros H K E w O. destruct (H E w O) as [(n & a & h1 & X & Y)|(F & n & w' & X)].
  - rewrite IOFacts.run_bind. destruct (run E m w) as [b w1] eqn:M. cbn [fst snd] in *.
    destruct (K a h1 b Y E w1 O) as [(n' & a' & h2 & X' & Y')|(F & n' & w' & X')]; [left|right; split; [exact F|]].
    + exists (n + n'), a', h2. split; [|exact Y']. eapply ran_bind; eauto.
    + exists (n + n'), w'. eapply ran_bind; eauto.
  - right. split; [exact F|]. exists n, w'. apply ran_panic, X.
Qed.

(** The left side goes on when the model is through, and the other way round. *)
Lemma sim_eta p h m Q : sim (pbind p PRet) h m Q -> sim p h m Q.
Proof.
  intros H E w O. destruct (H E w O) as [(n & a & h' & X & Y)|(F & n & w' & X)]; [left|right; split; [exact F|]].
  - destruct (ran_bind_inv E n _ _ _ _ _ _ _ X) as [(a1 & h1 & w1 & X1 & X2)|(w1 & _ & Z)]; [|discriminate].
    destruct n; [contradiction|]. cbn [ran] in X2. inversion X2; subst. eauto.
  - destruct (ran_bind_inv E n _ _ _ _ _ _ _ X) as [(a1 & h1 & w1 & X1 & X2)|(w1 & X1 & Z)].
    + destruct n; [contradiction|]. cbn [ran] in X2. discriminate.
    + eauto.
Qed.
Lemma sim_model_eq p h m m' Q : (forall E w, run E m w = run E m' w) -> sim p h m Q -> sim p h m' Q.
Proof. intros X H E w O. rewrite <- X. apply H, O. Qed.
Lemma sim_eta_model p h m Q : sim p h (bind m Ret) Q -> sim p h m Q.
Proof.
  apply sim_model_eq. intros E w. rewrite IOFacts.run_bind. destruct (run E m w). reflexivity.
Qed.
Lemma sim_model_assoc {B1 B2} p h (m1 : io U B1) (f : B1 -> io U B2) (g : B2 -> io U B) Q :
  sim p h (bind m1 (fun x => bind (f x) g)) Q -> sim p h (bind (bind m1 f) g) Q.
Proof.
  apply sim_model_eq. intros E w. rewrite !IOFacts.run_bind. destruct (run E m1 w) as [b1 w1]. rewrite IOFacts.run_bind. reflexivity.
Qed.

Lemma sim_heap (q : prog A) k h h' m Q : k h = Some (q, h') -> stays h h' -> sim q h' m Q -> sim (PHeap k) h m Q.
Proof.
  intros K KS H E w O. destruct (H E w O) as [(n & a & h'' & X & Y)|(F & n & w' & X)]; [left|right; split; [exact F|]].
  - exists (S n), a, h''. split; [|exact Y]. cbn [ran]. rewrite K. split; [exact KS|exact X].
  - exists (S n), w'. cbn [ran]. rewrite K. split; [exact KS|exact X].
Qed.

Lemma sim_write d k k' h Q :
  (forall n e, sim (k n e) h (k' n e) Q) -> sim (PWrite d k) h (Wr d k' : io U B) Q.
Proof.
  intros H E w O. cbn [run]. destruct (e_wr E (w_log w) d) as [x e] eqn:X.
  destruct (H x e E (World (w_log w ++ [WCall d x e]) (w_u w) (w_tick w)) O) as [(n & a & h' & R & Z)|(F & n & w' & R)]; [left|right; split; [exact F|]].
  - exists (S n), a, h'. cbn [ran]. rewrite X. auto.
  - exists (S n), w'. cbn [ran]. rewrite X. auto.
Qed.

Lemma sim_pick ks k k' h Q :
  (forall o, Permutation.Permutation ks o -> sim (k o) h (k' o) Q) ->
  sim (PPick ks k) h (Pick ks k' : io U B) Q.
Proof.
  intros H E w O. cbn [run]. specialize (H (e_ord E (w_tick w) ks) (O _ _) E (World (w_log w) (w_u w) (S (w_tick w))) O).
  destruct H as [(n & a & h' & R & Z)|(F & n & w' & R)]; [left|right; split; [exact F|]]; [exists (S n), a, h'|exists (S n), w']; auto.
Qed.

Definition snap h (l : loc) (c : ctx U) : Prop := exists n, snapshot n h l = Some c.

Lemma sim_user l k k' c h Q :
  snap h l c ->
  (forall u, snd (k c u) = snd (k' u) /\ sim (fst (k c u)) h (fst (k' u)) Q) ->
  sim (PUser l k) h (Cb k' : io U B) Q.
Proof.
  intros [n0 S0] H E w O. cbn [run]. destruct (H (w_u w)) as [X Y]. destruct (k' (w_u w)) as [m' u'].
  destruct (k c (w_u w)) as [q u1] eqn:K. cbn [fst snd] in *. subst u1.
  destruct (Y E (World (w_log w) u' (w_tick w)) O) as [(n & a & h' & R & Z)|(F & n & w' & R)]; [left|right; split; [exact F|]].
  - exists (S (n0 + n)), a, h'. split; [|exact Z]. cbn [ran].
    rewrite (snapshot_mono n0 (n0 + n) h l c ltac:(lia) S0), K. apply (ran_mono E n); [lia|exact R].
  - exists (S (n0 + n)), w'. cbn [ran].
    rewrite (snapshot_mono n0 (n0 + n) h l c ltac:(lia) S0), K. apply (ran_mono E n); [lia|exact R].
Qed.

Lemma sim_state k k' h Q :
  (forall u, snd (k u) = snd (k' u) /\ sim (fst (k u)) h (fst (k' u)) Q) ->
  sim (PState k) h (Cb k' : io U B) Q.
Proof.
  intros H E w O. cbn [run]. destruct (H (w_u w)) as [X Y]. destruct (k' (w_u w)) as [m' u'].
  destruct (k (w_u w)) as [q u1] eqn:K. cbn [fst snd] in *. subst u1.
  destruct (Y E (World (w_log w) u' (w_tick w)) O) as [(n & a & h' & R & Z)|(F & n & w' & R)]; [left|right; split; [exact F|]].
  - exists (S n), a, h'. split; [|exact Z]. cbn [ran]. rewrite K. exact R.
  - exists (S n), w'. cbn [ran]. rewrite K. exact R.
Qed.

Lemma sim_call c args sp k h m Q :
  sim (pbind (body_of C c args sp) k) h m Q -> sim (PCall c args sp k) h m Q.
Proof.
  intros H E w O. destruct (H E w O) as [(n & a & h' & X & Y)|(F & n & w' & X)]; [left|right; split; [exact F|]].
  - destruct (ran_bind_inv E n _ _ _ _ _ _ _ X) as [(vs & h1 & w1 & X1 & X2)|(w1 & _ & Z)]; [|discriminate].
    exists (S n), a, h'. split; [|exact Y]. cbn [ran]. left. eauto 6.
  - exists (S n), w'. cbn [ran].
    destruct (ran_bind_inv E n _ _ _ _ _ _ _ X) as [(vs & h1 & w1 & X1 & X2)|(w1 & X1 & Z)]; [left; eauto 6|right; exists w1; split; [exact X1|congruence]].
Qed.

(** One turn of a loop, which is left or starts again. *)
Lemma sim_loop b s k h m Q :
  sim (pbind (b s) (fun r => match r with inl s' => PLoop b s' k | inr x => k x end)) h m Q ->
  sim (PLoop b s k) h m Q.
Proof.
  intros H E w O. destruct (H E w O) as [(n & a & h' & X & Y)|(F & n & w' & X)]; [left|right; split; [exact F|]].
  - destruct (ran_bind_inv E n _ _ _ _ _ _ _ X) as [(vs & h1 & w1 & X1 & X2)|(w1 & _ & Z)]; [|discriminate].
    exists (S n), a, h'. split; [|exact Y]. cbn [ran]. destruct vs; [left|right; left]; eauto 6.
  - exists (S n), w'. cbn [ran].
    destruct (ran_bind_inv E n _ _ _ _ _ _ _ X) as [(vs & h1 & w1 & X1 & X2)|(w1 & X1 & Z)]; [destruct vs; [left|right; left]; eauto 6|right; right; exists w1; split; [exact X1|congruence]].
Qed.
End Rules.

(** What never panics, and what always does. *)
Lemma sim_weak {FL : floor} {P : panics} {A B} (p : prog A) h (m : io U B) Q : sim (P := never) p h m Q -> sim p h m Q.
Proof. intros H E w O. destruct (H E w O) as [X|[[] _]]. left. exact X. Qed.
Lemma sim_never {FL : floor} {A B} (p : prog A) h (m : io U B) Q : sim p h m Q ->
  forall E w, ord_ok (e_ord E) ->
  exists n a h', go_run C n E p h w = Some (ROk a h' (snd (run E m w))) /\ Q a h' (fst (run E m w)).
Proof. intros H E w O. destruct (H E w O) as [(n & a & h' & X & Y)|[[] _]]. exists n, a, h'. split; [apply ran_run, X|exact Y]. Qed.
Lemma sim_cases {FL : floor} {P : panics} {A B} (p : prog A) h (m : io U B) Q : sim p h m Q ->
  forall E w, ord_ok (e_ord E) ->
  (exists n a h', go_run C n E p h w = Some (ROk a h' (snd (run E m w))) /\ Q a h' (fst (run E m w))) \/
  (P /\ exists n w', go_run C n E p h w = Some (RPanic w')).
Proof.
  intros H E w O. destruct (H E w O) as [(n & a & h' & X & Y)|(X & n & w' & Y)]; [left; exists n, a, h'|right; split; [exact X|]; exists n, w']; [split; [|exact Y]|]; apply ran_run; assumption.
Qed.
(** Where there is no floor, this is all there is to show. *)
Lemma sim_runs {P : panics} {A B} (p : prog A) h (m : io U B) Q :
  (forall E w, ord_ok (e_ord E) ->
    (exists n a h', go_run C n E p h w = Some (ROk a h' (snd (run E m w))) /\ Q a h' (fst (run E m w))) \/
    (P /\ exists n w', go_run C n E p h w = Some (RPanic w'))) -> sim p h m Q.
Proof.
  intros H E w O. destruct (H E w O) as [(n & a & h' & X & Y)|(X & n & w' & Y)]; [left; exists n, a, h'|right; split; [exact X|]; exists n, w']; [split; [|exact Y]|]; apply run_ran; assumption.
Qed.
Definition pan {A} (p : prog A) (h : heap) : Prop :=
  forall E w, ord_ok (e_ord E) -> exists n w', go_run C n E p h w = Some (RPanic w').
Lemma sim_pan {A B} (p : prog A) h (m : io U B) : sim (P := True) p h m (fun _ _ _ => False) -> pan p h.
Proof. intros H E w O. destruct (H E w O) as [(n & a & h' & _ & [])|(_ & n & w' & X)]. exists n, w'. apply ran_run, X. Qed.

Lemma sim_bind_l {FL : floor} {P : panics} {A A' B} (p : prog A) h (f : A -> prog A') (m : io U B) (R : A -> heap -> Prop) (Q : A' -> heap -> B -> Prop) :
  sim p h (Ret tt) (fun a h' _ => R a h') -> (forall a h', R a h' -> sim (f a) h' m Q) -> sim (pbind p f) h m Q.
Proof.
  intros H K. change m with (bind (Ret tt) (fun _ => m)). eapply sim_bind; [exact H|]. intros a h' [] Z. apply K, Z.
Qed.


(** The same with something left to do. *)
Section Bound.
Context {FL : floor} {P : panics}.
Context {A A' B : Type}.
Implicit Types (f : A -> prog A') (h : heap) (m : io U B) (Q : A' -> heap -> B -> Prop).

Lemma simb_alloc o (f : loc -> prog A') h m Q :
  sim (f (length h)) (h ++ [o]) m Q -> sim (pbind (alloc o) f) h m Q.
Proof. intro H. unfold alloc. cbn [pbind]. eapply sim_heap; [reflexivity|apply stays_alloc|exact H]. Qed.
Lemma simb_load l o (f : obj -> prog A') h m Q :
  nth_error h l = Some o -> sim (f o) h m Q -> sim (pbind (load l) f) h m Q.
Proof. intros L H. unfold load. cbn [pbind]. eapply sim_heap; [rewrite L; reflexivity|apply stays_same|exact H]. Qed.
Lemma simb_update l o (f : unit -> prog A') h m Q : base <= l ->
  sim (f tt) (set_nth h l o) m Q -> sim (pbind (update l o) f) h m Q.
Proof. intros L H. unfold update. cbn [pbind]. eapply sim_heap; [reflexivity|apply stays_update, L|exact H]. Qed.
Lemma simb_call c args sp k f h m Q :
  sim (pbind (body_of C c args sp) (fun vs => pbind (k vs) f)) h m Q -> sim (pbind (PCall c args sp k) f) h m Q.
Proof. intro H. cbn [pbind]. apply sim_call, H. Qed.
Lemma simb_heap k (q : prog A) f h h' m Q :
  k h = Some (q, h') -> stays h h' -> sim (pbind q f) h' m Q -> sim (pbind (PHeap k) f) h m Q.
Proof. intros K KS H. cbn [pbind]. eapply sim_heap; [rewrite K; reflexivity|exact KS|exact H]. Qed.
End Bound.

End Run.
