(** Calls of variadic functions of the Go source: with separate arguments, with a
    slice, and through a function that passes its arguments on. *)
From Coq Require Import ZArith Lia.
From Verif Require Import Bytes IO IOFacts Nodes Values Build
  GoSyntax Source GoSem GoRun GoRep GoStep GoOwn RefineNode RefineUser RefineIter RefineStart RefineNew RefineMake.
Local Open Scope nat_scope.

Section Variadic.
Context {W : UserWorld}.
Variable M : go_mode.
Notation C := (go_config M).
Notation sim := (sim C).

(** The heap and the slice after the arguments [xs] have been packed. *)
Definition packed (h : heap) (xs : list gv) : heap := match xs with [] => h | _ => h ++ [OArr xs] end.
Definition pack (h : heap) (xs : list gv) : gv := match xs with [] => VNil | _ => VSlice (length h) (length xs) end.
Lemma packed_grown h xs : grown h (packed h xs).
Proof. destruct xs; [apply grown_refl|apply grown_app]. Qed.
Lemma pack_slice h xs : slice_is (packed h xs) (pack h xs) xs.
Proof. destruct xs as [|x xs]; [reflexivity|]. apply slice_new. Qed.

Definition takes (f : string) (k : nat) : Prop :=
  exists ps named body, lookup_fun C f = Some (Fun ps true named body) /\ length ps = S k.
Lemma bind_variadic xs : forall fixed ps en, length ps = S (length fixed) ->
  exists p en', bind_params ps true false (fixed ++ xs) en = pbind (match xs with [] => PRet VNil | _ => new_slice xs end) (fun v => PRet ((p, v) :: en')) /\
    forall s, bind_params ps true true (fixed ++ [s]) en = PRet ((p, s) :: en').
Proof.
  induction fixed as [|a fixed IH]; intros ps en L.
  - destruct ps as [|p [|q ps]]; try discriminate. exists p, en. split; [reflexivity|]. intro s. reflexivity.
  - destruct ps as [|p [|q ps]]; try discriminate. cbn [length] in L. injection L as L.
    destruct (IH (q :: ps) ((p, a) :: en) ltac:(cbn [length]; lia)) as (p' & en' & H1 & H2). exists p', en'. auto.
Qed.
Lemma run_variadic f fixed xs E n h w r : takes f (length fixed) ->
  go_run C n E (PCall (CFun f) (fixed ++ [pack h xs]) true PRet) (packed h xs) w = Some r ->
  go_run C (S n) E (PCall (CFun f) (fixed ++ xs) false PRet) h w = Some r.
Proof.
  intros (ps & named & body & EL & L). destruct n as [|n]; [discriminate|].
  destruct (bind_variadic xs fixed ps [] L) as (p & en & H1 & H2).
  set (B := fun en => pbind (exec C body (map (fun '(x, t) => (x, zero_of t)) named ++ en))
     (fun '(fl, _) => match fl with FReturn vs => PRet vs | FNext => PRet [] | _ => PPanic end)).
  assert (E1 : body_of C (CFun f) (fixed ++ [pack h xs]) true = B ((p, pack h xs) :: en)).
  { cbn [body_of]. rewrite EL. cbn [call_fun]. rewrite H2. reflexivity. }
  assert (E2 : body_of C (CFun f) (fixed ++ xs) false = match xs with [] => B ((p, VNil) :: en) | _ => PHeap (fun h => Some (B ((p, VSlice (length h) (length xs)) :: en), h ++ [OArr xs])) end).
  { cbn [body_of]. rewrite EL. cbn [call_fun]. rewrite H1. destruct xs; reflexivity. }
  change (go_run C (S n) E (PCall (CFun f) (fixed ++ [pack h xs]) true PRet) (packed h xs) w)
    with (match go_run C n E (body_of C (CFun f) (fixed ++ [pack h xs]) true) (packed h xs) w with
          | Some (ROk vs h' w') => go_run C n E (PRet vs) h' w'
          | Some (RPanic w') => Some (RPanic w')
          | None => None end).
  change (go_run C (S (S n)) E (PCall (CFun f) (fixed ++ xs) false PRet) h w)
    with (match go_run C (S n) E (body_of C (CFun f) (fixed ++ xs) false) h w with
          | Some (ROk vs h' w') => go_run C (S n) E (PRet vs) h' w'
          | Some (RPanic w') => Some (RPanic w')
          | None => None end).
  rewrite E1, E2. clearbody B.
  destruct (go_run C n E (B ((p, pack h xs) :: en)) (packed h xs) w) as [r1|] eqn:R; [|discriminate].
  assert (R2 : go_run C (S n) E (match xs with [] => B ((p, VNil) :: en) | _ => PHeap (fun h => Some (B ((p, VSlice (length h) (length xs)) :: en), h ++ [OArr xs])) end) h w = Some r1).
  { destruct xs as [|x xs]; cbn [pack packed] in R.
    - apply (run_mono C E n); [lia|exact R].
    - exact R. }
  rewrite R2. destruct r1 as [vs h' w'|w']; [|auto]. destruct n; [discriminate|]. auto.
Qed.

(** The other way round. *)
Lemma run_spread f fixed xs E n h w r : takes f (length fixed) ->
  go_run C n E (PCall (CFun f) (fixed ++ xs) false PRet) h w = Some r ->
  go_run C n E (PCall (CFun f) (fixed ++ [pack h xs]) true PRet) (packed h xs) w = Some r.
Proof.
  intros (ps & named & body & EL & L). destruct n as [|n]; [discriminate|].
  destruct (bind_variadic xs fixed ps [] L) as (p & en & H1 & H2).
  set (B := fun en => pbind (exec C body (map (fun '(x, t) => (x, zero_of t)) named ++ en))
     (fun '(fl, _) => match fl with FReturn vs => PRet vs | FNext => PRet [] | _ => PPanic end)).
  assert (E1 : body_of C (CFun f) (fixed ++ [pack h xs]) true = B ((p, pack h xs) :: en)).
  { cbn [body_of]. rewrite EL. cbn [call_fun]. rewrite H2. reflexivity. }
  assert (E2 : body_of C (CFun f) (fixed ++ xs) false = match xs with [] => B ((p, VNil) :: en) | _ => PHeap (fun h => Some (B ((p, VSlice (length h) (length xs)) :: en), h ++ [OArr xs])) end).
  { cbn [body_of]. rewrite EL. cbn [call_fun]. rewrite H1. destruct xs; reflexivity. }
  change (go_run C (S n) E (PCall (CFun f) (fixed ++ [pack h xs]) true PRet) (packed h xs) w)
    with (match go_run C n E (body_of C (CFun f) (fixed ++ [pack h xs]) true) (packed h xs) w with
          | Some (ROk vs h' w') => go_run C n E (PRet vs) h' w'
          | Some (RPanic w') => Some (RPanic w')
          | None => None end).
  change (go_run C (S n) E (PCall (CFun f) (fixed ++ xs) false PRet) h w)
    with (match go_run C n E (body_of C (CFun f) (fixed ++ xs) false) h w with
          | Some (ROk vs h' w') => go_run C n E (PRet vs) h' w'
          | Some (RPanic w') => Some (RPanic w')
          | None => None end).
  rewrite E1, E2. clearbody B.
  destruct (go_run C n E (match xs with [] => B ((p, VNil) :: en) | _ => _ end) h w) as [r1|] eqn:R; [|discriminate].
  assert (R2 : go_run C n E (B ((p, pack h xs) :: en)) (packed h xs) w = Some r1).
  { destruct xs as [|x xs]; cbn [pack packed]; [exact R|]. destruct n as [|n]; [discriminate|]. apply (run_mono C E n); [lia|exact R]. }
  rewrite R2. auto.
Qed.

#[local] Transparent GoRun.sim.
Lemma sim_variadic {P : panics} {B} f fixed xs h (m : io U B) Q : takes f (length fixed) ->
  sim (PCall (CFun f) (fixed ++ [pack h xs]) true PRet) (packed h xs) m Q ->
  sim (PCall (CFun f) (fixed ++ xs) false PRet) h m Q.
Proof.
  intros T H. apply sim_runs. intros E w O. destruct (sim_cases _ _ _ _ _ H E w O) as [(n & a & h' & R & K)|(Y & n & w' & R)].
  - left. exists (S n), a, h'. split; [apply run_variadic; auto|exact K].
  - right. split; [exact Y|]. exists (S n), w'. apply run_variadic; auto.
Qed.
#[local] Opaque GoRun.sim.

(** A function that does nothing but call [g]. *)
Lemma run_hands f args g gargs sp gsp (k : list gv -> prog (list gv)) E n h w r :
  body_of C (CFun f) args sp = PCall (CFun g) gargs gsp k -> (forall v, k [v] = PRet [v]) ->
  (forall vs h' w', r = ROk vs h' w' -> exists v, vs = [v]) ->
  go_run C n E (PCall (CFun g) gargs gsp PRet) h w = Some r ->
  go_run C (S n) E (PCall (CFun f) args sp PRet) h w = Some r.
Proof.
  intros K1 K2 One R.
  change (go_run C (S n) E (PCall (CFun f) args sp PRet) h w)
    with (match go_run C n E (body_of C (CFun f) args sp) h w with
          | Some (ROk vs h' w') => go_run C n E (PRet vs) h' w'
          | Some (RPanic w') => Some (RPanic w')
          | None => None end).
  rewrite K1. destruct n as [|n]; [discriminate|].
  change (go_run C (S n) E (PCall (CFun g) gargs gsp PRet) h w)
    with (match go_run C n E (body_of C (CFun g) gargs gsp) h w with
          | Some (ROk vs h' w') => go_run C n E (PRet vs) h' w'
          | Some (RPanic w') => Some (RPanic w')
          | None => None end) in R.
  change (go_run C (S n) E (PCall (CFun g) gargs gsp k) h w)
    with (match go_run C n E (body_of C (CFun g) gargs gsp) h w with
          | Some (ROk vs h' w') => go_run C n E (k vs) h' w'
          | Some (RPanic w') => Some (RPanic w')
          | None => None end).
  destruct (go_run C n E (body_of C (CFun g) _ _) _ w) as [[vs h' w'|w']|]; [|exact R|discriminate].
  destruct n as [|n]; [discriminate|]. injection R as <-. destruct (One _ _ _ eq_refl) as [v ->]. rewrite K2. reflexivity.
Qed.
(** The same with variadic arguments passed on. *)
Definition forwards (f : string) (given : list gv) (g : string) (fixed : list gv) : Prop :=
  takes f (length given) /\ takes g (length fixed) /\
  forall s, exists k : list gv -> prog (list gv), body_of C (CFun f) (given ++ [s]) true = PCall (CFun g) (fixed ++ [s]) true k /\ (forall v, k [v] = PRet [v]).
Lemma run_forwards f given g fixed xs E n h w r : forwards f given g fixed ->
  (forall vs h' w', r = ROk vs h' w' -> exists v, vs = [v]) ->
  go_run C n E (PCall (CFun g) (fixed ++ xs) false PRet) h w = Some r ->
  go_run C (S (S n)) E (PCall (CFun f) (given ++ xs) false PRet) h w = Some r.
Proof.
  intros (T1 & T2 & K) One R. apply run_variadic; [exact T1|]. apply run_spread in R; [|exact T2].
  destruct (K (pack h xs)) as (k & K1 & K2).
  eapply run_hands; eauto.
Qed.
End Variadic.
