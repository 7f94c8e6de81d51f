(** The effects of rendering, and the environment that answers them.

    Rendering code interacts with three things it does not control: the
    [io.Writer] of the context, the user's callbacks (which may read and
    change state of their own, modelled as a shared user state [U]), and the
    order in which the Go runtime iterates over maps.  A rendering is a tree
    of such interactions; every theorem quantifies over the answers. *)
From Verif Require Import Bytes.
From Coq Require Import Permutation.

(** A non-nil Go [error] value; distinct numbers are distinct errors. *)
Definition error := nat.

Section IO.
Context {U : Type}.

(** [io A]: a program that ends in an [A].
    - [Wr d k]: [Writer.Write(d)]; the writer answers [(n, err)];
    - [Cb k]: an atomic piece of user code, reading and updating user state;
    - [Pick ks k]: [range] over a Go map with key list [ks]; the runtime
      answers with the order of the keys (Go spec, "For range": unspecified). *)
Inductive io (A : Type) : Type :=
| Ret (a : A)
| Wr (d : bytes) (k : nat -> option error -> io A)
| Cb (k : U -> io A * U)
| Pick (ks : list bytes) (k : list bytes -> io A).
Arguments Ret {A}. Arguments Wr {A}. Arguments Cb {A}. Arguments Pick {A}.

Fixpoint bind {A B : Type} (p : io A) (f : A -> io B) : io B :=
  match p with
  | Ret a => f a
  | Wr d k => Wr d (fun n e => bind (k n e) f)
  | Cb k => Cb (fun u => let '(p', u') := k u in (bind p' f, u'))
  | Pick ks k => Pick ks (fun o => bind (k o) f)
  end.

(** One call of [Writer.Write], with the writer's answer. *)
Record wcall := WCall { wc_data : bytes; wc_n : nat; wc_err : option error }.

(** A writer answers a write as a function of the whole history of calls made
    to it: any deterministic or adversarial writer is such a function.  The
    bytes it accepted are the first [n] of the data. *)
Definition writer := list wcall -> bytes -> nat * option error.

(** The order chosen for the [t]-th map iteration. *)
Definition order := nat -> list bytes -> list bytes.

Record env := Env { e_wr : writer; e_ord : order }.

(** The environment only permutes the keys of a map. *)
Definition ord_ok (o : order) : Prop := forall t ks, Permutation ks (o t ks).

(** State of the world outside the rendering code. *)
Record world := World { w_log : list wcall; w_u : U; w_tick : nat }.

(** Run a program to completion against an environment. *)
Fixpoint run {A : Type} (E : env) (p : io A) (w : world) : A * world :=
  match p with
  | Ret a => (a, w)
  | Wr d k =>
      let '(n, e) := e_wr E (w_log w) d in
      run E (k n e) (World (w_log w ++ [WCall d n e]) (w_u w) (w_tick w))
  | Cb k =>
      let '(p', u') := k (w_u w) in
      run E p' (World (w_log w) u' (w_tick w))
  | Pick ks k =>
      run E (k (e_ord E (w_tick w) ks)) (World (w_log w) (w_u w) (S (w_tick w)))
  end.

(** Bytes the writer accepted, in order. *)
Definition accepted (l : list wcall) : bytes :=
  concat (map (fun c => firstn (wc_n c) (wc_data c)) l).

(** Bytes offered to the writer, in order. *)
Definition offered (l : list wcall) : bytes := concat (map wc_data l).

(** A writer that accepts everything. *)
Definition healthy : writer := fun _ d => (length d, None).

(** The writer has reported an error at some time in this history. *)
Definition failed (h : list wcall) : bool :=
  existsb (fun c => match wc_err c with Some _ => true | None => false end) h.

(** A writer that dies at some moment of its own choosing: up to then it
    accepts every write completely; the first failing write may be accepted
    in part; from then on nothing is accepted and every write fails. *)
Definition dying (w : writer) : Prop :=
  forall h d,
    if failed h
    then fst (w h d) = 0 /\ snd (w h d) <> None
    else w h d = (length d, None) \/
         (fst (w h d) <= length d /\ snd (w h d) <> None).

(** The instance that accepts [n] bytes in all and then fails with [e]. *)
Definition dies_after (n : nat) (e : error) : writer := fun h d =>
  if failed h then (0, Some e)
  else
    let room := n - length (accepted h) in
    if length d <=? room then (length d, None) else (room, Some e).

End IO.

Arguments io : clear implicits.
Arguments world : clear implicits.
Arguments Ret {U A}. Arguments Wr {U A}. Arguments Cb {U A}. Arguments Pick {U A}.

Notation "x <- p ;; q" := (bind p (fun x => q))
  (at level 100, p at next level, right associativity).
Notation "' pat <- p ;; q" := (bind p (fun x => match x with pat => q end))
  (at level 100, pat pattern, p at next level, right associativity).
