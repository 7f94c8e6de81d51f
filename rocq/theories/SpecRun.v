(** Observables: what a caller of [Render] sees. *)
From Verif Require Import Bytes IO Nodes Values Render.

Section SpecRun.
Context {W : UserWorld}.

(** Rendering a node with a fresh context (Error nil) to a writer that accepts
    everything: the returned error, ctx.Error afterwards, the bytes the writer
    received, and the state (user state, number of map iterations made). *)
Definition result (o : order) (n : node U) (fr : frame U) (s : U * nat)
  : option error * option error :=
  fst (run (Env healthy o) (render n fr None) (World [] (fst s) (snd s))).
Definition page (o : order) (n : node U) (fr : frame U) (s : U * nat) : bytes * (U * nat) :=
  let w := snd (run (Env healthy o) (render n fr None) (World [] (fst s) (snd s))) in
  (accepted (w_log w), (w_u w, w_tick w)).

(** Rendering several nodes one after the other, each with a fresh context. *)
Fixpoint pages (o : order) (ns : list (node U)) (fr : frame U) (s : U * nat) : bytes * (U * nat) :=
  match ns with
  | [] => ([], s)
  | n :: ns' => let '(b1, s1) := page o n fr s in
                let '(b2, s2) := pages o ns' fr s1 in (b1 ++ b2, s2)
  end.

(** The same when the writer is arbitrary: everything the writer was asked to
    do, and how it answered. *)
Definition calls (E : env) (n : node U) (fr : frame U) (s : U * nat) : list wcall :=
  w_log (snd (run E (render n fr None) (World [] (fst s) (snd s)))).

(** A Go string passed as an argument. *)
Definition str (s : bytes) : arg U := AData (GString s).

End SpecRun.

Global Arguments page : simpl never.
Global Arguments result : simpl never.
