(** What the function of an Imperative node may return. *)
From Verif Require Import Bytes IO Nodes Values Build SpecOut SpecErr.

Section SpecReturn.
Context {W : UserWorld}.

(** [ends p e]: some execution of the function [p] ends with [return e]. *)
Inductive ends : iprog U -> option error -> Prop :=
| ends_ret e : ends (IRet e) e
| ends_read k c u e : ends (fst (k c u)) e -> ends (IRead k) e
| ends_write_string s k e : ends k e -> ends (IWriteString s k) e
| ends_write_raw d k e : ends k e -> ends (IWriteRaw d k) e
| ends_write_nodes ns k e : ends k e -> ends (IWriteNodes ns k) e
| ends_start name v attrs k e : ends k e -> ends (IStart name v attrs k) e
| ends_end k e : ends k e -> ends (IEnd k) e
| ends_end_all k e : ends k e -> ends (IEndAll k) e
| ends_render n inner k r x e : ends (k r x) e -> ends (IRender n inner k) e
| ends_direct d k m x e : ends (k m x) e -> ends (IDirect d k) e
| ends_set_error x k e : ends k e -> ends (ISetError x k) e.

(** The same function with every [return] replaced by [return r]. *)
Fixpoint with_return (r : option error) (p : iprog U) : iprog U :=
  match p with
  | IRet _ => IRet r
  | IRead k => IRead (fun c u => let '(p', u') := k c u in (with_return r p', u'))
  | IWriteString s k => IWriteString s (with_return r k)
  | IWriteRaw d k => IWriteRaw d (with_return r k)
  | IWriteNodes ns k => IWriteNodes ns (with_return r k)
  | IStart name v attrs k => IStart name v attrs (with_return r k)
  | IEnd k => IEnd (with_return r k)
  | IEndAll k => IEndAll (with_return r k)
  | IRender n inner k => IRender n inner (fun x y => with_return r (k x y))
  | IDirect d k => IDirect d (fun m x => with_return r (k m x))
  | ISetError x k => ISetError x (with_return r k)
  end.

(** Templates in which a function that always returns an error, one of [R], is
    always reached: it is the template, or stands in an element with no values
    after it, in a collection, in a conditional whose condition holds, or in an
    iteration over at least one item; what stands before it has [before]. *)
Inductive failing (before : node U -> Prop) (R : error -> Prop) : node U -> Prop :=
| failing_imperative p :
    (forall r, ends p r -> exists e, r = Some e /\ R e) -> failing before R (Imperative (Some p))
| failing_element name l1 n l2 :
    Forall before l1 -> failing before R n -> all (tame no_data) l2 ->
    failing before R (mk_element name (l1 ++ n :: l2))
| failing_collection l1 n l2 :
    Forall before l1 -> failing before R n -> failing before R (Collection (map Some l1 ++ Some n :: l2))
| failing_conditional f l1 n l2 m :
    (forall c u, fst (f c u) = true) ->
    Forall before l1 -> failing before R n ->
    Conditional (Some f) (map Some l1 ++ Some n :: l2) = Done m -> failing before R m
| failing_iterate f l1 n l2 m :
    (forall c u, fst (f c u) <> []) ->
    Forall before l1 -> failing before R n ->
    Iterate (Some f) (map Some l1 ++ Some n :: l2) = Done m -> failing before R m.

End SpecReturn.
