(** A concrete user world for the examples: the user state is a counter; data
    map 0 holds a few entries, map 1 holds one entry that depends on the
    counter. *)
From Coq Require Import ZArith.
From Verif Require Import Bytes IO Nodes Values Render Build SpecRun.

Definition demo_map (u : nat) (m : mref) (k : bytes) : option (gval nat) :=
  match m with
  | 0 => if beq k (B "name") then Some (GString (B "a<b"))
         else if beq k (B "on") then Some (GBool true)
         else if beq k (B "off") then Some (GBool false)
         else if beq k (B "items") then Some (GSlice true [GString (B "x"); GInt 7])
         else None
  | 1 => if beq k (B "count") then Some (GUint (N.of_nat u)) else None
  | _ => None
  end.
Global Instance demo : UserWorld := {| U := nat; mget := demo_map |}.

(** Map keys in the order listed, and in reverse. *)
Definition listed : order := fun _ ks => ks.
Definition reversed : order := fun _ ks => rev ks.
Lemma listed_ok : ord_ok listed.
Proof. intros t ks. apply Permutation.Permutation_refl. Qed.
Lemma reversed_ok : ord_ok reversed.
Proof. intros t ks. apply Permutation.Permutation_rev. Qed.

(** Contexts: map 0 as data; no data. *)
Definition fr0 : frame (@U demo) := Frame (Some 0) GNil None.
Definition fr1 : frame (@U demo) := Frame (Some 1) GNil None.
Definition frn : frame (@U demo) := Frame None GNil None.

(** A state of the demo world. *)
Definition st (n : nat) : @U demo := n.
