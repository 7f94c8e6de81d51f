(** Go slices and [append], for the places where the code lets two slices
    share a backing array (Go spec, "Appending to and copying slices"). *)
From Verif Require Import Bytes.

(** A slice: which backing array, its length and its capacity.  All slices of
    the model start at offset 0 of their array. *)
Record slice := Slice { s_arr : nat; s_len : nat; s_cap : nat }.

(** The nil slice. *)
Definition nil_slice : slice := Slice 0 0 0.

(** Memory: backing arrays, by number.  A cell that was never written is
    [None] (Go zero value). *)
Definition mem (A : Type) := list (list (option A)).

Fixpoint set_nth {A} (l : list A) (i : nat) (x : A) : list A :=
  match l, i with
  | [], _ => []
  | _ :: l', 0 => x :: l'
  | y :: l', S i' => y :: set_nth l' i' x
  end.

(** Capacity after growing a full slice of capacity [c] by one element
    (runtime/slice.go nextslicecap, Go 1.18 and later): doubled below 256,
    then by a quarter plus 192.  Rounding up to an allocator size class is
    left out: for pointer-sized elements it changes nothing up to 512. *)
Definition go_grow (c : nat) : nat :=
  if c =? 0 then 1 else if c <? 256 then 2 * c else c + (c + 768) / 4.

(** [append(s, x)]: in place when there is spare capacity, otherwise into a
    fresh array. *)
Definition append1 {A} (m : mem A) (s : slice) (x : A) : mem A * slice :=
  if s_len s <? s_cap s then
    (set_nth m (s_arr s) (set_nth (nth (s_arr s) m []) (s_len s) (Some x)),
     Slice (s_arr s) (S (s_len s)) (s_cap s))
  else
    let cap := go_grow (s_cap s) in
    (m ++ [firstn (s_len s) (nth (s_arr s) m []) ++ Some x ::
           repeat None (cap - S (s_len s))],
     Slice (length m) (S (s_len s)) cap).

(** The elements of a slice in a given memory. *)
Definition somes {A} (l : list (option A)) : list A :=
  flat_map (fun o => match o with Some x => [x] | None => [] end) l.

Definition slice_elems {A} (m : mem A) (s : slice) : list A :=
  somes (firstn (s_len s) (nth (s_arr s) m [])).
