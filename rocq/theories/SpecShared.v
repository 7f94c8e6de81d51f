(** Which conditions an attribute ends up with when conditionals are nested so
    deep that their lists of conditions share arrays.

    A list of conditions grows by one for each conditional around an attribute.
    When it is full, at depth 0, 1, 2, 4, 8, ..., the conditional one deeper
    gets an array of its own, with room for more.  The conditionals below it
    write their conditions into that array, one place per depth; the last one
    at each depth remains. *)
From Verif Require Import Bytes IO Nodes SpecElem.

Section Shared.
Context {W : UserWorld}.

(** The later of two. *)
Definition later {A} (a b : option A) : option A := match b with Some _ => b | None => a end.

(** The last conditional that is [k] conditionals deep in [n]. *)
Fixpoint last_at (k : nat) (n : node U) : option (condfn U) :=
  match n with
  | NCollection ns => fold_right (fun n r => later (last_at k n) r) None ns
  | NConditional f _ ns =>
      match k with
      | 0 => Some f
      | S k' => fold_right (fun n r => later (last_at k' n) r) None ns
      end
  | _ => None
  end.
Definition last_of (k : nat) (ns : list (node U)) : option (condfn U) :=
  fold_right (fun n r => later (last_at k n) r) None ns.
Definition shared (j : nat) (ns : list (node U)) : list (condfn U) :=
  flat_map (fun i => oapp (last_of i ns)) (seq 0 j).

(** A list of conditions: the first [k] places of the array of the conditional
    around that has an array of its own; or already known. *)
Inductive cref := Own (k : nat) | Known (c : list (condfn U)).
Definition settle (base : list (condfn U)) (ns : list (node U)) (d : attr U * cref) : attr U * cref :=
  (fst d, Known (match snd d with Own j => base ++ shared j ns | Known c => c end)).

Context (room : nat -> bool). (* at this depth, there is room for one more condition *)
(** [path]: the conditions around; [k]: how many of them came after the array
    was made. *)
Fixpoint crefs (path : list (condfn U)) (k : nat) (n : node U) : list (attr U * cref) :=
  match n with
  | NAttr a => match path with [] => [] | _ => [(a, Own k)] end
  | NCollection ns => flat_map (crefs path k) ns
  | NConditional f attrs ns =>
      if room (length path) then
        map (fun a => (a, Own (S k))) attrs ++ flat_map (crefs (path ++ [f]) (S k)) ns
      else
        map (settle (path ++ [f]) ns)
          (map (fun a => (a, Own 0)) attrs ++ flat_map (crefs (path ++ [f]) 0) ns)
  | _ => []
  end.
(** The conditional declarations of an element, with the conditions that decide
    about them. *)
Definition deciding (ns : list (node U)) : list (attr U * list (condfn U)) :=
  map (fun d => (fst d, match snd d with Known c => c | Own _ => [] end)) (flat_map (crefs [] 0) ns).

End Shared.
