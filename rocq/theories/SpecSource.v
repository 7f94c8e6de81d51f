(** What was written: the arguments of an element as calls of Collection and
    Conditional, and the conditions that each attribute was written inside. *)
From Verif Require Import Bytes IO Nodes SpecElem.

Section Source.
Context {W : UserWorld}.

(** An argument: an attribute, Collection(...), Conditional(f, ...), or any
    other node. *)
Inductive part :=
| PAttr (a : attr U)
| PGroup (l : list part)
| PCond (f : condfn U) (l : list part)
| POther (n : node U).

(** The attributes as written, from left to right, each with the conditions
    around it, outermost first. *)
Fixpoint governed (chain : list (condfn U)) (p : part) : list (attr U * list (condfn U)) :=
  match p with
  | PAttr a => [(a, chain)]
  | PGroup l => flat_map (governed chain) l
  | PCond f l => flat_map (governed (chain ++ [f])) l
  | POther _ => []
  end.
Definition written (ps : list part) : list (attr U * list (condfn U)) := flat_map (governed []) ps.
Definition unconditional (d : attr U * list (condfn U)) : bool := match snd d with [] => true | _ => false end.

(** Depth to which conditionals are nested. *)
Fixpoint part_depth (p : part) : nat :=
  match p with
  | PGroup l => list_max (map part_depth l)
  | PCond _ l => S (list_max (map part_depth l))
  | _ => 0
  end.

(** Other nodes are neither attributes nor groups. *)
Definition plain_node (n : node U) : Prop :=
  match n with NAttr _ | NCollection _ | NConditional _ _ _ => False | _ => True end.
Fixpoint part_ok (p : part) : Prop :=
  match p with
  | PAttr _ => True
  | PGroup l | PCond _ l => fold_right (fun p P => part_ok p /\ P) True l
  | POther n => plain_node n
  end.

(** Within a conditional the attributes directly among its arguments are taken
    before those in groups. *)
Definition is_pattr (p : part) : bool := match p with PAttr _ => true | _ => false end.
Fixpoint taken (chain : list (condfn U)) (p : part) : list (attr U * list (condfn U)) :=
  match p with
  | PAttr a => [(a, chain)]
  | PGroup l => flat_map (taken chain) l
  | PCond f l =>
      flat_map (fun p => if is_pattr p then taken (chain ++ [f]) p else []) l ++
      flat_map (fun p => if is_pattr p then [] else taken (chain ++ [f]) p) l
  | POther _ => []
  end.

End Source.
