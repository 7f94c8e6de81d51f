(** Construction with shared nodes.

    [Build.v] treats nodes as values.  In Go they are pointers: an attribute
    passed to two elements is one object, and addAttributes (element.go 91,
    157) updates the [values] field of a delimited attribute in place.  Here
    attribute objects live in a heap; every other node refers to them by
    location and is never changed after construction.

    Left out: nodes that a callback (ContentCollect, Imperative) holds on to or
    builds while rendering; they are opaque leaves here.  The [values] slice of
    a delimited attribute is a list: newValues (value.go 84-121) gives each
    attribute a backing array of its own and nothing else appends to it. *)
From Verif Require Import Bytes IO Nodes Values Render Slices Build.

Section Sharing.
Context {W : UserWorld}.

Definition loc := nat.
Definition heap := list (attr U).
(** The attribute object at a location (all locations in use are allocated). *)
Definition deref (h : heap) (l : loc) : attr U := nth l h (ABool []).

(** Nodes that hold no other node. *)
Inductive leaf :=
| LText (vs : list (value U)) | LComment (vs : list (value U))
| LFragment (vs : list (value U)) | LPI (name : bytes) (vs : list (value U))
| LImper (p : option (iprog U))
| LCollect (f : ctx U -> U -> list (option (node U)) * U).

Inductive snode :=
| SAttr (l : loc)
| SLeaf (x : leaf)
| SCollection (ns : list snode)
| SConditional (f : condfn U) (attrs : list loc) (ns : list snode)
| SElement (name : bytes) (attrs : list loc) (idx : list (bytes * nat))
           (conds : list (loc * list (condfn U))) (contents : list snode)
| SVoid (name : bytes) (attrs : list loc) (idx : list (bytes * nat))
        (conds : list (loc * list (condfn U)))
| SIter (f : ctx U -> U -> list (gval U) * U) (ns : list snode)
| SYield (f : yprog U) (ns : list snode)
| SDocument (prologue : leaf) (ns : list snode).

(** What a node is at a given moment: the tree one sees when following its
    pointers.  Render reads nothing else. *)
Definition read_leaf (x : leaf) : node U :=
  match x with
  | LText vs => NText vs | LComment vs => NComment vs | LFragment vs => NFragment vs
  | LPI n vs => NPI n vs | LImper p => NImper p | LCollect f => NCollect f
  end.
Fixpoint read (h : heap) (n : snode) : node U :=
  match n with
  | SAttr l => NAttr (deref h l)
  | SLeaf x => read_leaf x
  | SCollection ns => NCollection (map (read h) ns)
  | SConditional f attrs ns => NConditional f (map (deref h) attrs) (map (read h) ns)
  | SElement name attrs idx conds ns =>
      NElement name (map (deref h) attrs) idx
        (map (fun p => (deref h (fst p), snd p)) conds) (map (read h) ns)
  | SVoid name attrs idx conds =>
      NVoid name (map (deref h) attrs) idx (map (fun p => (deref h (fst p), snd p)) conds)
  | SIter f ns => NIter f (map (read h) ns)
  | SYield f ns => NYield f (map (read h) ns)
  | SDocument x ns => NDocument (Some (read_leaf x)) (map (read h) ns)
  end.

(** element.go 231-268, as [collect_attrs] and [collect_all] of Build.v. *)
Fixpoint scollect (conditions : slice) (item : snode) (m : mem (condfn U))
  : list loc * list (loc * slice) * mem (condfn U) :=
  match item with
  | SAttr l => if 0 <? s_len conditions then ([], [(l, conditions)], m) else ([l], [], m)
  | SCollection ns =>
      (fix go (ns : list snode) (m : mem (condfn U)) :=
         match ns with
         | [] => ([], [], m)
         | n :: ns' =>
             let '(a1, c1, m1) := scollect conditions n m in
             let '(a2, c2, m2) := go ns' m1 in
             (a1 ++ a2, c1 ++ c2, m2)
         end) ns m
  | SConditional fn attrs ns =>
      let '(m1, newConditions) := append1 m conditions fn in
      let '(_, c2, m2) :=
        (fix go (ns : list snode) (m : mem (condfn U)) :=
           match ns with
           | [] => ([], [], m)
           | n :: ns' =>
               let '(a1, c1, m1) := scollect newConditions n m in
               let '(a2, c2, m2) := go ns' m1 in
               (a1 ++ a2, c1 ++ c2, m2)
           end) ns m1 in
      ([], map (fun a => (a, newConditions)) attrs ++ c2, m2)
  | _ => ([], [], m)
  end.
Fixpoint scollect_all (conditions : slice) (items : list snode) (m : mem (condfn U))
  : list loc * list (loc * slice) * mem (condfn U) :=
  match items with
  | [] => ([], [], m)
  | n :: ns' =>
      let '(a1, c1, m1) := scollect conditions n m in
      let '(a2, c2, m2) := scollect_all conditions ns' m1 in
      (a1 ++ a2, c1 ++ c2, m2)
  end.

Definition is_sattr (n : snode) : bool := match n with SAttr _ => true | _ => false end.
Definition sattrs_of (ns : list snode) : list loc :=
  flat_map (fun n => match n with SAttr l => [l] | _ => [] end) ns.
Definition others_of (ns : list snode) : list snode :=
  filter (fun n => negb (is_sattr n)) ns.

(** element.go 84-102 = 150-168: one step of [addAttributes]. *)
Definition sadd (st : heap * list loc * list (bytes * nat)) (l : loc)
  : heap * list loc * list (bytes * nat) :=
  let '(h, attributes, attIndices) := st in
  match idx_get attIndices (attr_name (deref h l)) with
  | Some i =>
      match nth_error attributes i with
      | Some e =>
          match deref h e, deref h l with
          | ADelim n d vs, ADelim _ _ addVs =>
              (set_nth h e (ADelim n d (vs ++ addVs)), attributes, attIndices)
          | _, _ => (h, set_nth attributes i l, attIndices)
          end
      | None => st
      end
  | None =>
      (h, attributes ++ [l], attIndices ++ [(attr_name (deref h l), length attributes)])
  end.

(** element.go 191-216: building an element or void element. *)
Definition build (void : bool) (name : bytes) (items : list snode) (h : heap) : heap * snode :=
  let '(attrs, condAttrs, m) := scollect_all nil_slice items [] in
  let conds := map (fun p => (fst p, slice_elems m (snd p))) condAttrs in
  let '(h', attributes, attIndices) := fold_left sadd attrs (h, [], []) in
  (h', if void then SVoid name attributes attIndices conds
       else SElement name attributes attIndices conds (others_of items)).

(** ** Construction histories *)

(** One constructor call; the arguments are earlier nodes, by number.
    [MDocument] is the last step of html.Document (html/document.go 40-46). *)
Inductive step :=
| MAttr (a : attr U)
| MLeaf (x : leaf)
| MCollection (is : list nat)
| MConditional (f : condfn U) (is : list nat)
| MElement (void : bool) (name : bytes) (is : list nat)
| MIterate (f : ctx U -> U -> list (gval U) * U) (is : list nat)
| MYield (f : yprog U) (is : list nat)
| MDocument (prologue : leaf) (is : list nat).

(** The arguments of a call.  (A number without a node stands for a nil that
    the constructor drops.) *)
Definition pick {A} (ns : list A) (is : list nat) : list A :=
  somes (map (fun i => nth_error ns i) is).

Definition make (s : step) (h : heap) (ns : list snode) : heap * snode :=
  match s with
  | MAttr a => (h ++ [a], SAttr (length h))
  | MLeaf x => (h, SLeaf x)
  | MCollection is => (h, SCollection (pick ns is))
  | MConditional f is => (h, SConditional f (sattrs_of (pick ns is)) (others_of (pick ns is)))
  | MElement void name is => build void name (pick ns is) h
  | MIterate f is => (h, SIter f (others_of (pick ns is)))
  | MYield f is => (h, SYield f (others_of (pick ns is)))
  | MDocument x is => (h, SDocument x (others_of (pick ns is)))
  end.

Fixpoint history (l : list step) (st : heap * list snode) : heap * list snode :=
  match l with
  | [] => st
  | s :: l' => let '(h', n) := make s (fst st) (snd st) in history l' (h', snd st ++ [n])
  end.

(** The same history when nodes are values (Build.v). *)
Definition make_pure (s : step) (ns : list (node U)) : node U :=
  match s with
  | MAttr a => NAttr a
  | MLeaf x => read_leaf x
  | MCollection is => NCollection (pick ns is)
  | MConditional f is => NConditional f (node_attrs (pick ns is)) (non_attrs (pick ns is))
  | MElement void name is =>
      if void then mk_void name (pick ns is) else mk_element name (pick ns is)
  | MIterate f is => NIter f (non_attrs (pick ns is))
  | MYield f is => NYield f (non_attrs (pick ns is))
  | MDocument x is => NDocument (Some (read_leaf x)) (non_attrs (pick ns is))
  end.
Fixpoint history_pure (l : list step) (ns : list (node U)) : list (node U) :=
  match l with
  | [] => ns
  | s :: l' => history_pure l' (ns ++ [make_pure s ns])
  end.

End Sharing.
