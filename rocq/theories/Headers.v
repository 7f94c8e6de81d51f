(** Model of the headers functions of htmx (htmx/attributes.go 256-333). *)
From Verif Require Import Bytes IO Nodes Values Render Slices Build.

(** Go's [<] on strings: byte-wise lexicographic order. *)
Fixpoint bltb (a b : bytes) : bool :=
  match a, b with
  | [], [] => false
  | [], _ :: _ => true
  | _ :: _, [] => false
  | x :: a', y :: b' =>
      if Ascii.eqb x y then bltb a' b' else nat_of_ascii x <? nat_of_ascii y
  end.

(** [sort.Strings] (library code): the ascending arrangement. *)
Fixpoint insert_string (s : bytes) (l : list bytes) : list bytes :=
  match l with
  | [] => [s]
  | x :: l' => if bltb x s then x :: insert_string s l' else s :: l
  end.
Definition sort_strings (l : list bytes) : list bytes := fold_right insert_string [] l.

(** [strings.ReplaceAll] of the double quote by its entity (line 328). *)
Definition quote_key (key : bytes) : bytes :=
  flat_map (fun c => if Ascii.eqb c """"%char then B "&quot;" else [c]) key.

Section Headers.
Context {W : UserWorld}.

(** [HeadersMap]: a Go map from strings; its entries, with no key twice. *)
Definition hmap := list (bytes * arg U).
Definition hmap_ok (m : hmap) : Prop := NoDup (map fst m).

Fixpoint hget (m : hmap) (k : bytes) : option (arg U) :=
  match m with
  | [] => None
  | (k', v) :: m' => if beq k' k then Some v else hget m' k
  end.
Fixpoint hset (m : hmap) (k : bytes) (v : arg U) : hmap :=
  match m with
  | [] => [(k, v)]
  | (k', v') :: m' => if beq k' k then (k, v) :: m' else (k', v') :: hset m' k v
  end.

(** The order in which [for range] visits the entries of a map: anything, and
    it may differ from one loop to the next ([t] counts the loops). *)
Definition ranges := nat -> hmap -> hmap.
Definition ranges_ok (r : ranges) : Prop := forall t m, Permutation.Permutation m (r t m).

Definition hset_all (into : hmap) (l : hmap) : hmap := fold_left (fun m '(k, v) => hset m k v) l into.

(** An argument of Headers: a HeadersMap, or any other value (nil included). *)
Inductive harg := HMap (m : hmap) | HOther (a : arg U).

(** Lines 264-281: the loop; [t] is the number of map loops made so far. *)
Fixpoint headers_loop (r : ranges) (t : nat) (value : list harg)
    (foundHeadersMap foundOthers : bool) (merged : hmap) : bool * bool * hmap * nat :=
  match value with
  | [] => (foundHeadersMap, foundOthers, merged, t)
  | HMap hm :: rest =>
      if foundOthers then (true, true, merged, t)
      else headers_loop r (S t) rest true foundOthers (hset_all merged (r t hm))
  | HOther _ :: rest =>
      if foundHeadersMap then (true, true, merged, t)
      else headers_loop r t rest foundHeadersMap true merged
  end.

(** Lines 315-333: [serialize].  A nil element of [m[key]] cannot occur for a
    key of the map. *)
Fixpoint serialize_keys (m : hmap) (delimit : bytes) (keys : list bytes) : list (arg U) :=
  match keys with
  | [] => []
  | key :: rest =>
      AData (GBytes (delimit ++ B "'" ++ quote_key key ++ B "': ")) ::
      match hget m key with Some v => v | None => AData GNil end ::
      serialize_keys m (B ", ") rest
  end.
Definition serialize (r : ranges) (t : nat) (m : hmap) (prefix : bytes) : list (arg U) :=
  let keys := sort_strings (map fst (r t m)) in
  (match prefix with [] => [] | _ => [AData (GBytes prefix)] end) ++
  AData (GBytes (B "{")) :: serialize_keys m [] keys ++ [AData (GBytes (B "}"))].

Definition arg_of (h : harg) : arg U :=
  match h with HOther a => a | HMap _ => AData GNil end.

(** Lines 262-289. *)
Definition Headers (r : ranges) (value : list harg) (u : U) : outcome (node U * U) :=
  let '(foundHeadersMap, foundOthers, merged, t) := headers_loop r 0 value false false [] in
  if foundOthers && foundHeadersMap then Panic
  else if foundHeadersMap then
    let '(v, u1) := NewConcatValue (serialize r t merged []) u in
    Done (NewAttribute (B "hx-headers") [AVal v] u1)
  else Done (NewAttribute (B "hx-headers") (map arg_of value) u).

(** Lines 298-311. *)
Definition HeadersJS (r : ranges) (value : list hmap) (u : U) : node U * U :=
  let '(merged, t) :=
    match value with
    | [m] => (m, 0)
    | _ => fold_left (fun '(merged, t) hm => (hset_all merged (r t hm), S t)) value ([], 0)
    end in
  let '(v, u1) := NewConcatValue (serialize r t merged (B "js:")) u in
  NewAttribute (B "hx-headers") [AVal v] u1.

End Headers.
