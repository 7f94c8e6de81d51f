(** Model of the functions of the packages html, svg, css and htmx (htmx
    headers are in [Headers.v], the code generators in [Generator.v]). *)
From Verif Require Import Bytes IO Nodes Values Render Slices Build Tables.

Section Packages.
Context {W : UserWorld}.

(** ** One-line functions *)

(** css/properties.go 670-672.  [append([]any{name}, value...)] starts from a
    fresh slice, so the result is the concatenation. *)
Definition style_attribute (name : bytes) (value : list (arg U)) (u : U) : node U * U :=
  let '(v, u1) := NewConcatValue (AData (GBytes name) :: value) u in
  NewDelimitedAttribute (B "style") (B "; ") [AVal v] u1.

(** html/attributes.go 559-561, svg/attributes.go 573-575. *)
Definition Style (value : list (arg U)) (u : U) : node U * U :=
  NewDelimitedAttribute (B "style") (B "; ") value u.

(** A call of the function with the table entry [k]; unit functions return a
    value rather than a node and are modelled by [unit_call]. *)
Definition call (k : fkind) (args : list (arg U)) (u : U) : option (node U * U) :=
  match k with
  | KElement tag => Some (NewElement (B tag) args u)
  | KVoid tag => Some (NewVoidElement (B tag) args u)
  | KPlain name => Some (NewAttribute (B name) args u)
  | KBool name => Some (NewBooleanAttribute (B name), u)
  | KDelim name d => Some (NewDelimitedAttribute (B name) (B d) args u)
  | KStyle p => Some (style_attribute (B p) args u)
  | KUnit _ => None
  end.

(** ** css units (css/units.go 24-96) *)

(** The caller's argument slice: elements [a_off .. a_off + a_len) of a backing
    array, with [a_cap] cells available from [a_off]. *)
Record aslice := ASlice { a_off : nat; a_len : nat; a_cap : nat }.
Definition elems {A} (arr : list A) (s : aslice) : list A := firstn (a_len s) (skipn (a_off s) arr).

(** A slice as Go can make it. *)
Definition valid_slice {A} (arr : list A) (s : aslice) : Prop :=
  a_len s <= a_cap s /\ a_off s + a_cap s <= length arr.

(** [aitch.NewConcatValue(append(value, unit)...)].  [append] stores into the
    caller's array when the slice has spare capacity, and allocates otherwise.
    Results: the value, and the caller's array afterwards. *)
Definition unit_call (unit : bytes) (arr : list (arg U)) (value : aslice) (u : U)
  : Nodes.value U * list (arg U) * U :=
  let x := AData (GBytes unit) in
  let arr' := if a_len value <? a_cap value then set_nth arr (a_off value + a_len value) x else arr in
  let '(v, u') := NewConcatValue (elems arr value ++ [x]) u in
  (v, arr', u').

(** htmx/attributes.go 252-254. *)
Definition Var (name : bytes) (value : arg U) (u : U) : Nodes.value U * U :=
  NewConcatValue [AData (GString name); AData (GBytes (B ": ")); value] u.

End Packages.

(** ** Prefixed attribute names *)

(** [append(s, xs...)] on the slices of [Slices.v].  Growing allocates exactly
    the needed capacity: nothing appends to the result again. *)
Definition append_list {A} (m : mem A) (s : slice) (xs : list A) : mem A * slice :=
  let n := s_len s + length xs in
  let arr := nth (s_arr s) m [] in
  if n <=? s_cap s then
    (set_nth m (s_arr s) (firstn (s_len s) arr ++ map Some xs ++ skipn n arr), Slice (s_arr s) n (s_cap s))
  else (m ++ [firstn (s_len s) arr ++ map Some xs], Slice (length m) n n).

(** html/attributes.go 1405 and 1421, htmx/attributes.go 402: the package
    variables [attrAria], [attrData] and [attrOn], in three arrays with [extra]
    spare cells each.  The Go compiler initialises a package variable
    [[]byte("...")] statically, with capacity = length: [extra] = 0. *)
Inductive prefix := Aria | Data | On.
Definition prefix_bytes (p : prefix) : bytes :=
  match p with Aria => B "aria-" | Data => B "data-" | On => B "hx-on:" end.
Definition prefix_index (p : prefix) : nat := match p with Aria => 0 | Data => 1 | On => 2 end.
Definition prefix_slice (extra : nat) (p : prefix) : slice :=
  let n := length (prefix_bytes p) in Slice (prefix_index p) n (n + extra).
Definition prefix_mem (extra : nat) : mem ascii :=
  map (fun p => map Some (prefix_bytes p) ++ repeat None extra) [Aria; Data; On].

(** html/attributes.go 189-191, 278-280, htmx/attributes.go 116-118: the name
    slice of the new attribute ([append(attrAria, []byte(name)...)]). *)
Definition prefixed (extra : nat) (m : mem ascii) (p : prefix) (name : bytes) : mem ascii * slice :=
  append_list m (prefix_slice extra p) name.

(** A history of calls; the name slices of the attributes made, in order. *)
Fixpoint prefixed_calls (extra : nat) (m : mem ascii) (calls : list (prefix * bytes))
  : mem ascii * list slice :=
  match calls with
  | [] => (m, [])
  | (p, n) :: rest =>
      let '(m1, s) := prefixed extra m p n in
      let '(m2, ss) := prefixed_calls extra m1 rest in (m2, s :: ss)
  end.
