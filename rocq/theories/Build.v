(** Model of the constructors: element.go, attribute.go, conditional.go,
    collection.go, text.go, comment.go, fragment.go, pi.go, iterate.go,
    imperative.go, html/document.go.

    Constructors that convert static data take and return the user state,
    because [func() any] arguments run at construction time (value.go 161).
    Nodes are values here: the in-place update of element.go 91/157 acts on
    the element's own copy of the attribute.  [Sharing.v] models the same
    function on shared, mutable attribute nodes. *)
From Coq Require Import ZArith.
From Verif Require Import Bytes IO Escape Nodes Values Render Slices.

(** Result of a constructor: a value, or a Go panic. *)
Inductive outcome (A : Type) := Done (a : A) | Panic.
Arguments Done {A}. Arguments Panic {A}.

(** aitch.go 13: the pattern "a letter, then letters, digits, dot, underscore,
    hyphen, colon" (anchored; [$] without the m flag only matches at the end
    of the text). *)
Definition is_letter (c : ascii) : bool :=
  let n := nat_of_ascii c in
  ((65 <=? n) && (n <=? 90)) || ((97 <=? n) && (n <=? 122)).
Definition is_digit (c : ascii) : bool :=
  let n := nat_of_ascii c in (48 <=? n) && (n <=? 57).
Definition name_char (c : ascii) : bool :=
  is_letter c || is_digit c || existsb (Ascii.eqb c) (B "._-:").
Definition valid_name (s : bytes) : bool :=
  match s with
  | [] => false
  | c :: s' => is_letter c && forallb name_char s'
  end.

(** element.go 270-285. *)
Definition void_element_names : list bytes :=
  map B ["area"; "base"; "br"; "col"; "embed"; "hr"; "img"; "input"; "link";
         "meta"; "param"; "source"; "track"; "wbr"]%string.

Section Build.
Context {W : UserWorld}.

(** ** Attributes (attribute.go 51-56, 93-97, 153-165) *)

Definition NewAttribute (name : bytes) (values : list (arg U)) (u : U) : node U * U :=
  let '(vs, u') := new_values values u in (NAttr (APlain name vs), u').

Definition NewBooleanAttribute (name : bytes) : node U := NAttr (ABool name).

Definition NewDelimitedAttribute (name delim : bytes) (values : list (arg U)) (u : U)
  : node U * U :=
  let '(vs, u') := new_values values u in (NAttr (ADelim name delim vs), u').

(** Name checking of attribute.go 42-49, 84-91, 144-151 and element.go
    110-118, 177-188; [p] is PanicOnInvalidName.  [Done None] is a nil Node. *)
Definition checked (p : bool) (name : bytes) (mk : U -> node U * U) (u : U)
  : outcome (option (node U) * U) :=
  if valid_name name then
    let '(n, u') := mk u in Done (Some n, u')
  else if p then Panic else Done (None, u).

Definition Attribute (p : bool) (name : bytes) (values : list (arg U)) (u : U) :=
  checked p name (NewAttribute name values) u.
Definition BooleanAttribute (p : bool) (name : bytes) (u : U) :=
  checked p name (fun u => (NewBooleanAttribute name, u)) u.
Definition DelimitedAttribute (p : bool) (name delim : bytes) (values : list (arg U)) (u : U) :=
  checked p name (NewDelimitedAttribute name delim values) u.

(** ** Value nodes (text.go 8-12, comment.go 36-40, fragment.go 11-15, pi.go 35-49) *)

Definition Text (l : list (arg U)) (u : U) : node U * U :=
  let '(vs, u') := new_values l u in (NText vs, u').
Definition Comment (l : list (arg U)) (u : U) : node U * U :=
  let '(vs, u') := new_values l u in (NComment vs, u').
Definition Fragment (l : list (arg U)) (u : U) : node U * U :=
  let '(vs, u') := new_values l u in (NFragment vs, u').
Definition PI (name : bytes) (l : list (arg U)) (u : U) : node U * U :=
  let '(vs, u') := new_values l u in (NPI name vs, u').
Definition DocType (u : U) : node U * U := PI (B "DOCTYPE") [AData (GString (B "html"))] u.

(** ** Elements *)

(** element.go 218-229: [contentsToNodes]. *)
Definition content_to_node (a : arg U) (u : U) : node U * U :=
  match a with
  | ANode n => (n, u)
  | _ => Text [a] u
  end.
Fixpoint contents_to_nodes (l : list (arg U)) (u : U) : list (node U) * U :=
  match l with
  | [] => ([], u)
  | a :: l' =>
      let '(n, u1) := content_to_node a u in
      let '(ns, u2) := contents_to_nodes l' u1 in
      (n :: ns, u2)
  end.

(** element.go 231-268: [attributesAndContents] for one item of [content]; the
    condition lists are Go slices over the memory [m], because line 254
    appends to a slice that sibling conditionals share.  The third result of
    the Go function ([contents]) is used at the top level only and is computed
    by [NewElement].  The items are never nil here (contentsToNodes, Collection
    and Conditional produce no nil items). *)
Fixpoint collect_attrs (conditions : slice) (item : node U) (m : mem (condfn U))
  : list (attr U) * list (attr U * slice) * mem (condfn U) :=
  match item with
  | NAttr a =>                                               (* 237-245 *)
      if 0 <? s_len conditions then ([], [(a, conditions)], m) else ([a], [], m)
  | NCollection ns =>                                        (* 249-252 *)
      (fix go (ns : list (node U)) (m : mem (condfn U)) :=
         match ns with
         | [] => ([], [], m)
         | n :: ns' =>
             let '(a1, c1, m1) := collect_attrs conditions n m in
             let '(a2, c2, m2) := go ns' m1 in
             (a1 ++ a2, c1 ++ c2, m2)
         end) ns m
  | NConditional fn attrs ns =>                              (* 253-262 *)
      let '(m1, newConditions) := append1 m conditions fn in
      let '(_, c2, m2) :=
        (fix go (ns : list (node U)) (m : mem (condfn U)) :=
           match ns with
           | [] => ([], [], m)
           | n :: ns' =>
               let '(a1, c1, m1) := collect_attrs newConditions n m in
               let '(a2, c2, m2) := go ns' m1 in
               (a1 ++ a2, c1 ++ c2, m2)
           end) ns m1 in
      ([], map (fun a => (a, newConditions)) attrs ++ c2, m2)
  | _ => ([], [], m)
  end.

(** element.go 235-266: the loop over the top-level items. *)
Fixpoint collect_all (conditions : slice) (items : list (node U)) (m : mem (condfn U))
  : list (attr U) * list (attr U * slice) * mem (condfn U) :=
  match items with
  | [] => ([], [], m)
  | n :: ns' =>
      let '(a1, c1, m1) := collect_attrs conditions n m in
      let '(a2, c2, m2) := collect_all conditions ns' m1 in
      (a1 ++ a2, c1 ++ c2, m2)
  end.

(** The condition slices are not appended to any more once the element is
    built, so they can be read off here. *)
Definition attributes_and_contents (content : list (node U))
  : list (attr U) * list (attr U * list (condfn U)) * list (node U) :=
  let '(attrs, condAttrs, m) := collect_all nil_slice content [] in
  (attrs, map (fun '(a, s) => (a, slice_elems m s)) condAttrs,
   filter (fun n => negb (is_attr n)) content).

(** element.go 84-102 = 150-168: [addAttributes], one step and the loop. *)
Definition add_attribute (st : list (attr U) * list (bytes * nat)) (att : attr U)
  : list (attr U) * list (bytes * nat) :=
  let '(attributes, attIndices) := st in
  match idx_get attIndices (attr_name att) with
  | Some i =>
      match nth_error attributes i with
      | Some (ADelim n d vs) =>
          match att with
          | ADelim _ _ addVs =>
              (set_nth attributes i (ADelim n d (vs ++ addVs)), attIndices)
          | _ => (set_nth attributes i att, attIndices)
          end
      | _ => (set_nth attributes i att, attIndices)
      end
  | None =>
      (attributes ++ [att], attIndices ++ [(attr_name att, length attributes)])
  end.
Definition add_attributes (attrs : list (attr U)) : list (attr U) * list (bytes * nat) :=
  fold_left add_attribute attrs ([], []).

(** element.go 191-201 and 207-216. *)
Definition mk_element (name : bytes) (content : list (node U)) : node U :=
  let '(attrs, condAttrs, children) := attributes_and_contents content in
  let '(attributes, attIndices) := add_attributes attrs in
  NElement name attributes attIndices condAttrs children.
Definition mk_void (name : bytes) (content : list (node U)) : node U :=
  let '(attrs, condAttrs, _) := attributes_and_contents content in
  let '(attributes, attIndices) := add_attributes attrs in
  NVoid name attributes attIndices condAttrs.

Definition NewElement (name : bytes) (contents : list (arg U)) (u : U) : node U * U :=
  let '(ns, u') := contents_to_nodes contents u in (mk_element name ns, u').
Definition NewVoidElement (name : bytes) (contents : list (arg U)) (u : U) : node U * U :=
  let '(ns, u') := contents_to_nodes contents u in (mk_void name ns, u').

(** element.go 177-188 and 110-118. *)
Definition Element (p : bool) (name : bytes) (contents : list (arg U)) (u : U) :=
  checked p name
    (if bmem name void_element_names then NewVoidElement name contents
     else NewElement name contents) u.
Definition VoidElement (p : bool) (name : bytes) (contents : list (arg U)) (u : U) :=
  checked p name (NewVoidElement name contents) u.

(** ** Grouping nodes; a nil [Node] argument is [None] *)

(** collection.go 31-41. *)
Definition Collection (ns : list (option (node U))) : node U := NCollection (somes ns).

(** [n.Type()] on a nil interface value is a run-time panic. *)
Fixpoint all_some {A} (l : list (option A)) : option (list A) :=
  match l with
  | [] => Some []
  | None :: _ => None
  | Some x :: l' => match all_some l' with Some r => Some (x :: r) | None => None end
  end.

Definition node_attrs (ns : list (node U)) : list (attr U) :=
  flat_map (fun n => match n with NAttr a => [a] | _ => [] end) ns.
Definition non_attrs (ns : list (node U)) : list (node U) :=
  filter (fun n => negb (is_attr n)) ns.

(** conditional.go 65-82. *)
Definition Conditional (fn : option (condfn U)) (ns : list (option (node U)))
  : outcome (node U) :=
  match fn with
  | None => Done (Collection ns)
  | Some f =>
      match all_some ns with
      | None => Panic
      | Some l => Done (NConditional f (node_attrs l) (non_attrs l))
      end
  end.

(** conditional.go 89-111.  [keyed] is the closure of lines 102-110, [unkeyed]
    that of lines 92-100. *)
Definition keyed (key : bytes) : condfn U := fun c u =>
  (match data_get c key u with
   | Some (GBool b) => b
   | Some _ => true
   | None => false
   end, u).
Definition unkeyed (key : bytes) : condfn U := fun c u =>
  (match data_get c key u with
   | Some (GBool b) => negb b
   | Some _ => false
   | None => true
   end, u).
Definition When (key : bytes) (ns : list (option (node U))) : outcome (node U) :=
  if has_prefix (B "!") key then Conditional (Some (unkeyed (skipn 1 key))) ns
  else Conditional (Some (keyed key)) ns.

(** collection.go 71-76. *)
Definition ContentCollect (f : option (ctx U -> U -> list (option (node U)) * U)) : node U :=
  match f with None => NCollection [] | Some f => NCollect f end.

(** imperative.go 30-32. *)
Definition Imperative (p : option (iprog U)) : node U := NImper p.

(** iterate.go 17-31. *)
Definition Iterate (fn : option (ctx U -> U -> list (gval U) * U)) (ns : list (option (node U)))
  : outcome (node U) :=
  match fn with
  | None => Panic
  | Some f =>
      match all_some ns with
      | None => Panic
      | Some l => Done (NIter f (non_attrs l))
      end
  end.

(** iterate.go 45-59: the items of IterateKey; [[]byte] is a slice of uint8. *)
Definition key_items (key : bytes) (c : ctx U) (u : U) : list (gval U) * U :=
  (match data_get c key u with
   | Some (GSlice _ xs) => xs
   | Some (GBytes b) => map (fun a => GUint (N_of_ascii a)) b
   | _ => []
   end, u).

(** iterate.go 42-67. *)
Definition IterateKey (key : bytes) (ns : list (option (node U))) : outcome (node U) :=
  match all_some ns with
  | None => Panic
  | Some l => Done (NIter (key_items key) (non_attrs l))
  end.

(** iterate.go 122-136. *)
Definition IterateYield (fn : option (yprog U)) (ns : list (option (node U)))
  : outcome (node U) :=
  match fn with
  | None => Panic
  | Some f =>
      match all_some ns with
      | None => Panic
      | Some l => Done (NYield f (non_attrs l))
      end
  end.

(** html/document.go 32-46 (with html/attributes.go 365-367 for [Lang] and
    html/elements.go 84-86, 314-316, 344-346 for [Body], [Head], [Html]). *)
Definition Document (lang : arg U) (head body : list (arg U)) (u : U) : node U * U :=
  let '(langAtt, u1) :=
    match lang with
    | AData GNil => (AData GNil, u)
    | _ => let '(n, u') := NewAttribute (B "lang") [lang] u in (ANode n, u')
    end in
  let '(headNode, u2) :=
    match head with
    | [] => (AData GNil, u1)
    | _ => let '(n, u') := NewElement (B "head") head u1 in (ANode n, u')
    end in
  let '(bodyNode, u3) := NewElement (B "body") body u2 in
  let '(prologue, u4) := DocType u3 in
  let '(html, u5) := NewElement (B "html") [langAtt; headNode; ANode bodyNode] u4 in
  (NDocument (Some prologue) [html], u5).

End Build.

(** text.go 40-60. *)
Definition nbsp : bytes := B "&nbsp;".
Definition Nbsp : bytes := nbsp.

(** Go [copy(dst[idx:], src)] into a slice of the model. *)
Definition copy_at (dst : bytes) (idx : nat) (src : bytes) : bytes :=
  firstn idx dst ++ firstn (length dst - idx) src ++ skipn (idx + length src) dst.

Fixpoint nbsps_loop (n idx : nat) (result : bytes) : bytes :=
  match n with
  | 0 => result
  | S n' => nbsps_loop n' (idx + length nbsp) (copy_at result idx nbsp)
  end.
Definition Nbsps (n : Z) : bytes :=
  if (n <=? 0)%Z then []
  else nbsps_loop (Z.to_nat n) 0 (repeat Ascii.zero (length nbsp * Z.to_nat n)).
