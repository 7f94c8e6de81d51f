(** Programs of the user: calls of the constructors and of Render, in any order,
    on the results of earlier calls.

    Attributes are objects that several nodes may share (Sharing.v).  A program
    refers to earlier results by number: [nodes] are the results of the
    constructors of nodes ([None] is a nil Node), [vals] those of NewValue and
    NewConcatValue. *)
From Coq Require Import ZArith.
From Verif Require Import Bytes IO Nodes Values Render Slices Build Sharing.
Local Open Scope nat_scope.

Section Programs.
Context {W : UserWorld}.

(** An argument of type any. *)
Inductive item :=
| INode (i : nat)                          (* an earlier node *)
| IVal (i : nat)                           (* an earlier value *)
| IData (g : gval U)                       (* anything else (nil is [GNil]) *)
| IDyn (f : ctx U -> U -> bytes * U)       (* a function of the context *)
| IKey (k : bytes).                        (* a ContextKey *)

Inductive kcall :=
(* text.go 8-12, comment.go 36-40, fragment.go 11-15, pi.go 35-49 *)
| KText (xs : list item) | KComment (xs : list item) | KFragment (xs : list item)
| KPI (name : bytes) (xs : list item) | KDocType
(* attribute.go 42-56, 84-97, 144-165 *)
| KAttribute (name : bytes) (xs : list item) | KNewAttribute (name : bytes) (xs : list item)
| KBoolean (name : bytes) | KNewBoolean (name : bytes)
| KDelimited (name delim : bytes) (xs : list item) | KNewDelimited (name delim : bytes) (xs : list item)
(* element.go 110-118, 177-216 *)
| KElement (name : bytes) (xs : list item) | KVoidElement (name : bytes) (xs : list item)
| KNewElement (name : bytes) (xs : list item) | KNewVoidElement (name : bytes) (xs : list item)
(* collection.go 31-41, conditional.go 65-111 *)
| KCollection (is : list nat)
| KConditional (f : option (condfn U)) (is : list nat) | KWhen (key : bytes) (is : list nat)
(* iterate.go 17-67, 122-136 *)
| KIterate (f : option (ctx U -> U -> list (gval U) * U)) (is : list nat)
| KIterateKey (key : bytes) (is : list nat)
| KIterateYield (p : option (yprog U)) (is : list nat)
(* collection.go 71-76, imperative.go 30-32 *)
| KContentCollect (f : option (ctx U -> U -> list (option (node U)) * U))
| KImperative (p : option (iprog U))
(* html/document.go 32-46 *)
| KDocument (lang : item) (head body : list item)
(* css/properties.go 670-672: the property (with its colon) and the values *)
| KStyleProp (property : bytes) (xs : list item).

Inductive cmd :=
| Make (c : kcall)
| MakeValue (x : item)                                (* value.go 22-28 *)
| MakeConcat (xs : list item)                         (* value.go 31-33 *)
| RenderNode (i : nat) (fr : frame U) (e : option error).  (* Render of an earlier node, with a new context *)

(** ** What the calls do *)

Definition node_at (ns : list (option snode)) (i : nat) : option snode := nth i ns None.

(** As an argument that becomes a value. *)
Definition item_arg (h : heap) (ns : list (option snode)) (vals : list (value U)) (x : item) : arg U :=
  match x with
  | INode i => match node_at ns i with Some n => ANode (read h n) | None => AData GNil end
  | IVal i => match nth_error vals i with Some v => AVal v | None => AData GNil end
  | IData g => AData g
  | IDyn f => ADyn f
  | IKey k => AKey k
  end.
(** As the content of an element: a node stays that node. *)
Definition item_content (h : heap) (ns : list (option snode)) (vals : list (value U)) (x : item) (u : U) : snode * U :=
  match x with
  | INode i =>
      match node_at ns i with
      | Some n => (n, u)
      | None => let '(vs, u') := new_values [AData GNil] u in (SLeaf (LText vs), u')
      end
  | _ => let '(vs, u') := new_values [item_arg h ns vals x] u in (SLeaf (LText vs), u')
  end.
Fixpoint item_contents (h : heap) (ns : list (option snode)) (vals : list (value U)) (xs : list item) (u : U) : list snode * U :=
  match xs with
  | [] => ([], u)
  | x :: xs' =>
      let '(n, u1) := item_content h ns vals x u in
      let '(l, u2) := item_contents h ns vals xs' u1 in (n :: l, u2)
  end.

(** The name check, as [checked] of Build.v. *)
Definition kchecked (p : bool) (name : bytes) (h : heap) (mk : U -> (heap * snode) * U) (u : U)
  : outcome ((heap * option snode) * U) :=
  if valid_name name then let '((h', n), u') := mk u in Done ((h', Some n), u')
  else if p then Panic else Done ((h, None), u).
Definition kalways (mk : U -> (heap * snode) * U) (u : U) : outcome ((heap * option snode) * U) :=
  let '((h', n), u') := mk u in Done ((h', Some n), u').
Definition kgroup (h : heap) (r : outcome snode) (u : U) : outcome ((heap * option snode) * U) :=
  match r with Done n => Done ((h, Some n), u) | Panic => Panic end.
(** [n.Type()] of a nil member panics. *)
Definition kall (l : list (option snode)) (mk : list snode -> snode) : outcome snode :=
  match all_some l with None => Panic | Some l => Done (mk l) end.

Definition kcond (f : condfn U) (l : list (option snode)) : outcome snode :=
  kall l (fun l => SConditional f (sattrs_of l) (others_of l)).

(** html/document.go 32-46, with html/attributes.go 365-367 for [Lang] and
    html/elements.go 84-86, 314-316, 344-346 for [Body], [Head], [Html]: the
    attribute, the elements and the prologue in the order in which they are made. *)
Definition kdocument (h : heap) (ns : list (option snode)) (vals : list (value U)) (lang : item) (head body : list item) (u : U)
  : (heap * snode) * U :=
  let '(h1, langAtt, u1) :=
    match item_arg h ns vals lang with
    | AData GNil => (h, None, u)
    | a => let '(vs, u') := new_values [a] u in (h ++ [APlain (B "lang") vs], Some (SAttr (length h)), u')
    end in
  let '(h2, headNode, u2) :=
    match head with
    | [] => (h1, None, u1)
    | _ => let '(l, u') := item_contents h1 ns vals head u1 in let '(h', n) := build false (B "head") l h1 in (h', Some n, u')
    end in
  let '(l, u3) := item_contents h2 ns vals body u2 in
  let '(h3, bodyNode) := build false (B "body") l h2 in
  let '(vs, u4) := new_values [AData (GString (B "html"))] u3 in
  let '(l, u5) := item_contents h3 [langAtt; headNode; Some bodyNode] [] [INode 0; INode 1; INode 2] u4 in
  let '(h4, n) := build false (B "html") l h3 in
  ((h4, SDocument (LPI (B "DOCTYPE") vs) [n]), u5).

(** css/properties.go 670-672, as [style_attribute] of Packages.v. *)
Definition kstyle (h : heap) (property : bytes) (args : list (arg U)) (u : U) : (heap * snode) * U :=
  let '(v, u1) := NewConcatValue (AData (GBytes property) :: args) u in
  let '(vs, u2) := new_values [AVal v] u1 in
  ((h ++ [ADelim (B "style") (B "; ") vs], SAttr (length h)), u2).

Definition kmake (p : bool) (c : kcall) (h : heap) (ns : list (option snode)) (vals : list (value U)) (u : U)
  : outcome ((heap * option snode) * U) :=
  let args := map (item_arg h ns vals) in
  let mems := map (node_at ns) in
  let values xs (mk : list (value U) -> heap * snode) u := let '(vs, u') := new_values (args xs) u in (mk vs, u') in
  let leafy (k : list (value U) -> leaf) xs := values xs (fun vs => (h, SLeaf (k vs))) in
  let attrib (k : list (value U) -> attr U) xs := values xs (fun vs => (h ++ [k vs], SAttr (length h))) in
  let elem void name xs u := let '(l, u') := item_contents h ns vals xs u in (build void name l h, u') in
  match c with
  | KText xs => kalways (leafy LText xs) u
  | KComment xs => kalways (leafy LComment xs) u
  | KFragment xs => kalways (leafy LFragment xs) u
  | KPI name xs => kalways (leafy (LPI name) xs) u
  | KDocType => kalways (leafy (LPI (B "DOCTYPE")) [IData (GString (B "html"))]) u
  | KAttribute name xs => kchecked p name h (attrib (APlain name) xs) u
  | KNewAttribute name xs => kalways (attrib (APlain name) xs) u
  | KBoolean name => kchecked p name h (attrib (fun _ => ABool name) []) u
  | KNewBoolean name => kalways (attrib (fun _ => ABool name) []) u
  | KDelimited name d xs => kchecked p name h (attrib (ADelim name d) xs) u
  | KNewDelimited name d xs => kalways (attrib (ADelim name d) xs) u
  | KElement name xs => kchecked p name h (elem (bmem name void_element_names) name xs) u
  | KVoidElement name xs => kchecked p name h (elem true name xs) u
  | KNewElement name xs => kalways (elem false name xs) u
  | KNewVoidElement name xs => kalways (elem true name xs) u
  | KCollection is => kgroup h (Done (SCollection (somes (mems is)))) u
  | KConditional None is => kgroup h (Done (SCollection (somes (mems is)))) u
  | KConditional (Some f) is => kgroup h (kcond f (mems is)) u
  | KWhen key is =>
      kgroup h (if has_prefix (B "!") key then kcond (unkeyed (skipn 1 key)) (mems is)
                else kcond (keyed key) (mems is)) u
  | KIterate None is => Panic
  | KIterate (Some f) is => kgroup h (kall (mems is) (fun l => SIter f (others_of l))) u
  | KIterateKey key is => kgroup h (kall (mems is) (fun l => SIter (key_items key) (others_of l))) u
  | KIterateYield None is => Panic
  | KIterateYield (Some f) is => kgroup h (kall (mems is) (fun l => SYield f (others_of l))) u
  | KContentCollect None => kgroup h (Done (SCollection [])) u
  | KContentCollect (Some f) => kgroup h (Done (SLeaf (LCollect f))) u
  | KImperative f => kgroup h (Done (SLeaf (LImper f))) u
  | KDocument lang head body => kalways (kdocument h ns vals lang head body) u
  | KStyleProp property xs => kalways (kstyle h property (args xs)) u
  end.

(** ** Programs *)

Record kstate := KState { k_heap : heap; k_nodes : list (option snode); k_vals : list (value U);
  k_out : list (option error * option error) (* what the Render calls returned, and the Error of their contexts *) }.
Definition kstart : kstate := KState [] [] [] [].

Definition with_user (w : world U) (u : U) : world U := World (w_log w) u (w_tick w).

(** [p] is PanicOnInvalidName. *)
Definition kcmd (p : bool) (E : env) (c : cmd) (s : kstate) (w : world U) : outcome (kstate * world U) :=
  let '(KState h ns vals out) := s in
  match c with
  | Make k =>
      match kmake p k h ns vals (w_u w) with
      | Done ((h', n), u') => Done (KState h' (ns ++ [n]) vals out, with_user w u')
      | Panic => Panic
      end
  | MakeValue x =>
      let '(v, u') := NewValue (item_arg h ns vals x) (w_u w) in Done (KState h ns (vals ++ [v]) out, with_user w u')
  | MakeConcat xs =>
      let '(v, u') := NewConcatValue (map (item_arg h ns vals) xs) (w_u w) in Done (KState h ns (vals ++ [v]) out, with_user w u')
  | RenderNode i fr e =>
      match node_at ns i with
      | Some n => let '(r, w') := run E (render (read h n) fr e) w in Done (KState h ns vals (out ++ [r]), w')
      | None => Panic                                   (* a method call on nil *)
      end
  end.
Fixpoint kprog (p : bool) (E : env) (cs : list cmd) (s : kstate) (w : world U) : outcome (kstate * world U) :=
  match cs with
  | [] => Done (s, w)
  | c :: cs' => match kcmd p E c s w with Done (s', w') => kprog p E cs' s' w' | Panic => Panic end
  end.

End Programs.
