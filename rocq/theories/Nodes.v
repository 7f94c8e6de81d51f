(** The data types of package aitch: context views, values, attributes, nodes. *)
From Coq Require Import ZArith.
From Verif Require Import Bytes IO.

(** Reference to a Go [map[string]any]; its contents live in the user state
    (maps are mutable and shared by reference). *)
Definition mref := nat.

Section Types.
Context {U : Type}.

(** A Go value of type [any] used as data (value.go 123-165, iterate.go 42-67).
    All signed integer types are merged into [GInt], all unsigned ones into
    [GUint].  Floats carry the text that [strconv.FormatFloat(v,'g',-1,bits)]
    produces (library code).  [GStringer] carries its [String] method, which
    may use user state.  [GSlice true xs] is a typed slice ([[]string], ...),
    [GSlice false xs] a [[]any].  [GOther] is any value of a type the library
    has no case for. *)
Inductive gval : Type :=
| GNil
| GBool (b : bool)
| GBytes (b : bytes)
| GString (s : bytes)
| GInt (z : Z)
| GUint (n : N)
| GFloat (txt : bytes)
| GStringer (f : U -> bytes * U)
| GFunc (f : U -> gval * U)
| GMap (m : mref)
| GSlice (typed : bool) (xs : list gval)
| GOther (id : nat).

(** What a callback sees of a [*context.Context] (context.go 10-21): Error,
    Data, Cargo, Parent.  The Writer field is left out: there is one writer
    per render.  A nil Data map is [None]. *)
Inductive ctx : Type :=
| Ctx (c_error : option error) (c_data : option mref) (c_cargo : gval) (c_parent : option ctx).

(** value.go 56: [DynamicValueFunc]; state-passing over the user state. *)
Definition dynfn := ctx -> U -> bytes * U.
(** conditional.go 8: [ConditionalFunc]. *)
Definition condfn := ctx -> U -> bool * U.

(** value.go 15-19: [Value{value, dynamicFunc, concats}]; a nil dynamicFunc is
    [None]. *)
Inductive value : Type :=
| Val (v : bytes) (dyn : option dynfn) (concats : list value).

(** The three attribute node kinds: attribute.go 7-10, 58-60, 99-103. *)
Inductive attr : Type :=
| APlain (name : bytes) (vs : list value)
| ABool (name : bytes)
| ADelim (name delim : bytes) (vs : list value).

(** Program of the function given to IterateYield (iterate.go 122): it may
    look at the outer context and user state ([YRead]), yield an item, and
    eventually return. *)
Inductive yprog : Type :=
| YRet
| YYield (item : gval) (k : yprog)
| YRead (k : ctx -> U -> yprog * U).

(** The fields of a context that rendering does not change: Data, Cargo,
    Parent.  Together with the current Error it is a [ctx]. *)
Record frame := Frame { f_data : option mref; f_cargo : gval; f_parent : option ctx }.

(** The node kinds.  [NDocument] is html/document.go 8-11.  For [NElement] and
    [NVoid] the fields are those of element.go 120-126 and 61-66: the
    attribute list, attIndices (a Go map, here an association list) and the
    conditional attributes with their conditions.  [iprog] is the body of the
    function given to Imperative: a sequence of calls on ImperativeContext
    (imperative.go 6-25), possibly depending on context and user state
    ([IRead]), ending with the returned error.  Through Context() the function
    can also render a node itself and look at the result ([IRender]; with
    [Some fr] it does so with a context of its own on the same writer), call the
    writer ([IDirect]) and assign Error ([ISetError]).
    [NImper (Some p)] also stands for a value of a user-defined type that
    implements Node with a type other than AttributeNode and [p] as its Render
    method: no code of the package distinguishes the two. *)
Inductive node : Type :=
| NAttr (a : attr)
| NElement (name : bytes) (attrs : list attr) (idx : list (bytes * nat))
           (conds : list (attr * list condfn)) (contents : list node)
| NVoid (name : bytes) (attrs : list attr) (idx : list (bytes * nat))
        (conds : list (attr * list condfn))
| NText (vs : list value)
| NComment (vs : list value)
| NPI (name : bytes) (vs : list value)
| NFragment (vs : list value)
| NCollection (ns : list node)
| NConditional (fn : condfn) (attrs : list attr) (ns : list node)
| NCollect (f : ctx -> U -> list (option node) * U)
| NImper (p : option iprog)
| NIter (fn : ctx -> U -> list gval * U) (ns : list node)
| NYield (fn : yprog) (ns : list node)
| NDocument (prologue : option node) (contents : list node)
with iprog : Type :=
| IRet (e : option error)
| IRead (k : ctx -> U -> iprog * U)
| IWriteString (s : bytes) (k : iprog)
| IWriteRaw (d : bytes) (k : iprog)
| IWriteNodes (ns : list (option node)) (k : iprog)
| IStart (name : bytes) (isVoid : bool) (attrs : list (option node)) (k : iprog)
| IEnd (k : iprog)
| IEndAll (k : iprog)
| IRender (n : node) (inner : option frame) (k : option error -> option error -> iprog)
| IDirect (d : bytes) (k : nat -> option error -> iprog)
| ISetError (e : option error) (k : iprog).

(** attribute.go 30-32, 74-76, 127-129: [Name()]. *)
Definition attr_name (a : attr) : bytes :=
  match a with APlain n _ => n | ABool n => n | ADelim n _ _ => n end.

(** attribute.go 34-36, 131-133: [getValues()] of the attribute kinds that
    implement [valuesNode]; [None] for the boolean attribute, which does not. *)
Definition attr_values (a : attr) : option (list value) :=
  match a with APlain _ vs => Some vs | ABool _ => None | ADelim _ _ vs => Some vs end.

(** [n.Type() == AttributeNode]. *)
Definition is_attr (n : node) : bool :=
  match n with NAttr _ => true | _ => false end.

Definition c_error (c : ctx) := let 'Ctx e _ _ _ := c in e.
Definition c_data (c : ctx) := let 'Ctx _ d _ _ := c in d.
Definition c_cargo (c : ctx) := let 'Ctx _ _ g _ := c in g.
Definition c_parent (c : ctx) := let 'Ctx _ _ _ p := c in p.

Definition view (fr : frame) (e : option error) : ctx :=
  Ctx e (f_data fr) (f_cargo fr) (f_parent fr).

(** Arguments of type [any] given to constructors.  [AData GNil] is nil; a
    nil [Node] converted to [any] is nil too. *)
Inductive arg : Type :=
| ANode (n : node)
| AVal (v : value)
| ADyn (f : dynfn)
| AKey (k : bytes)
| AData (g : gval).

End Types.

Arguments gval : clear implicits.
Arguments ctx : clear implicits.
Arguments dynfn : clear implicits.
Arguments condfn : clear implicits.
Arguments value : clear implicits.
Arguments attr : clear implicits.
Arguments yprog : clear implicits.
Arguments node : clear implicits.
Arguments iprog : clear implicits.
Arguments frame : clear implicits.
Arguments arg : clear implicits.

(** The user's world: a state type, and how the maps in it are read. *)
Class UserWorld := {
  U : Type;
  mget : U -> mref -> bytes -> option (gval U)
}.
