(** Syntax trees for the part of Go that the rendering core is written in.
    [Source.v], generated from the Go files by tools/go2rocq.py, is written in
    this syntax; [GoSem.v] gives it a meaning.  Types are kept as text. *)
From Coq Require Import ZArith.
From Verif Require Import Bytes.

Inductive binop := OEq | ONe | OLt | OLe | OGt | OGe | OAdd | OSub | OMul.

(** Identifiers are resolved: a local variable ([ELoc]), a package variable
    ([EGlob]), a function of the translated packages ([EFun]), a builtin or a
    name of another package ([EExt]).  [ECall f args spread] has [spread] for a
    final [x...] argument; [EMethod e m args spread] is [e.m(args)], a method
    call or a call of a field of function type.  [ELit true] is [&T{...}]. *)
Inductive expr : Type :=
| ELoc (x : string)
| EGlob (g : string)
| EFun (f : string)
| EExt (f : string)
| ENil
| EBool (b : bool)
| EInt (z : Z)
| EStr (s : bytes)
| ENot (e : expr)
| EAnd (a b : expr)
| EOr (a b : expr)
| EBin (op : binop) (a b : expr)
| EField (e : expr) (f : string)
| EIndex (e i : expr)
| ESub (e : expr) (lo hi : option expr)
| ECall (f : expr) (args : list expr) (spread : bool)
| EMethod (e : expr) (m : string) (args : list expr) (spread : bool)
| EAssert (e : expr) (t : string)
| EConv (t : string) (e : expr)
| EMake (t : string) (args : list expr)
| ELit (addr : bool) (t : string) (fields : list (string * expr))
| ESliceLit (t : string) (elems : list expr)
| EMapLit (entries : list (expr * expr))
| EClosure (f : fundecl)
with lhs : Type :=
| LBlank
| LLoc (x : string)
| LField (e : expr) (f : string)
| LIndex (e i : expr)
(** [SDefine] is [:=], [SAssign] is [=]; [SCopy x lo src] is
    [copy(x[lo:], src)] for a local [[]byte] variable. *)
with stmt : Type :=
| SSkip
| SBlock (ss : list stmt)
| SExpr (e : expr)
| SDefine (xs : list string) (es : list expr)
| SAssign (ls : list lhs) (es : list expr)
| SVar (x t : string)
| SCopy (x : string) (lo src : expr)
| SIf (init : option stmt) (c : expr) (s1 s2 : stmt)
| SFor (init : option stmt) (c : expr) (post body : stmt)
| SRange (k v : string) (e : expr) (body : stmt)
| SSwitch (e : expr) (cases : list (list expr * stmt)) (default : stmt)
| STypeSwitch (x : string) (e : expr) (cases : list (string * stmt)) (default : stmt)
| SReturn (es : list expr)
| SBreak
| SContinue
(** Parameters (a method's receiver first), whether the last one is variadic,
    named results with their types, body. *)
with fundecl : Type :=
| Fun (params : list string) (variadic : bool) (named : list (string * string)) (body : stmt).

(** Functions by name ([package.function] or [Type.method]), package variables
    with their initial values, struct types with their fields, interface types
    with their methods. *)
Record program := Program {
  p_funcs : list (string * fundecl);
  p_globals : list (string * expr);
  p_structs : list (string * list (string * string));
  p_ifaces : list (string * list string)
}.
