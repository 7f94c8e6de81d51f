(** The functions of the packages html, svg, css and htmx by name: what programs
    that call them mean, by the tables of [Tables.v]. *)
From Coq Require Import ZArith.
From Verif Require Import Bytes IO Nodes Values Render Slices Build Sharing Programs.
From Verif Require Tables.
Local Open Scope nat_scope.
Local Open Scope string_scope.

Definition in_package (p : string) (t : list (string * Tables.fkind)) : list (string * Tables.fkind) :=
  map (fun '(f, k) => (p ++ "." ++ f, k)) t.
(** All one-line functions, by their qualified names. *)
Definition library : list (string * Tables.fkind) :=
  (in_package "html" Tables.html_element_functions ++ in_package "html" Tables.html_attribute_functions ++
   in_package "svg" Tables.svg_element_functions ++ in_package "svg" Tables.svg_attribute_functions ++
   in_package "css" Tables.css_property_functions ++ in_package "css" Tables.css_unit_functions ++
   in_package "htmx" Tables.htmx_attribute_functions)%list.

Fixpoint find_function (f : string) (t : list (string * Tables.fkind)) : option Tables.fkind :=
  match t with
  | [] => None
  | (g, k) :: t' => if String.eqb f g then Some k else find_function f t'
  end.

Section Library.
Context {W : UserWorld}.

(** A step of a program: a call of package aitch or Render, or of a function of
    the other packages. *)
Inductive lcmd :=
| LCore (c : @cmd W)
| LCall (f : string) (xs : list (@item W))                 (* html.Div(xs...), css.Px(xs...) *)
| LNamed (f : string) (name : bytes) (xs : list (@item W)) (* html.Data(name, xs...) *)
| LVar (name : bytes) (x : @item W).                       (* htmx.Var(name, x) *)

(** What a call of a function with this table entry is. *)
Definition entry_means (k : Tables.fkind) (xs : list (@item W)) : option (@cmd W) :=
  match k with
  | Tables.KElement tag => Some (Make (KNewElement (B tag) xs))
  | Tables.KVoid tag => Some (Make (KNewVoidElement (B tag) xs))
  | Tables.KPlain name => Some (Make (KNewAttribute (B name) xs))
  | Tables.KBool name => match xs with [] => Some (Make (KNewBoolean (B name))) | _ => None end
  | Tables.KDelim name d => Some (Make (KNewDelimited (B name) (B d) xs))
  | Tables.KStyle p => Some (Make (KStyleProp (B p) xs))
  | Tables.KUnit u => Some (MakeConcat (xs ++ [IData (GBytes (B u))])%list)
  end.
Definition is_unit (f : string) : bool :=
  match find_function f library with Some (Tables.KUnit _) => true | _ => false end.

(** The others: html/base.go 6-18, svg/base.go 6-13; html/attributes.go 189-191
    and 278-280, htmx/attributes.go 116-118 and 252-254. *)
Definition other_means (f : string) (xs : list (@item W)) : option (@cmd W) :=
  if String.eqb f "html.Text" then Some (Make (KText xs))
  else if String.eqb f "svg.Text" then Some (Make (KText xs))
  else if String.eqb f "html.Comment" then Some (Make (KComment xs))
  else if String.eqb f "svg.Comment" then Some (Make (KComment xs))
  else None.
Definition named_means (f : string) (name : bytes) (xs : list (@item W)) : option (@cmd W) :=
  if String.eqb f "html.PI" then Some (Make (KPI name xs))
  else if String.eqb f "html.Aria" then Some (Make (KNewAttribute (B "aria-" ++ name)%list xs))
  else if String.eqb f "html.Data" then Some (Make (KNewAttribute (B "data-" ++ name)%list xs))
  else if String.eqb f "htmx.On" then Some (Make (KNewAttribute (B "hx-on:" ++ name)%list xs))
  else None.
(** [None]: there is no such function, or it takes no arguments. *)
Definition means (c : lcmd) : option (@cmd W) :=
  match c with
  | LCore c => Some c
  | LCall f xs => match find_function f library with Some k => entry_means k xs | None => other_means f xs end
  | LNamed f name xs => named_means f name xs
  | LVar name x => Some (MakeConcat [IData (GString name); IData (GBytes (B ": ")); x])
  end.
Fixpoint program_means (cs : list lcmd) : option (list (@cmd W)) :=
  match cs with
  | [] => Some []
  | c :: cs' => match means c, program_means cs' with Some k, Some ks => Some (k :: ks) | _, _ => None end
  end.
End Library.
