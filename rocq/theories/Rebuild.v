(** Running generated code: what the expressions of [SpecGo.v] evaluate to when
    they call the functions of packages aitch, html and svg.  PanicOnInvalidName
    has its default, false. *)
From Verif Require Import Bytes IO Nodes Values Build Tables Packages Generator SpecGo.

Local Open Scope string_scope.
Local Open Scope list_scope.

Section Rebuild.
Context {W : UserWorld}.

(** The functions of a package that generated code may name. *)
Definition package_functions (pkg : bytes) : list (string * fkind) :=
  if beq pkg (B "html") then html_element_functions ++ html_attribute_functions
  else if beq pkg (B "svg") then svg_element_functions ++ svg_attribute_functions
  else [].
Fixpoint find_function (l : list (string * fkind)) (f : bytes) : option fkind :=
  match l with
  | [] => None
  | (g, k) :: l' => if beq (B g) f then Some k else find_function l' f
  end.

(** A Node result; a nil Node passed on as [any] is nil. *)
Definition returned (r : outcome (option (node U) * U)) : option (arg U * U) :=
  match r with
  | Done (Some n, u) => Some (ANode n, u)
  | Done (None, u) => Some (AData GNil, u)
  | Panic => None
  end.
(** Arguments of type Node. *)
Fixpoint as_nodes (args : list (arg U)) : option (list (option (node U))) :=
  match args with
  | [] => Some []
  | a :: args' =>
      match a, as_nodes args' with
      | ANode n, Some l => Some (Some n :: l)
      | AData GNil, Some l => Some (None :: l)
      | _, _ => None
      end
  end.

(** [None]: there is no such function, or it does not take such arguments, so
    that the code does not compile. *)
Definition apply_fn (pkg fn : bytes) (args : list (arg U)) (u : U) : option (arg U * U) :=
  let is_ p f := beq pkg (B p) && beq fn (B f) in
  if is_ "aitch" "Element" then                                  (* element.go 177-188 *)
    match args with AData (GString n) :: args' => returned (Element false n args' u) | _ => None end
  else if is_ "aitch" "Attribute" then                           (* attribute.go 42-49 *)
    match args with AData (GString n) :: args' => returned (Attribute false n args' u) | _ => None end
  else if is_ "aitch" "Collection" then                          (* collection.go 31-41 *)
    match as_nodes args with Some ns => Some (ANode (Collection ns), u) | None => None end
  else if is_ "html" "Text" || is_ "svg" "Text" then             (* html/base.go 6-8, svg/base.go 6-8 *)
    let '(n, u') := Text args u in Some (ANode n, u')
  else if is_ "html" "Comment" || is_ "svg" "Comment" then       (* html/base.go 11-13, svg/base.go 11-13 *)
    let '(n, u') := Comment args u in Some (ANode n, u')
  else if is_ "html" "PI" then                                   (* html/base.go 16-18 *)
    match args with
    | AData (GString n) :: args' => let '(n, u') := PI n args' u in Some (ANode n, u')
    | _ => None
    end
  else if is_ "html" "Aria" || is_ "html" "Data" then            (* html/attributes.go 189-191, 278-280 *)
    match args with
    | AData (GString n) :: args' =>
        let '(n, u') := NewAttribute (prefix_bytes (if beq fn (B "Aria") then Aria else Data) ++ n) args' u in
        Some (ANode n, u')
    | _ => None
    end
  else
    match find_function (package_functions pkg) fn with
    | Some (KBool n) => match args with [] => Some (ANode (NewBooleanAttribute (B n)), u) | _ => None end
    | Some k => match call k args u with Some (n, u') => Some (ANode n, u') | None => None end
    | None => None
    end.

Fixpoint eval (e : expr) (u : U) : option (arg U * U) :=
  match e with
  | EString s => Some (AData (GString s), u)
  | ECall p f args =>
      match (fix evals (l : list expr) (u : U) : option (list (arg U) * U) :=
               match l with
               | [] => Some ([], u)
               | e :: l' =>
                   match eval e u with
                   | Some (a, u1) =>
                       match evals l' u1 with Some (r, u2) => Some (a :: r, u2) | None => None end
                   | None => None
                   end
               end) args u with
      | Some (vs, u') => apply_fn p f vs u'
      | None => None
      end
  end.

End Rebuild.
