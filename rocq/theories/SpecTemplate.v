(** Templates as plain data, and the tokens they stand for. *)
From Coq Require Import ZArith Decimal DecimalString.
From Verif Require Import Bytes SpecEscape SpecHtml Nodes Build.

(** Values that can be put into a template. *)
Inductive scalar : Type := SString (s : bytes) | SInt (z : Z) | SUint (n : N) | SBool (b : bool).

Inductive tattr : Type :=
| XAttr (name : bytes) (vs : list scalar)
| XBool (name : bytes)
| XDelim (name delim : bytes) (vs : list scalar).
Definition x_name (a : tattr) : bytes := match a with XAttr n _ | XBool n | XDelim n _ _ => n end.

(** [XValue v] is a value passed directly as an argument of an element;
    [XGroup] is a collection. *)
Inductive tm : Type :=
| XElem (name : bytes) (attrs : list tattr) (kids : list tm)
| XVoid (name : bytes) (attrs : list tattr)
| XText (vs : list scalar)
| XValue (v : scalar)
| XComment (vs : list scalar)
| XPI (name : bytes) (vs : list scalar)
| XGroup (kids : list tm).

(** ** What a reader should see *)

(** The text of a value.  NUL is not kept. *)
Definition text_of (v : scalar) : bytes :=
  match v with
  | SString s => strip_nul s
  | SInt z => B (NilEmpty.string_of_int (Z.to_int z))
  | SUint n => B (NilEmpty.string_of_uint (N.to_uint n))
  | SBool true => B "true"
  | SBool false => B "false"
  end.
(** The text with the five characters replaced by their references: what is
    seen where references are not recognised. *)
Definition encode (c : ascii) : bytes :=
  match find (fun p => Ascii.eqb (snd p) c) entities with
  | Some (e, _) => e
  | None => [c]
  end.
Definition source_of (v : scalar) : bytes := flat_map encode (text_of v).

Definition texts (vs : list scalar) : bytes := concat (map text_of vs).
Definition sources (vs : list scalar) : bytes := concat (map source_of vs).

(** Values of a delimited attribute: the delimiter follows each value that is
    not empty and not the last. *)
Fixpoint delimited_text (d : bytes) (l : list bytes) : bytes :=
  match l with
  | [] => []
  | x :: l' => x ++ (if beq x [] then [] else match l' with [] => [] | _ => d end) ++ delimited_text d l'
  end.

Definition attr_seen (a : tattr) : bytes * bytes :=
  match a with
  | XAttr n vs => (map lower n, texts vs)
  | XBool n => (map lower n, [])
  | XDelim n d vs => (map lower n, delimited_text d (map text_of vs))
  end.

Definition is_text (t : tm) : bool := match t with XText _ | XValue _ => true | _ => false end.
Definition raw_tokens (t : tm) : list token :=
  match t with
  | XText vs => map TChar (sources vs)
  | XValue v => map TChar (source_of v)
  | _ => []
  end.
Fixpoint tokens (t : tm) : list token :=
  match t with
  | XElem n ats ts =>
      let name := map lower n in
      TStart name (map attr_seen ats) false ::
      (if bmem name rawtext_names then flat_map raw_tokens ts else flat_map tokens ts) ++ [TEnd name]
  | XVoid n ats => [TStart (map lower n) (map attr_seen ats) false]
  | XText vs => map TChar (texts vs)
  | XValue v => map TChar (text_of v)
  | XComment vs => [TComment (sources vs)]
  | XPI n vs => [declaration (n ++ B " " ++ sources vs); TChar "010"]
  | XGroup ts => flat_map tokens ts
  end.

(** ** Which templates are well-formed *)

Definition plain_char (c : ascii) : Prop := ~ markup_char c /\ c <> "&"%char.
Definition attr_wf (a : tattr) : Prop :=
  valid_name (x_name a) = true /\
  match a with XDelim _ d _ => Forall plain_char d | _ => True end.
(** Names are compared by readers ignoring case. *)
Definition attrs_wf (ats : list tattr) : Prop :=
  Forall attr_wf ats /\ NoDup (map (fun a => map lower (x_name a)) ats).

(** [void] says which (lower case) names are void.  Elements whose content is
    not markup may contain text only. *)
Fixpoint wf (void : bytes -> bool) (t : tm) : Prop :=
  match t with
  | XElem n ats ts =>
      let name := map lower n in
      valid_name n = true /\ void name = false /\ attrs_wf ats /\
      name <> B "plaintext" /\
      (In name (rcdata_names ++ rawtext_names) -> Forall (fun t => is_text t = true) ts) /\
      fold_right (fun t P => wf void t /\ P) True ts
  | XVoid n ats =>
      let name := map lower n in
      valid_name n = true /\ void name = true /\ attrs_wf ats /\
      ~ In name (B "plaintext" :: rcdata_names ++ rawtext_names)
  | XText _ | XValue _ | XComment _ => True
  | XPI n _ => valid_name n = true
  | XGroup ts => fold_right (fun t P => wf void t /\ P) True ts
  end.

(** ** The same template, built with the package *)
From Verif Require Import Values.

Section Build.
Context {W : UserWorld}.

Definition scalar_arg (v : scalar) : arg U :=
  match v with
  | SString s => AData (GString s)
  | SInt z => AData (GInt z)
  | SUint n => AData (GUint n)
  | SBool b => AData (GBool b)
  end.
Definition scalar_args : list scalar -> list (arg U) := map scalar_arg.

(** Constructors take the user state; none of these changes it. *)
Definition build_attr (u : U) (a : tattr) : node U :=
  match a with
  | XAttr n vs => fst (NewAttribute n (scalar_args vs) u)
  | XBool n => NewBooleanAttribute n
  | XDelim n d vs => fst (NewDelimitedAttribute n d (scalar_args vs) u)
  end.
Definition as_arg (t : tm) (n : node U) : arg U :=
  match t with XValue v => scalar_arg v | _ => ANode n end.
Fixpoint build (u : U) (t : tm) : node U :=
  match t with
  | XElem n ats ts =>
      fst (NewElement n (map (fun a => ANode (build_attr u a)) ats ++ map (fun t => as_arg t (build u t)) ts) u)
  | XVoid n ats => fst (NewVoidElement n (map (fun a => ANode (build_attr u a)) ats) u)
  | XText vs => fst (Text (scalar_args vs) u)
  | XValue v => fst (Text [scalar_arg v] u)
  | XComment vs => fst (Comment (scalar_args vs) u)
  | XPI n vs => fst (PI n (scalar_args vs) u)
  | XGroup ts => Collection (map Some (map (build u) ts))
  end.
End Build.
