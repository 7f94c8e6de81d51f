(** Which nodes contain no markup of their own making: every value that ends
    up in text or in an attribute value is inert. *)
From Coq Require Import ZArith.
From Verif Require Import Bytes IO Escape SpecEscape SpecHtml Nodes Values Render Build SpecOut.

Section Spec.
Context {W : UserWorld}.

(** Data whose text is inert (strings are escaped; bytes, floats and Stringers
    are not, so they must be inert as they are). *)
Fixpoint tidy (g : gval U) : Prop :=
  match g with
  | GBytes b | GFloat b => inert b
  | GStringer f => forall u, inert (fst (f u))
  | GFunc f => forall u, tidy (fst (f u))
  | GSlice _ xs => all tidy xs
  | _ => True
  end.
(** All the data in maps is tidy. *)
Definition tidy_world : Prop := forall u m k v, mget u m k = Some v -> tidy v.

(** Dynamic values: in contexts with tidy Cargo. *)
Fixpoint safe_val (v : value U) : Prop :=
  match v with
  | Val _ (Some f) _ => forall c u, tidy (c_cargo c) -> inert (fst (f c u))
  | Val b None [] => inert b
  | Val _ None cs => all safe_val cs
  end.
Definition safe_attr (a : attr U) : Prop :=
  valid_name (attr_name a) = true /\
  match a with
  | APlain _ vs => all safe_val vs
  | ADelim _ d vs => inert d /\ all safe_val vs
  | ABool _ => True
  end.
Definition safe_arg (n : option (node U)) : Prop :=
  match n with Some (NAttr a) => safe_attr a | _ => True end.

Fixpoint safe_yield (p : yprog U) : Prop :=
  match p with
  | YRet => True
  | YYield it k => tidy it /\ safe_yield k
  | YRead k => forall c u, tidy (c_cargo c) -> safe_yield (fst (k c u))
  end.

(** [void] says which (lower case) names are void. *)
Variable void : bytes -> bool.

Definition is_text_node (n : node U) : bool := match n with NText _ => true | _ => false end.
(** Element names, with the restriction on elements whose content is not markup. *)
Definition safe_name (name : bytes) (contents : list (node U)) : Prop :=
  valid_name name = true /\ void (map lower name) = false /\ map lower name <> B "plaintext" /\
  (In (map lower name) (rcdata_names ++ rawtext_names) -> forallb is_text_node contents = true).
Definition markup_name (name : bytes) : Prop := content_state (map lower name) = Data.

Fixpoint safe (n : node U) : Prop :=
  match n with
  | NAttr _ => False
  | NElement name attrs _ conds ns =>
      safe_name name ns /\ all safe_attr attrs /\ all (fun ca => safe_attr (fst ca)) conds /\
      all safe ns
  | NVoid name attrs _ conds =>
      valid_name name = true /\ void (map lower name) = true /\ markup_name name /\
      all safe_attr attrs /\ all (fun ca => safe_attr (fst ca)) conds
  | NText vs | NFragment vs | NComment vs => all safe_val vs
  | NPI name vs => valid_name name = true /\ all safe_val vs
  | NCollection ns => all (fun n => is_attr n = true \/ safe n) ns
  | NConditional _ _ ns => all safe ns
  | NCollect f =>
      forall c u, tidy (c_cargo c) -> all (opt (fun n => is_attr n = true \/ safe n)) (fst (f c u))
  | NImper None => True
  | NImper (Some p) => safe_prog p []
  | NIter fn ns => (forall c u, tidy (c_cargo c) -> all tidy (fst (fn c u))) /\ all safe ns
  | NYield p ns => safe_yield p /\ all safe ns
  | NDocument pr ns => opt safe pr /\ all safe ns
  end
(** Imperative functions: [stack] are the open elements; all must be closed in
    the end.  (Elements whose content is not markup are left out here.) *)
with safe_prog (p : iprog U) (stack : list bytes) : Prop :=
  match p with
  | IRet _ => stack = []
  | IRead k => forall c u, tidy (c_cargo c) -> safe_prog (fst (k c u)) stack
  | IWriteString _ k => safe_prog k stack
  | IWriteRaw b k => inert b /\ safe_prog k stack
  | IWriteNodes ns k =>
      all (opt (fun n => is_attr n = true \/ safe n)) ns /\ safe_prog k stack
  | IStart name isVoid attrs k =>
      valid_name name = true /\ void (map lower name) = isVoid /\ markup_name name /\
      all safe_arg attrs /\ safe_prog k (if isVoid then stack else name :: stack)
  | IEnd k => safe_prog k (tl stack)
  | IEndAll k => safe_prog k []
  | IRender n inner k =>
      safe n /\ match inner with Some fr' => tidy (f_cargo fr') | None => True end /\
      forall r e, safe_prog (k r e) stack
  | IDirect d k => inert d /\ forall m e, safe_prog (k m e) stack
  | ISetError _ k => safe_prog k stack
  end.

End Spec.
