(** What the code generated for a document should be. *)
From Verif Require Import Bytes Generator SpecGo.

(** A document whose start and end tags match, and its tokens. *)
Inductive doc :=
| DText (data : bytes)
| DComment (data : bytes)
| DDoctype (data : bytes)
| DSelf (name : bytes) (attrs : list (bytes * bytes))
| DElem (name : bytes) (attrs : list (bytes * bytes)) (kids : list doc).
Fixpoint stream (d : doc) : list gtok :=
  match d with
  | DText x => [GText x]
  | DComment x => [GComment x]
  | DDoctype x => [GDoctype x]
  | DSelf n a => [GSelf n a]
  | DElem n a kids => GStart n a :: flat_map stream kids ++ [GEnd n]
  end.

(** Start and end tags match up, whatever their names. *)
Fixpoint matched (depth : nat) (ts : list gtok) : Prop :=
  match ts with
  | [] => depth = 0
  | GStart _ _ :: ts' => matched (S depth) ts'
  | GEnd _ :: ts' => match depth with 0 => False | S d => matched d ts' end
  | _ :: ts' => matched depth ts'
  end.

(** The texts whose lower case is an ASCII text: capital letters, and also the
    dotted capital I (U+0130) and the Kelvin sign (U+212A). *)
Definition is_ascii (c : ascii) : Prop := nat_of_ascii c < 128.
Inductive spells : bytes -> bytes -> Prop :=
| sp_nil : spells [] []
| sp_same c s n : is_ascii c -> ~ 65 <= nat_of_ascii c <= 90 -> spells s n -> spells (c :: s) (c :: n)
| sp_capital c d s n : 65 <= nat_of_ascii c <= 90 -> nat_of_ascii d = nat_of_ascii c + 32 ->
    spells s n -> spells (c :: s) (d :: n)
| sp_dotted s n : spells s n -> spells ("196"%char :: "176"%char :: s) ("i"%char :: n)
| sp_kelvin s n : spells s n -> spells ("226"%char :: "132"%char :: "170"%char :: s) ("k"%char :: n).

(** The calls that build a document: the function for the name, or the general
    one given the name; attributes come before the children; white space
    between tags is left out. *)
Section Exprs.
Context (g : dialect).
Definition attr_expr (a : bytes * bytes) : expr :=
  match look (g_attrs g) (to_lower (fst a)) with
  | Some f => ECall (g_pkg g) f (if bmem (to_lower (fst a)) (g_bools g) then [] else [EString (snd a)])
  | None => ECall (B "aitch") (B "Attribute") [EString (fst a); EString (snd a)]
  end.
Definition elem_expr (name : bytes) (args : list expr) : expr :=
  match look (g_elems g) (to_lower name) with
  | Some f => ECall (g_pkg g) f args
  | None => ECall (B "aitch") (B "Element") (EString name :: args)
  end.
Fixpoint exprs (d : doc) : list expr :=
  match d with
  | DText x => if forallb (fun c => Ascii.eqb c " " || Ascii.eqb c "010" || Ascii.eqb c "009") x then []
               else [ECall (g_pkg g) (B "Text") [EString x]]
  | DComment x => [ECall (g_pkg g) (B "Comment") [EString x]]
  | DDoctype x => if g_doctype g then [ECall (g_pkg g) (B "PI") [EString (B "DOCTYPE"); EString x]] else []
  | DSelf n a => [elem_expr n (map attr_expr a)]
  | DElem n a kids => [elem_expr n (map attr_expr a ++ flat_map exprs kids)]
  end.
End Exprs.

(** Names are put between quotes as they are. *)
Definition quotable (s : bytes) : Prop := Forall (fun c => c <> """"%char /\ c <> "\"%char /\ c <> "010"%char) s.
Definition names_quotable (t : gtok) : Prop :=
  match t with
  | GStart n a | GSelf n a => quotable n /\ Forall (fun kv => quotable (fst kv)) a
  | _ => True
  end.
(** All strings of a token are Go source text. *)
Definition token_text (t : gtok) : Prop :=
  match t with
  | GStart n a | GSelf n a => text n /\ Forall (fun kv => text (fst kv) /\ text (snd kv)) a
  | GText d | GComment d | GDoctype d => text d
  | GEnd _ => True
  end.

Definition a_dialect (g : dialect) : Prop := g = html_dialect \/ g = svg_dialect.
