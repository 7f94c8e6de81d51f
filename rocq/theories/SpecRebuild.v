(** What running the code generated for a document should give back: its tags,
    attributes, text, comments and doctypes. *)
From Verif Require Import Bytes Nodes Build SpecEscape SpecHtml SpecTemplate Generator SpecGen.

(** The void elements of the HTML standard (13.1.2), and param. *)
Definition void_html : list bytes :=
  map B ["area"; "base"; "br"; "col"; "embed"; "hr"; "img"; "input"; "link"; "meta"; "param";
         "source"; "track"; "wbr"]%string.

Definition white (c : ascii) : bool := Ascii.eqb c " " || Ascii.eqb c "010" || Ascii.eqb c "009".

(** The tokens of a document.  White space between tags does not count; an
    empty element may be written with or without an end tag of its own; a
    doctype is followed by a newline. *)
Fixpoint doc_tokens (d : doc) : list token :=
  match d with
  | DText x => if forallb white x then [] else map TChar x
  | DComment x => [TComment x]
  | DDoctype x => [TDoctype (B " " ++ x); TChar "010"]
  | DSelf n a => TStart n a false :: (if bmem n void_html then [] else [TEnd n])
  | DElem n a kids => TStart n a false :: flat_map doc_tokens kids ++ [TEnd n]
  end.

(** ** The documents that come back *)

(** Names as the tokenizer gives them, of the kind the package accepts. *)
Definition good_name (n : bytes) : Prop := valid_name n = true /\ map lower n = n.
Definition no_nul (s : bytes) : Prop := ~ In Ascii.zero s.
Definition plain_text (s : bytes) : Prop := Forall plain_char s.

Section Rebuildable.
Context (g : dialect).
(** Boolean attributes lose their value; the keys aria- and data- are taken for
    functions that make a name of their argument. *)
Definition good_attr (a : bytes * bytes) : Prop :=
  good_name (fst a) /\ no_nul (snd a) /\ (In (fst a) (g_bools g) -> snd a = []) /\
  fst a <> B "aria-" /\ fst a <> B "data-".
Definition good_attrs (l : list (bytes * bytes)) : Prop := Forall good_attr l /\ NoDup (map fst l).
(** Nothing ends a plaintext element. *)
Definition good_elem (n : bytes) : Prop := good_name n /\ n <> B "plaintext".
(** Comments, doctypes and the contents of script, style and so on are escaped
    although a reader does not decode them there. *)
Fixpoint rebuildable (d : doc) : Prop :=
  match d with
  | DText x => no_nul x
  | DComment x => plain_text x
  | DDoctype x => g = html_dialect /\ plain_text x
  | DSelf n a => good_elem n /\ good_attrs a
  | DElem n a kids =>
      good_elem n /\ ~ In n void_html /\ good_attrs a /\
      fold_right (fun k P => rebuildable k /\ P) True kids /\
      (In n (rcdata_names ++ rawtext_names) -> forall k, In k kids -> exists x, k = DText x) /\
      (In n rawtext_names -> forall x, In (DText x) kids -> plain_text x)
  end.
End Rebuildable.
