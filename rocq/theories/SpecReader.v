(** How a reader that follows the HTML standard sees a page: the input stream is
    preprocessed, tokenized, and the tree builder ignores some newlines. *)
From Verif Require Import Bytes SpecHtml.

Definition CR : ascii := "013".
Definition LF : ascii := "010".

(** "Preprocessing the input stream": CR LF is one LF, and so is any other CR.
    [cr] says that the byte before was a CR. *)
Fixpoint newlines (cr : bool) (b : bytes) : bytes :=
  match b with
  | [] => []
  | c :: b' =>
      if is c CR then LF :: newlines true b'
      else if cr && is c LF then newlines false b'
      else c :: newlines false b'
  end.

(** "If the next token is a U+000A LINE FEED (LF) character token, then ignore
    that token": after the start tags pre, listing and textarea. *)
Definition eats_newline (n : bytes) : bool := bmem n (map B ["pre"; "listing"; "textarea"]%string).
Fixpoint tree_tokens (eat : bool) (ts : list token) : list token :=
  match ts with
  | [] => []
  | t :: ts' =>
      match t with
      | TChar c => if eat && is c LF then tree_tokens false ts' else t :: tree_tokens false ts'
      | TStart n _ _ => t :: tree_tokens (eats_newline n) ts'
      | TEmptyEnd => tree_tokens eat ts'
      | _ => t :: tree_tokens false ts'
      end
  end.

(** What the tree builder is given for a page. *)
Definition reads (page : bytes) (ts : list token) : Prop :=
  exists ts', tokenizes (newlines false page) ts' /\ ts = tree_tokens false ts'.

(** The same tokens with the line breaks of the standard: in text, a CR becomes an
    LF, and an LF that follows a CR is dropped. *)
Definition attr_newlines (a : bytes * bytes) : bytes * bytes := (fst a, newlines false (snd a)).
Fixpoint token_newlines (cr : bool) (ts : list token) : list token :=
  match ts with
  | [] => []
  | t :: ts' =>
      match t with
      | TChar c =>
          if is c CR then TChar LF :: token_newlines true ts'
          else if cr && is c LF then token_newlines false ts'
          else t :: token_newlines false ts'
      | TStart n a s => TStart n (map attr_newlines a) s :: token_newlines false ts'
      | TEnd _ | TEmptyEnd => t :: token_newlines false ts'
      | TComment d => TComment (newlines false d) :: token_newlines false ts'
      | TDoctype d => TDoctype (newlines false d) :: token_newlines false ts'
      end
  end.
