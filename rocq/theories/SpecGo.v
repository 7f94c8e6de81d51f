(** How Go reads source text: as much of the lexical grammar and of the grammar
    of expressions as generated code needs (The Go Programming Language
    Specification: Source code representation, Semicolons, String literals,
    Calls).

    A source text that uses anything else (operators, comments, numeric
    escapes, raw strings, ...) is not read at all, so that every reading here is
    Go's. *)
From Verif Require Import Bytes.

(** ** Source text *)

Definition code_of (c : ascii) := nat_of_ascii c.
Definition between (a b : nat) (c : ascii) : Prop := a <= nat_of_ascii c <= b.
Definition cont : ascii -> Prop := between 128 191.
(** One character of Go source text, in UTF-8: not NUL and not a byte order mark. *)
Inductive char : bytes -> Prop :=
| char1 a : between 1 127 a -> char [a]
| char2 a b : between 194 223 a -> cont b -> char [a; b]
| char3 a b c : between 224 239 a -> cont b -> cont c ->
    (nat_of_ascii a = 224 -> 160 <= nat_of_ascii b) -> (nat_of_ascii a = 237 -> nat_of_ascii b <= 159) ->
    ~ (nat_of_ascii a = 239 /\ nat_of_ascii b = 187 /\ nat_of_ascii c = 191) -> char [a; b; c]
| char4 a b c d : between 240 244 a -> cont b -> cont c -> cont d ->
    (nat_of_ascii a = 240 -> 144 <= nat_of_ascii b) -> (nat_of_ascii a = 244 -> nat_of_ascii b <= 143) ->
    char [a; b; c; d].
Inductive text : bytes -> Prop :=
| text_nil : text []
| text_char c s : char c -> text s -> text (c ++ s).

(** ** Tokens *)

Inductive gotok := KIdent (name : bytes) | KString (value : bytes)
| KDot | KOpen | KClose | KComma | KEq | KSemi.

Definition letter (c : ascii) : bool :=
  let n := nat_of_ascii c in
  ((65 <=? n) && (n <=? 90)) || ((97 <=? n) && (n <=? 122)) || (n =? 95).
Definition digit (c : ascii) : bool := let n := nat_of_ascii c in (48 <=? n) && (n <=? 57).

(** Between tokens ([semi]: a newline here is a semicolon), in an identifier,
    in a string literal, after a backslash in it. *)
Inductive lstate := LBetween (semi : bool) | LIdent (buf : bytes) | LString (buf : bytes) | LEscape (buf : bytes).

Definition escaped_char (c : ascii) : option ascii :=
  if Ascii.eqb c "a" then Some "007"%char
  else if Ascii.eqb c "b" then Some "008"%char
  else if Ascii.eqb c "f" then Some "012"%char
  else if Ascii.eqb c "n" then Some "010"%char
  else if Ascii.eqb c "r" then Some "013"%char
  else if Ascii.eqb c "t" then Some "009"%char
  else if Ascii.eqb c "v" then Some "011"%char
  else if Ascii.eqb c "\" then Some "\"%char
  else if Ascii.eqb c """" then Some """"%char
  else None.

Definition lex_between (semi : bool) (c : ascii) : option (list gotok * lstate) :=
  if Ascii.eqb c " " || Ascii.eqb c "009" || Ascii.eqb c "013" then Some ([], LBetween semi)
  else if Ascii.eqb c "010" then Some (if semi then [KSemi] else [], LBetween false)
  else if Ascii.eqb c "." then Some ([KDot], LBetween false)
  else if Ascii.eqb c "(" then Some ([KOpen], LBetween false)
  else if Ascii.eqb c ")" then Some ([KClose], LBetween true)
  else if Ascii.eqb c "," then Some ([KComma], LBetween false)
  else if Ascii.eqb c "=" then Some ([KEq], LBetween false)
  else if Ascii.eqb c """" then Some ([], LString [])
  else if letter c then Some ([], LIdent [c])
  else None.

Definition lex_step (s : lstate) (c : ascii) : option (list gotok * lstate) :=
  match s with
  | LBetween semi => lex_between semi c
  | LIdent buf =>
      if letter c || digit c then Some ([], LIdent (buf ++ [c]))
      else match lex_between true c with
           | Some (ts, s') => Some (KIdent buf :: ts, s')
           | None => None
           end
  | LString buf =>
      if Ascii.eqb c """" then Some ([KString buf], LBetween true)
      else if Ascii.eqb c "\" then Some ([], LEscape buf)
      else if Ascii.eqb c "010" then None
      else Some ([], LString (buf ++ [c]))
  | LEscape buf =>
      match escaped_char c with
      | Some d => Some ([], LString (buf ++ [d]))
      | None => None
      end
  end.
Fixpoint lex (s : lstate) (input : bytes) : option (list gotok * lstate) :=
  match input with
  | [] => Some ([], s)
  | c :: input' =>
      match lex_step s c with
      | None => None
      | Some (ts, s') =>
          match lex s' input' with
          | None => None
          | Some (ts', s'') => Some (ts ++ ts', s'')
          end
      end
  end.

(** The text [x], put between double quotes, is a string literal for [s]. *)
Definition literal_for (x s : bytes) : Prop :=
  text x /\ lex (LBetween false) (B """" ++ x ++ B """") = Some ([KString s], LBetween true).

(** ** Expressions: string literals and calls of functions of packages *)

Inductive expr := EString (value : bytes) | ECall (pkg fn : bytes) (args : list expr).

(** A call being read: its function, its arguments so far.  [PWant]: an operand
    or the closing parenthesis; [PHave]: a comma or the closing parenthesis. *)
Record open_call := OpenCall { oc_pkg : bytes; oc_fn : bytes; oc_args : list expr }.
Inductive mode := PWant | PHave | PPkg (p : bytes) | PDot (p : bytes) | PSel (p f : bytes) | PDone (e : expr).
Definition pstate := (mode * list open_call)%type.

Definition operand (e : expr) (stack : list open_call) : pstate :=
  match stack with
  | [] => (PDone e, [])
  | OpenCall p f args :: rest => (PHave, OpenCall p f (args ++ [e]) :: rest)
  end.
Definition close_call (stack : list open_call) : option pstate :=
  match stack with
  | [] => None
  | OpenCall p f args :: rest => Some (operand (ECall p f args) rest)
  end.
Definition parse_step (s : pstate) (t : gotok) : option pstate :=
  let '(m, stack) := s in
  match m, t with
  | PWant, KString v => Some (operand (EString v) stack)
  | PWant, KIdent p => Some (PPkg p, stack)
  | PWant, KClose => close_call stack
  | PHave, KComma => Some (PWant, stack)
  | PHave, KClose => close_call stack
  | PPkg p, KDot => Some (PDot p, stack)
  | PDot p, KIdent f => Some (PSel p f, stack)
  | PSel p f, KOpen => Some (PWant, OpenCall p f [] :: stack)
  | _, _ => None
  end.
Fixpoint parse (s : pstate) (ts : list gotok) : option pstate :=
  match ts with
  | [] => Some s
  | t :: ts' => match parse_step s t with None => None | Some s' => parse s' ts' end
  end.

(** The source text is the declaration [var name = e]. *)
Definition declares (src name : bytes) (e : expr) : Prop :=
  exists ts, lex (LBetween false) src = Some (KIdent (B "var") :: KIdent name :: KEq :: ts ++ [KSemi], LBetween false) /\
    parse (PWant, []) ts = Some (PDone e, []).

(** ** Indentation *)

(** Every line starts with as many tabs as there are parentheses open at its
    beginning, not counting one that it closes right away; parentheses in
    string literals do not count, and all parentheses are closed at the end. *)
Inductive istate := ILine (depth n : nat) | ICode (depth : nat) | IString (depth : nat) | IEscape (depth : nat).
Definition indent_code (depth : nat) (c : ascii) : option istate :=
  if Ascii.eqb c """" then Some (IString depth)
  else if Ascii.eqb c "(" then Some (ICode (S depth))
  else if Ascii.eqb c ")" then match depth with 0 => None | S d => Some (ICode d) end
  else if Ascii.eqb c "010" then Some (ILine depth 0)
  else Some (ICode depth).
Definition indent_step (s : istate) (c : ascii) : option istate :=
  match s with
  | ILine d n =>
      if Ascii.eqb c "009" then Some (ILine d (S n))
      else if Ascii.eqb c ")" then if n =? pred d then indent_code d c else None
      else if n =? d then indent_code d c
      else None
  | ICode d => indent_code d c
  | IString d =>
      if Ascii.eqb c """" then Some (ICode d) else if Ascii.eqb c "\" then Some (IEscape d) else Some (IString d)
  | IEscape d => Some (IString d)
  end.
Fixpoint indents (s : istate) (src : bytes) : option istate :=
  match src with
  | [] => Some s
  | c :: src' => match indent_step s c with None => None | Some s' => indents s' src' end
  end.
Definition well_indented (src : bytes) : Prop := indents (ILine 0 0) src = Some (ILine 0 0).
