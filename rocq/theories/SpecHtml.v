(** An HTML tokenizer (after the WHATWG "Tokenization" section), as the
    specification of how a reader of the output sees it.

    Left out: all character references but the five of [SpecEscape.entities] and
    the escaped states of script data (after [<!] in a script element all the rest
    is characters).  The preprocessing of the input stream is in [SpecReader.v];
    without it a CR counts as white space in tags.  A doctype token carries what stands between the keyword and the
    closing bracket, which ends it in all states; [doctype_name] reads its name.
    noscript is read as when scripting is off.  Tokens for characters are emitted one by
    one, as there. *)
From Verif Require Import Bytes SpecEscape.

Inductive token : Type :=
| TChar (c : ascii)
| TStart (name : bytes) (attrs : list (bytes * bytes)) (selfClosing : bool)
| TEnd (name : bytes)
| TComment (data : bytes)
| TDoctype (data : bytes)
| TEmptyEnd.   (* an end tag without a name; the standard emits no token for it *)

Definition is_upper (c : ascii) : bool := let n := nat_of_ascii c in (65 <=? n) && (n <=? 90).
Definition is_alpha (c : ascii) : bool :=
  let n := nat_of_ascii c in ((65 <=? n) && (n <=? 90)) || ((97 <=? n) && (n <=? 122)).
Definition is_num (c : ascii) : bool := let n := nat_of_ascii c in (48 <=? n) && (n <=? 57).
Definition lower (c : ascii) : ascii := if is_upper c then ascii_of_nat (nat_of_ascii c + 32) else c.
Definition is_ws (c : ascii) : bool :=
  existsb (Ascii.eqb c) [" "%char; "009"%char; "010"%char; "012"%char; "013"%char].

(** What [<!], [data] and a closing bracket are, unless [data] begins with two
    hyphens. *)
Definition declaration (data : bytes) : token :=
  if beq (map lower (firstn 7 data)) (B "doctype") then TDoctype (skipn 7 data) else TComment data.

(** The name in a doctype token, if it has one. *)
Fixpoint until_ws (d : bytes) : bytes :=
  match d with c :: d' => if is_ws c then [] else lower c :: until_ws d' | [] => [] end.
Fixpoint doctype_name (d : bytes) : bytes :=
  match d with c :: d' => if is_ws c then doctype_name d' else until_ws d | [] => [] end.

(** The tag being read. *)
Record tag := Tag { t_end : bool; t_name : bytes; t_attrs : list (bytes * bytes) }.
(** A duplicate attribute is dropped. *)
Definition add_attr (t : tag) (n v : bytes) : tag :=
  if bmem n (map fst (t_attrs t)) then t else Tag (t_end t) (t_name t) (t_attrs t ++ [(n, v)]).
Definition emit (t : tag) (selfClosing : bool) : token :=
  if t_end t then TEnd (t_name t) else TStart (t_name t) (t_attrs t) selfClosing.

Inductive state : Type :=
| Data | TagOpen | EndTagOpen
| TagName (t : tag)
| BeforeAttr (t : tag) | AttrName (t : tag) (n : bytes) | AfterAttrName (t : tag) (n : bytes)
| BeforeValue (t : tag) (n : bytes)
| Value (quote : option ascii) (t : tag) (n v : bytes)
| AfterValue (t : tag) | SelfClose (t : tag)
| MarkupDecl | MarkupDash | Bogus (d : bytes)
| CommentStart | CommentStartDash
| InComment (d : bytes) | CommentEndDash (d : bytes) | CommentEnd (d : bytes) | CommentBang (d : bytes)
| RawData (refs : bool) (name : bytes) | RawLt (refs : bool) (name : bytes)
| RawEndOpen (refs : bool) (name : bytes) | RawEndName (refs : bool) (name buf : bytes)
| RefRaw (buf name : bytes) | PlainText
| RefData (buf : bytes) | RefValue (buf : bytes) (quote : option ascii) (t : tag) (n v : bytes).

(** Elements whose content is not markup, and whether character references are
    recognised in it. *)
Definition rcdata_names : list bytes := map B ["textarea"; "title"]%string.
Definition rawtext_names : list bytes :=
  map B ["script"; "style"; "xmp"; "iframe"; "noembed"; "noframes"]%string.
Definition content_state (name : bytes) : state :=
  if bmem name rcdata_names then RawData true name
  else if bmem name rawtext_names then RawData false name
  else if beq name (B "plaintext") then PlainText
  else Data.
Definition after (t : tag) : state := if t_end t then Data else content_state (t_name t).

Definition is (c d : ascii) : bool := Ascii.eqb c d.

Definition in_data (c : ascii) : list token * state :=
  if is c "&" then ([], RefData []) else if is c "<" then ([], TagOpen) else ([TChar c], Data).
Definition in_attr_name (t : tag) (n : bytes) (c : ascii) : list token * state :=
  if is_ws c then ([], AfterAttrName t n)
  else if is c "/" then ([], SelfClose (add_attr t n []))
  else if is c ">" then ([emit (add_attr t n []) false], after (add_attr t n []))
  else if is c "=" then ([], BeforeValue t n)
  else ([], AttrName t (n ++ [lower c])).
Definition in_before_attr (t : tag) (c : ascii) : list token * state :=
  if is_ws c then ([], BeforeAttr t)
  else if is c "/" then ([], SelfClose t)
  else if is c ">" then ([emit t false], after t)
  else if is c "=" then ([], AttrName t [c])
  else in_attr_name t [] c.
Definition in_value (q : option ascii) (t : tag) (n v : bytes) (c : ascii) : list token * state :=
  if is c "&" then ([], RefValue [] q t n v)
  else match q with
       | Some x => if is c x then ([], AfterValue (add_attr t n v)) else ([], Value q t n (v ++ [c]))
       | None => if is_ws c then ([], BeforeAttr (add_attr t n v))
                 else if is c ">" then ([emit (add_attr t n v) false], after (add_attr t n v))
                 else ([], Value q t n (v ++ [c]))
       end.
Definition in_comment (d : bytes) (c : ascii) : list token * state :=
  if is c "-" then ([], CommentEndDash d) else ([], InComment (d ++ [c])).
(** The character a reference stands for, given what is between ampersand and
    semicolon. *)
Definition reference (buf : bytes) : option ascii :=
  match find (fun p => beq (fst p) (B "&" ++ buf ++ B ";")) entities with
  | Some (_, x) => Some x
  | None => None
  end.
Definition ref_char (c : ascii) : bool := is_alpha c || is_num c || is c "#".

Definition in_raw (refs : bool) (name : bytes) (c : ascii) : list token * state :=
  if is c "&" && refs then ([], RefRaw [] name)
  else if is c "<" then ([], RawLt refs name)
  else ([TChar c], RawData refs name).
Definition flush (b : bytes) (r : list token * state) : list token * state :=
  (map TChar b ++ fst r, snd r).

Definition step (s : state) (c : ascii) : list token * state :=
  match s with
  | Data => in_data c
  | TagOpen =>
      if is c "!" then ([], MarkupDecl)
      else if is c "/" then ([], EndTagOpen)
      else if is_alpha c then ([], TagName (Tag false [lower c] []))
      else if is c "?" then ([], Bogus [c])
      else flush (B "<") (in_data c)
  | EndTagOpen =>
      if is_alpha c then ([], TagName (Tag true [lower c] []))
      else if is c ">" then ([TEmptyEnd], Data)
      else ([], Bogus [c])
  | TagName t =>
      if is_ws c then ([], BeforeAttr t)
      else if is c "/" then ([], SelfClose t)
      else if is c ">" then ([emit t false], after t)
      else ([], TagName (Tag (t_end t) (t_name t ++ [lower c]) (t_attrs t)))
  | BeforeAttr t => in_before_attr t c
  | AttrName t n => in_attr_name t n c
  | AfterAttrName t n =>
      if is_ws c then ([], s)
      else if is c "/" then ([], SelfClose (add_attr t n []))
      else if is c "=" then ([], BeforeValue t n)
      else if is c ">" then ([emit (add_attr t n []) false], after (add_attr t n []))
      else in_attr_name (add_attr t n []) [] c
  | BeforeValue t n =>
      if is_ws c then ([], s)
      else if is c """" then ([], Value (Some """"%char) t n [])
      else if is c "'" then ([], Value (Some "'"%char) t n [])
      else if is c ">" then ([emit (add_attr t n []) false], after (add_attr t n []))
      else in_value None t n [] c
  | Value q t n v => in_value q t n v c
  | AfterValue t =>
      if is_ws c then ([], BeforeAttr t)
      else if is c "/" then ([], SelfClose t)
      else if is c ">" then ([emit t false], after t)
      else in_before_attr t c
  | SelfClose t => if is c ">" then ([emit t true], after t) else in_before_attr t c
  | MarkupDecl => if is c "-" then ([], MarkupDash)
                  else if is c ">" then ([TComment []], Data) else ([], Bogus [c])
  | MarkupDash => if is c "-" then ([], CommentStart)
                  else if is c ">" then ([TComment (B "-")], Data) else ([], Bogus (B "-" ++ [c]))
  | Bogus d => if is c ">" then ([declaration d], Data) else ([], Bogus (d ++ [c]))
  | CommentStart =>
      if is c "-" then ([], CommentStartDash)
      else if is c ">" then ([TComment []], Data)
      else in_comment [] c
  | CommentStartDash =>
      if is c "-" then ([], CommentEnd [])
      else if is c ">" then ([TComment []], Data)
      else in_comment (B "-") c
  | InComment d => in_comment d c
  | CommentEndDash d => if is c "-" then ([], CommentEnd d) else in_comment (d ++ B "-") c
  | CommentEnd d =>
      if is c ">" then ([TComment d], Data)
      else if is c "!" then ([], CommentBang d)
      else if is c "-" then ([], CommentEnd (d ++ B "-"))
      else in_comment (d ++ B "--") c
  | CommentBang d =>
      if is c "-" then ([], CommentEndDash (d ++ B "--!"))
      else if is c ">" then ([TComment d], Data)
      else in_comment (d ++ B "--!") c
  | RefData buf =>
      if is c ";" then
        match reference buf with
        | Some x => ([TChar x], Data)
        | None => (map TChar (B "&" ++ buf ++ [c]), Data)
        end
      else if ref_char c then ([], RefData (buf ++ [c]))
      else flush (B "&" ++ buf) (in_data c)
  | RawData refs name => in_raw refs name c
  | RawLt refs name =>
      if is c "/" then ([], RawEndOpen refs name)
      else if is c "!" && beq name (B "script") then ([TChar "<"; TChar c], PlainText)
      else flush (B "<") (in_raw refs name c)
  | RawEndOpen refs name =>
      if is_alpha c then ([], RawEndName refs name [c]) else flush (B "</") (in_raw refs name c)
  | RawEndName refs name buf =>
      let t := Tag true name [] in
      let own := beq (map lower buf) name in
      if is_ws c && own then ([], BeforeAttr t)
      else if is c "/" && own then ([], SelfClose t)
      else if is c ">" && own then ([emit t false], Data)
      else if is_alpha c then ([], RawEndName refs name (buf ++ [c]))
      else flush (B "</" ++ buf) (in_raw refs name c)
  | RefRaw buf name =>
      if is c ";" then
        match reference buf with
        | Some x => ([TChar x], RawData true name)
        | None => (map TChar (B "&" ++ buf ++ [c]), RawData true name)
        end
      else if ref_char c then ([], RefRaw (buf ++ [c]) name)
      else flush (B "&" ++ buf) (in_raw true name c)
  | PlainText => ([TChar c], PlainText)
  | RefValue buf q t n v =>
      if is c ";" then
        match reference buf with
        | Some x => ([], Value q t n (v ++ [x]))
        | None => ([], Value q t n (v ++ B "&" ++ buf ++ [c]))
        end
      else if ref_char c then ([], RefValue (buf ++ [c]) q t n v)
      else in_value q t n (v ++ B "&" ++ buf) c
  end.

Fixpoint feed (s : state) (input : bytes) : list token * state :=
  match input with
  | [] => ([], s)
  | c :: input' =>
      let '(t1, s1) := step s c in
      let '(t2, s2) := feed s1 input' in (t1 ++ t2, s2)
  end.

(** The tokens of a complete document: reading ends between tokens. *)
Definition tokenizes (input : bytes) (ts : list token) : Prop := feed Data input = (ts, Data).

(** Proper nesting of a sequence of tokens, given which names are void: a void
    start tag stands alone, any other has its end tag. *)
Inductive well_nested (void : bytes -> bool) : list token -> Prop :=
| wn_nil : well_nested void []
| wn_char c l : well_nested void l -> well_nested void (TChar c :: l)
| wn_comment d l : well_nested void l -> well_nested void (TComment d :: l)
| wn_doctype d l : well_nested void l -> well_nested void (TDoctype d :: l)
| wn_void n a s l : void n = true -> well_nested void l -> well_nested void (TStart n a s :: l)
| wn_element n a s l1 l2 : void n = false -> well_nested void l1 -> well_nested void l2 ->
    well_nested void (TStart n a s :: l1 ++ TEnd n :: l2).
