(** Model of GenerateCode (html/generator.go and svg/generator.go lines 13-137
    and 13-129).  The input is the sequence of tokens that the tokenizer of
    golang.org/x/net/html makes of the reader: any sequence, followed by io.EOF
    or by another error. *)
From Verif Require Import Bytes IO Tables.

(** html.Token; attributes are (key, value), without namespaces. *)
Inductive gtok :=
| GText (data : bytes)
| GStart (name : bytes) (attrs : list (bytes * bytes))
| GSelf (name : bytes) (attrs : list (bytes * bytes))
| GEnd (name : bytes)
| GComment (data : bytes)
| GDoctype (data : bytes).

(** What differs between the two packages. *)
Record dialect := Dialect {
  g_pkg : bytes;
  g_elems : list (bytes * bytes);
  g_attrs : list (bytes * bytes);
  g_bools : list bytes;
  g_doctype : bool }.

Definition table (l : list (string * string)) : list (bytes * bytes) :=
  map (fun kf => (B (fst kf), B (snd kf))) l.
Definition html_dialect : dialect :=
  Dialect (B "html") (table html_generator_elements) (table html_generator_attributes)
          (map B html_generator_booleans) true.
Definition svg_dialect : dialect :=
  Dialect (B "svg") (table svg_generator_elements) (table svg_generator_attributes) [] false.

(** strings.ToLower, as far as it matters for looking up ASCII keys: ASCII
    letters are mapped, and so are the only two other characters with an ASCII
    lower case, U+0130 (i) and U+212A (k).  Other characters stay outside
    ASCII. *)
Definition lower_byte (c : ascii) : ascii :=
  let n := nat_of_ascii c in if (65 <=? n) && (n <=? 90) then ascii_of_nat (n + 32) else c.
Fixpoint to_lower (s : bytes) : bytes :=
  match s with
  | [] => []
  | c :: s' =>
      match s' with
      | c2 :: s2 =>
          if Ascii.eqb c "196" && Ascii.eqb c2 "176" then "i"%char :: to_lower s2
          else match s2 with
               | c3 :: s3 =>
                   if Ascii.eqb c "226" && Ascii.eqb c2 "132" && Ascii.eqb c3 "170" then "k"%char :: to_lower s3
                   else lower_byte c :: to_lower s'
               | [] => lower_byte c :: to_lower s'
               end
      | [] => lower_byte c :: to_lower s'
      end
  end.

Fixpoint look (l : list (bytes * bytes)) (k : bytes) : option bytes :=
  match l with
  | [] => None
  | (k', f) :: l' => if beq k' k then Some f else look l' k
  end.

(** strings.Replace(s, old, new, -1) for a one-byte [old]. *)
Definition replace1 (old : ascii) (new : bytes) (s : bytes) : bytes :=
  flat_map (fun c => if Ascii.eqb c old then new else [c]) s.

Definition tab : ascii := "009".
Definition nl : ascii := "010".
Definition dq : ascii := """".

(** Lines 50-55. *)
Definition escape (s : bytes) : bytes :=
  replace1 dq (B "\""")
    (replace1 nl (B "\n") (replace1 tab (B "\t") (replace1 "\" (B "\\") s))).

(** strings.Trim(s, " \n\t") is not empty. *)
Definition blank_char (c : ascii) : bool := Ascii.eqb c " " || Ascii.eqb c nl || Ascii.eqb c tab.
Definition trims_empty (s : bytes) : bool := forallb blank_char s.

Section Gen.
Context {U : Type} (g : dialect).

(** Lines 24-36: the name after the last slash, "pkg.Func". *)
Definition func_name (f : bytes) : bytes := g_pkg g ++ B "." ++ f.

(** Successive [_, err = w.Write(...)]: each overwrites [err]. *)
Fixpoint writes (err : option error) (ds : list bytes) : io U (option error) :=
  match ds with
  | [] => Ret err
  | d :: ds' => Wr d (fun _ e => writes e ds')
  end.

Definition tabs (n : nat) : bytes := repeat tab n.

(** Lines 37-41. *)
Definition line (indent : nat) (s : bytes) : list bytes := [tabs indent; s; [nl]].

(** Lines 68-91: the attributes of a start tag. *)
Definition attr_writes (a : bytes * bytes) : list bytes :=
  let '(key, val) := a in
  match look (g_attrs g) (to_lower key) with
  | Some f =>
      if bmem (to_lower key) (g_bools g) then [func_name f; B "()"]
      else [func_name f; B "("""; escape val; B """)"]
  | None => [B "aitch.Attribute("""; key; B """ ,"""; escape val; B """)"]
  end.
Fixpoint attrs_writes (first : bool) (attrs : list (bytes * bytes)) : list bytes :=
  match attrs with
  | [] => []
  | a :: attrs' => (if first then [] else [B ", "]) ++ attr_writes a ++ attrs_writes false attrs'
  end.

(** Lines 56-101 (the indentation is changed by the caller). *)
Definition element_start (indent : nat) (name : bytes) (attrs : list (bytes * bytes)) (self : bool) : list bytes :=
  let start := match look (g_elems g) (to_lower name) with
               | Some f => func_name f ++ B "("
               | None => B "aitch.Element(""" ++ name ++ B """, "
               end in
  [tabs indent; start] ++
  if self && (match attrs with [] => true | _ => false end) then [B ")," ++ [nl]]
  else attrs_writes true attrs ++
       (if self then [B "),"] else match attrs with [] => [] | _ => [B ","] end) ++ [[nl]].

(** Lines 106-131, the body of the loop: the writes and the new indentation. *)
Definition tok_writes (indent : nat) (t : gtok) : list bytes * nat :=
  match t with
  | GText d => (if trims_empty d then [] else line indent (g_pkg g ++ B ".Text(""" ++ escape d ++ B """),"), indent)
  | GStart n attrs => (element_start indent n attrs false, S indent)
  | GSelf n attrs => (element_start indent n attrs true, indent)
  | GEnd _ => (line (pred indent) (B "),"), pred indent)
  | GComment d => (line indent (g_pkg g ++ B ".Comment(""" ++ escape d ++ B """),"), indent)
  | GDoctype d =>
      (if g_doctype g then line indent (g_pkg g ++ B ".PI(""DOCTYPE"", """ ++ escape d ++ B """),") else [], indent)
  end.

(** Lines 104-136.  [fin] is the error the tokenizer ends with ([None] for
    io.EOF). *)
Fixpoint loop (ts : list gtok) (fin : option error) (indent : nat) (err : option error)
  : io U (option error) :=
  match err with
  | Some _ => Ret err
  | None =>
      match ts with
      | [] => match fin with
              | Some e => Ret (Some e)
              | None => writes None (line (pred indent) (B ")" ++ [nl]))
              end
      | t :: ts' =>
          let '(ds, indent') := tok_writes indent t in
          err' <- writes err ds ;; loop ts' fin indent' err'
      end
  end.

(** Lines 13-137. *)
Definition generate (ts : list gtok) (fin : option error) : io U (option error) :=
  err <- writes None (line 0 (B "var template = aitch.Collection(")) ;; loop ts fin 1 err.

(** What is written when nothing goes wrong. *)
Fixpoint body (ts : list gtok) (indent : nat) : bytes :=
  match ts with
  | [] => tabs (pred indent) ++ B ")" ++ [nl; nl]
  | t :: ts' => let '(ds, indent') := tok_writes indent t in concat ds ++ body ts' indent'
  end.
Definition code (ts : list gtok) : bytes :=
  B "var template = aitch.Collection(" ++ [nl] ++ body ts 1.

End Gen.
