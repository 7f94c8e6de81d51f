(** JSON texts, after the grammar of RFC 8259.  (Bytes from 128 on are allowed
    in strings without a check that they are UTF-8.) *)
From Coq Require Import List Ascii String.
From Verif Require Import Bytes.
Import ListNotations.
Local Open Scope string_scope.
Local Open Scope list_scope.

(** Section 2: white space. *)
Definition blank (c : ascii) : Prop := In c [" "%char; "009"%char; "010"%char; "013"%char].
Definition blanks (b : bytes) : Prop := Forall blank b.

(** Section 6: numbers. *)
Definition digit (c : ascii) : Prop := In c (B "0123456789").
Definition digits (b : bytes) : Prop := b <> [] /\ Forall digit b.
Inductive json_int : bytes -> Prop :=
| int_zero : json_int (B "0")
| int_some c ds : digit c -> c <> "0"%char -> Forall digit ds -> json_int (c :: ds).
Inductive json_frac : bytes -> Prop :=
| frac_none : json_frac []
| frac_some ds : digits ds -> json_frac ("."%char :: ds).
Inductive json_exp : bytes -> Prop :=
| exp_none : json_exp []
| exp_some e sign ds : In e (B "eE") -> In sign [[]; B "+"; B "-"] -> digits ds -> json_exp (e :: sign ++ ds).
Inductive json_number : bytes -> Prop :=
| number m i f e : In m [[]; B "-"] -> json_int i -> json_frac f -> json_exp e -> json_number (m ++ i ++ f ++ e).

(** Section 7: strings. *)
Definition hex (c : ascii) : Prop := In c (B "0123456789abcdefABCDEF").
Inductive json_chars : bytes -> Prop :=
| chars_nil : json_chars []
| chars_plain c b : 32 <= nat_of_ascii c -> c <> """"%char -> c <> "\"%char -> json_chars b -> json_chars (c :: b)
| chars_escape c b : In c (B """\/bfnrt") -> json_chars b -> json_chars ("\"%char :: c :: b)
| chars_unicode h1 h2 h3 h4 b : hex h1 -> hex h2 -> hex h3 -> hex h4 -> json_chars b ->
    json_chars ("\"%char :: "u"%char :: h1 :: h2 :: h3 :: h4 :: b).
Inductive json_string : bytes -> Prop :=
| string_ b : json_chars b -> json_string (B """" ++ b ++ B """").

(** Sections 3-5: values, objects, arrays.  [members] and [elements] include
    the white space around them. *)
Inductive json_value : bytes -> Prop :=
| value_word b : In b [B "true"; B "false"; B "null"] -> json_value b
| value_number b : json_number b -> json_value b
| value_string b : json_string b -> json_value b
| value_empty_object w : blanks w -> json_value (B "{" ++ w ++ B "}")
| value_object ms : json_members ms -> json_value (B "{" ++ ms ++ B "}")
| value_empty_array w : blanks w -> json_value (B "[" ++ w ++ B "]")
| value_array es : json_elements es -> json_value (B "[" ++ es ++ B "]")
with json_members : bytes -> Prop :=
| members_one m : json_member m -> json_members m
| members_more m ms : json_member m -> json_members ms -> json_members (m ++ B "," ++ ms)
with json_member : bytes -> Prop :=
| member w1 s w2 v : blanks w1 -> json_string s -> blanks w2 -> json_element v ->
    json_member (w1 ++ s ++ w2 ++ B ":" ++ v)
with json_elements : bytes -> Prop :=
| elements_one e : json_element e -> json_elements e
| elements_more e es : json_element e -> json_elements es -> json_elements (e ++ B "," ++ es)
with json_element : bytes -> Prop :=
| element w1 v w2 : blanks w1 -> json_value v -> blanks w2 -> json_element (w1 ++ v ++ w2).

(** A JSON text is a value with white space around it. *)
Definition json_text (b : bytes) : Prop := json_element b.
