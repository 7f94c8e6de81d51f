(** Specification for escaping, independent of the implementation. *)
From Coq Require Import ZArith.
From Verif Require Import Bytes.

(** The five character references a browser decodes back. *)
Definition entities : list (bytes * ascii) :=
  [(B "&quot;", "034"%char); (B "&apos;", "039"%char); (B "&amp;", "&"%char);
   (B "&lt;", "<"%char); (B "&gt;", ">"%char)].

(** Characters that could act as markup if they appeared in text, an attribute
    value or a comment; and NUL. *)
Definition markup_char (c : ascii) : Prop :=
  In c ["<"%char; ">"%char; "034"%char; "039"%char; Ascii.zero].

(** [b] can be placed between two tags, or between the quotes of an attribute
    value, without being taken for markup: it has no markup character, and any
    ampersand in it starts one of the five entities. *)
Definition inert (b : bytes) : Prop :=
  (forall c, In c b -> ~ markup_char c) /\
  (forall p q, b = p ++ "&"%char :: q ->
     exists e, In e (map fst entities) /\ has_prefix e ("&"%char :: q) = true).

(** Decoding: at each position, if one of the entities starts here, it stands
    for its character and its remaining bytes are skipped. *)
Definition entity_at (s : bytes) : option (bytes * ascii) :=
  find (fun p => has_prefix (fst p) s) entities.
Fixpoint decode_from (skip : nat) (s : bytes) : bytes :=
  match s with
  | [] => []
  | c :: s' =>
      match skip with
      | S k => decode_from k s'
      | 0 =>
          match entity_at s with
          | Some (e, x) => x :: decode_from (length e - 1) s'
          | None => c :: decode_from 0 s'
          end
      end
  end.
Definition decode (s : bytes) : bytes := decode_from 0 s.

(** A string without its NUL bytes. *)
Definition strip_nul (s : bytes) : bytes :=
  filter (fun c => negb (Ascii.eqb c Ascii.zero)) s.

(** Reading a decimal numeral. *)
Definition digit_value (c : ascii) : option N :=
  let n := N_of_ascii c in
  if ((48 <=? n) && (n <=? 57))%N then Some (n - 48)%N else None.
Fixpoint read_digits (s : bytes) (acc : N) : option N :=
  match s with
  | [] => Some acc
  | c :: s' => match digit_value c with
               | Some d => read_digits s' (10 * acc + d)%N
               | None => None
               end
  end.
Definition read_uint (s : bytes) : option N :=
  match s with [] => None | _ => read_digits s 0 end.
Definition read_int (s : bytes) : option Z :=
  match s with
  | c :: s' =>
      if Ascii.eqb c "-"%char
      then match read_uint s' with Some n => Some (- Z.of_N n)%Z | None => None end
      else match read_uint s with Some n => Some (Z.of_N n) | None => None end
  | [] => None
  end.
(** Canonical: no leading zero (other than the numeral 0), no minus zero. *)
Definition canonical_uint (s : bytes) : Prop :=
  s = B "0" \/ (exists c s', s = c :: s' /\ c <> "0"%char) /\ read_uint s <> None.
