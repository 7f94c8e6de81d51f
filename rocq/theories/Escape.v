(** Model of value.go 167-208: HTML escaping of Go strings. *)
From Verif Require Import Bytes.

Definition c_nul : ascii := Ascii.zero.
Definition c_quot : ascii := "034"%char.
Definition c_apos : ascii := "039"%char.
Definition c_amp : ascii := "&"%char.
Definition c_lt : ascii := "<"%char.
Definition c_gt : ascii := ">"%char.

(** value.go 186-201: the [switch c]; [None] is the [default: continue] case. *)
Definition html_of (c : ascii) : option bytes :=
  if Ascii.eqb c c_nul then Some []
  else if Ascii.eqb c c_quot then Some (B "&quot;")
  else if Ascii.eqb c c_apos then Some (B "&apos;")
  else if Ascii.eqb c c_amp then Some (B "&amp;")
  else if Ascii.eqb c c_lt then Some (B "&lt;")
  else if Ascii.eqb c c_gt then Some (B "&gt;")
  else None.

(** value.go 177: strings.ContainsAny over apostrophe, quotation mark,
    ampersand, less-than, greater-than and NUL.  All six characters
    are ASCII, so the rune-wise search is a byte-wise one. *)
Definition contains_special (s : bytes) : bool :=
  existsb (fun c => existsb (Ascii.eqb c) [c_apos; c_quot; c_amp; c_lt; c_gt; c_nul]) s.

(** Go slice expression [sb[lo:hi]] for [lo <= hi <= len(sb)]. *)
Definition subslice (sb : bytes) (lo hi : nat) : bytes := firstn (hi - lo) (skipn lo sb).

(** value.go 184-207: the loop [for i, c := range sb]; [rest] is [sb[i:]],
    [b] the buffer contents. *)
Fixpoint esc_loop (sb rest : bytes) (i last : nat) (b : bytes) : bytes :=
  match rest with
  | [] => b ++ skipn last sb                                   (* 206-207 *)
  | c :: rest' =>
      match html_of c with
      | None => esc_loop sb rest' (S i) last b                 (* 199-200 *)
      | Some html =>
          esc_loop sb rest' (S i) (S i)
                   (b ++ subslice sb last i ++ html)           (* 202-204 *)
      end
  end.

(** value.go 176-208. *)
Definition html_escape_string (s : bytes) : bytes :=
  if negb (contains_special s) then s else esc_loop s s 0 0 [].
