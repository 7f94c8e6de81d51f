(** What a function of the packages html, svg and htmx is named after. *)
From Verif Require Import Bytes.

Definition letter (c : ascii) : option ascii :=
  let n := nat_of_ascii c in
  if (65 <=? n) && (n <=? 90) then Some (ascii_of_nat (n + 32))
  else if (97 <=? n) && (n <=? 122) || (48 <=? n) && (n <=? 57) then Some c
  else None.
(** The letters and digits of a name, in lower case: [viewBox], [view-box] and
    [ViewBox] are spelled alike. *)
Definition spelled (name : bytes) : bytes :=
  flat_map (fun c => match letter c with Some d => [d] | None => [] end) name.

(** A Go name stands for the HTML name with that spelling; [Element] or [Attr]
    is added where an element and an attribute have one name. *)
Definition named_after (go name : bytes) : Prop :=
  spelled go = spelled name \/
  exists stem, (go = stem ++ B "Element" \/ go = stem ++ B "Attr") /\ spelled stem = spelled name.
