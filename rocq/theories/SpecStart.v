(** What [Start] should make of the declarations of one attribute name, when
    they may be of any kind (imperative.go 78-132). *)
From Coq Require Import List Ascii.
From Verif Require Import Bytes IO Nodes Values SpecOut.
Import ListNotations.
Local Open Scope list_scope.

Section SpecStart.
Context {W : UserWorld}.

(** The last declaration that is not delimited, and the (delimited) ones after
    it. *)
Fixpoint cut (ds : list (attr U)) : option (attr U) * list (attr U) :=
  match ds with
  | [] => (None, [])
  | a :: ds' =>
      match cut ds', a with
      | (None, t), ADelim _ _ _ => (None, a :: t)
      | (None, t), _ => (Some a, t)
      | r, _ => r
      end
  end.

(** The values of delimited attributes, each with its own delimiter. *)
Definition attached (ds : list (attr U)) : list (bytes * value U) :=
  flat_map (fun a => match a with ADelim _ d vs => map (pair d) vs | _ => [] end) ds.

(** Their text, with the delimiter in front of each except the very first. *)
Fixpoint joined (fr : frame U) (begun : bool) (l : list (bytes * value U)) (u : U) : bytes * U :=
  match l with
  | [] => ([], u)
  | (d, v) :: l' =>
      let '(b, u1) := sval fr v u in
      let '(bs, u2) := joined fr true l' u1 in
      ((if begun then d else []) ++ b ++ bs, u2)
  end.

(** An attribute with a base value and attached ones. *)
Definition with_values (fr : frame U) (n : bytes) (base : list (value U)) (t : list (attr U)) (u : U)
  : bytes * U :=
  let '(b1, u1) := svals fr base u in
  let '(b2, u2) := joined fr (match base with [] => false | _ => true end) (attached t) u1 in
  (B " " ++ n ++ B "=""" ++ b1 ++ b2 ++ B """", u2).

(** The attribute [n] of the tag, given all its declarations. *)
Definition started (fr : frame U) (n : bytes) (ds : list (attr U)) (u : U) : bytes * U :=
  match cut ds with
  | (None, t) => with_values fr n [] t u
  | (Some (APlain _ vs), t) => with_values fr n vs t u
  | (Some _, t) =>
      match attached t with
      | [] => (B " " ++ n, u)
      | _ => with_values fr n [] t u
      end
  end.

End SpecStart.
