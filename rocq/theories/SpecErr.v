(** Which templates the error properties are about. *)
From Verif Require Import Bytes IO Nodes Values Render SpecOut.

Section Spec.
Context {W : UserWorld}.

(** What a value may hand to the writer. *)
Fixpoint may_write (v : value U) (d : bytes) : Prop :=
  match v with
  | Val _ (Some f) _ => exists c u, fst (f c u) = d
  | Val b None [] => d = b
  | Val _ None cs =>
      (fix any (l : list (value U)) : Prop :=
         match l with [] => False | c :: l' => may_write c d \/ any l' end) cs
  end.

(** [vals d]: may a value of the template (text, attribute value, ...) write the
    bytes [d]? *)
Variable vals : bytes -> Prop.

Definition tame_vals (vs : list (value U)) : Prop := forall v d, In v vs -> may_write v d -> vals d.
Definition tame_attr (a : attr U) : Prop :=
  match a with APlain _ vs | ADelim _ _ vs => tame_vals vs | ABool _ => True end.
(** Start writes delimiters like values. *)
Definition tame_arg (n : option (node U)) : Prop :=
  match n with
  | Some (NAttr (ADelim _ d vs)) => tame_vals vs /\ (vs = [] \/ vals d)
  | Some (NAttr a) => tame_attr a
  | _ => True
  end.

(** The function of every Imperative node ends by returning ctx.Error: its last
    act is to look at the context, and it returns the Error found there; or to
    render a node with the context, and it returns what that returned.  (The
    nil function is excluded: its Render returns nil whatever ctx.Error is.)
    It does not assign ctx.Error, does not call the writer directly, and makes
    no context of its own. *)
Fixpoint tame (n : node U) : Prop :=
  match n with
  | NAttr a => tame_attr a
  | NElement _ attrs _ conds ns =>
      all tame_attr attrs /\ all (fun ca => tame_attr (fst ca)) conds /\ all tame ns
  | NVoid _ attrs _ conds => all tame_attr attrs /\ all (fun ca => tame_attr (fst ca)) conds
  | NText vs | NComment vs | NPI _ vs | NFragment vs => tame_vals vs
  | NCollection ns | NConditional _ _ ns | NIter _ ns | NYield _ ns => all tame ns
  | NCollect f => forall c u, all (opt tame) (fst (f c u))
  | NImper None => False
  | NImper (Some p) => tame_prog p
  | NDocument pr ns => opt tame pr /\ all tame ns
  end
with tame_prog (p : iprog U) : Prop :=
  match p with
  | IRet _ => False
  | IRead k => forall c u,
      (forall e, fst (k c u) = IRet e -> e = c_error c) /\
      ((forall e, fst (k c u) <> IRet e) -> tame_prog (fst (k c u)))
  | IWriteString _ k | IWriteRaw _ k | IEnd k | IEndAll k => tame_prog k
  | IStart _ _ attrs k => all tame_arg attrs /\ tame_prog k
  | IWriteNodes ns k => all (opt tame) ns /\ tame_prog k
  | IRender n None k =>
      tame n /\
      forall r e,
      (forall x, k r e = IRet x -> x = r \/ x = e) /\
      ((forall x, k r e <> IRet x) -> tame_prog (k r e))
  | IRender _ (Some _) _ | IDirect _ _ | ISetError _ _ => False
  end.

(** No IterateYield anywhere, not even among the nodes that callbacks make. *)
Fixpoint no_yield (n : node U) : Prop :=
  match n with
  | NAttr _ | NVoid _ _ _ _ | NText _ | NComment _ | NPI _ _ | NFragment _ => True
  | NElement _ _ _ _ ns | NCollection ns | NConditional _ _ ns | NIter _ ns => all no_yield ns
  | NYield _ _ => False
  | NCollect f => forall c u, all (opt no_yield) (fst (f c u))
  | NImper None => True
  | NImper (Some p) => no_yield_prog p
  | NDocument pr ns => opt no_yield pr /\ all no_yield ns
  end
with no_yield_prog (p : iprog U) : Prop :=
  match p with
  | IRet _ => True
  | IRead k => forall c u, no_yield_prog (fst (k c u))
  | IWriteString _ k | IWriteRaw _ k | IEnd k | IEndAll k | IStart _ _ _ k => no_yield_prog k
  | IWriteNodes ns k => all (opt no_yield) ns /\ no_yield_prog k
  | IRender n _ k => no_yield n /\ forall r e, no_yield_prog (k r e)
  | IDirect _ k => forall m e, no_yield_prog (k m e)
  | ISetError _ k => no_yield_prog k
  end.

End Spec.

(** Templates with any values, and templates without. *)
Definition any_data (d : bytes) : Prop := True.
Definition no_data (d : bytes) : Prop := False.
