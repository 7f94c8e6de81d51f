(** Templates whose callbacks do not change state. *)
From Verif Require Import Bytes IO Nodes Values Render SpecOut.

Section Spec.
Context {W : UserWorld}.

(** The callback may read the user's state but leaves it as it is. *)
Definition reads_only {A} (f : ctx U -> U -> A * U) : Prop := forall c u, snd (f c u) = u.

Fixpoint steady_value (v : value U) : Prop :=
  match v with
  | Val _ d cs => match d with Some f => reads_only f | None => True end /\ all steady_value cs
  end.
Definition steady_values (vs : list (value U)) : Prop := all steady_value vs.
Definition steady_attr (a : attr U) : Prop :=
  match a with APlain _ vs | ADelim _ _ vs => steady_values vs | ABool _ => True end.
Definition steady_cond (ca : attr U * list (condfn U)) : Prop :=
  steady_attr (fst ca) /\ all reads_only (snd ca).
Definition steady_arg (n : option (node U)) : Prop :=
  match n with Some (NAttr a) => steady_attr a | _ => True end.

Fixpoint steady_yield (p : yprog U) : Prop :=
  match p with
  | YRet => True
  | YYield _ k => steady_yield k
  | YRead k => forall c u, snd (k c u) = u /\ steady_yield (fst (k c u))
  end.

Fixpoint steady (n : node U) : Prop :=
  match n with
  | NAttr a => steady_attr a
  | NElement _ attrs _ conds ns =>
      all steady_attr attrs /\ all steady_cond conds /\ all steady ns
  | NVoid _ attrs _ conds => all steady_attr attrs /\ all steady_cond conds
  | NText vs | NComment vs | NPI _ vs | NFragment vs => steady_values vs
  | NCollection ns => all steady ns
  | NConditional f _ ns => reads_only f /\ all steady ns
  | NIter f ns => reads_only f /\ all steady ns
  | NYield p ns => steady_yield p /\ all steady ns
  | NCollect f => reads_only f /\ forall c u, all (opt steady) (fst (f c u))
  | NImper None => True
  | NImper (Some p) => steady_prog p
  | NDocument pr ns => opt steady pr /\ all steady ns
  end
with steady_prog (p : iprog U) : Prop :=
  match p with
  | IRet _ => True
  | IRead k => forall c u, snd (k c u) = u /\ steady_prog (fst (k c u))
  | IWriteString _ k | IWriteRaw _ k | IEnd k | IEndAll k => steady_prog k
  | IStart _ _ attrs k => all steady_arg attrs /\ steady_prog k
  | IWriteNodes ns k => all (opt steady) ns /\ steady_prog k
  | IRender n _ k => steady n /\ forall r e, steady_prog (k r e)
  | IDirect _ k => forall m e, steady_prog (k m e)
  | ISetError _ k => steady_prog k
  end.

End Spec.
