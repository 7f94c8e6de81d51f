(** Induction principle for the nodes of Pointer.v. *)
From Verif Require Import Bytes IO Nodes Pointer.

Section PointerInd.
Context {W : UserWorld}.
Variable P : pnode -> Prop.
Variable Q : piprog -> Prop.
Definition optQ (o : option pnode) : Prop := match o with Some n => P n | None => True end.

Hypothesis HAttr : forall a, P (PAttr a).
Hypothesis HElement : forall name attrs idx conds ns, Forall P ns -> P (PElement name attrs idx conds ns).
Hypothesis HVoid : forall name attrs idx conds, P (PVoid name attrs idx conds).
Hypothesis HValues : forall vs, P (PValues vs).
Hypothesis HComment : forall vs, P (PComment vs).
Hypothesis HPI : forall name vs, P (PPI name vs).
Hypothesis HCollection : forall ns, Forall P ns -> P (PCollection ns).
Hypothesis HConditional : forall fn ns, Forall P ns -> P (PConditional fn ns).
Hypothesis HCollect : forall f, (forall c s, Forall optQ (fst (f c s))) -> P (PCollect f).
Hypothesis HImperNone : P (PImper None).
Hypothesis HImper : forall g, Q g -> P (PImper (Some g)).
Hypothesis HIter : forall fn ns, Forall P ns -> P (PIter fn ns).
Hypothesis HYield : forall fn ns, Forall P ns -> P (PYield fn ns).
Hypothesis HDocument : forall pr ns, optQ pr -> Forall P ns -> P (PDocument pr ns).
Hypothesis HRet : forall e, Q (PIRet e).
Hypothesis HRead : forall k, (forall c s, Q (fst (k c s))) -> Q (PIRead k).
Hypothesis HWriteString : forall s k, Q k -> Q (PIWriteString s k).
Hypothesis HWriteRaw : forall s k, Q k -> Q (PIWriteRaw s k).
Hypothesis HWriteNodes : forall ns k, Forall optQ ns -> Q k -> Q (PIWriteNodes ns k).
Hypothesis HStart : forall name v attrs k, Q k -> Q (PIStart name v attrs k).
Hypothesis HEnd : forall k, Q k -> Q (PIEnd k).
Hypothesis HEndAll : forall k, Q k -> Q (PIEndAll k).
Hypothesis HRender : forall n q k, P n -> (forall r, Q (k r)) -> Q (PIRender n q k).
Hypothesis HDirect : forall d k, (forall m e, Q (k m e)) -> Q (PIDirect d k).

Fixpoint pnode_ind' (n : pnode) : P n :=
  let list_ind := fix go (l : list pnode) : Forall P l :=
    match l with
    | [] => Forall_nil P
    | x :: l' => Forall_cons x (pnode_ind' x) (go l')
    end in
  let olist := fix go (l : list (option pnode)) : Forall optQ l :=
    match l with
    | [] => Forall_nil optQ
    | x :: l' => Forall_cons x (match x return optQ x with Some y => pnode_ind' y | None => I end) (go l')
    end in
  match n with
  | PAttr a => HAttr a
  | PElement name attrs idx conds ns => HElement name attrs idx conds ns (list_ind ns)
  | PVoid name attrs idx conds => HVoid name attrs idx conds
  | PValues vs => HValues vs
  | PComment vs => HComment vs
  | PPI name vs => HPI name vs
  | PCollection ns => HCollection ns (list_ind ns)
  | PConditional fn ns => HConditional fn ns (list_ind ns)
  | PCollect f => HCollect f (fun c s => olist (fst (f c s)))
  | PImper None => HImperNone
  | PImper (Some g) => HImper g (piprog_ind' g)
  | PIter fn ns => HIter fn ns (list_ind ns)
  | PYield fn ns => HYield fn ns (list_ind ns)
  | PDocument pr ns => HDocument pr ns
      (match pr return optQ pr with Some y => pnode_ind' y | None => I end) (list_ind ns)
  end
with piprog_ind' (g : piprog) : Q g :=
  let olist := fix go (l : list (option pnode)) : Forall optQ l :=
    match l with
    | [] => Forall_nil optQ
    | x :: l' => Forall_cons x (match x return optQ x with Some y => pnode_ind' y | None => I end) (go l')
    end in
  match g with
  | PIRet e => HRet e
  | PIRead k => HRead k (fun c s => piprog_ind' (fst (k c s)))
  | PIWriteString s k => HWriteString s k (piprog_ind' k)
  | PIWriteRaw s k => HWriteRaw s k (piprog_ind' k)
  | PIWriteNodes ns k => HWriteNodes ns k (olist ns) (piprog_ind' k)
  | PIStart name v attrs k => HStart name v attrs k (piprog_ind' k)
  | PIEnd k => HEnd k (piprog_ind' k)
  | PIEndAll k => HEndAll k (piprog_ind' k)
  | PIRender n q k => HRender n q k (pnode_ind' n) (fun r => piprog_ind' (k r))
  | PIDirect d k => HDirect d k (fun m e => piprog_ind' (k m e))
  end.

Lemma pnode_piprog_ind : (forall n, P n) /\ (forall g, Q g).
Proof. split; [exact pnode_ind' | exact piprog_ind']. Qed.

End PointerInd.
