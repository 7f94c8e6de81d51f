(** Induction principle for nodes and imperative programs. *)
From Verif Require Import Bytes IO Nodes.

Section NodeInd.
Context {U : Type}.
Variable P : node U -> Prop.
Variable Q : iprog U -> Prop.

Definition optP (o : option (node U)) : Prop :=
  match o with Some n => P n | None => True end.

Hypothesis HAttr : forall a, P (NAttr a).
Hypothesis HElement : forall name attrs idx conds contents,
  Forall P contents -> P (NElement name attrs idx conds contents).
Hypothesis HVoid : forall name attrs idx conds, P (NVoid name attrs idx conds).
Hypothesis HText : forall vs, P (NText vs).
Hypothesis HComment : forall vs, P (NComment vs).
Hypothesis HPI : forall name vs, P (NPI name vs).
Hypothesis HFragment : forall vs, P (NFragment vs).
Hypothesis HCollection : forall ns, Forall P ns -> P (NCollection ns).
Hypothesis HConditional : forall fn attrs ns, Forall P ns -> P (NConditional fn attrs ns).
Hypothesis HCollect : forall f, (forall c u, Forall optP (fst (f c u))) -> P (NCollect f).
Hypothesis HImperNone : P (NImper None).
Hypothesis HImper : forall p, Q p -> P (NImper (Some p)).
Hypothesis HIter : forall fn ns, Forall P ns -> P (NIter fn ns).
Hypothesis HYield : forall fn ns, Forall P ns -> P (NYield fn ns).
Hypothesis HDocument : forall pr ns, optP pr -> Forall P ns -> P (NDocument pr ns).
Hypothesis HRet : forall e, Q (IRet e).
Hypothesis HRead : forall k, (forall c u, Q (fst (k c u))) -> Q (IRead k).
Hypothesis HWriteString : forall s k, Q k -> Q (IWriteString s k).
Hypothesis HWriteRaw : forall s k, Q k -> Q (IWriteRaw s k).
Hypothesis HWriteNodes : forall ns k, Forall optP ns -> Q k -> Q (IWriteNodes ns k).
Hypothesis HStart : forall name v attrs k, Forall optP attrs -> Q k -> Q (IStart name v attrs k).
Hypothesis HEnd : forall k, Q k -> Q (IEnd k).
Hypothesis HEndAll : forall k, Q k -> Q (IEndAll k).
Hypothesis HRender : forall n inner k, P n -> (forall r e, Q (k r e)) -> Q (IRender n inner k).
Hypothesis HDirect : forall d k, (forall m e, Q (k m e)) -> Q (IDirect d k).
Hypothesis HSetError : forall e k, Q k -> Q (ISetError e k).

Fixpoint node_ind' (n : node U) : P n :=
  let list_ind := fix go (l : list (node U)) : Forall P l :=
    match l with
    | [] => Forall_nil P
    | x :: l' => Forall_cons x (node_ind' x) (go l')
    end in
  match n with
  | NAttr a => HAttr a
  | NElement name attrs idx conds contents => HElement name attrs idx conds contents (list_ind contents)
  | NVoid name attrs idx conds => HVoid name attrs idx conds
  | NText vs => HText vs
  | NComment vs => HComment vs
  | NPI name vs => HPI name vs
  | NFragment vs => HFragment vs
  | NCollection ns => HCollection ns (list_ind ns)
  | NConditional fn attrs ns => HConditional fn attrs ns (list_ind ns)
  | NCollect f => HCollect f (fun c u =>
      (fix go (l : list (option (node U))) : Forall optP l :=
         match l with
         | [] => Forall_nil optP
         | x :: l' => Forall_cons x
                        (match x return optP x with Some y => node_ind' y | None => I end) (go l')
         end) (fst (f c u)))
  | NImper None => HImperNone
  | NImper (Some p) => HImper p (iprog_ind' p)
  | NIter fn ns => HIter fn ns (list_ind ns)
  | NYield fn ns => HYield fn ns (list_ind ns)
  | NDocument pr ns => HDocument pr ns
      (match pr return optP pr with Some y => node_ind' y | None => I end) (list_ind ns)
  end
with iprog_ind' (p : iprog U) : Q p :=
  let olist := fix go (l : list (option (node U))) : Forall optP l :=
         match l with
         | [] => Forall_nil optP
         | x :: l' => Forall_cons x
                        (match x return optP x with Some y => node_ind' y | None => I end) (go l')
         end in
  match p with
  | IRet e => HRet e
  | IRead k => HRead k (fun c u => iprog_ind' (fst (k c u)))
  | IWriteString s k => HWriteString s k (iprog_ind' k)
  | IWriteRaw s k => HWriteRaw s k (iprog_ind' k)
  | IWriteNodes ns k => HWriteNodes ns k (olist ns) (iprog_ind' k)
  | IStart name v attrs k => HStart name v attrs k (olist attrs) (iprog_ind' k)
  | IEnd k => HEnd k (iprog_ind' k)
  | IEndAll k => HEndAll k (iprog_ind' k)
  | IRender n inner k => HRender n inner k (node_ind' n) (fun r e => iprog_ind' (k r e))
  | IDirect d k => HDirect d k (fun m e => iprog_ind' (k m e))
  | ISetError e k => HSetError e k (iprog_ind' k)
  end.

Lemma node_iprog_ind : (forall n, P n) /\ (forall p, Q p).
Proof. split; [exact node_ind' | exact iprog_ind']. Qed.

End NodeInd.

(** The special case of a property of nodes that looks only at node lists held
    directly. *)
Section SimpleInd.
Context {U : Type}.
Variable P : node U -> Prop.
Hypothesis HAttr : forall a, P (NAttr a).
Hypothesis HElement : forall name attrs idx conds contents,
  Forall P contents -> P (NElement name attrs idx conds contents).
Hypothesis HVoid : forall name attrs idx conds, P (NVoid name attrs idx conds).
Hypothesis HText : forall vs, P (NText vs).
Hypothesis HComment : forall vs, P (NComment vs).
Hypothesis HPI : forall name vs, P (NPI name vs).
Hypothesis HFragment : forall vs, P (NFragment vs).
Hypothesis HCollection : forall ns, Forall P ns -> P (NCollection ns).
Hypothesis HConditional : forall fn attrs ns, Forall P ns -> P (NConditional fn attrs ns).
Hypothesis HCollect : forall f, P (NCollect f).
Hypothesis HImper : forall p, P (NImper p).
Hypothesis HIter : forall fn ns, Forall P ns -> P (NIter fn ns).
Hypothesis HYield : forall fn ns, Forall P ns -> P (NYield fn ns).
Hypothesis HDocument : forall pr ns, Forall P ns -> P (NDocument pr ns).
Fixpoint node_simple_ind (n : node U) : P n :=
  let list_ind := fix go (l : list (node U)) : Forall P l :=
    match l with
    | [] => Forall_nil P
    | x :: l' => Forall_cons x (node_simple_ind x) (go l')
    end in
  match n with
  | NAttr a => HAttr a
  | NElement name attrs idx conds contents => HElement name attrs idx conds contents (list_ind contents)
  | NVoid name attrs idx conds => HVoid name attrs idx conds
  | NText vs => HText vs
  | NComment vs => HComment vs
  | NPI name vs => HPI name vs
  | NFragment vs => HFragment vs
  | NCollection ns => HCollection ns (list_ind ns)
  | NConditional fn attrs ns => HConditional fn attrs ns (list_ind ns)
  | NCollect f => HCollect f
  | NImper p => HImper p
  | NIter fn ns => HIter fn ns (list_ind ns)
  | NYield fn ns => HYield fn ns (list_ind ns)
  | NDocument pr ns => HDocument pr ns (list_ind ns)
  end.
End SimpleInd.

Section ValueInd.
Context {U : Type}.
Variable P : value U -> Prop.
Hypothesis H : forall b d cs, Forall P cs -> P (Val b d cs).
Fixpoint value_ind' (v : value U) : P v :=
  match v with
  | Val b d cs => H b d cs ((fix go (l : list (value U)) : Forall P l :=
      match l with
      | [] => Forall_nil P
      | x :: l' => Forall_cons x (value_ind' x) (go l')
      end) cs)
  end.
End ValueInd.

Section GvalInd.
Context {U : Type}.
Variable P : gval U -> Prop.
Hypothesis HNil : P GNil.
Hypothesis HBool : forall b, P (GBool b).
Hypothesis HBytes : forall b, P (GBytes b).
Hypothesis HString : forall b, P (GString b).
Hypothesis HInt : forall z, P (GInt z).
Hypothesis HUint : forall n, P (GUint n).
Hypothesis HFloat : forall t, P (GFloat t).
Hypothesis HStringer : forall f, P (GStringer f).
Hypothesis HFunc : forall f, (forall u, P (fst (f u))) -> P (GFunc f).
Hypothesis HMap : forall m, P (GMap m).
Hypothesis HSlice : forall t xs, Forall P xs -> P (GSlice t xs).
Hypothesis HOther : forall i, P (GOther i).
Fixpoint gval_ind' (g : gval U) : P g :=
  match g with
  | GNil => HNil
  | GBool b => HBool b
  | GBytes b => HBytes b
  | GString b => HString b
  | GInt z => HInt z
  | GUint n => HUint n
  | GFloat t => HFloat t
  | GStringer f => HStringer f
  | GFunc f => HFunc f (fun u => gval_ind' (fst (f u)))
  | GMap m => HMap m
  | GSlice t xs => HSlice t xs ((fix go (l : list (gval U)) : Forall P l :=
      match l with
      | [] => Forall_nil P
      | x :: l' => Forall_cons x (gval_ind' x) (go l')
      end) xs)
  | GOther i => HOther i
  end.
End GvalInd.
