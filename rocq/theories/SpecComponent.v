(** Components: user-defined types that implement Node by rendering another
    node. *)
From Verif Require Import Bytes IO Nodes Values Render Build.

Section Spec.
Context {W : UserWorld}.

(** [func (c Component) Render(ctx *context.Context) error { return n.Render(ctx) }],
    with a Type() other than AttributeNode. *)
Definition component (n : node U) : node U :=
  NImper (Some (IRender n None (fun r _ => IRet r))).

(** Neither an attribute nor a conditional, nor a collection with such members. *)
Fixpoint bare (n : node U) : Prop :=
  match n with
  | NAttr _ | NConditional _ _ _ => False
  | NCollection ns => fold_right (fun c Q => bare c /\ Q) True ns
  | _ => True
  end.

(** [swap n m]: [m] is built like [n], except that in any places some contents are
    wrapped in components.  [swaps], [swapo], [swapp]: the same for arguments of
    elements, for lists of nodes, and for the functions of Imperative nodes. *)
Inductive swap : node U -> node U -> Prop :=
| sw_same n : swap n n
| sw_wrap n m : bare n -> swap n m -> swap n (component m)
| sw_element name l l' u : swaps l l' -> swap (fst (NewElement name l u)) (fst (NewElement name l' u))
| sw_void name l l' u : swaps l l' -> swap (fst (NewVoidElement name l u)) (fst (NewVoidElement name l' u))
| sw_collection l l' : swapo l l' -> swap (Collection l) (Collection l')
| sw_conditional fn l l' n m : swapo l l' ->
    Conditional fn l = Done n -> Conditional fn l' = Done m -> swap n m
| sw_when key l l' n m : swapo l l' -> When key l = Done n -> When key l' = Done m -> swap n m
| sw_collect f f' : (forall c u, snd (f c u) = snd (f' c u)) ->
    (forall c u, swapo (fst (f c u)) (fst (f' c u))) ->
    swap (ContentCollect (Some f)) (ContentCollect (Some f'))
| sw_iterate fn l l' n m : swapo l l' -> Iterate fn l = Done n -> Iterate fn l' = Done m -> swap n m
| sw_iterate_key key l l' n m : swapo l l' ->
    IterateKey key l = Done n -> IterateKey key l' = Done m -> swap n m
| sw_iterate_yield fn l l' n m : swapo l l' ->
    IterateYield fn l = Done n -> IterateYield fn l' = Done m -> swap n m
| sw_document lang head head' body body' u : swaps head head' -> swaps body body' ->
    swap (fst (Document lang head body u)) (fst (Document lang head' body' u))
| sw_imperative p p' : swapp p p' -> swap (Imperative (Some p)) (Imperative (Some p'))
with swaps : list (arg U) -> list (arg U) -> Prop :=
| ss_nil : swaps [] []
| ss_node n m l l' : swap n m -> swaps l l' -> swaps (ANode n :: l) (ANode m :: l')
| ss_other a l l' : swaps l l' -> swaps (a :: l) (a :: l')
with swapo : list (option (node U)) -> list (option (node U)) -> Prop :=
| so_nil : swapo [] []
| so_node n m l l' : swap n m -> swapo l l' -> swapo (Some n :: l) (Some m :: l')
| so_none l l' : swapo l l' -> swapo (None :: l) (None :: l')
with swapp : iprog U -> iprog U -> Prop :=
| sp_same p : swapp p p
| sp_read k k' : (forall c u, snd (k c u) = snd (k' c u)) ->
    (forall c u, swapp (fst (k c u)) (fst (k' c u))) -> swapp (IRead k) (IRead k')
| sp_string s k k' : swapp k k' -> swapp (IWriteString s k) (IWriteString s k')
| sp_raw s k k' : swapp k k' -> swapp (IWriteRaw s k) (IWriteRaw s k')
| sp_nodes l l' k k' : swapo l l' -> swapp k k' -> swapp (IWriteNodes l k) (IWriteNodes l' k')
| sp_start name v attrs k k' : swapp k k' -> swapp (IStart name v attrs k) (IStart name v attrs k')
| sp_end k k' : swapp k k' -> swapp (IEnd k) (IEnd k')
| sp_end_all k k' : swapp k k' -> swapp (IEndAll k) (IEndAll k')
| sp_render n m inner k k' : swap n m -> (forall r e, swapp (k r e) (k' r e)) ->
    swapp (IRender n inner k) (IRender m inner k')
| sp_direct d k k' : (forall m e, swapp (k m e) (k' m e)) -> swapp (IDirect d k) (IDirect d k')
| sp_set_error e k k' : swapp k k' -> swapp (ISetError e k) (ISetError e k').

Scheme swap_mind := Induction for swap Sort Prop
  with swaps_mind := Induction for swaps Sort Prop
  with swapo_mind := Induction for swapo Sort Prop
  with swapp_mind := Induction for swapp Sort Prop.
Combined Scheme swap_mutind from swap_mind, swaps_mind, swapo_mind, swapp_mind.

End Spec.
