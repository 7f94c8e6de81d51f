(** The programs of Programs.v when nodes are values (Build.v): what a reader of
    a program expects, as nothing that is built can change afterwards. *)
From Verif Require Import Bytes IO Nodes Values Render Build Packages Programs.
Local Open Scope nat_scope.

Section ProgramValues.
Context {W : UserWorld}.

Record vstate := VState { v_nodes : list (option (node U)); v_vals : list (value U); v_out : list (option error * option error) }.
Definition vstart : vstate := VState [] [] [].
Definition vnode (ns : list (option (node U))) (i : nat) : option (node U) := nth i ns None.

Definition vitem (ns : list (option (node U))) (vals : list (value U)) (x : item) : arg U :=
  match x with
  | INode i => match vnode ns i with Some n => ANode n | None => AData GNil end
  | IVal i => match nth_error vals i with Some v => AVal v | None => AData GNil end
  | IData g => AData g
  | IDyn f => ADyn f
  | IKey k => AKey k
  end.

Definition some1 (r : node U * U) : outcome (option (node U) * U) := let '(n, u) := r in Done (Some n, u).
Definition group1 (r : outcome (node U)) (u : U) : outcome (option (node U) * U) :=
  match r with Done n => Done (Some n, u) | Panic => Panic end.

(** One constructor call: the functions of Build.v. *)
Definition vmake (p : bool) (c : kcall) (ns : list (option (node U))) (vals : list (value U)) (u : U)
  : outcome (option (node U) * U) :=
  let args := map (vitem ns vals) in
  let mems := map (vnode ns) in
  match c with
  | KText xs => some1 (Text (args xs) u)
  | KComment xs => some1 (Comment (args xs) u)
  | KFragment xs => some1 (Fragment (args xs) u)
  | KPI name xs => some1 (PI name (args xs) u)
  | KDocType => some1 (DocType u)
  | KAttribute name xs => Attribute p name (args xs) u
  | KNewAttribute name xs => some1 (NewAttribute name (args xs) u)
  | KBoolean name => BooleanAttribute p name u
  | KNewBoolean name => Done (Some (NewBooleanAttribute name), u)
  | KDelimited name d xs => DelimitedAttribute p name d (args xs) u
  | KNewDelimited name d xs => some1 (NewDelimitedAttribute name d (args xs) u)
  | KElement name xs => Element p name (args xs) u
  | KVoidElement name xs => VoidElement p name (args xs) u
  | KNewElement name xs => some1 (NewElement name (args xs) u)
  | KNewVoidElement name xs => some1 (NewVoidElement name (args xs) u)
  | KCollection is => Done (Some (Collection (mems is)), u)
  | KConditional f is => group1 (Conditional f (mems is)) u
  | KWhen key is => group1 (When key (mems is)) u
  | KIterate f is => group1 (Iterate f (mems is)) u
  | KIterateKey key is => group1 (IterateKey key (mems is)) u
  | KIterateYield f is => group1 (IterateYield f (mems is)) u
  | KContentCollect f => Done (Some (ContentCollect f), u)
  | KImperative f => Done (Some (Imperative f), u)
  | KDocument lang head body => some1 (Document (vitem ns vals lang) (args head) (args body) u)
  | KStyleProp property xs => some1 (style_attribute property (args xs) u)
  end.

Definition vcmd (p : bool) (E : env) (c : cmd) (s : vstate) (w : world U) : outcome (vstate * world U) :=
  let '(VState ns vals out) := s in
  match c with
  | Make k =>
      match vmake p k ns vals (w_u w) with
      | Done (n, u') => Done (VState (ns ++ [n]) vals out, with_user w u')
      | Panic => Panic
      end
  | MakeValue x => let '(v, u') := NewValue (vitem ns vals x) (w_u w) in Done (VState ns (vals ++ [v]) out, with_user w u')
  | MakeConcat xs => let '(v, u') := NewConcatValue (map (vitem ns vals) xs) (w_u w) in Done (VState ns (vals ++ [v]) out, with_user w u')
  | RenderNode i fr e =>
      match vnode ns i with
      | Some n => let '(r, w') := run E (render n fr e) w in Done (VState ns vals (out ++ [r]), w')
      | None => Panic
      end
  end.
Fixpoint vprog (p : bool) (E : env) (cs : list cmd) (s : vstate) (w : world U) : outcome (vstate * world U) :=
  match cs with
  | [] => Done (s, w)
  | c :: cs' => match vcmd p E c s w with Done (s', w') => vprog p E cs' s' w' | Panic => Panic end
  end.

(** ** Programs that use attributes once *)

Definition item_uses (x : item) : list nat := match x with INode i => [i] | _ => [] end.
(** The nodes that are passed to a constructor, one entry for each time. *)
Definition call_uses (c : kcall) : list nat :=
  match c with
  | KText xs | KComment xs | KFragment xs | KPI _ xs | KAttribute _ xs | KNewAttribute _ xs
  | KDelimited _ _ xs | KNewDelimited _ _ xs | KElement _ xs | KVoidElement _ xs | KNewElement _ xs | KNewVoidElement _ xs | KStyleProp _ xs =>
      flat_map item_uses xs
  | KCollection is | KConditional _ is | KWhen _ is | KIterate _ is | KIterateKey _ is | KIterateYield _ is => is
  | KDocument lang head body => item_uses lang ++ flat_map item_uses head ++ flat_map item_uses body
  | KDocType | KBoolean _ | KNewBoolean _ | KContentCollect _ | KImperative _ => []
  end.
Definition uses (c : cmd) : list nat :=
  match c with
  | Make k => call_uses k
  | MakeValue x => item_uses x
  | MakeConcat xs => flat_map item_uses xs
  | RenderNode _ _ _ => []
  end.

(** Does the node carry an attribute that an element would take? *)
Fixpoint bears (n : node U) : bool :=
  match n with
  | NAttr _ => true
  | NCollection ns => existsb bears ns
  | NConditional _ attrs ns => match attrs with [] => existsb bears ns | _ => true end
  | _ => false
  end.

(** Every node that carries attributes is passed on once at most ([us] are the
    nodes passed on so far), and what is rendered is no attribute. *)
Fixpoint lone (p : bool) (E : env) (cs : list cmd) (us : list nat) (s : vstate) (w : world U) : Prop :=
  match cs with
  | [] => True
  | c :: cs' =>
      (forall i n, In i (uses c) -> vnode (v_nodes s) i = Some n -> bears n = true ->
         ~ In i us /\ count_occ Nat.eq_dec (uses c) i <= 1) /\
      match c with RenderNode i _ _ => forall n, vnode (v_nodes s) i = Some n -> is_attr n = false | _ => True end /\
      match vcmd p E c s w with Done (s', w') => lone p E cs' (us ++ uses c) s' w' | Panic => True end
  end.

End ProgramValues.
