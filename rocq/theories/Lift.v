(** The nodes of Nodes.v as nodes of Pointer.v: their callbacks look at the
    context they get a pointer to, and leave all contexts alone. *)
From Verif Require Import Bytes IO Nodes Values Render Slices Pointer.

Section Lift.
Context {W : UserWorld}.

(** The context at a pointer, with its ancestors.  A parent is older than its
    children, so following [S p] pointers is enough. *)
Fixpoint view_in (fuel : nat) (h : heap) (p : cref) : ctx U :=
  match fuel with
  | 0 => Ctx None None GNil None
  | S fuel' =>
      Ctx (o_err (obj h p)) (o_data (obj h p)) (o_cargo (obj h p))
          (option_map (view_in fuel' h) (o_parent (obj h p)))
  end.
Definition view_at (h : heap) (p : cref) : ctx U := view_in (S p) h p.

Definition ptr_of (c : ctx pstate) : cref := match c_data c with Some p => p | None => 0 end.

Definition lift_fn {A} (f : ctx U -> U -> A * U) : ctx pstate -> pstate -> A * pstate :=
  fun c s => let '(x, u') := f (view_at (snd s) (ptr_of c)) (fst s) in (x, (u', snd s)).

Fixpoint lift_value (v : value U) : value pstate :=
  let 'Val b d cs := v in Val b (option_map (fun f => lift_fn f) d) (map lift_value cs).
Definition lift_attr (a : attr U) : attr pstate :=
  match a with
  | APlain n vs => APlain n (map lift_value vs)
  | ABool n => ABool n
  | ADelim n d vs => ADelim n d (map lift_value vs)
  end.
Definition lift_cond (c : attr U * list (condfn U)) : attr pstate * list (condfn pstate) :=
  (lift_attr (fst c), map (fun f => lift_fn f) (snd c)).
Fixpoint lift_yield (y : yprog U) : pyprog :=
  match y with
  | YRet => PYRet
  | YYield item k => PYYield item (lift_yield k)
  | YRead k =>
      PYRead (fun c s => let '(y, u') := k (view_at (snd s) (ptr_of c)) (fst s) in (lift_yield y, (u', snd s)))
  end.

(** A new context with given fields and ancestors. *)
Fixpoint alloc_ctx (h : heap) (c : ctx U) : heap * cref :=
  let 'Ctx e d g par := c in
  match par with
  | None => (h ++ [CObj e d g None], length h)
  | Some c' => let '(h', q) := alloc_ctx h c' in (h' ++ [CObj e d g (Some q)], length h')
  end.

Fixpoint lift (n : node U) : pnode :=
  match n with
  | NAttr a => PAttr (lift_attr a)
  | NElement name attrs idx conds contents =>
      PElement name (map lift_attr attrs) idx (map lift_cond conds) (map lift contents)
  | NVoid name attrs idx conds => PVoid name (map lift_attr attrs) idx (map lift_cond conds)
  | NText vs | NFragment vs => PValues (map lift_value vs)
  | NComment vs => PComment (map lift_value vs)
  | NPI name vs => PPI name (map lift_value vs)
  | NCollection ns => PCollection (map lift ns)
  | NConditional fn _ ns => PConditional (lift_fn fn) (map lift ns)
  | NCollect f =>
      PCollect (fun c s => let '(ns, u') := f (view_at (snd s) (ptr_of c)) (fst s) in
                           (map (fun o => match o with Some n => Some (lift n) | None => None end) ns, (u', snd s)))
  | NImper None => PImper None
  | NImper (Some p) => PImper (Some (lift_prog p))
  | NIter fn ns => PIter (lift_fn fn) (map lift ns)
  | NYield fn ns => PYield (lift_yield fn) (map lift ns)
  | NDocument pr ns =>
      PDocument (match pr with Some n => Some (lift n) | None => None end) (map lift ns)
  end
with lift_prog (p : iprog U) : piprog :=
  match p with
  | IRet e => PIRet e
  | IRead k =>
      PIRead (fun c s => let '(p', u') := k (view_at (snd s) (ptr_of c)) (fst s) in (lift_prog p', (u', snd s)))
  | IWriteString s k => PIWriteString s (lift_prog k)
  | IWriteRaw d k => PIWriteRaw d (lift_prog k)
  | IWriteNodes ns k =>
      PIWriteNodes (map (fun o => match o with Some n => Some (lift n) | None => None end) ns) (lift_prog k)
  | IStart name v attrs k =>
      PIStart name v
        (flat_map (fun o => match o with Some (NAttr a) => [lift_attr a] | _ => [] end) attrs) (lift_prog k)
  | IEnd k => PIEnd (lift_prog k)
  | IEndAll k => PIEndAll (lift_prog k)
  | IRender n None k =>
      PIRender (lift n) None
        (fun r => PIRead (fun c s => (lift_prog (k r (o_err (obj (snd s) (ptr_of c)))), s)))
  | IRender n (Some fr) k =>
      PIRead (fun c s =>
        let '(h', q) := alloc_ctx (snd s) (view fr None) in
        (PIRender (lift n) (Some q) (fun r => PIRead (fun _ s => (lift_prog (k r (o_err (obj (snd s) q))), s))),
         (fst s, h')))
  | IDirect d k => PIDirect d (fun m e => lift_prog (k m e))
  | ISetError e k =>
      PIRead (fun c s => (lift_prog k, set_obj (ptr_of c) (with_err e (obj (snd s) (ptr_of c))) s))
  end.

End Lift.
