(** Reference output: what a node is meant to put into the document, as plain
    byte strings, when nothing goes wrong with the writer.  There is no
    writer, no error and no partial write here: each node denotes a function
    from the state of the user's world to a byte string and the new state.
    Map iteration order is a parameter [o] ([t] counts the iterations). *)
From Verif Require Import Bytes IO Escape Nodes Values Render.

(** Joining the values of a delimited attribute: the delimiter goes after every
    non-empty value that is not the last. *)
Fixpoint djoin (delim : bytes) (ps : list bytes) : bytes :=
  match ps with
  | [] => []
  | p :: ps' =>
      p ++ (match p, ps' with
            | [], _ => []
            | _, [] => []
            | _, _ => delim
            end) ++ djoin delim ps'
  end.

Section Spec.
Context {W : UserWorld}.
Variable o : order.

(** State threading, in document order. *)
Definition St := (U * nat)%type.

Definition seqS {X} (f : X -> St -> bytes * St) : list X -> St -> bytes * St :=
  fix go l s :=
  match l with
  | [] => ([], s)
  | x :: l' => let '(b1, s1) := f x s in
               let '(b2, s2) := go l' s1 in (b1 ++ b2, s2)
  end.

Fixpoint mapS {X Y S} (f : X -> S -> Y * S) (l : list X) (s : S) : list Y * S :=
  match l with
  | [] => ([], s)
  | x :: l' => let '(y, s1) := f x s in
               let '(ys, s2) := mapS f l' s1 in (y :: ys, s2)
  end.

Definition liftU {Y} (f : U -> Y * U) (s : St) : Y * St :=
  let '(y, u') := f (fst s) in (y, (u', snd s)).

(** Values: a dynamic one is whatever its function returns now; a group is the
    concatenation of its members; otherwise the fixed bytes. *)
Fixpoint sval (fr : frame U) (v : value U) (u : U) : bytes * U :=
  match v with
  | Val b (Some f) _ => f (view fr None) u
  | Val b None [] => (b, u)
  | Val b None cs =>
      (fix go (cs : list (value U)) (u : U) : bytes * U :=
         match cs with
         | [] => ([], u)
         | c :: cs' => let '(b1, u1) := sval fr c u in
                       let '(b2, u2) := go cs' u1 in (b1 ++ b2, u2)
         end) cs u
  end.
Definition svals (fr : frame U) (vs : list (value U)) (u : U) : bytes * U :=
  let '(bs, u') := mapS (sval fr) vs u in (concat bs, u').

(** Attributes, each with its leading space. *)
Definition sattr (fr : frame U) (a : attr U) (u : U) : bytes * U :=
  match a with
  | APlain name vs =>
      let '(b, u') := svals fr vs u in (B " " ++ name ++ B "=""" ++ b ++ B """", u')
  | ABool name => (B " " ++ name, u)
  | ADelim name delim vs =>
      let '(bs, u') := mapS (sval fr) vs u in
      (B " " ++ name ++ B "=""" ++ djoin delim bs ++ B """", u')
  end.
Definition sattrs (fr : frame U) (l : list (attr U)) (u : U) : bytes * U :=
  let '(bs, u') := mapS (sattr fr) l u in (concat bs, u').

(** Does every condition hold?  (Evaluated left to right up to the first that
    does not.) *)
Fixpoint sconds (fr : frame U) (cs : list (condfn U)) (u : U) : bool * U :=
  match cs with
  | [] => (true, u)
  | f :: cs' => let '(b, u') := f (view fr None) u in
                if b then sconds fr cs' u' else (false, u')
  end.
Definition sactive (fr : frame U) (cas : list (attr U * list (condfn U))) (u : U)
  : list (attr U) * U :=
  let '(l, u') := mapS (fun ca u => let '(b, u') := sconds fr (snd ca) u in
                                    ((if b then [fst ca] else []), u')) cas u in
  (concat l, u').

(** The attribute shown for [name], given the element's static attributes and
    the active conditional ones. *)
Definition static_of (attrs : list (attr U)) (name : bytes) : option (attr U) :=
  find (fun a => beq (attr_name a) name) attrs.
Definition shown (attrs active : list (attr U)) (name : bytes) : list (attr U) :=
  match static_of attrs name, ev_get active name with
  | Some a, [] => [a]
  | Some a, es => [resolve_static a es]
  | None, [] => []
  | None, f :: r => [resolve_dynamic f r]
  end.

Definition is_static (attrs : list (attr U)) (name : bytes) : bool :=
  match static_of attrs name with Some _ => true | None => false end.

(** The attributes of an opening tag in the order they are written. *)
Definition tag_attrs (fr : frame U) (attrs : list (attr U))
  (conds : list (attr U * list (condfn U))) (s : St) : list (attr U) * St :=
  let '(active, u') := sactive fr conds (fst s) in
  match active with
  | [] => (attrs, (u', snd s))
  | _ =>
      (flat_map (shown attrs active) (o (snd s) (map (@attr_name U) attrs)) ++
       flat_map (shown attrs active)
         (filter (fun n => negb (is_static attrs n)) (o (S (snd s)) (ev_names active))),
       (u', S (S (snd s))))
  end.
Definition stag (fr : frame U) (name : bytes) (attrs : list (attr U))
  (conds : list (attr U * list (condfn U))) (s : St) : bytes * St :=
  let '(l, s1) := tag_attrs fr attrs conds s in
  let '(b, s2) := liftU (sattrs fr l) s1 in
  (B "<" ++ name ++ b ++ B ">", s2).

Definition endtag (name : bytes) : bytes := B "</" ++ name ++ B ">".

(** Opening tag of an imperative Start. *)
Definition sstart_attr (fr : frame U) (p : bytes * option (list (value U))) (u : U) : bytes * U :=
  match snd p with
  | None => (B " " ++ fst p, u)
  | Some vs => sattr fr (APlain (fst p) vs) u
  end.
Definition sstart (fr : frame U) (name : bytes) (attrs : list (option (node U))) (u : U)
  : bytes * U :=
  let '(bs, u') := mapS (sstart_attr fr) (start_attrs attrs []) u in
  (B "<" ++ name ++ concat bs ++ B ">", u').

(** Iteration: the body once per item. *)
Fixpoint siter (body : frame U -> St -> bytes * St) (fr : frame U) (items : list (gval U)) (s : St)
  : bytes * St :=
  match items with
  | [] => ([], s)
  | it :: items' =>
      let '(b1, s1) := body (Frame (item_data it (f_data fr)) it (Some (view fr None))) s in
      let '(b2, s2) := siter body fr items' s1 in (b1 ++ b2, s2)
  end.
Fixpoint syield (body : frame U -> St -> bytes * St) (fr : frame U) (data : option mref)
  (p : yprog U) (s : St) : bytes * St :=
  match p with
  | YRet => ([], s)
  | YRead k => let '(p', u') := k (view fr None) (fst s) in
               syield body fr data p' (u', snd s)
  | YYield it p' =>
      let data' := item_data it data in
      let '(b1, s1) := body (Frame data' it (Some (view fr None))) s in
      let '(b2, s2) := syield body fr data' p' s1 in (b1 ++ b2, s2)
  end.

Fixpoint snode (n : node U) (fr : frame U) (s : St) {struct n} : bytes * St :=
  match n with
  | NAttr a => liftU (sattr fr a) s
  | NElement name attrs _ conds contents =>
      let '(b1, s1) := stag fr name attrs conds s in
      let '(b2, s2) := seqS (fun c s => snode c fr s) contents s1 in
      (b1 ++ b2 ++ endtag name, s2)
  | NVoid name attrs _ conds => stag fr name attrs conds s
  | NText vs | NFragment vs => liftU (svals fr vs) s
  | NComment vs =>
      let '(b, s1) := liftU (svals fr vs) s in (B "<!--" ++ b ++ B "-->", s1)
  | NPI name vs =>
      let '(b, s1) := liftU (svals fr vs) s in
      (B "<!" ++ name ++ B " " ++ b ++ [">"%char; "010"%char], s1)
  | NCollection ns =>
      seqS (fun c s => if is_attr c then ([], s) else snode c fr s) ns s
  | NConditional fn _ ns =>
      let '(b, s1) := liftU (fn (view fr None)) s in
      if b then seqS (fun c s => snode c fr s) ns s1 else ([], s1)
  | NCollect f =>
      let '(ns, u1) := f (view fr None) (fst s) in
      seqS (fun c s => match c with
                       | Some c => if is_attr c then ([], s) else snode c fr s
                       | None => ([], s)
                       end) ns (u1, snd s)
  | NImper None => ([], s)
  | NImper (Some p) => simper p fr [] s
  | NIter fn ns =>
      let '(items, s1) := liftU (fn (view fr None)) s in
      siter (fun ifr s => seqS (fun c s => snode c ifr s) ns s) fr items s1
  | NYield p ns =>
      syield (fun ifr s => seqS (fun c s => snode c ifr s) ns s) fr None p s
  | NDocument pr ns =>
      let '(b1, s1) := match pr with Some p => snode p fr s | None => ([], s) end in
      let '(b2, s2) := seqS (fun c s => snode c fr s) ns s1 in
      (b1 ++ b2, s2)
  end
with simper (p : iprog U) (fr : frame U) (stack : list bytes) (s : St) {struct p} : bytes * St :=
  match p with
  | IRet _ => ([], s)
  | IRead k => let '(p', u') := k (view fr None) (fst s) in simper p' fr stack (u', snd s)
  | IWriteString x k =>
      let '(b, s1) := simper k fr stack s in (html_escape_string x ++ b, s1)
  | IWriteRaw x k => let '(b, s1) := simper k fr stack s in (x ++ b, s1)
  | IWriteNodes ns k =>
      let '(b1, s1) := seqS (fun c s => match c with
                       | Some c => if is_attr c then ([], s) else snode c fr s
                       | None => ([], s)
                       end) ns s in
      let '(b2, s2) := simper k fr stack s1 in (b1 ++ b2, s2)
  | IStart name isVoid attrs k =>
      let '(b1, s1) := liftU (sstart fr name attrs) s in
      let '(b2, s2) := simper k fr (if isVoid then stack else name :: stack) s1 in
      (b1 ++ b2, s2)
  | IEnd k =>
      match stack with
      | [] => simper k fr [] s
      | n :: st => let '(b, s1) := simper k fr st s in (endtag n ++ b, s1)
      end
  | IEndAll k =>
      let '(b, s1) := simper k fr [] s in (concat (map endtag stack) ++ b, s1)
  | IRender n inner k =>
      let '(b1, s1) := snode n (match inner with Some fr' => fr' | None => fr end) s in
      let '(b2, s2) := simper (k None None) fr stack s1 in (b1 ++ b2, s2)
  | IDirect d k => let '(b, s1) := simper (k (length d) None) fr stack s in (d ++ b, s1)
  | ISetError _ k => simper k fr stack s
  end.

(** [P] holds of every member of a list. *)
Definition all {X} (P : X -> Prop) (l : list X) : Prop :=
  fold_right (fun x Q => P x /\ Q) True l.
Definition opt {X} (P : X -> Prop) (o : option X) : Prop :=
  match o with Some x => P x | None => True end.

(** No Imperative function in the template returns an error of its own: run
    with contexts whose Error is nil, it returns nil. *)
Fixpoint quiet (n : node U) : Prop :=
  match n with
  | NElement _ _ _ _ ns | NCollection ns | NConditional _ _ ns | NIter _ ns | NYield _ ns =>
      all quiet ns
  | NCollect f =>
      forall c u, c_error c = None -> all (opt quiet) (fst (f c u))
  | NImper (Some p) => quiet_prog p
  | NDocument pr ns =>
      opt quiet pr /\
      all quiet ns
  | _ => True
  end
with quiet_prog (p : iprog U) : Prop :=
  match p with
  | IRet e => e = None
  | IRead k => forall c u, c_error c = None -> quiet_prog (fst (k c u))
  | IWriteString _ k | IWriteRaw _ k | IStart _ _ _ k | IEnd k | IEndAll k => quiet_prog k
  | IWriteNodes ns k => all (opt quiet) ns /\ quiet_prog k
  | IRender n _ k => quiet n /\ quiet_prog (k None None)
  | IDirect d k => quiet_prog (k (length d) None)
  | ISetError e k => e = None /\ quiet_prog k
  end.

(** The attribute table of an element lists each static attribute once, at its
    own index (what the constructors establish). *)
Definition table_ok (attrs : list (attr U)) (idx : list (bytes * nat)) : Prop :=
  idx = combine (map (@attr_name U) attrs) (seq 0 (length attrs)) /\
  NoDup (map (@attr_name U) attrs).

Fixpoint tables_ok (n : node U) : Prop :=
  match n with
  | NElement _ attrs idx _ ns =>
      table_ok attrs idx /\
      all tables_ok ns
  | NVoid _ attrs idx _ => table_ok attrs idx
  | NCollection ns | NConditional _ _ ns | NIter _ ns | NYield _ ns =>
      all tables_ok ns
  | NCollect f =>
      forall c u, all (opt tables_ok) (fst (f c u))
  | NImper (Some p) => tables_ok_prog p
  | NDocument pr ns =>
      opt tables_ok pr /\
      all tables_ok ns
  | _ => True
  end
with tables_ok_prog (p : iprog U) : Prop :=
  match p with
  | IRet _ => True
  | IRead k => forall c u, tables_ok_prog (fst (k c u))
  | IWriteString _ k | IWriteRaw _ k | IStart _ _ _ k | IEnd k | IEndAll k => tables_ok_prog k
  | IWriteNodes ns k => all (opt tables_ok) ns /\ tables_ok_prog k
  | IRender n _ k => tables_ok n /\ forall r e, tables_ok_prog (k r e)
  | IDirect d k => forall m e, tables_ok_prog (k m e)
  | ISetError _ k => tables_ok_prog k
  end.

End Spec.
