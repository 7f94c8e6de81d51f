(** Rendering with contexts as Go has them: objects behind pointers.

    Render.v passes the fields of a context along as values, so its callbacks
    cannot assign them.  Here contexts are objects in a heap, Render gets a
    pointer, and a callback may do anything to any context: assign Error, Data
    or Cargo, follow Parent, keep the pointer for later.  [PropPointer.v] proves
    that both agree when callbacks only read contexts.

    Left out: assigning Writer (there is one writer per render), and [func() any]
    and String methods that change contexts. *)
From Verif Require Import Bytes IO Escape Nodes Values Render Slices.

Section Pointer.
Context {W : UserWorld}.

(** A [*context.Context] that is not nil. *)
Definition cref := nat.
(** context.go 10-21. *)
Record cobj := CObj { o_err : option error; o_data : option mref; o_cargo : gval U; o_parent : option cref }.
Definition heap := list cobj.
(** What a callback can read and change. *)
Definition pstate : Type := U * heap.
Definition obj (h : heap) (p : cref) : cobj := nth p h (CObj None None GNil None).

(** Values, attributes and conditions are those of Nodes.v over this state; a
    callback gets the pointer in place of the fields. *)
Definition PW : UserWorld := {| Nodes.U := pstate; mget := fun _ _ _ => None |}.
Definition ptr (p : cref) : ctx pstate := Ctx None (Some p) GNil None.

(** The nodes, as in Nodes.v.  Text and Fragment are [PValues].  The attributes
    of [PIStart] are those of its arguments that are attributes.  A function given
    to Imperative assigns ctx.Error by [PIRead]; [PIRender] renders a node with
    its context or with another one. *)
Inductive pyprog :=
| PYRet
| PYYield (item : gval U) (k : pyprog)
| PYRead (k : ctx pstate -> pstate -> pyprog * pstate).
Inductive pnode :=
| PAttr (a : attr pstate)
| PElement (name : bytes) (attrs : list (attr pstate)) (idx : list (bytes * nat))
           (conds : list (attr pstate * list (condfn pstate))) (contents : list pnode)
| PVoid (name : bytes) (attrs : list (attr pstate)) (idx : list (bytes * nat))
        (conds : list (attr pstate * list (condfn pstate)))
| PValues (vs : list (value pstate))
| PComment (vs : list (value pstate))
| PPI (name : bytes) (vs : list (value pstate))
| PCollection (ns : list pnode)
| PConditional (fn : condfn pstate) (ns : list pnode)
| PCollect (f : ctx pstate -> pstate -> list (option pnode) * pstate)
| PImper (p : option piprog)
| PIter (fn : ctx pstate -> pstate -> list (gval U) * pstate) (ns : list pnode)
| PYield (fn : pyprog) (ns : list pnode)
| PDocument (prologue : option pnode) (contents : list pnode)
with piprog :=
| PIRet (e : option error)
| PIRead (k : ctx pstate -> pstate -> piprog * pstate)
| PIWriteString (s : bytes) (k : piprog)
| PIWriteRaw (d : bytes) (k : piprog)
| PIWriteNodes (ns : list (option pnode)) (k : piprog)
| PIStart (name : bytes) (isVoid : bool) (attrs : list (attr pstate)) (k : piprog)
| PIEnd (k : piprog)
| PIEndAll (k : piprog)
| PIRender (n : pnode) (q : option cref) (k : option error -> piprog)
| PIDirect (d : bytes) (k : nat -> option error -> piprog).
Definition is_pattr (n : pnode) : bool := match n with PAttr _ => true | _ => false end.

(** Reading and assigning fields of a context; calling a callback; [&context.Context{...}]. *)
Definition set_obj (p : cref) (o : cobj) (s : pstate) : pstate := (fst s, set_nth (snd s) p o).
Definition with_err (e : option error) (o : cobj) : cobj := CObj e (o_data o) (o_cargo o) (o_parent o).
Definition get (p : cref) : io pstate cobj := Cb (fun s => (Ret (obj (snd s) p), s)).
Definition put_err (p : cref) (e : option error) : io pstate unit :=
  Cb (fun s => (Ret tt, set_obj p (with_err e (obj (snd s) p)) s)).
Definition put_item (p : cref) (data : option mref) (item : gval U) : io pstate unit :=
  Cb (fun s => (Ret tt, set_obj p (CObj (o_err (obj (snd s) p)) data item (o_parent (obj (snd s) p))) s)).
Definition call {A} (f : ctx pstate -> pstate -> A * pstate) (p : cref) : io pstate A :=
  Cb (fun s => let '(x, s') := f (ptr p) s in (Ret x, s')).
Definition alloc (o : cobj) : io pstate cref := Cb (fun s => (Ret (length (snd s)), (fst s, snd s ++ [o]))).
(** [return ctx.Error] *)
Definition ret_err (p : cref) : io pstate (option error) := o <- get p ;; Ret (o_err o).

(** context.go 32-36. *)
Definition pwrite (p : cref) (d : bytes) : io pstate unit :=
  o <- get p ;;
  match o_err o with
  | None => Wr d (fun _ e => put_err p e)
  | Some _ => Ret tt
  end.
(** [l, ctx.Error = ctx.Writer.Write(d)]; gives [l > 0]. *)
Definition pwr (p : cref) (d : bytes) : io pstate bool :=
  Wr d (fun n e => _ <- put_err p e ;; Ret (0 <? n)).

(** value.go 35-51. *)
Fixpoint pvalue (p : cref) (v : value pstate) : io pstate (bool * option error) :=
  match v with
  | Val b (Some f) _ =>
      data <- call f p ;; w <- pwr p data ;; e <- ret_err p ;; Ret (w, e)
  | Val b None [] => w <- pwr p b ;; e <- ret_err p ;; Ret (w, e)
  | Val b None concats =>
      w <- (fix go (cs : list (value pstate)) (l : nat) : io pstate bool :=
              match cs with
              | [] => Ret (0 <? l)
              | c :: cs' =>
                  '(written, e) <- pvalue p c ;; _ <- put_err p e ;;
                  go cs' (if written then S l else l)
              end) concats 0 ;;
      e <- ret_err p ;; Ret (w, e)
  end.
Fixpoint pvalues (p : cref) (vs : list (value pstate)) : io pstate unit :=
  match vs with
  | [] => Ret tt
  | v :: vs' => _ <- pvalue p v ;; pvalues p vs'
  end.
(** attribute.go 112-118. *)
Fixpoint pdelim (p : cref) (delim : bytes) (vs : list (value pstate)) (something : bool) : io pstate unit :=
  match vs with
  | [] => Ret tt
  | v :: vs' =>
      _ <- (if something then pwrite p delim else Ret tt) ;;
      '(s, _) <- pvalue p v ;;
      pdelim p delim vs' s
  end.
(** attribute.go 15-24, 64-68, 108-121; the result of Render is [ret_err]. *)
Definition pattr (p : cref) (a : attr pstate) : io pstate unit :=
  _ <- pwrite p (B " ") ;;
  match a with
  | APlain name vs =>
      _ <- pwrite p name ;; _ <- pwrite p (B "=""") ;; _ <- pvalues p vs ;; pwrite p (B """")
  | ABool name => pwrite p name
  | ADelim name delim vs =>
      _ <- pwrite p name ;; _ <- pwrite p (B "=""") ;; _ <- pdelim p delim vs false ;; pwrite p (B """")
  end.

(** conditional.go 21-41. *)
Fixpoint pconds (p : cref) (cs : list (condfn pstate)) : io pstate bool :=
  match cs with
  | [] => Ret true
  | f :: cs' => b <- call f p ;; if (b : bool) then pconds p cs' else Ret false
  end.
Fixpoint pactive (p : cref) (cas : list (attr pstate * list (condfn pstate))) : io pstate (list (attr pstate)) :=
  match cas with
  | [] => Ret []
  | (a, cs) :: cas' =>
      b <- pconds p cs ;; l <- pactive p cas' ;; Ret (if b then a :: l else l)
  end.
(** element.go 7-59; which attribute is rendered for a name is decided as in
    Render.v. *)
Definition pchoose_static (attrs : list (attr pstate)) (idx : list (bytes * nat)) (ev : list (attr pstate))
  (name : bytes) : option (attr pstate) :=
  match @idx_get idx name with
  | Some i =>
      match nth_error attrs i with
      | Some at_ => Some (match @ev_get PW ev name with [] => at_ | es => @resolve_static PW at_ es end)
      | None => None
      end
  | None => None
  end.
Definition pchoose_dynamic (idx : list (bytes * nat)) (ev : list (attr pstate)) (name : bytes)
  : option (attr pstate) :=
  match @idx_get idx name with
  | Some _ => None
  | None => match @ev_get PW ev name with
            | [] => None
            | first :: rest => Some (@resolve_dynamic PW first rest)
            end
  end.
Fixpoint peach (p : cref) (choose : bytes -> option (attr pstate)) (names : list bytes) : io pstate unit :=
  match names with
  | [] => Ret tt
  | name :: names' =>
      _ <- (match choose name with Some a => pattr p a | None => Ret tt end) ;; peach p choose names'
  end.
Fixpoint pattrs (p : cref) (l : list (attr pstate)) : io pstate unit :=
  match l with [] => Ret tt | a :: l' => _ <- pattr p a ;; pattrs p l' end.
Definition pattributes (p : cref) (attrs : list (attr pstate)) (idx : list (bytes * nat))
  (conds : list (attr pstate * list (condfn pstate))) : io pstate unit :=
  ev <- pactive p conds ;;
  match ev with
  | [] => pattrs p attrs
  | _ =>
      Pick (map fst idx) (fun names =>
      _ <- peach p (pchoose_static attrs idx ev) names ;;
      Pick (@ev_names PW ev) (fun names => peach p (pchoose_dynamic idx ev) names))
  end.

(** imperative.go 78-155. *)
Fixpoint pstart_render (p : cref) (l : list (bytes * option (list (value pstate)))) : io pstate unit :=
  match l with
  | [] => Ret tt
  | (name, vs) :: l' =>
      _ <- pwrite p (B " ") ;;
      _ <- pwrite p name ;;
      _ <- (match vs with
            | None => Ret tt
            | Some vs => _ <- pwrite p (B "=""") ;; _ <- pvalues p vs ;; pwrite p (B """")
            end) ;;
      pstart_render p l'
  end.
Definition pstart (p : cref) (name : bytes) (attrs : list (attr pstate)) : io pstate unit :=
  _ <- pwrite p (B "<") ;;
  _ <- pwrite p name ;;
  _ <- pstart_render p (fold_left (@start_add PW) attrs []) ;;
  pwrite p (B ">").
Definition pclose (p : cref) (name : bytes) : io pstate unit :=
  _ <- pwrite p (B "</") ;; _ <- pwrite p name ;; pwrite p (B ">").
Fixpoint pclose_all (p : cref) (stack : list bytes) : io pstate unit :=
  match stack with
  | [] => Ret tt
  | n :: s => _ <- pclose p n ;; pclose_all p s
  end.

(** ** Loops over child nodes; [r c] renders child [c] *)

Definition prenderer := pnode -> io pstate (option error).

(** element.go 132-134: [ctx.Error = n.Render(ctx)]. *)
Definition peach_assign (p : cref) (r : prenderer) : list pnode -> io pstate unit :=
  fix go ns :=
  match ns with
  | [] => Ret tt
  | c :: ns' => x <- r c ;; _ <- put_err p x ;; go ns'
  end.
(** html/document.go 17-19. *)
Definition peach_ignore (r : prenderer) : list pnode -> io pstate unit :=
  fix go ns := match ns with [] => Ret tt | c :: ns' => _ <- r c ;; go ns' end.
(** conditional.go 45-49, collection.go 12-18 (attributes are left out there). *)
Definition peach_until (p : cref) (skip : pnode -> bool) (r : prenderer) : list pnode -> io pstate unit :=
  fix go ns :=
  match ns with
  | [] => Ret tt
  | c :: ns' =>
      if skip c then go ns'
      else x <- r c ;; _ <- put_err p x ;; match x with None => go ns' | Some _ => Ret tt end
  end.
(** collection.go 48-52, imperative.go 71-75. *)
Definition peach_content (r : prenderer) : list (option pnode) -> io pstate unit :=
  fix go ns :=
  match ns with
  | [] => Ret tt
  | None :: ns' => go ns'
  | Some c :: ns' => if is_pattr c then go ns' else _ <- r c ;; go ns'
  end.
(** iterate.go 94-99, 160-164. *)
Definition peach_item (r : prenderer) : list pnode -> io pstate (option error) :=
  fix go ns :=
  match ns with
  | [] => Ret None
  | c :: ns' => x <- r c ;; match x with None => go ns' | Some x => Ret (Some x) end
  end.

(** iterate.go 86-101; [q] is ictx. *)
Fixpoint piter (body : io pstate (option error)) (p q : cref) (items : list (gval U)) : io pstate (option error) :=
  match items with
  | [] => Ret None
  | item :: items' =>
      d <- (match item with GMap m => Ret (Some m) | _ => o <- get p ;; Ret (o_data o) end) ;;
      _ <- put_item q d item ;;
      x <- body ;;
      match x with
      | Some e => _ <- put_err p (Some e) ;; Ret (Some e)
      | None => piter body p q items'
      end
  end.
(** iterate.go 154-166. *)
Fixpoint pyield (body : io pstate (option error)) (p q : cref) (y : pyprog) : io pstate unit :=
  match y with
  | PYRet => Ret tt
  | PYRead k => Cb (fun s => let '(y', s') := k (ptr p) s in (pyield body p q y', s'))
  | PYYield item y' =>
      d <- (match item with GMap m => Ret (Some m) | _ => o <- get q ;; Ret (o_data o) end) ;;
      _ <- put_item q d item ;;
      x <- body ;;
      _ <- (match x with Some e => put_err p (Some e) | None => Ret tt end) ;;
      pyield body p q y'
  end.

(** The Render methods (lines as in Render.v). *)
Fixpoint prender (n : pnode) (p : cref) {struct n} : io pstate (option error) :=
  match n with
  | PAttr a => _ <- pattr p a ;; ret_err p
  | PElement name attrs idx conds contents =>
      _ <- pwrite p (B "<") ;;
      _ <- pwrite p name ;;
      _ <- pattributes p attrs idx conds ;;
      _ <- pwrite p (B ">") ;;
      _ <- peach_assign p (fun c => prender c p) contents ;;
      _ <- pclose p name ;;
      ret_err p
  | PVoid name attrs idx conds =>
      _ <- pwrite p (B "<") ;;
      _ <- pwrite p name ;;
      _ <- pattributes p attrs idx conds ;;
      _ <- pwrite p (B ">") ;;
      ret_err p
  | PValues vs => _ <- pvalues p vs ;; ret_err p
  | PComment vs =>
      _ <- pwrite p (B "<!--") ;; _ <- pvalues p vs ;; _ <- pwrite p (B "-->") ;; ret_err p
  | PPI name vs =>
      _ <- pwrite p (B "<!") ;;
      _ <- pwrite p name ;;
      _ <- pwrite p (B " ") ;;
      _ <- pvalues p vs ;;
      _ <- pwrite p (">"%char :: "010"%char :: nil) ;;
      ret_err p
  | PCollection ns => _ <- peach_until p is_pattr (fun c => prender c p) ns ;; ret_err p
  | PConditional fn ns =>
      b <- call fn p ;;
      _ <- (if (b : bool) then peach_until p (fun _ => false) (fun c => prender c p) ns else Ret tt) ;;
      ret_err p
  | PCollect f =>
      Cb (fun s => let '(ns, s') := f (ptr p) s in
                   (_ <- peach_content (fun c => prender c p) ns ;; ret_err p, s'))
  | PImper None => Ret None
  | PImper (Some g) => pimper g p []
  | PIter fn ns =>
      o <- get p ;;
      match o_err o with
      | Some e => Ret (Some e)
      | None =>
          items <- call fn p ;;
          match items with
          | [] => Ret None
          | _ =>
              o <- get p ;;
              q <- alloc (CObj (o_err o) None GNil (Some p)) ;;
              piter (peach_item (fun c => prender c q) ns) p q items
          end
      end
  | PYield fn ns =>
      o <- get p ;;
      match o_err o with
      | Some e => Ret (Some e)
      | None =>
          q <- alloc (CObj (o_err o) None GNil (Some p)) ;;
          _ <- pyield (peach_item (fun c => prender c q) ns) p q fn ;;
          ret_err p
      end
  | PDocument prologue contents =>
      _ <- (match prologue with Some c => _ <- prender c p ;; Ret tt | None => Ret tt end) ;;
      _ <- peach_ignore (fun c => prender c p) contents ;;
      ret_err p
  end
with pimper (g : piprog) (p : cref) (stack : list bytes) {struct g} : io pstate (option error) :=
  match g with
  | PIRet e => Ret e
  | PIRead k => Cb (fun s => let '(g', s') := k (ptr p) s in (pimper g' p stack, s'))
  | PIWriteString s k => _ <- pwrite p (html_escape_string s) ;; pimper k p stack
  | PIWriteRaw d k => _ <- pwrite p d ;; pimper k p stack
  | PIWriteNodes ns k => _ <- peach_content (fun c => prender c p) ns ;; pimper k p stack
  | PIStart name isVoid attrs k =>
      _ <- pstart p name attrs ;; pimper k p (if isVoid then stack else name :: stack)
  | PIEnd k =>
      match stack with
      | [] => pimper k p stack
      | n :: s => _ <- pclose p n ;; pimper k p s
      end
  | PIEndAll k => _ <- pclose_all p stack ;; pimper k p []
  | PIRender n q k =>
      r <- prender n (match q with Some q => q | None => p end) ;; pimper (k r) p stack
  | PIDirect d k => Wr d (fun m e => pimper (k m e) p stack)
  end.

End Pointer.
