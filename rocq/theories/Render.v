(** Model of the [Render] methods: element.go, conditional.go, collection.go,
    comment.go, fragment.go, text.go, pi.go, imperative.go, iterate.go,
    html/document.go.

    [render n fr err] renders [n] with a context whose Data, Cargo and Parent
    are [fr] and whose Error is [err]; the result is the pair (error returned
    by Render, ctx.Error afterwards). *)
From Verif Require Import Bytes IO Escape Nodes Values.

Section Render.
Context {W : UserWorld}.

(** ** Conditional attributes (conditional.go 21-41) *)

(** conditional.go 21-28: all conditions, left to right, stopping at the first
    false one. *)
Fixpoint conds_eval (fr : frame U) (err : option error) (cs : list (condfn U))
  : io U bool :=
  match cs with
  | [] => Ret true
  | f :: cs' =>
      Cb (fun u => let '(b, u') := f (view fr err) u in
                   ((if b then conds_eval fr err cs' else Ret false), u'))
  end.

(** conditional.go 32-41: the active attributes, in order.  The Go code stores
    them in a map from name to the list of active attributes of that name;
    that map is recovered by [ev_names] and [ev_get]. *)
Fixpoint active_attrs (fr : frame U) (err : option error)
  (cas : list (attr U * list (condfn U))) : io U (list (attr U)) :=
  match cas with
  | [] => Ret []
  | (a, cs) :: cas' =>
      b <- conds_eval fr err cs ;;
      l <- active_attrs fr err cas' ;;
      Ret (if b then a :: l else l)
  end.

(** Keys of the map [evaluated]. *)
Fixpoint ev_names (l : list (attr U)) : list bytes :=
  match l with
  | [] => []
  | a :: l' =>
      attr_name a :: filter (fun n => negb (beq n (attr_name a))) (ev_names l')
  end.

(** [evaluated[name]]. *)
Definition ev_get (l : list (attr U)) (name : bytes) : list (attr U) :=
  filter (fun a => beq (attr_name a) name) l.

(** element.go 20-24, 42-46: values of those that are [valuesNode]s. *)
Definition all_values (l : list (attr U)) : list (value U) :=
  flat_map (fun a => match attr_values a with Some vs => vs | None => [] end) l.

(** [attIndices[name]]. *)
Fixpoint idx_get (idx : list (bytes * nat)) (name : bytes) : option nat :=
  match idx with
  | [] => None
  | (n, i) :: idx' => if beq n name then Some i else idx_get idx' name
  end.

(** element.go 14-28: the attribute rendered for a name that has the static
    attribute [at] and the non-empty list [es] of active conditional ones. *)
Definition resolve_static (at_ : attr U) (es : list (attr U)) : attr U :=
  match at_ with
  | ADelim name delim vs => ADelim name delim (vs ++ all_values es)
  | _ => last es at_
  end.

(** element.go 35-50: the same for a name with active attributes only.  *)
Definition resolve_dynamic (first : attr U) (rest : list (attr U)) : attr U :=
  match first with
  | ADelim name delim vs => ADelim name delim (vs ++ all_values rest)
  | _ => last rest first
  end.

(** element.go 11-32: the loop over attIndices.  An index outside the list of
    attributes would be a Go panic; elements built by the constructors have
    none, and the model skips the name. *)
Fixpoint static_loop (fr : frame U) (attrs : list (attr U)) (idx : list (bytes * nat))
  (ev : list (attr U)) (names : list bytes) (err : option error) : io U (option error) :=
  match names with
  | [] => Ret err
  | name :: names' =>
      e <- (match idx_get idx name with
            | Some i =>
                match nth_error attrs i with
                | Some at_ =>
                    match ev_get ev name with
                    | [] => attr_render fr at_ err
                    | es => attr_render fr (resolve_static at_ es) err
                    end
                | None => Ret err
                end
            | None => Ret err
            end) ;;
      static_loop fr attrs idx ev names' e
  end.

(** element.go 33-52: the loop over [evaluated]. *)
Fixpoint dynamic_loop (fr : frame U) (idx : list (bytes * nat))
  (ev : list (attr U)) (names : list bytes) (err : option error) : io U (option error) :=
  match names with
  | [] => Ret err
  | name :: names' =>
      e <- (match idx_get idx name with
            | Some _ => Ret err
            | None =>
                match ev_get ev name with
                | [] => Ret err
                | first :: rest => attr_render fr (resolve_dynamic first rest) err
                end
            end) ;;
      dynamic_loop fr idx ev names' e
  end.

(** element.go 56-58. *)
Fixpoint attrs_render (fr : frame U) (attrs : list (attr U)) (err : option error)
  : io U (option error) :=
  match attrs with
  | [] => Ret err
  | a :: attrs' => e <- attr_render fr a err ;; attrs_render fr attrs' e
  end.

(** element.go 7-59: [renderAttributes].  ([len(conditionals) > 0] is not
    tested separately: evaluating no conditionals gives an empty map.) *)
Definition render_attributes (fr : frame U) (attrs : list (attr U))
  (idx : list (bytes * nat)) (conds : list (attr U * list (condfn U)))
  (err : option error) : io U (option error) :=
  ev <- active_attrs fr err conds ;;
  match ev with
  | [] => attrs_render fr attrs err
  | _ =>
      Pick (map fst idx) (fun names =>
      e <- static_loop fr attrs idx ev names err ;;
      Pick (ev_names ev) (fun names =>
      dynamic_loop fr idx ev names e))
  end.

(** ** Imperative tags (imperative.go 78-155) *)

(** imperative.go 104-112: values of the first delimited attribute of a name,
    with delimiters between them. *)
Fixpoint interpose (delim : bytes) (vs : list (value U)) : list (value U) :=
  match vs with
  | [] => []
  | v :: vs' =>
      match vs' with
      | [] => [v]
      | _ => v :: Val delim None [] :: interpose delim vs'
      end
  end.

(** imperative.go 88-95: appending further delimited values. *)
Fixpoint append_delim (delim : bytes) (avs vs : list (value U)) : list (value U) :=
  match vs with
  | [] => avs
  | v :: vs' =>
      append_delim delim
        ((match avs with [] => avs | _ => avs ++ [Val delim None []] end) ++ [v]) vs'
  end.

(** imperative.go 81-120: attNames and attValues after the loop, as one list
    of pairs; [None] is a nil entry of attValues. *)
Fixpoint upd_assoc {A} (l : list (bytes * A)) (name : bytes) (f : A -> A) : list (bytes * A) :=
  match l with
  | [] => []
  | (n, x) :: l' => if beq n name then (n, f x) :: l' else (n, x) :: upd_assoc l' name f
  end.

Definition start_add (acc : list (bytes * option (list (value U)))) (a : attr U)
  : list (bytes * option (list (value U))) :=
  if bmem (attr_name a) (map fst acc) then
    upd_assoc acc (attr_name a)
      (fun old =>
         match a with
         | ADelim _ delim vs =>
             match vs with
             | [] => old
             | _ => Some (append_delim delim
                            (match old with Some avs => avs | None => [] end) vs)
             end
         | APlain _ vs => Some vs
         | ABool _ => None
         end)
  else
    acc ++ [(attr_name a,
             match a with
             | ADelim _ delim vs => Some (interpose delim vs)
             | APlain _ vs => Some vs
             | ABool _ => None
             end)].

Fixpoint start_attrs (l : list (option (node U))) (acc : list (bytes * option (list (value U))))
  : list (bytes * option (list (value U))) :=
  match l with
  | [] => acc
  | Some (NAttr a) :: l' => start_attrs l' (start_add acc a)
  | _ :: l' => start_attrs l' acc
  end.

(** imperative.go 121-131. *)
Fixpoint start_render (fr : frame U) (l : list (bytes * option (list (value U))))
  (err : option error) : io U (option error) :=
  match l with
  | [] => Ret err
  | (name, vs) :: l' =>
      e <- ctx_write (B " ") err ;;
      e <- ctx_write name e ;;
      e <- (match vs with
            | None => Ret e
            | Some vs =>
                e <- ctx_write (B "=""") e ;;
                e <- values_render fr vs e ;;
                ctx_write (B """") e
            end) ;;
      start_render fr l' e
  end.

(** imperative.go 78-132: what [Start] writes. *)
Definition start_tag (fr : frame U) (name : bytes) (attrs : list (option (node U)))
  (err : option error) : io U (option error) :=
  e <- ctx_write (B "<") err ;;
  e <- ctx_write name e ;;
  e <- start_render fr (start_attrs attrs []) e ;;
  ctx_write (B ">") e.

(** element.go 136-138, imperative.go 141-143: a closing tag. *)
Definition close_tag (name : bytes) (err : option error) : io U (option error) :=
  e <- ctx_write (B "</") err ;;
  e <- ctx_write name e ;;
  ctx_write (B ">") e.

(** imperative.go 148-155; the stack is kept innermost first. *)
Fixpoint close_all (stack : list bytes) (err : option error) : io U (option error) :=
  match stack with
  | [] => Ret err
  | n :: s => e <- close_tag n err ;; close_all s e
  end.

(** ** Iteration (iterate.go 76-102, 145-167) *)

(** iterate.go 87-92 and 155-158: the inner Data, with [d] what it is for an
    item that is not a map. *)
Definition item_data (item : gval U) (d : option mref) : option mref :=
  match item with GMap m => Some m | _ => d end.

(** iterate.go 86-101.  [body] renders the nodes for one item until one
    returns an error; the state is ictx.Error.  The result is the returned
    error and the final ctx.Error ([oerr] is ctx.Error on entry). *)
Fixpoint iter_loop (body : frame U -> option error -> io U (option error * option error))
  (data : option mref) (parent : ctx U) (oerr : option error)
  (items : list (gval U)) (ierr : option error) : io U (option error * option error) :=
  match items with
  | [] => Ret (None, oerr)
  | item :: items' =>
      '(r, ierr') <- body (Frame (item_data item data) item (Some parent)) ierr ;;
      match r with
      | Some e => Ret (Some e, Some e)
      | None => iter_loop body data parent oerr items' ierr'
      end
  end.

(** iterate.go 154-166.  [data] is ictx.Data, which persists from one item to
    the next; [oerr] is ctx.Error, [ierr] ictx.Error. *)
Fixpoint yield_loop (body : frame U -> option error -> io U (option error * option error))
  (ofr : frame U) (data : option mref) (p : yprog U) (oerr ierr : option error)
  : io U (option error * option error) :=
  match p with
  | YRet => Ret (oerr, oerr)
  | YRead k =>
      Cb (fun u => let '(p', u') := k (view ofr oerr) u in
                   (yield_loop body ofr data p' oerr ierr, u'))
  | YYield item p' =>
      let data' := item_data item data in
      '(r, ierr') <- body (Frame data' item (Some (view ofr oerr))) ierr ;;
      yield_loop body ofr data' p'
        (match r with Some e => Some e | None => oerr end) ierr'
  end.

(** ** Loops over child nodes

    [r c e] renders child [c] with ctx.Error = [e]. *)

Definition renderer := node U -> option error -> io U (option error * option error).

(** element.go 132-134: [ctx.Error = n.Render(ctx)] for every child. *)
Definition each_assign (r : renderer) : list (node U) -> option error -> io U (option error) :=
  fix go ns e :=
  match ns with
  | [] => Ret e
  | c :: ns' => '(x, _) <- r c e ;; go ns' x
  end.

(** html/document.go 17-19: [_ = n.Render(ctx)] for every child. *)
Definition each_ignore (r : renderer) : list (node U) -> option error -> io U (option error) :=
  fix go ns e :=
  match ns with
  | [] => Ret e
  | c :: ns' => '(_, e') <- r c e ;; go ns' e'
  end.

(** conditional.go 45-49: as [each_assign], until one fails. *)
Definition each_until (r : renderer)
  : list (node U) -> option error -> io U (option error * option error) :=
  fix go ns e :=
  match ns with
  | [] => Ret (e, e)
  | c :: ns' =>
      '(x, _) <- r c e ;;
      match x with
      | None => go ns' None
      | Some x => Ret (Some x, Some x)
      end
  end.

(** collection.go 12-18: the same, leaving attributes out. *)
Definition each_content_until (r : renderer)
  : list (node U) -> option error -> io U (option error * option error) :=
  fix go ns e :=
  match ns with
  | [] => Ret (e, e)
  | c :: ns' =>
      if is_attr c then go ns' e
      else '(x, _) <- r c e ;;
           match x with
           | None => go ns' None
           | Some x => Ret (Some x, Some x)
           end
  end.

(** collection.go 48-52, imperative.go 71-75: content nodes that may be nil,
    results ignored. *)
Definition each_content_ignore (r : renderer)
  : list (option (node U)) -> option error -> io U (option error) :=
  fix go ns e :=
  match ns with
  | [] => Ret e
  | None :: ns' => go ns' e
  | Some c :: ns' =>
      if is_attr c then go ns' e
      else '(_, e') <- r c e ;; go ns' e'
  end.

(** iterate.go 94-99, 160-164: the nodes for one item, until one returns an
    error; gives that error and the inner context's Error. *)
Definition each_item (r : renderer)
  : list (node U) -> option error -> io U (option error * option error) :=
  fix go ns e :=
  match ns with
  | [] => Ret (None, e)
  | c :: ns' =>
      '(x, e') <- r c e ;;
      match x with
      | None => go ns' e'
      | Some x => Ret (Some x, e')
      end
  end.

(** ** Nodes *)

Fixpoint render (n : node U) (fr : frame U) (err : option error) {struct n}
  : io U (option error * option error) :=
  match n with
  | NAttr a => e <- attr_render fr a err ;; Ret (e, e)
  | NElement name attrs idx conds contents =>                (* element.go 128-140 *)
      e <- ctx_write (B "<") err ;;
      e <- ctx_write name e ;;
      e <- render_attributes fr attrs idx conds e ;;
      e <- ctx_write (B ">") e ;;
      e <- each_assign (fun c e => render c fr e) contents e ;;
      e <- close_tag name e ;;
      Ret (e, e)
  | NVoid name attrs idx conds =>                            (* element.go 68-74 *)
      e <- ctx_write (B "<") err ;;
      e <- ctx_write name e ;;
      e <- render_attributes fr attrs idx conds e ;;
      e <- ctx_write (B ">") e ;;
      Ret (e, e)
  | NText vs | NFragment vs =>                  (* text.go 21-26, fragment.go 24-29 *)
      e <- values_render fr vs err ;; Ret (e, e)
  | NComment vs =>                                           (* comment.go 14-21 *)
      e <- ctx_write (B "<!--") err ;;
      e <- values_render fr vs e ;;
      e <- ctx_write (B "-->") e ;;
      Ret (e, e)
  | NPI name vs =>                                           (* pi.go 15-24 *)
      e <- ctx_write (B "<!") err ;;
      e <- ctx_write name e ;;
      e <- ctx_write (B " ") e ;;
      e <- values_render fr vs e ;;
      e <- ctx_write (">"%char :: "010"%char :: nil) e ;;
      Ret (e, e)
  | NCollection ns =>                                        (* collection.go 11-20 *)
      each_content_until (fun c e => render c fr e) ns err
  | NConditional fn _ ns =>                                  (* conditional.go 43-52 *)
      Cb (fun u =>
            let '(b, u') := fn (view fr err) u in
            ((if b then each_until (fun c e => render c fr e) ns err else Ret (err, err)), u'))
  | NCollect f =>                                            (* collection.go 47-54 *)
      Cb (fun u =>
            let '(ns, u') := f (view fr err) u in
            (e <- each_content_ignore (fun c e => render c fr e) ns err ;; Ret (e, e), u'))
  | NImper None => Ret (None, err)                           (* imperative.go 38-43 *)
  | NImper (Some p) => run_imper p fr [] err
  | NIter fn ns =>                                           (* iterate.go 76-102 *)
      match err with
      | Some _ => Ret (err, err)
      | None =>
          Cb (fun u =>
                let '(items, u') := fn (view fr err) u in
                (iter_loop (fun ifr => each_item (fun c e => render c ifr e) ns)
                   (f_data fr) (view fr err) err items err, u'))
      end
  | NYield p ns =>                                           (* iterate.go 145-167 *)
      match err with
      | Some _ => Ret (err, err)
      | None =>
          yield_loop (fun ifr => each_item (fun c e => render c ifr e) ns) fr None p err err
      end
  | NDocument prologue contents =>                           (* html/document.go 13-21 *)
      e <- (match prologue with
            | Some p => '(_, e) <- render p fr err ;; Ret e
            | None => Ret err
            end) ;;
      e <- each_ignore (fun c e => render c fr e) contents e ;;
      Ret (e, e)
  end

(** imperative.go 38-43, 62-155: the calls made by the user's function on its
    ImperativeContext.  [stack] is openedStack, innermost first. *)
with run_imper (p : iprog U) (fr : frame U) (stack : list bytes) (err : option error) {struct p}
  : io U (option error * option error) :=
  match p with
  | IRet e => Ret (e, err)
  | IRead k =>
      Cb (fun u => let '(p', u') := k (view fr err) u in (run_imper p' fr stack err, u'))
  | IWriteString s k =>                                      (* 62-64 *)
      e <- ctx_write (html_escape_string s) err ;; run_imper k fr stack e
  | IWriteRaw d k =>                                         (* 66-68 *)
      e <- ctx_write d err ;; run_imper k fr stack e
  | IWriteNodes ns k =>                                      (* 70-76 *)
      e <- each_content_ignore (fun c e => render c fr e) ns err ;;
      run_imper k fr stack e
  | IStart name isVoid attrs k =>                            (* 78-136 *)
      e <- start_tag fr name attrs err ;;
      run_imper k fr (if isVoid then stack else name :: stack) e
  | IEnd k =>                                                (* 138-146 *)
      match stack with
      | [] => run_imper k fr stack err
      | n :: s => e <- close_tag n err ;; run_imper k fr s e
      end
  | IEndAll k =>                                             (* 148-155 *)
      e <- close_all stack err ;; run_imper k fr [] e
  | IRender n None k =>                                      (* Context(), 58-60; Node.Render *)
      '(r, e) <- render n fr err ;; run_imper (k r e) fr stack e
  | IRender n (Some fr') k =>                                (* a new context, the same writer *)
      '(r, e) <- render n fr' None ;; run_imper (k r e) fr stack err
  | IDirect d k =>                                           (* ctx.Writer.Write *)
      Wr d (fun m e => run_imper (k m e) fr stack err)
  | ISetError e k => run_imper k fr stack e                  (* ctx.Error = e *)
  end.

End Render.
