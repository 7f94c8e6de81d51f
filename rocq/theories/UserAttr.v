(** Attributes of types that the user defines.

    [Node] (aitch.go 16-23) has only exported methods, so a user's type whose
    [Type] is AttributeNode is an attribute of a tag like the library's own
    (element.go 237, imperative.go 85).  It is not one of the types that
    element.go 15, 37, 89 and 90 and imperative.go 87 and 104 ask for, and it
    does not implement [valuesNode], whose method is not exported (value.go).

    This file models what the package does with such attributes in an opening
    tag.  How attributes are collected from the content of an element is as in
    [Build.v] (it asks for [Type()] only), so a tag is given here by its
    declarations: the unconditional ones, and the conditional ones with their
    conditions.  The list [attributes] and the map [attIndices] are one list
    here, with the position of a name looked up by name; that the two are kept
    in step is [add_attribute_step] (AttrFacts.v). *)
From Verif Require Import Bytes IO Nodes Values Render.

Section UserAttr.
Context {W : UserWorld}.

(** A library attribute, or one of the user's with its [Name] and its [Render]
    method, which is a program on the context as for a user's content node. *)
Inductive xattr : Type :=
| Own (a : attr U)
| Mine (name : bytes) (p : iprog U).

Definition x_name (x : xattr) : bytes :=
  match x with Own a => attr_name a | Mine n _ => n end.

(** [_ = attr.Render(ctx)] (element.go 27, 30, 50, 57): the result is ctx.Error
    afterwards; what Render returns is dropped. *)
Definition x_render (fr : frame U) (x : xattr) (err : option error) : io U (option error) :=
  match x with
  | Own a => attr_render fr a err
  | Mine _ p => '(_, e) <- run_imper p fr [] err ;; Ret e
  end.

(** element.go 88-96: a declaration meets an earlier one of the same name. *)
Definition x_merge (existing att : xattr) : xattr :=
  match existing, att with
  | Own (ADelim n d vs), Own (ADelim _ _ addVs) => Own (ADelim n d (vs ++ addVs))
  | _, _ => att
  end.

(** element.go 84-102, 150-168: [addAttributes]. *)
Fixpoint x_add1 (l : list xattr) (att : xattr) : list xattr :=
  match l with
  | [] => [att]
  | x :: l' => if beq (x_name x) (x_name att) then x_merge x att :: l' else x :: x_add1 l' att
  end.
Definition x_add (ds : list xattr) : list xattr := fold_left x_add1 ds [].

(** conditional.go 32-41: the conditional attributes that apply. *)
Fixpoint x_active (fr : frame U) (err : option error) (cas : list (xattr * list (condfn U)))
  : io U (list xattr) :=
  match cas with
  | [] => Ret []
  | (a, cs) :: cas' =>
      b <- conds_eval fr err cs ;;
      l <- x_active fr err cas' ;;
      Ret (if b then a :: l else l)
  end.

(** The keys of [evaluated], and its entries. *)
Fixpoint x_keys (l : list xattr) : list bytes :=
  match l with
  | [] => []
  | a :: l' => x_name a :: filter (fun n => negb (beq n (x_name a))) (x_keys l')
  end.
Definition x_get (l : list xattr) (name : bytes) : list xattr :=
  filter (fun a => beq (x_name a) name) l.

(** element.go 20-24, 42-46: [getValues] of those that have it. *)
Definition x_values (l : list xattr) : list (value U) :=
  flat_map (fun x => match x with
                     | Own a => match attr_values a with Some vs => vs | None => [] end
                     | Mine _ _ => []
                     end) l.

(** element.go 14-28 (with [more] all the conditional ones) and 36-51 (with
    [more] those after the first). *)
Definition x_resolve (at_ : xattr) (more : list xattr) : xattr :=
  match at_ with
  | Own (ADelim name delim vs) => Own (ADelim name delim (vs ++ x_values more))
  | _ => last more at_
  end.

Definition x_find (l : list xattr) (name : bytes) : option xattr :=
  find (fun a => beq (x_name a) name) l.

(** element.go 11-32. *)
Fixpoint x_static_loop (fr : frame U) (attrs ev : list xattr) (names : list bytes)
  (err : option error) : io U (option error) :=
  match names with
  | [] => Ret err
  | name :: names' =>
      e <- (match x_find attrs name with
            | Some at_ =>
                match x_get ev name with
                | [] => x_render fr at_ err
                | es => x_render fr (x_resolve at_ es) err
                end
            | None => Ret err
            end) ;;
      x_static_loop fr attrs ev names' e
  end.

(** element.go 33-52. *)
Fixpoint x_dynamic_loop (fr : frame U) (attrs ev : list xattr) (names : list bytes)
  (err : option error) : io U (option error) :=
  match names with
  | [] => Ret err
  | name :: names' =>
      e <- (match x_find attrs name, x_get ev name with
            | None, first :: rest => x_render fr (x_resolve first rest) err
            | _, _ => Ret err
            end) ;;
      x_dynamic_loop fr attrs ev names' e
  end.

(** element.go 56-58. *)
Fixpoint x_each (fr : frame U) (l : list xattr) (err : option error) : io U (option error) :=
  match l with
  | [] => Ret err
  | a :: l' => e <- x_render fr a err ;; x_each fr l' e
  end.

(** element.go 7-59: [renderAttributes] for the element whose unconditional
    declarations are [ds]. *)
Definition x_attributes (fr : frame U) (ds : list xattr) (conds : list (xattr * list (condfn U)))
  (err : option error) : io U (option error) :=
  let attrs := x_add ds in
  ev <- x_active fr err conds ;;
  match ev with
  | [] => x_each fr attrs err
  | _ =>
      Pick (map x_name attrs) (fun names =>
      e <- x_static_loop fr attrs ev names err ;;
      Pick (x_keys ev) (fun names =>
      x_dynamic_loop fr attrs ev names e))
  end.

(** element.go 69-72 and 129-132: the opening tag. *)
Definition x_tag (fr : frame U) (name : bytes) (ds : list xattr)
  (conds : list (xattr * list (condfn U))) (err : option error) : io U (option error) :=
  e <- ctx_write (B "<") err ;;
  e <- ctx_write name e ;;
  e <- x_attributes fr ds conds e ;;
  ctx_write (B ">") e.

(** imperative.go 81-120: one round of the loop of [Start]. *)
Definition x_start_add (acc : list (bytes * option (list (value U)))) (x : xattr)
  : list (bytes * option (list (value U))) :=
  if bmem (x_name x) (map fst acc) then
    upd_assoc acc (x_name x)
      (fun old =>
         match x with
         | Own (ADelim _ _ []) => old
         | Own (ADelim _ delim vs) =>
             Some (append_delim delim (match old with Some avs => avs | None => [] end) vs)
         | Own a => attr_values a
         | Mine _ _ => None
         end)
  else
    acc ++ [(x_name x,
             match x with
             | Own (ADelim _ delim vs) => Some (interpose delim vs)
             | Own a => attr_values a
             | Mine _ _ => None
             end)].

(** imperative.go 78-132: what [Start] writes. *)
Definition x_start (fr : frame U) (name : bytes) (l : list xattr) (err : option error)
  : io U (option error) :=
  e <- ctx_write (B "<") err ;;
  e <- ctx_write name e ;;
  e <- start_render fr (fold_left x_start_add l []) e ;;
  ctx_write (B ">") e.

(** ** Specification: what a tag shows *)

Definition x_delimited (x : xattr) : bool :=
  match x with Own (ADelim _ _ _) => true | _ => false end.

(** The longest final run of delimited declarations. *)
Fixpoint x_while (l : list xattr) : list xattr :=
  match l with
  | a :: l' => if x_delimited a then a :: x_while l' else []
  | [] => []
  end.

(** One name, declared unconditionally as [ds]: the last declaration if that is
    not delimited, and otherwise the final run of delimited ones as one. *)
Definition x_effective (ds : list xattr) : option xattr :=
  match rev (x_while (rev ds)) with
  | [] => hd_error (rev ds)
  | Own (ADelim n d _) :: _ => Some (Own (ADelim n d (x_values (rev (x_while (rev ds))))))
  | _ => None
  end.

(** The same name with, in addition, the conditional declarations [act] that
    apply.  Where the attribute there is delimited, the values of the further
    ones are added to it; a user's attribute has none. *)
Definition x_settled (st : option xattr) (act : list xattr) : option xattr :=
  match st, act with
  | Some (Own (ADelim n d vs)), _ => Some (Own (ADelim n d (vs ++ x_values act)))
  | None, Own (ADelim n d vs) :: more => Some (Own (ADelim n d (vs ++ x_values more)))
  | _, _ => match rev act with a :: _ => Some a | [] => st end
  end.

(** The names, each once, in the order of their first declaration. *)
Definition x_names_of (ds : list xattr) : list bytes :=
  rev (nodup bytes_dec (rev (map x_name ds))).

Definition x_spec (ds act : list xattr) : list xattr :=
  flat_map (fun n => match x_settled (x_effective (x_get ds n)) (x_get act n) with
                     | Some x => [x]
                     | None => []
                     end) (x_names_of (ds ++ act)).

(** The conditional declarations that apply, and the user's state after the
    conditions have been asked: left to right, each until the first [false]. *)
Fixpoint x_holds (v : ctx U) (cs : list (condfn U)) (u : U) : bool * U :=
  match cs with
  | [] => (true, u)
  | f :: cs' => let '(b, u') := f v u in if b then x_holds v cs' u' else (false, u')
  end.
Fixpoint x_applying (v : ctx U) (cas : list (xattr * list (condfn U))) (u : U)
  : list xattr * U :=
  match cas with
  | [] => ([], u)
  | (a, cs) :: cas' =>
      let '(b, u1) := x_holds v cs u in
      let '(l, u2) := x_applying v cas' u1 in
      ((if b then a :: l else l), u2)
  end.

End UserAttr.
