(** Specification of an element's attributes: what is declared, in terms of
    the content passed to the constructor. *)
From Verif Require Import Bytes IO Nodes.

Section Spec.
Context {W : UserWorld}.

(** The unconditional declarations: attributes among the content, looking
    inside collections. *)
Fixpoint static_decls (n : node U) : list (attr U) :=
  match n with
  | NAttr a => [a]
  | NCollection ns => flat_map static_decls ns
  | _ => []
  end.

(** The conditional declarations, each with the conditions that enclose it,
    outermost first.  [chain] are the conditions around [n].  The attributes
    directly inside a conditional come before those in its other nodes. *)
Fixpoint cond_decls (chain : list (condfn U)) (n : node U) : list (attr U * list (condfn U)) :=
  match n with
  | NAttr a => match chain with [] => [] | _ => [(a, chain)] end
  | NCollection ns => flat_map (cond_decls chain) ns
  | NConditional fn attrs ns =>
      map (fun a => (a, chain ++ [fn])) attrs ++ flat_map (cond_decls (chain ++ [fn])) ns
  | _ => []
  end.

(** All declarations of one name. *)
Definition declared (n : bytes) (ds : list (attr U)) : list (attr U) :=
  filter (fun a => beq (attr_name a) n) ds.

(** Names in the order in which they are first declared. *)
Definition names_of (ds : list (attr U)) : list bytes :=
  rev (nodup bytes_dec (rev (map (@attr_name U) ds))).

Definition is_delim (a : attr U) : bool := match a with ADelim _ _ _ => true | _ => false end.
Definition vals (a : attr U) : list (value U) :=
  match a with APlain _ vs | ADelim _ _ vs => vs | ABool _ => [] end.

(** The longest final run of delimited attributes. *)
Fixpoint while_delim (l : list (attr U)) : list (attr U) :=
  match l with
  | a :: l' => if is_delim a then a :: while_delim l' else []
  | [] => []
  end.
Definition final_delims (ds : list (attr U)) : list (attr U) := rev (while_delim (rev ds)).

(** What a name declared (unconditionally) as [ds] amounts to: the last
    declaration if that is not delimited; otherwise the final run of delimited
    declarations merged into one, with the first one's delimiter. *)
Definition effective (ds : list (attr U)) : option (attr U) :=
  match final_delims ds with
  | [] => match rev ds with a :: _ => Some a | [] => None end
  | ADelim n d _ :: _ => Some (ADelim n d (flat_map vals (final_delims ds)))
  | _ => None
  end.

(** What a name amounts to when [st] is its unconditional attribute, if any,
    and [act] its conditional declarations whose conditions hold: a delimited
    attribute gets the further values; otherwise the last declaration counts.
    Without an unconditional attribute the first of [act] takes that role. *)
Definition resolve (st : option (attr U)) (act : list (attr U)) : option (attr U) :=
  match st, act with
  | Some (ADelim n d vs), _ => Some (ADelim n d (vs ++ flat_map vals act))
  | None, ADelim n d vs :: more => Some (ADelim n d (vs ++ flat_map vals more))
  | _, _ => match rev act with a :: _ => Some a | [] => st end
  end.

Definition oapp {X} (o : option X) : list X := match o with Some x => [x] | None => [] end.

(** The attributes of a tag: static declarations [ds], active conditional
    declarations [act], one attribute per name. *)
Definition tag_spec (ds act : list (attr U)) : list (attr U) :=
  flat_map (fun n => oapp (resolve (effective (declared n ds)) (declared n act)))
    (names_of (ds ++ act)).

(** Number of conditionals at the top of [n], looking inside collections. *)
Fixpoint conds_in (n : node U) : nat :=
  match n with
  | NCollection ns => list_sum (map conds_in ns)
  | NConditional _ _ _ => 1
  | _ => 0
  end.
(** Depth to which conditionals are nested in [n]. *)
Fixpoint cond_depth (n : node U) : nat :=
  match n with
  | NCollection ns => list_max (map cond_depth ns)
  | NConditional _ _ ns => S (list_max (map cond_depth ns))
  | _ => 0
  end.

End Spec.
