(** Model of value.go: conversion of data to bytes, construction and rendering
    of [Value]s; and of [Context.Write]. *)
From Coq Require Import ZArith Decimal DecimalN.
From Verif Require Import Bytes IO Escape Nodes.

(** [strconv.FormatUint(n, 10)] and [strconv.FormatInt(z, 10)] (library code):
    the decimal numeral. *)
Fixpoint uint_bytes (d : Decimal.uint) : bytes :=
  match d with
  | Decimal.Nil => []
  | Decimal.D0 d => "0"%char :: uint_bytes d
  | Decimal.D1 d => "1"%char :: uint_bytes d
  | Decimal.D2 d => "2"%char :: uint_bytes d
  | Decimal.D3 d => "3"%char :: uint_bytes d
  | Decimal.D4 d => "4"%char :: uint_bytes d
  | Decimal.D5 d => "5"%char :: uint_bytes d
  | Decimal.D6 d => "6"%char :: uint_bytes d
  | Decimal.D7 d => "7"%char :: uint_bytes d
  | Decimal.D8 d => "8"%char :: uint_bytes d
  | Decimal.D9 d => "9"%char :: uint_bytes d
  end.
Definition format_uint (n : N) : bytes := uint_bytes (N.to_uint n).
Definition format_int (z : Z) : bytes :=
  match z with
  | Z0 => format_uint 0
  | Zpos p => format_uint (Npos p)
  | Zneg p => "-"%char :: format_uint (Npos p)
  end.

Section Values.
Context {W : UserWorld}.

(** value.go 123-165: [valueToBytes].  The type switch, in order; nil, maps,
    slices and all other types fall through to [return nil]. *)
Fixpoint value_to_bytes (v : gval U) (u : U) : bytes * U :=
  match v with
  | GBool true => (B "true", u)
  | GBool false => (B "false", u)
  | GBytes b => (b, u)
  | GString s => (html_escape_string s, u)
  | GInt z => (format_int z, u)
  | GUint n => (format_uint n, u)
  | GFloat t => (t, u)
  | GStringer f => f u
  | GFunc f => let '(r, u') := f u in value_to_bytes r u'
  | GNil | GMap _ | GSlice _ _ | GOther _ => ([], u)
  end.

(** A read of [ctx.Data[key]] (reading a nil map finds nothing). *)
Definition data_get (c : ctx U) (key : bytes) (u : U) : option (gval U) :=
  match c_data c with
  | Some m => mget u m key
  | None => None
  end.

(** value.go 87-103: the closures made for a [DynamicValueKey].  The [ctx != nil]
    tests are always true when called from [Value.render]. *)
Definition key_fn (key : bytes) : dynfn U := fun c u =>
  if beq key (B ".") then value_to_bytes (c_cargo c) u
  else match data_get c key u with
       | Some dv => value_to_bytes dv u
       | None => ([], u)
       end.

(** value.go 104-117: [newValue] on a node.  Nodes with [getValues] (attribute,
    delimited attribute, text, comment, pi, fragment) give their values, a
    collection gives those of its members, any other node gives none. *)
Fixpoint node_values (n : node U) : list (value U) :=
  match n with
  | NAttr a => match attr_values a with Some vs => vs | None => [] end
  | NText vs | NComment vs | NPI _ vs | NFragment vs => vs
  | NCollection ns => flat_map node_values ns
  | _ => []
  end.

(** value.go 76-121: [newValue].  Static data is converted at construction
    time, when a [func() any] or a [String] method may touch user state. *)
Definition new_value (a : arg U) (u : U) : list (value U) * U :=
  match a with
  | AData GNil => ([], u)
  | AVal v => ([v], u)
  | ADyn f => ([Val [] (Some f) []], u)
  | AKey k => ([Val [] (Some (key_fn k)) []], u)
  | ANode n => (node_values n, u)
  | AData g => let '(b, u') := value_to_bytes g u in ([Val b None []], u')
  end.

(** value.go 66-74: [newValues] (nil contents contribute nothing). *)
Fixpoint new_values (l : list (arg U)) (u : U) : list (value U) * U :=
  match l with
  | [] => ([], u)
  | a :: l' =>
      let '(vs, u1) := new_value a u in
      let '(vs', u2) := new_values l' u1 in
      (vs ++ vs', u2)
  end.

(** value.go 22-28: [NewValue]. *)
Definition NewValue (a : arg U) (u : U) : value U * U :=
  let '(vs, u') := new_value a u in
  match vs with
  | [v] => (v, u')
  | _ => (Val [] None vs, u')
  end.

(** value.go 31-33: [NewConcatValue]. *)
Definition NewConcatValue (l : list (arg U)) (u : U) : value U * U :=
  let '(vs, u') := new_values l u in (Val [] None vs, u').

(** context.go 32-36: [Context.Write]: skipped when Error is already set; the
    result is the new Error. *)
Definition ctx_write (d : bytes) (err : option error) : io U (option error) :=
  match err with
  | None => Wr d (fun _ e => Ret e)
  | Some _ => Ret err
  end.

(** value.go 35-51: [Value.render].  Writes to the writer directly, whatever
    ctx.Error is, and overwrites ctx.Error.  The first component of the result
    is [l > 0], the second both the returned error and the new ctx.Error
    (which are the same). *)
Fixpoint value_render (fr : frame U) (v : value U) (err : option error)
  : io U (bool * option error) :=
  match v with
  | Val b (Some f) _ =>                                          (* 37-39 *)
      Cb (fun u => let '(data, u') := f (view fr err) u in
                   (Wr data (fun n e => Ret (0 <? n, e)), u'))
  | Val b None [] =>                                             (* 47-49 *)
      Wr b (fun n e => Ret (0 <? n, e))
  | Val b None concats =>                                        (* 40-46 *)
      (fix go (cs : list (value U)) (l : nat) (err : option error)
         : io U (bool * option error) :=
         match cs with
         | [] => Ret (0 <? l, err)
         | c :: cs' =>
             '(written, e) <- value_render fr c err ;;
             go cs' (if written then S l else l) e
         end) concats 0 err
  end.

(** The loop [for _, v := range values { _, _ = v.render(ctx) }] of attribute,
    text, comment, pi, fragment and Start. *)
Fixpoint values_render (fr : frame U) (vs : list (value U)) (err : option error)
  : io U (option error) :=
  match vs with
  | [] => Ret err
  | v :: vs' => '(_, e) <- value_render fr v err ;; values_render fr vs' e
  end.

(** attribute.go 113-118: the loop over the values of a delimited attribute;
    [something] is the flag of line 112. *)
Fixpoint delim_render (fr : frame U) (delim : bytes) (vs : list (value U))
  (something : bool) (err : option error) : io U (option error) :=
  match vs with
  | [] => Ret err
  | v :: vs' =>
      e0 <- (if something then ctx_write delim err else Ret err) ;;
      '(s, e) <- value_render fr v e0 ;;
      delim_render fr delim vs' s e
  end.

(** attribute.go 15-24, 64-68, 108-121: [Render] of the attribute kinds.  The
    result is the new ctx.Error, which is also what Render returns. *)
Definition attr_render (fr : frame U) (a : attr U) (err : option error)
  : io U (option error) :=
  match a with
  | APlain name vs =>
      e <- ctx_write (B " ") err ;;
      e <- ctx_write name e ;;
      e <- ctx_write (B "=""") e ;;
      e <- values_render fr vs e ;;
      ctx_write (B """") e
  | ABool name =>
      e <- ctx_write (B " ") err ;;
      ctx_write name e
  | ADelim name delim vs =>
      e <- ctx_write (B " ") err ;;
      e <- ctx_write name e ;;
      e <- ctx_write (B "=""") e ;;
      e <- delim_render fr delim vs false e ;;
      ctx_write (B """") e
  end.

End Values.
