(** Templates made of one kind of text. *)
From Verif Require Import Bytes IO Nodes Values Render Build SpecOut.

(** RFC 3629: a character in UTF-8, and text in UTF-8. *)
Definition byte_in (a b : nat) (c : ascii) : Prop := a <= nat_of_ascii c <= b.
Definition tail : ascii -> Prop := byte_in 128 191.
Inductive utf8_char : bytes -> Prop :=
| utf8_1 a : byte_in 0 127 a -> utf8_char [a]
| utf8_2 a b : byte_in 194 223 a -> tail b -> utf8_char [a; b]
| utf8_3 a b c : byte_in 224 239 a -> tail b -> tail c ->
    (nat_of_ascii a = 224 -> byte_in 160 191 b) -> (nat_of_ascii a = 237 -> byte_in 128 159 b) ->
    utf8_char [a; b; c]
| utf8_4 a b c d : byte_in 240 244 a -> tail b -> tail c -> tail d ->
    (nat_of_ascii a = 240 -> byte_in 144 191 b) -> (nat_of_ascii a = 244 -> byte_in 128 143 b) ->
    utf8_char [a; b; c; d].
Inductive utf8 : bytes -> Prop :=
| utf8_nil : utf8 []
| utf8_cons c s : utf8_char c -> utf8 s -> utf8 (c ++ s).

Definition no_nul (s : bytes) : Prop := ~ In "000"%char s.

Section Spec.
Context {W : UserWorld}.

(** The kind of text. *)
Variable T : bytes -> Prop.

(** Go values whose strings, byte slices, and results of String are such text. *)
Fixpoint of_data (g : gval U) : Prop :=
  match g with
  | GBytes b | GFloat b | GString b => T b
  | GStringer f => forall u, T (fst (f u))
  | GFunc f => forall u, of_data (fst (f u))
  | GSlice _ xs => all of_data xs
  | _ => True
  end.
(** All maps, at all times. *)
Definition of_maps : Prop := forall u m k v, mget u m k = Some v -> of_data v.
(** Contexts: Cargo, and that of all parents. *)
Fixpoint of_ctx (c : ctx U) : Prop :=
  match c with
  | Ctx _ _ cargo parent => of_data cargo /\ match parent with Some p => of_ctx p | None => True end
  end.
Definition of_fn (f : dynfn U) : Prop := forall c u, of_ctx c -> T (fst (f c u)).
Fixpoint of_yield (p : yprog U) : Prop :=
  match p with
  | YRet => True
  | YYield it k => of_data it /\ of_yield k
  | YRead k => forall c u, of_ctx c -> of_yield (fst (k c u))
  end.

(** Nodes, arguments, values and functions made from such text: everything that is
    passed to a constructor is, or is a function that gives, such text. *)
Inductive of_node : node U -> Prop :=
| on_attribute name l u : T name -> of_args l -> of_node (fst (NewAttribute name l u))
| on_boolean name : T name -> of_node (NewBooleanAttribute name)
| on_delimited name d l u : T name -> T d -> of_args l -> of_node (fst (NewDelimitedAttribute name d l u))
| on_text l u : of_args l -> of_node (fst (Text l u))
| on_comment l u : of_args l -> of_node (fst (Comment l u))
| on_fragment l u : of_args l -> of_node (fst (Fragment l u))
| on_pi name l u : T name -> of_args l -> of_node (fst (PI name l u))
| on_element name l u : T name -> of_args l -> of_node (fst (NewElement name l u))
| on_void name l u : T name -> of_args l -> of_node (fst (NewVoidElement name l u))
| on_collection l : of_nodes l -> of_node (Collection l)
| on_conditional fn l n : of_nodes l -> Conditional fn l = Done n -> of_node n
| on_when key l n : of_nodes l -> When key l = Done n -> of_node n
| on_collect f : (forall c u, of_ctx c -> of_nodes (fst (f c u))) -> of_node (ContentCollect (Some f))
| on_collect_nil : of_node (ContentCollect None)
| on_iterate fn l n : (forall f c u, fn = Some f -> of_ctx c -> all of_data (fst (f c u))) ->
    of_nodes l -> Iterate fn l = Done n -> of_node n
| on_iterate_key key l n : of_nodes l -> IterateKey key l = Done n -> of_node n
| on_iterate_yield fn l n : (forall p, fn = Some p -> of_yield p) ->
    of_nodes l -> IterateYield fn l = Done n -> of_node n
| on_document lang head body u : of_args [lang] -> of_args head -> of_args body ->
    of_node (fst (Document lang head body u))
| on_imperative p : of_prog p -> of_node (Imperative (Some p))
| on_imperative_nil : of_node (Imperative None)
with of_args : list (arg U) -> Prop :=
| oa_nil : of_args []
| oa_node n l : of_node n -> of_args l -> of_args (ANode n :: l)
| oa_value v l : of_value v -> of_args l -> of_args (AVal v :: l)
| oa_fn f l : of_fn f -> of_args l -> of_args (ADyn f :: l)
| oa_key k l : of_args l -> of_args (AKey k :: l)
| oa_data g l : of_data g -> of_args l -> of_args (AData g :: l)
with of_value : value U -> Prop :=
| ov_value a u : of_args [a] -> of_value (fst (NewValue a u))
| ov_concat l u : of_args l -> of_value (fst (NewConcatValue l u))
with of_nodes : list (option (node U)) -> Prop :=
| os_nil : of_nodes []
| os_some n l : of_node n -> of_nodes l -> of_nodes (Some n :: l)
| os_none l : of_nodes l -> of_nodes (None :: l)
with of_prog : iprog U -> Prop :=
| op_ret e : of_prog (IRet e)
| op_read k : (forall c u, of_ctx c -> of_prog (fst (k c u))) -> of_prog (IRead k)
| op_string s k : T s -> of_prog k -> of_prog (IWriteString s k)
| op_raw s k : T s -> of_prog k -> of_prog (IWriteRaw s k)
| op_nodes l k : of_nodes l -> of_prog k -> of_prog (IWriteNodes l k)
| op_start name v l k : T name -> of_nodes l -> of_prog k -> of_prog (IStart name v l k)
| op_end k : of_prog k -> of_prog (IEnd k)
| op_end_all k : of_prog k -> of_prog (IEndAll k)
| op_render n inner k : of_node n ->
    match inner with Some fr => of_ctx (view fr None) | None => True end ->
    (forall r e, of_prog (k r e)) -> of_prog (IRender n inner k)
| op_direct d k : T d -> (forall m e, of_prog (k m e)) -> of_prog (IDirect d k)
| op_set_error e k : of_prog k -> of_prog (ISetError e k).

Scheme on_mind := Induction for of_node Sort Prop
  with oa_mind := Induction for of_args Sort Prop
  with ov_mind := Induction for of_value Sort Prop
  with os_mind := Induction for of_nodes Sort Prop
  with op_mind := Induction for of_prog Sort Prop.
Combined Scheme of_mutind from on_mind, oa_mind, ov_mind, os_mind, op_mind.

End Spec.
