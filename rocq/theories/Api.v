(** The nodes a program can obtain from the package's constructors. *)
From Coq Require Import ZArith.
From Verif Require Import Bytes IO Escape Nodes Values Render Build.

Section Api.
Context {W : UserWorld}.

(** One clause per constructor.  A node list may contain nils ([None]); a
    constructor whose outcome is a panic gives no node.  [Element], [VoidElement],
    [Attribute], ... are the same functions behind a name check. *)
Inductive api : node U -> Prop :=
| api_attribute name vs u : api (fst (NewAttribute name vs u))
| api_boolean name : api (NewBooleanAttribute name)
| api_delimited name d vs u : api (fst (NewDelimitedAttribute name d vs u))
| api_text vs u : api (fst (Text vs u))
| api_comment vs u : api (fst (Comment vs u))
| api_fragment vs u : api (fst (Fragment vs u))
| api_pi name vs u : api (fst (PI name vs u))
| api_element name args u :
    (forall n, In (ANode n) args -> api n) -> api (fst (NewElement name args u))
| api_void name args u :
    (forall n, In (ANode n) args -> api n) -> api (fst (NewVoidElement name args u))
| api_collection ns : (forall n, In (Some n) ns -> api n) -> api (Collection ns)
| api_conditional fn ns n :
    (forall c, In (Some c) ns -> api c) -> Conditional fn ns = Done n -> api n
| api_when key ns n :
    (forall c, In (Some c) ns -> api c) -> When key ns = Done n -> api n
| api_collect f :
    (forall c u n, In (Some n) (fst (f c u)) -> api n) -> api (ContentCollect (Some f))
| api_collect_nil : api (ContentCollect None)
| api_imperative p : api_prog p -> api (Imperative (Some p))
| api_imperative_nil : api (Imperative None)
| api_iterate fn ns n :
    (forall c, In (Some c) ns -> api c) -> Iterate fn ns = Done n -> api n
| api_iterate_key key ns n :
    (forall c, In (Some c) ns -> api c) -> IterateKey key ns = Done n -> api n
| api_iterate_yield fn ns n :
    (forall c, In (Some c) ns -> api c) -> IterateYield fn ns = Done n -> api n
| api_document lang head body u :
    (forall n, In (ANode n) head -> api n) -> (forall n, In (ANode n) body -> api n) ->
    api (fst (Document lang head body u))
with api_prog : iprog U -> Prop :=
| api_ret e : api_prog (IRet e)
| api_read k : (forall c u, api_prog (fst (k c u))) -> api_prog (IRead k)
| api_write_string s k : api_prog k -> api_prog (IWriteString s k)
| api_write_raw d k : api_prog k -> api_prog (IWriteRaw d k)
| api_write_nodes ns k :
    (forall n, In (Some n) ns -> api n) -> api_prog k -> api_prog (IWriteNodes ns k)
| api_start name v attrs k : api_prog k -> api_prog (IStart name v attrs k)
| api_end k : api_prog k -> api_prog (IEnd k)
| api_end_all k : api_prog k -> api_prog (IEndAll k)
| api_render n inner k :
    api n -> (forall r e, api_prog (k r e)) -> api_prog (IRender n inner k)
| api_direct d k : (forall m e, api_prog (k m e)) -> api_prog (IDirect d k)
| api_set_error e k : api_prog k -> api_prog (ISetError e k).

Scheme api_mind := Induction for api Sort Prop
  with api_prog_mind := Induction for api_prog Sort Prop.
Combined Scheme api_mutind from api_mind, api_prog_mind.

End Api.
