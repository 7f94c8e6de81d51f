(** The accessors of the nodes, context.New, Nbsp and Nbsps of the Go source do
    what the model says. *)
From Coq Require Import ZArith Lia.
From Verif Require Import Bytes IO IOFacts Nodes Values Render Build Accessors SpecOut Slices
  GoSyntax SourceLib Source GoSem GoRun GoRep GoStep GoOwn RefineNode.
Local Open Scope nat_scope.

Section Refine.
Context {W : UserWorld}.
Variable M : go_mode.
Notation C := (go_config M).
Notation sim := (sim C).

(** ** Type and Name *)

(** aitch.go 29-43: the constants count from 0. *)
Definition type_number (t : node_type) : Z :=
  match t with
  | ElementNode => 0 | AttributeNode => 1 | TextNode => 2 | CommentNode => 3 | PINode => 4 | DocumentNode => 5
  | FragmentNode => 6 | CollectionNode => 7 | ConditionalNode => 8 | DynamicNode => 9 | ImperativeNode => 10
  | IteratorNode => 11
  end.
Lemma Type_spec {P : panics} n v h : node_rep M h v n ->
  sim (invoke v "Type" [] false) h (Ret tt) (fun vs h' _ => vs = [VInt (type_number (type_of n))] /\ h' = h).
Proof.
  intro Hr. apply sim_eta.
  destruct n as [a|name attrs idx conds ns|name attrs idx conds|vs|vs|name vs|vs|ns|fn attrs ns|fn|p|fn ns|p ns|pr ns];
    cbn [node_rep] in Hr.
  1: destruct a; destruct Hr as (l & Hr).
  all: try destruct Hr as (l & -> & Hr).
  all: split_all.
  all: eapply simb_method; [eassumption|reflexivity|reflexivity|]; enter; steps; apply sim_ret; split; reflexivity.
Qed.
Lemma Name_spec {P : panics} n v h : node_rep M h v n ->
  sim (invoke v "Name" [] false) h (Ret tt) (fun vs h' _ => vs = [VStr (name_of n)] /\ h' = h).
Proof.
  intro Hr. apply sim_eta.
  destruct n as [a|name attrs idx conds ns|name attrs idx conds|vs|vs|name vs|vs|ns|fn attrs ns|fn|p|fn ns|p ns|pr ns];
    cbn [node_rep] in Hr.
  1: destruct a; destruct Hr as (l & Hr).
  all: try destruct Hr as (l & -> & Hr).
  all: split_all.
  all: eapply simb_method; [eassumption|reflexivity|reflexivity|]; enter; steps.
  all: try (apply sim_ret; split; reflexivity).
  all: match goal with H : bytes_of _ = Some _ |- _ => rewrite (string_of _ _ H) end; steps; apply sim_ret; split; reflexivity.
Qed.

(** ** context.New *)
Lemma New_spec {P : panics} wv dv gv' h :
  sim (PCall (CFun "context.New") [wv; dv; gv'] false PRet) h (Ret tt)
    (fun vs h' _ => vs = [VPtr (length h)] /\
       h' = h ++ [OStruct "Context" [("Error", VNil); ("Data", dv); ("Cargo", gv'); ("Writer", wv); ("Parent", VNil)]%string]).
Proof. enter. steps. apply sim_ret. auto. Qed.

(** ** Nbsp and Nbsps *)
Lemma Nbsp_spec {P : panics} h :
  sim (PCall (CFun "aitch.Nbsp") [] false PRet) h (Ret tt) (fun vs h' _ => vs = [VBytes Nbsp] /\ h' = h).
Proof. enter. steps. apply sim_ret. auto. Qed.
Lemma copy_length dst i src : i + length src <= length dst -> length (copy_at dst i src) = length dst.
Proof. intro H. unfold copy_at. rewrite !app_length, !firstn_length, skipn_length. lia. Qed.
(** The two package variables. *)
Lemma lnbsp_is : global C "aitch.lnbsp" = PRet (VInt 6).
Proof. reflexivity. Qed.
Lemma nbsp_is : global C "aitch.nbsp" = PRet (VBytes nbsp).
Proof. reflexivity. Qed.
Lemma make_bytes n : (0 <= n)%Z -> make "[]byte" [VInt n] = PRet (VBytes (repeat Ascii.zero (Z.to_nat n)) : gv).
Proof. intro L. unfold make. cbn -[Z.ltb Z.to_nat repeat]. destruct (Z.ltb_spec n 0); [lia|reflexivity]. Qed.
Lemma Nbsps_spec {P : panics} n h :
  sim (PCall (CFun "aitch.Nbsps") [VInt n] false PRet) h (Ret tt)
    (fun vs h' _ => vs = [if (n <=? 0)%Z then VNil else VBytes (Nbsps n)] /\ h' = h).
Proof.
  enter. steps. unfold Nbsps. destruct (Z.leb_spec n 0) as [L|L]; steps; [apply sim_ret; auto|].
  eapply simb_eq; [apply lnbsp_is|]. steps. eapply simb_eq; [apply make_bytes; lia|]. steps.
  replace (Z.to_nat (6 * n)) with (length nbsp * Z.to_nat n) by (cbn [length nbsp B list_ascii_of_string]; lia).
  match goal with |- @GoRun.sim _ _ _ _ _ _ (pbind (PLoop ?b _ ?k) _) _ _ _ => remember b as bd eqn:Ebd; set (kk := k) end.
  match goal with |- @GoRun.sim _ _ _ _ _ _ (pbind _ ?g) _ ?m ?R => set (f := g); set (Q := R) end.
  assert (G : forall j i d, i + j = Z.to_nat n -> length d = 6 * Z.to_nat n ->
    (forall x, sim (f (FNext, [("idx"%string, VInt x); ("result"%string, VBytes (nbsps_loop j (6 * i) d)); ("n"%string, VInt n)])) h (Ret tt) Q) ->
    sim (pbind (PLoop bd [("i"%string, VInt (Z.of_nat i)); ("idx"%string, VInt (Z.of_nat (6 * i))); ("result"%string, VBytes d); ("n"%string, VInt n)] kk) f) h (Ret tt) Q).
  2:{ apply (G (Z.to_nat n) 0 (repeat Ascii.zero (length nbsp * Z.to_nat n))); [reflexivity|rewrite repeat_length; reflexivity|].
      intro x. subst f Q. steps. apply sim_ret. auto. }
  induction j as [|j IH]; intros i d Hi Hd K; apply simb_loop; (eapply simb_eq; [rewrite Ebd; reflexivity|]).
  - steps. rewrite (proj2 (Z.ltb_ge _ _)) by lia. steps. subst kk. steps. apply K.
  - steps. rewrite (proj2 (Z.ltb_lt _ _)) by lia. steps. eapply simb_eq; [apply nbsp_is|]. steps.
    rewrite (proj2 (Z.leb_le 0 _)), (proj2 (Z.leb_le _ (Z.of_nat (length d)))) by lia. cbn [andb]. rewrite Nat2Z.id. steps.
    eapply simb_eq; [apply lnbsp_is|]. steps.
    replace (Z.of_nat (6 * i) + 6)%Z with (Z.of_nat (6 * S i)) by lia. replace (Z.of_nat i + 1)%Z with (Z.of_nat (S i)) by lia.
    apply IH; [lia|rewrite copy_length by (cbn [length nbsp B list_ascii_of_string]; lia); exact Hd|].
    intro x. specialize (K x). cbn [nbsps_loop] in K. replace (6 * i + length nbsp) with (6 * S i) in K by (cbn [length nbsp B list_ascii_of_string]; lia). exact K.
Qed.
End Refine.
