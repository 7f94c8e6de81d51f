(** The translated source of contentsToNodes (element.go 218-229), and grouping
    constructors on shared nodes.  RefineAdd.v and RefineNewElement.v go on with
    addAttributes and the constructors of elements. *)
From Coq Require Import ZArith Lia.
From Verif Require Import Bytes IO IOFacts Nodes NodeInd Values Build Slices Sharing SharingFacts
  GoSyntax Source GoSem GoRun GoRep GoStep GoOwn RefineNode RefineUser RefineIter RefineStart RefineNew RefineMake RefineGroup GoShare RefineCollect.
Local Open Scope nat_scope.

Section Refine.
Context {W : UserWorld}.
Variable M : go_mode.
Hypothesis MO : mode_ok M.
Notation C := (go_config M).
Notation sim := (sim C).

(** ** contentsToNodes (element.go 218-229) *)

(** The contents of an element: nodes and other things. *)
Inductive sarg := SNode (n : snode) | SOther (a : arg U).
Definition is_node (a : arg U) : bool := match a with ANode _ => true | _ => false end.
Definition sarg_rep (ls : list loc) (h : heap) (v : gv) (a : sarg) : Prop :=
  match a with SNode n => srep M ls h v n | SOther a => is_node a = false /\ arg_rep M h v a end.
Definition scontent (a : sarg) (u : U) : snode * U :=
  match a with SNode n => (n, u) | SOther a => let '(vs, u') := new_values [a] u in (SLeaf (LText vs), u') end.
Fixpoint scontents (l : list sarg) (u : U) : list snode * U :=
  match l with
  | [] => ([], u)
  | a :: l' => let '(n, u1) := scontent a u in let '(ns, u2) := scontents l' u1 in (n :: ns, u2)
  end.

Lemma sim_range_key {P : panics} {B} body k v h sv pre x xs en (m : io U B) Q : String.eqb k "_" = false -> String.eqb v "_" = false ->
  slice_is h sv (pre ++ x :: xs) ->
  sim (pbind (body ((v, x) :: (k, VInt (Z.of_nat (length pre))) :: en))
         (fun '(f, en2) =>
            match f with
            | FNext | FContinue => range_with body k v (slice_items sv (length (pre ++ [x])) (length xs)) (leave en en2)
            | FBreak => PRet (FNext, leave en en2)
            | FReturn vs => PRet (FReturn vs, leave en en2)
            end)) h m Q ->
  sim (range_with body k v (slice_items sv (length pre) (S (length xs))) en) h m Q.
Proof.
  intros E1 E2 Hs H. rewrite app_length, Nat.add_1_r in H. unfold slice_items in *. cbn [seq map range_with].
  eapply simb_slice_item; [exact Hs| |].
  - rewrite nth_error_app2, Nat.sub_diag by lia. reflexivity.
  - cbn beta iota. cbn [push pbind]. rewrite E1, E2. exact H.
Qed.
Definition cn_body : stmt :=
  (SBlock [(STypeSwitch "v" (ELoc "c") [("Node", (SBlock [(SAssign [(LIndex (ELoc "result") (ELoc "i"))] [(ELoc "v")])]))]
     (SBlock [(SAssign [(LIndex (ELoc "result") (ELoc "i"))] [(ECall (EFun "aitch.Text") [(ELoc "c")] false)])]))])%string.
Lemma node_iface ls h sh n v : sinv M ls h sh -> srep M ls h v n -> has_type C h v "Node" = Some v.
Proof.
  intros I Hx. pose proof (srep_read M ls h sh I n v Hx) as R. revert R. generalize (read sh n). intros nd R.
  destruct nd as [[]| | | | | | | | | | | | |]; cbn [node_rep attr_rep] in R; split_all; subst;
    (erewrite has_iface_ptr by (eassumption || reflexivity)); reflexivity.
Qed.
Lemma other_iface h v a : is_node a = false -> arg_rep M h v a -> has_type C h v "Node" = None.
Proof.
  destruct a; cbn [is_node arg_rep]; try discriminate; intros _ Hr.
  - destruct v0. cbn [val_rep] in Hr. destruct Hr as (? & ? & ? & ? & -> & _). reflexivity.
  - subst. reflexivity.
  - subst. reflexivity.
  - destruct Hr as [->|Hr]; [destruct g; reflexivity|]. destruct g; try contradiction; subst; reflexivity.
Qed.
Lemma changes_array ls (h : heap) l cs cs' : nth_error h l = Some (OArr cs) -> length cs <= length cs' ->
  (forall i v, nth_error cs i = Some v -> v <> VNil -> nth_error cs' i = Some v) -> changes ls h (set_nth h l (OArr cs')).
Proof.
  intros Hl HL Hc. split; [rewrite length_set_nth; auto|]. intros k o Ho. destruct (Nat.eq_dec l k) as [<-|N].
  - rewrite Hl in Ho. injection Ho as <-. exists cs'. split; [apply nth_set_same; eapply nth_lt; eauto|]. auto.
  - rewrite (nth_set_other h l k _ N), Ho. destruct o; auto. eexists. split; [reflexivity|]. auto.
Qed.
Lemma changes_fill ls (h : heap) l pre post v : nth_error h l = Some (OArr (pre ++ VNil :: post)) ->
  changes ls h (set_nth h l (OArr (pre ++ v :: post))).
Proof.
  intro Hl. eapply changes_array; [exact Hl|rewrite !app_length; auto|]. intros i w Hw Nw.
  destruct (Nat.lt_trichotomy i (length pre)) as [L|[L|L]].
  - rewrite nth_error_app1 in * by exact L. exact Hw.
  - subst i. rewrite nth_error_app2, Nat.sub_diag in Hw by lia. injection Hw as <-. congruence.
  - rewrite nth_error_app2 in * by lia. destruct (i - length pre) eqn:E; [lia|]. exact Hw.
Qed.
Lemma cn_loop ls h0 sh l cv n : sinv M ls h0 sh -> length h0 <= l ->
  forall args h pre xs dv dn, grown h0 h ->
  slice_is h0 cv (pre ++ xs) -> all2 (sarg_rep ls h0) xs args ->
  nth_error h l = Some (OArr (dv ++ repeat VNil (length xs))) -> length dv = length pre -> n = length pre + length xs ->
  all2 (srep M ls h) dv dn ->
  sim (range_with (exec C cn_body) "i" "c" (slice_items cv (length pre) (length xs)) [("result"%string, VSlice l n); ("contents"%string, cv)]) h
    (bind (cb (scontents args)) (fun ns => Ret (dn ++ ns)))
    (fun r h' ns => exists xs', r = (FNext, [("result"%string, VSlice l n); ("contents"%string, cv)]) /\
       slice_is h' (VSlice l n) xs' /\ all2 (srep M ls h') xs' ns /\ grown h0 h').
Proof.
  intros I Hl. induction args as [|a args IH]; intros h pre xs dv dn G Hs Hx Ha Hd Hn Hr; cbn [all2] in Hx.
  - subst xs. apply sim_model_eq with (Ret (dn ++ [])).
    { intros E w. unfold cb. cbn [bind run scontents]. destruct w; reflexivity. }
    rewrite app_nil_r. cbn [length repeat] in *. rewrite app_nil_r in Ha. apply sim_ret. exists dv. split; [reflexivity|].
    split; [|auto]. exists dv. split; [exact Ha|]. split; [lia|]. rewrite firstn_all2 by lia. reflexivity.
  - destruct Hx as (x & xs' & -> & Hx & Hxs). cbn [length repeat] in *.
    apply sim_model_eq with (bind (cb (scontent a)) (fun n1 => bind (cb (scontents args)) (fun ns => Ret ((dn ++ [n1]) ++ ns)))).
    { intros E w. unfold cb. cbn [bind run scontents]. destruct (scontent a (w_u w)) as [n1 u1]. cbn [bind run w_u w_log w_tick].
      destruct (scontents args u1) as [ns u2]. cbn [bind run]. rewrite <- app_assoc. reflexivity. }
    eapply sim_range_key; [reflexivity|reflexivity|eapply slice_grown; [exact G|exact Hs]|]. unfold cn_body at 1. steps.
    replace (pre ++ x :: xs') with ((pre ++ [x]) ++ xs') in Hs by (rewrite <- app_assoc; reflexivity).
    eapply simb_heap; [reflexivity|apply stays_same|]. steps. unfold tswitch_with at 1.
    assert (Next : forall h1 v n1, grown h h1 -> srep M ls h1 v n1 ->
      nth_error h1 l = Some (OArr (dv ++ VNil :: repeat VNil (length xs'))) /\ length pre < n /\
      sim (range_with (exec C cn_body) "i" "c" (slice_items cv (length (pre ++ [x])) (length xs')) [("result"%string, VSlice l n); ("contents"%string, cv)])
         (set_nth h1 l (OArr (set_nth (dv ++ VNil :: repeat VNil (length xs')) (length pre) v)))
         (bind (cb (scontents args)) (fun ns => Ret ((dn ++ [n1]) ++ ns)))
         (fun r h' ns => exists xs', r = (FNext, [("result"%string, VSlice l n); ("contents"%string, cv)]) /\
            slice_is h' (VSlice l n) xs' /\ all2 (srep M ls h') xs' ns /\ grown h0 h')).
    { intros h1 v n1 G1 R1. pose proof (grown_nth _ _ _ _ G1 Ha) as Ha1. split; [exact Ha1|]. split; [lia|].
      rewrite <- Hd, set_nth_mid. pose proof (changes_fill ls h1 l dv _ v Ha1) as K.
      eapply (IH _ (pre ++ [x]) xs' (dv ++ [v]) (dn ++ [n1])).
      + eapply grown_same; [eapply grown_trans; [exact G|exact G1]|]. apply same_update, Hl.
      + exact Hs.
      + exact Hxs.
      + rewrite nth_set_same by (eapply nth_lt; eauto). rewrite <- app_assoc. reflexivity.
      + rewrite !app_length. cbn [length]. lia.
      + rewrite app_length. cbn [length]. lia.
      + apply all2_app.
        * eapply all2_mono; [|exact Hr]. intros y z Hy. eapply srep_changes; [exact K|]. eapply srep_grown; [exact G1|exact Hy].
        * cbn [all2]. exists v, []. split; [reflexivity|]. split; [eapply srep_changes; [exact K|exact R1]|reflexivity]. }
    destruct a as [nd|a]; cbn [sarg_rep] in Hx.
    + pose proof (srep_grown M _ _ _ _ _ G Hx) as Hx'. rewrite (node_iface _ _ _ _ _ (sinv_grown M _ _ _ _ I G) Hx'). cbn [named String.eqb Ascii.eqb Bool.eqb].
      apply sim_model_eq with (bind (cb (scontents args)) (fun ns => Ret ((dn ++ [nd]) ++ ns))).
      { intros E w. unfold cb. cbn [bind run scontent]. destruct w. reflexivity. }
      destruct (Next h x nd (grown_refl h) Hx') as (N1 & N2 & N3).
      steps. eapply simb_store_slice; [exact N1|exact N2|]. steps. leaves. steps. exact N3.
    + destruct Hx as [Na Hx]. pose proof (arg_grown M _ _ _ _ G Hx) as Hx'. rewrite (other_iface _ _ _ Na Hx'). cbn [named String.eqb Ascii.eqb Bool.eqb].
      apply sim_model_eq with (bind (cb (new_values [a])) (fun vs => bind (cb (scontents args)) (fun ns => Ret ((dn ++ [SLeaf (LText vs)]) ++ ns)))).
      { intros E w. unfold cb. cbn [bind run scontent]. destruct (new_values [a] (w_u w)); reflexivity. }
      steps. enter_fn. steps. apply simb_new_slice. steps.
      eapply simb_new_values; [exact MO|apply (arg_list_new M h [x] [a]); cbn [all2]; exists x, []; auto|]. intros s h1 vs HV G1. steps.
      assert (G2 : grown h (h1 ++ [OStruct "text" [("values"%string, s)]])).
      { eapply grown_trans; [|apply grown_app]. eapply grown_trans; [apply grown_app|exact G1]. }
      destruct (Next _ (VPtr (length h1)) (SLeaf (LText vs)) G2) as (N1 & N2 & N3).
      { cbn [srep read_leaf node_rep]. eexists. split; [reflexivity|]. eexists. split; [apply nth_app_new|apply vals_alloc, HV]. }
      eapply simb_store_slice; [exact N1|exact N2|]. steps. leaves. steps. exact N3.
Qed.
Lemma contentsToNodes_spec ls h sh cv xs args : sinv M ls h sh -> slice_is h cv xs -> all2 (sarg_rep ls h) xs args ->
  sim (PCall (CFun "aitch.contentsToNodes") [cv] false PRet) h (cb (scontents args))
    (fun vs h' ns => exists s ys, vs = [s] /\ slice_is h' s ys /\ all2 (srep M ls h') ys ns /\ grown h h').
Proof.
  intros I Hs Hx. enter. steps. unfold make. cbn [String.eqb Ascii.eqb Bool.eqb substring].
  rewrite (proj2 (Z.ltb_ge (Z.of_nat (length xs)) 0)) by lia. rewrite Nat2Z.id. steps.
  pose proof (slice_alloc h (OArr (repeat VNil (length xs))) _ _ Hs) as Hs'. steps.
  apply sim_model_eq with (bind (bind (cb (scontents args)) (fun ns => Ret ([] ++ ns))) (fun ns => Ret ns)).
  { intros E w. unfold cb. cbn [bind run app]. destruct (scontents args (w_u w)); reflexivity. }
  eapply sim_bind; [apply (cn_loop ls h sh (length h) cv (length xs) I (le_n _) args _ [] xs [] []); auto; [apply grown_app|apply nth_app_new|reflexivity]|].
  intros r h' ns (ys & -> & Y1 & Y2 & G). steps. apply sim_ret. eexists _, ys. split; [reflexivity|]. auto.
Qed.
End Refine.
