(** A program that passes every attribute on once does the same whether nodes
    are shared (Programs.v) or values (ProgramValues.v). *)
From Coq Require Import ZArith Lia.
From Verif Require Import Bytes IO IOFacts Nodes NodeInd Values Render Slices Build Packages SpecOut RenderFacts AttrFacts
  Sharing SharingFacts Strip LinearFacts Programs ProgramFacts ProgramValues.
Local Open Scope nat_scope.

Section Pure.
Context {W : UserWorld}.
Notation count := (count_occ Nat.eq_dec).

(** ** What carries attributes *)
Lemma existsb_flat {A} (f : A -> bool) (g : A -> list loc) l : Forall (fun x => f x = negb (match g x with [] => true | _ => false end)) l ->
  existsb f l = negb (match flat_map g l with [] => true | _ => false end).
Proof.
  induction 1 as [|x l H _ IH]; [reflexivity|]. cbn [existsb flat_map]. rewrite H, IH. destruct (g x); [reflexivity|]. reflexivity.
Qed.
Lemma bears_read h n : bears (read h n) = negb (match surface n with [] => true | _ => false end).
Proof.
  induction n using snode_ind'; cbn [read bears surface]; auto.
  - destruct x; reflexivity.
  - rewrite <- (existsb_flat (fun n => bears (read h n))) by assumption. clear. induction ns as [|n ns IH]; cbn; [reflexivity|]. rewrite IH. reflexivity.
  - destruct attrs as [|a attrs]; cbn [map app]; [|reflexivity].
    rewrite <- (existsb_flat (fun n => bears (read h n))) by assumption. clear. induction ns as [|n ns IH]; cbn; [reflexivity|]. rewrite IH. reflexivity.
Qed.
Lemma bears_rough n : bears (rough n) = bears n.
Proof.
  apply (node_iprog_ind (fun n => bears (rough n) = bears n) (fun _ => True)); intros; auto; cbn [rough bears].
  - induction H; cbn; congruence.
  - destruct attrs; [|reflexivity]. induction H; cbn; congruence.
Qed.
Lemma rough_values n : node_values (rough n) = node_values n.
Proof.
  apply (node_iprog_ind (fun n => node_values (rough n) = node_values n) (fun _ => True)); intros; auto; cbn [rough node_values].
  induction H; cbn; congruence.
Qed.

(** ** Numbering *)
Definition lookup {A} (l : list A) (o : option nat) : option A := match o with Some j => nth_error l j | None => None end.
Definition dense (mp : list (option nat)) (is : list nat) : list nat := somes (map (fun i => nth i mp None) is).

Lemma lookup_nth {A} (l : list A) mp i : nth i (map (lookup l) mp) None = lookup l (nth i mp None).
Proof. exact (map_nth (lookup l) mp None i). Qed.
Lemma dense_cons mp i is : dense mp (i :: is) = match nth i mp None with Some j => [j] | None => [] end ++ dense mp is.
Proof. reflexivity. Qed.
Lemma dense_app mp is js : dense mp (is ++ js) = dense mp is ++ dense mp js.
Proof. unfold dense, somes. rewrite map_app, flat_map_app. reflexivity. Qed.
Lemma dense_in mp is j : In j (dense mp is) -> exists i, In i is /\ nth i mp None = Some j.
Proof.
  unfold dense, somes. intro H. apply in_flat_map in H. destruct H as (o & Ho & Hj). apply in_map_iff in Ho. destruct Ho as (i & Ei & Hi).
  exists i. split; [exact Hi|]. rewrite Ei. destruct o as [j'|]; [destruct Hj as [->|[]]; reflexivity|destruct Hj].
Qed.
Lemma pick_dense {A} (l : list A) mp is : pick l (dense mp is) = somes (map (fun i => nth i (map (lookup l) mp) None) is).
Proof.
  unfold pick, dense, somes. induction is as [|i is IH]; [reflexivity|]. cbn [map flat_map]. rewrite map_app, flat_map_app, IH, lookup_nth. f_equal.
  destruct (nth i mp None) as [j|]; [|reflexivity]. cbn [map flat_map lookup]. apply app_nil_r.
Qed.

(** Different nodes have different numbers. *)
Definition distinct (mp : list (option nat)) : Prop := forall i i' j, nth i mp None = Some j -> nth i' mp None = Some j -> i = i'.
Lemma dense_count mp is i j : distinct mp -> nth i mp None = Some j -> count (dense mp is) j = count is i.
Proof.
  intros D Hi. induction is as [|k is IH]; [reflexivity|]. rewrite dense_cons, count_occ_app, IH. cbn [count_occ].
  destruct (Nat.eq_dec k i) as [->|N].
  - rewrite Hi. cbn [count_occ]. destruct (Nat.eq_dec j j); [reflexivity|congruence].
  - destruct (nth k mp None) as [j'|] eqn:Ek; [|reflexivity]. cbn [count_occ]. destruct (Nat.eq_dec j' j) as [->|]; [|reflexivity].
    exfalso. apply N. eapply D; eauto.
Qed.

(** ** The states *)
(** [pus]: nodes of the program passed on so far; [us]: the same for the nodes of
    the history [hns], [hps] (which also has the texts made from contents). *)
Record pure_rep (pus us : list nat) (mp : list (option nat)) (hns : list snode) (hps : list (node U)) (h : heap)
    (ns : list (option snode)) (ps : list (option (node U))) : Prop := {
  p_inv : Inv us h hns hps;
  p_us : forall j, In j us -> j < length hns;
  p_bears : forall j n p, nth_error hns j = Some n -> nth_error hps j = Some p -> bears p = false -> surface n = [];
  p_range : forall i j, nth i mp None = Some j -> j < length hns;
  p_distinct : distinct mp;
  p_used : forall i j, nth i mp None = Some j -> In j us -> In i pus;
  p_ns : ns = map (lookup hns) mp;
  p_ps : ps = map (lookup hps) mp
}.

Lemma lookup_more {A} (l x : list A) mp : (forall i j, nth i mp None = Some j -> j < length l) -> map (lookup (l ++ x)) mp = map (lookup l) mp.
Proof.
  intro H. apply map_ext_in. intros [j|] Ho; [|reflexivity]. cbn [lookup]. apply nth_error_app1.
  apply In_nth with (d := None) in Ho. destruct Ho as (i & _ & Hi). eapply H, Hi.
Qed.

(** Node [i] in both states. *)
Lemma nodes_both pus us mp hns hps h ns ps i : pure_rep pus us mp hns hps h ns ps ->
  match node_at ns i, vnode ps i with
  | Some n, Some p => exists j, nth i mp None = Some j /\ nth_error hns j = Some n /\ nth_error hps j = Some p
  | None, None => nth i mp None = None
  | _, _ => False
  end.
Proof.
  intros R. unfold node_at, vnode. rewrite (p_ns _ _ _ _ _ _ _ _ R), (p_ps _ _ _ _ _ _ _ _ R), !lookup_nth.
  destruct (nth i mp None) as [j|] eqn:E; cbn [lookup]; [|reflexivity].
  pose proof (p_range _ _ _ _ _ _ _ _ R i j E) as L. pose proof (i_len _ _ _ _ (p_inv _ _ _ _ _ _ _ _ R)) as LL.
  destruct (nth_error hns j) as [n|] eqn:E1; [|apply nth_error_None in E1; lia].
  destruct (nth_error hps j) as [p|] eqn:E2; [|apply nth_error_None in E2; lia]. eauto.
Qed.

Definition fit (pus : list nat) (ps : list (option (node U))) (is : list nat) : Prop :=
  forall i n, In i is -> vnode ps i = Some n -> bears n = true -> ~ In i pus /\ count is i <= 1.

(** A node that is passed on for the first time, or carries no attributes, is
    the same in both. *)
Lemma same_rough pus us mp hns hps h ns ps i n p : pure_rep pus us mp hns hps h ns ps ->
  node_at ns i = Some n -> vnode ps i = Some p -> (bears p = true -> ~ In i pus) -> rough (read h n) = rough p.
Proof.
  intros R Hn Hp F. pose proof (nodes_both _ _ _ _ _ _ _ _ i R) as B. rewrite Hn, Hp in B. destruct B as (j & Ej & E1 & E2).
  apply (i_rough _ _ _ _ (p_inv _ _ _ _ _ _ _ _ R) j n p E1 E2). destruct (bears p) eqn:Eb.
  - left. intro K. apply F; auto. eapply (p_used _ _ _ _ _ _ _ _ R); eauto.
  - right. eapply (p_bears _ _ _ _ _ _ _ _ R); eauto.
Qed.
Lemma same_item pus us mp hns hps h ns ps vals x u : pure_rep pus us mp hns hps h ns ps -> fit pus ps (item_uses x) ->
  new_value (item_arg h ns vals x) u = new_value (vitem ps vals x) u.
Proof.
  intros R F. destruct x as [i| | | |]; cbn [item_arg vitem]; try reflexivity.
  pose proof (nodes_both _ _ _ _ _ _ _ _ i R) as B. destruct (node_at ns i) as [n|] eqn:En, (vnode ps i) as [p|] eqn:Ep; try contradiction; [|reflexivity].
  cbn [new_value]. rewrite <- rough_values, (same_rough _ _ _ _ _ _ _ _ i n p R En Ep), rough_values; [reflexivity|].
  intro Hb. apply (F i p); cbn; auto.
Qed.
Lemma fit_part pus ps is1 is2 : fit pus ps (is1 ++ is2) -> fit pus ps is1 /\ fit pus ps is2.
Proof.
  intro F. split; intros i n Hi Hn Hb; (assert (H : In i (is1 ++ is2)) by (apply in_or_app; auto));
    destruct (F i n H Hn Hb) as [H1 H2]; split; auto; rewrite count_occ_app in H2; lia.
Qed.
Lemma same_items pus us mp hns hps h ns ps vals xs : pure_rep pus us mp hns hps h ns ps -> fit pus ps (flat_map item_uses xs) ->
  forall u, new_values (map (item_arg h ns vals) xs) u = new_values (map (vitem ps vals) xs) u.
Proof.
  intro R. induction xs as [|x xs IH]; intros F u; [reflexivity|]. cbn [flat_map] in F. apply fit_part in F. destruct F as [F1 F2].
  cbn [map new_values]. rewrite (same_item _ _ _ _ _ _ _ _ vals x u R F1). destruct (new_value (vitem ps vals x) u) as [vs u1]. rewrite IH by exact F2. reflexivity.
Qed.

(** ** One more node *)
Lemma nth_snoc_inv {A} (l : list (option A)) x i j : nth i (l ++ [x]) None = Some j -> nth i l None = Some j /\ i < length l \/ i = length l /\ x = Some j.
Proof.
  intro H. destruct (Nat.lt_ge_cases i (length l)) as [L|L].
  - rewrite app_nth1 in H by exact L. auto.
  - rewrite app_nth2 in H by exact L. right. destruct (i - length l) as [|k] eqn:E; cbn in H; [split; [lia|exact H]|]. destruct k; discriminate.
Qed.
Lemma rep_nil pus us mp hns hps h ns ps us' : pure_rep pus us mp hns hps h ns ps ->
  pure_rep (pus ++ us') us mp hns hps h ns ps.
Proof. intro R. constructor; try apply R. intros i j Hi Hj. apply in_or_app. left. eapply (p_used _ _ _ _ _ _ _ _ R); eauto. Qed.
Lemma rep_none pus us mp hns hps h ns ps us' : pure_rep pus us mp hns hps h ns ps ->
  pure_rep (pus ++ us') us (mp ++ [None]) hns hps h (ns ++ [None]) (ps ++ [None]).
Proof.
  intro R. assert (N : forall i j, nth i (mp ++ [None]) None = Some j -> nth i mp None = Some j).
  { intros i j H. apply nth_snoc_inv in H. destruct H as [[H _]|[_ H]]; [exact H|discriminate]. }
  constructor; try apply R.
  - intros i j H. eapply (p_range _ _ _ _ _ _ _ _ R), N, H.
  - intros i i' j H H'. eapply (p_distinct _ _ _ _ _ _ _ _ R); apply N; eauto.
  - intros i j Hi Hj. apply in_or_app. left. eapply (p_used _ _ _ _ _ _ _ _ R); [apply N, Hi|exact Hj].
  - rewrite map_app, (p_ns _ _ _ _ _ _ _ _ R). reflexivity.
  - rewrite map_app, (p_ps _ _ _ _ _ _ _ _ R). reflexivity.
Qed.
Lemma rep_step s pus us mp hns hps h ns ps is : pure_rep pus us mp hns hps h ns ps ->
  once us hns (args s) -> (forall j, In j (args s) -> j < length hns) ->
  (forall i j, nth i mp None = Some j -> In j (args s) -> In i is) ->
  let '(h', n) := make s h hns in
  pure_rep (pus ++ is) (us ++ args s) (mp ++ [Some (length hns)]) (hns ++ [n]) (hps ++ [make_pure s hps]) h' (ns ++ [Some n]) (ps ++ [Some (make_pure s hps)]).
Proof.
  intros R O L Us. pose proof (Inv_make us h hns hps s (p_inv _ _ _ _ _ _ _ _ R) O) as I. pose proof (i_len _ _ _ _ (p_inv _ _ _ _ _ _ _ _ R)) as LL.
  destruct (make s h hns) as [h' n].
  assert (N : forall i j, nth i (mp ++ [Some (length hns)]) None = Some j -> nth i mp None = Some j \/ i = length mp /\ j = length hns).
  { intros i j H. apply nth_snoc_inv in H. destruct H as [[H _]|[-> H]]; [auto|]. injection H as <-. auto. }
  assert (Bu : forall j, In j (us ++ args s) -> j < length hns).
  { intros j H. apply in_app_or in H. destruct H as [H|H]; [apply (p_us _ _ _ _ _ _ _ _ R), H|apply L, H]. }
  constructor.
  - exact I.
  - intros j H. rewrite app_length. specialize (Bu j H). lia.
  - intros j m p Hm Hp Hb. destruct (nth_error_snoc _ _ _ _ Hm) as [Hm'|[-> ->]].
    + assert (Lj : j < length hns) by (apply nth_error_Some; congruence).
      rewrite nth_error_app1 in Hp by lia. eapply (p_bears _ _ _ _ _ _ _ _ R); eauto.
    + pose proof (i_rough _ _ _ _ I (length hns) n p Hm Hp) as Q.
      rewrite <- bears_rough, <- Q, bears_rough, (bears_read h') in Hb; [destruct (surface n); [reflexivity|discriminate]|].
      left. intro K. specialize (Bu _ K). lia.
  - intros i j H. rewrite app_length. cbn. apply N in H. destruct H as [H|[_ ->]]; [|lia]. pose proof (p_range _ _ _ _ _ _ _ _ R _ _ H). lia.
  - intros i i' j H H'. apply N in H. apply N in H'. destruct H as [H|[-> ->]], H' as [H'|[-> E]]; auto.
    + eapply (p_distinct _ _ _ _ _ _ _ _ R); eauto.
    + subst j. pose proof (p_range _ _ _ _ _ _ _ _ R _ _ H). lia.
    + pose proof (p_range _ _ _ _ _ _ _ _ R _ _ H'). lia.
  - intros i j H Hj. apply N in H. destruct H as [H|[-> ->]].
    + apply in_or_app. apply in_app_or in Hj. destruct Hj as [Hj|Hj]; [left; eapply (p_used _ _ _ _ _ _ _ _ R); eauto|right; eapply Us; eauto].
    + specialize (Bu _ Hj). lia.
  - rewrite map_app. rewrite (lookup_more hns) by apply (p_range _ _ _ _ _ _ _ _ R). rewrite <- (p_ns _ _ _ _ _ _ _ _ R). cbn [map lookup].
    rewrite nth_error_app2, Nat.sub_diag by auto. reflexivity.
  - rewrite map_app. rewrite (lookup_more hps) by (rewrite <- LL; apply (p_range _ _ _ _ _ _ _ _ R)). rewrite <- (p_ps _ _ _ _ _ _ _ _ R). cbn [map lookup].
    rewrite nth_error_app2, LL, Nat.sub_diag by lia. reflexivity.
Qed.

(** A node without members. *)
Lemma rep_leaf s pus us mp hns hps h ns ps is : pure_rep pus us mp hns hps h ns ps -> args s = [] ->
  let '(h', n) := make s h hns in
  exists mp' hns' hps', pure_rep (pus ++ is) us mp' hns' hps' h' (ns ++ [Some n]) (ps ++ [Some (make_pure s hps)]).
Proof.
  intros R A. pose proof (rep_step s pus us mp hns hps h ns ps is R) as X. rewrite A in X.
  destruct (make s h hns) as [h' n]. rewrite app_nil_r in X. do 3 eexists. apply X.
  - intros i m _ _ [].
  - intros j [].
  - intros i j _ [].
Qed.
(** A group. *)
Lemma once_dense pus us mp hns hps h ns ps is : pure_rep pus us mp hns hps h ns ps -> fit pus ps is -> once us hns (dense mp is).
Proof.
  intros R F j n Hn S Hj. destruct (dense_in _ _ _ Hj) as (i & Hi & Ei).
  pose proof (nodes_both _ _ _ _ _ _ _ _ i R) as B.
  assert (En : node_at ns i = Some n) by (unfold node_at; rewrite (p_ns _ _ _ _ _ _ _ _ R), lookup_nth, Ei; exact Hn). rewrite En in B.
  destruct (vnode ps i) as [p|] eqn:Ep; [|contradiction]. destruct B as (j' & Ej' & _ & Hp). rewrite Ei in Ej'. injection Ej' as <-.
  destruct (bears p) eqn:Eb; [|exfalso; apply S; eapply (p_bears _ _ _ _ _ _ _ _ R); eauto].
  destruct (F i p Hi Ep Eb) as [F1 F2]. split; [intro K; apply F1; eapply (p_used _ _ _ _ _ _ _ _ R); eauto|].
  rewrite (dense_count mp is i j (p_distinct _ _ _ _ _ _ _ _ R) Ei). exact F2.
Qed.
Lemma dense_range pus us mp hns hps h ns ps is j : pure_rep pus us mp hns hps h ns ps -> In j (dense mp is) -> j < length hns.
Proof. intros R H. apply dense_in in H. destruct H as (i & _ & Ei). eapply (p_range _ _ _ _ _ _ _ _ R), Ei. Qed.
Lemma dense_back mp is i j : distinct mp -> nth i mp None = Some j -> In j (dense mp is) -> In i is.
Proof. intros D Hi H. apply dense_in in H. destruct H as (i' & Hi' & Ei'). replace i with i'; auto. eapply D; eauto. Qed.
Lemma rep_group s pus us mp hns hps h ns ps is : pure_rep pus us mp hns hps h ns ps -> fit pus ps is -> args s = dense mp is ->
  let '(h', n) := make s h hns in
  exists mp' hns' hps', pure_rep (pus ++ is) (us ++ dense mp is) mp' hns' hps' h' (ns ++ [Some n]) (ps ++ [Some (make_pure s hps)]).
Proof.
  intros R F A. pose proof (rep_step s pus us mp hns hps h ns ps is R) as X. rewrite A in X.
  destruct (make s h hns) as [h' n]. do 3 eexists. apply X.
  - eapply once_dense; eauto.
  - intros j. eapply dense_range; eauto.
  - intros i j. apply dense_back, (p_distinct _ _ _ _ _ _ _ _ R).
Qed.
Lemma picks pus us mp hns hps h ns ps is : pure_rep pus us mp hns hps h ns ps ->
  pick hns (dense mp is) = somes (map (node_at ns) is) /\ pick hps (dense mp is) = somes (map (vnode ps) is).
Proof. intro R. rewrite !pick_dense, <- (p_ns _ _ _ _ _ _ _ _ R), <- (p_ps _ _ _ _ _ _ _ _ R). auto. Qed.
Lemma all_some_both pus us mp hns hps h ns ps is : pure_rep pus us mp hns hps h ns ps ->
  match all_some (map (node_at ns) is), all_some (map (vnode ps) is) with
  | Some l, Some l' => l = pick hns (dense mp is) /\ l' = pick hps (dense mp is)
  | None, None => True
  | _, _ => False
  end.
Proof.
  intro R. destruct (picks _ _ _ _ _ _ _ _ is R) as [-> ->]. induction is as [|i is IH]; [cbn; auto|].
  cbn [map all_some]. pose proof (nodes_both _ _ _ _ _ _ _ _ i R) as B.
  destruct (node_at ns i) as [n|], (vnode ps i) as [p|]; try contradiction; [|exact I].
  destruct (all_some (map (node_at ns) is)), (all_some (map (vnode ps) is)); try contradiction; [|exact I]. destruct IH as [-> ->]. split; reflexivity.
Qed.

(** ** Contents of elements *)
Lemma rep_text x pus us mp hns hps h ns ps : pure_rep pus us mp hns hps h ns ps ->
  pure_rep pus us mp (hns ++ [SLeaf x]) (hps ++ [read_leaf x]) h ns ps.
Proof.
  intro R. pose proof (i_len _ _ _ _ (p_inv _ _ _ _ _ _ _ _ R)) as LL.
  assert (I : Inv (us ++ []) h (hns ++ [SLeaf x]) (hps ++ [read_leaf x])).
  { apply (Inv_make us h hns hps (MLeaf x) (p_inv _ _ _ _ _ _ _ _ R)). intros i m _ _ []. }
  rewrite app_nil_r in I. constructor; try apply R; auto.
  - intros j H. rewrite app_length. pose proof (p_us _ _ _ _ _ _ _ _ R j H). lia.
  - intros j m p Hm Hp Hb. destruct (nth_error_snoc _ _ _ _ Hm) as [Hm'|[-> ->]]; [|reflexivity].
    assert (Lj : j < length hns) by (apply nth_error_Some; congruence).
    rewrite nth_error_app1 in Hp by lia. eapply (p_bears _ _ _ _ _ _ _ _ R); eauto.
  - intros i j H. rewrite app_length. pose proof (p_range _ _ _ _ _ _ _ _ R _ _ H). lia.
  - rewrite (lookup_more hns) by apply (p_range _ _ _ _ _ _ _ _ R). apply R.
  - rewrite (lookup_more hps) by (rewrite <- LL; apply (p_range _ _ _ _ _ _ _ _ R)). apply R.
Qed.
Lemma pick_one {A} (l : list A) j is x : nth_error l j = Some x -> pick l (j :: is) = x :: pick l is.
Proof. intro H. rewrite pick_cons, H. reflexivity. Qed.
Lemma contents_both vals pus us mp h ns ps : forall xs hns hps u, pure_rep pus us mp hns hps h ns ps ->
  exists ex ep js, pure_rep pus us mp (hns ++ ex) (hps ++ ep) h ns ps /\
  pick (hns ++ ex) js = fst (item_contents h ns vals xs u) /\
  contents_to_nodes (map (vitem ps vals) xs) u = (pick (hps ++ ep) js, snd (item_contents h ns vals xs u)) /\
  (forall j, In j js -> j < length (hns ++ ex)) /\
  (forall j, j < length hns -> count js j = count (dense mp (flat_map item_uses xs)) j) /\
  (forall n, In n ex -> surface n = []).
Proof.
  induction xs as [|x xs IH]; intros hns hps u R.
  - exists [], [], []. rewrite !app_nil_r. split; [exact R|]. repeat split; try (intros ? []).
  - pose proof (i_len _ _ _ _ (p_inv _ _ _ _ _ _ _ _ R)) as LL.
    assert (T : forall vs u1, item_uses x = [] \/ (exists i, x = INode i /\ nth i mp None = None) -> new_values [item_arg h ns vals x] u = (vs, u1) ->
      item_content h ns vals x u = (SLeaf (LText vs), u1) -> content_to_node (vitem ps vals x) u = (NText vs, u1) ->
      exists ex ep js, pure_rep pus us mp (hns ++ ex) (hps ++ ep) h ns ps /\
      pick (hns ++ ex) js = fst (item_contents h ns vals (x :: xs) u) /\
      contents_to_nodes (map (vitem ps vals) (x :: xs)) u = (pick (hps ++ ep) js, snd (item_contents h ns vals (x :: xs) u)) /\
      (forall j, In j js -> j < length (hns ++ ex)) /\
      (forall j, j < length hns -> count js j = count (dense mp (flat_map item_uses (x :: xs))) j) /\
      (forall n, In n ex -> surface n = [])).
    { intros vs u1 HU HV HC HB. destruct (IH _ _ u1 (rep_text (LText vs) _ _ _ _ _ _ _ _ R)) as (ex & ep & js & R' & P1 & P2 & P3 & P4 & P5).
      exists (SLeaf (LText vs) :: ex), (NText vs :: ep), (length hns :: js).
      rewrite <- !app_assoc in *. cbn [app read_leaf] in *. split; [exact R'|].
      cbn [item_contents map contents_to_nodes]. rewrite HC, HB, P2. destruct (item_contents h ns vals xs u1) as [l u2]. cbn [fst snd] in *.
      split; [rewrite (pick_one _ _ _ (SLeaf (LText vs))); [rewrite P1; reflexivity|]; rewrite nth_error_app2, Nat.sub_diag by auto; reflexivity|].
      split; [rewrite (pick_one _ _ _ (NText vs)); [reflexivity|]; rewrite nth_error_app2, LL, Nat.sub_diag by lia; reflexivity|].
      split; [intros j [<-|Hj]; [rewrite app_length; cbn; lia|auto]|].
      split; [|intros n [<-|Hn]; auto].
      intros j Hj. cbn [count_occ flat_map]. destruct (Nat.eq_dec (length hns) j) as [E|_]; [lia|]. rewrite P4 by (rewrite app_length; cbn; lia).
      destruct HU as [->|(i & -> & Ei)]; [reflexivity|]. cbn [item_uses app]. rewrite dense_cons, Ei. reflexivity. }
    destruct x as [i|i|g|f|k].
    + pose proof (nodes_both _ _ _ _ _ _ _ _ i R) as B. unfold item_content, vitem, item_arg in T.
      destruct (node_at ns i) as [n|] eqn:En, (vnode ps i) as [q|] eqn:Eq; try contradiction.
      * destruct B as (j & Ej & Hn & Hq). clear T.
        destruct (IH _ _ u R) as (ex & ep & js & R' & P1 & P2 & P3 & P4 & P5).
        exists ex, ep, (j :: js). split; [exact R'|]. cbn [item_contents item_content map contents_to_nodes vitem]. rewrite En, Eq. cbn [content_to_node]. rewrite P2.
        destruct (item_contents h ns vals xs u) as [l u2]. cbn [fst snd] in *.
        assert (Lj : j < length hns) by (apply nth_error_Some; congruence).
        split; [rewrite (pick_one _ _ _ n); [rewrite P1; reflexivity|rewrite nth_error_app1 by lia; exact Hn]|].
        split; [rewrite (pick_one _ _ _ q); [reflexivity|rewrite nth_error_app1 by lia; exact Hq]|].
        split; [intros j' [<-|Hj]; [rewrite app_length; lia|auto]|]. split; [|exact P5].
        intros j' Hj'. cbn [flat_map item_uses app]. rewrite dense_cons, Ej, count_occ_app. cbn [count_occ]. rewrite P4 by exact Hj'. destruct (Nat.eq_dec j j'); reflexivity.
      * destruct (new_values [AData GNil] u) as [vs u1] eqn:Ev. apply (T vs u1); auto; [right; eauto|]. cbn [content_to_node]. unfold Text. rewrite Ev. reflexivity.
    + destruct (new_values [item_arg h ns vals (IVal i)] u) as [vs u1] eqn:Ev. apply (T vs u1); auto; cbn [item_content]; [rewrite Ev; reflexivity|].
      cbn [vitem item_arg] in *. destruct (nth_error vals i); cbn [content_to_node]; unfold Text; rewrite Ev; reflexivity.
    + destruct (new_values [item_arg h ns vals (IData g)] u) as [vs u1] eqn:Ev. apply (T vs u1); auto; cbn [item_content]; [rewrite Ev; reflexivity|].
      cbn [vitem item_arg content_to_node] in *. unfold Text. rewrite Ev. reflexivity.
    + destruct (new_values [item_arg h ns vals (IDyn f)] u) as [vs u1] eqn:Ev. apply (T vs u1); auto; cbn [item_content]; [rewrite Ev; reflexivity|].
      cbn [vitem item_arg content_to_node] in *. unfold Text. rewrite Ev. reflexivity.
    + destruct (new_values [item_arg h ns vals (IKey k)] u) as [vs u1] eqn:Ev. apply (T vs u1); auto; cbn [item_content]; [rewrite Ev; reflexivity|].
      cbn [vitem item_arg content_to_node] in *. unfold Text. rewrite Ev. reflexivity.
Qed.

(** ** One call *)
Definition both (pus : list nat) (ns : list (option snode)) (ps : list (option (node U)))
    (r : outcome ((heap * option snode) * U)) (r' : outcome (option (node U) * U)) : Prop :=
  match r, r' with
  | Done ((h', n), u1), Done (q, u2) => u1 = u2 /\ exists us mp hns hps, pure_rep pus us mp hns hps h' (ns ++ [n]) (ps ++ [q])
  | Panic, Panic => True
  | _, _ => False
  end.
Lemma both_element void name xs pus us mp hns hps h ns ps vals u : pure_rep pus us mp hns hps h ns ps -> fit pus ps (flat_map item_uses xs) ->
  both (pus ++ flat_map item_uses xs) ns ps
    (kalways (fun u => let '(l, u') := item_contents h ns vals xs u in (build void name l h, u')) u)
    (some1 (if void then NewVoidElement name (map (vitem ps vals) xs) u else NewElement name (map (vitem ps vals) xs) u)).
Proof.
  intros R F. destruct (contents_both vals pus us mp h ns ps xs hns hps u R) as (ex & ep & js & R' & P1 & P2 & P3 & P4 & P5).
  assert (Dn : forall j, j < length hns -> In j js -> In j (dense mp (flat_map item_uses xs))).
  { intros j Lj Hj. apply (count_occ_In Nat.eq_dec). rewrite <- P4 by exact Lj. apply count_occ_In, Hj. }
  pose proof (rep_step (MElement void name js) pus us mp (hns ++ ex) (hps ++ ep) h ns ps (flat_map item_uses xs) R') as X. cbn [args make make_pure] in X.
  unfold kalways, some1, NewVoidElement, NewElement. rewrite P2. destruct (item_contents h ns vals xs u) as [l u']. cbn [fst snd] in *. rewrite P1 in X.
  destruct (build void name l h) as [h' n]. cbn [both].
  destruct void; cbn [both]; (split; [reflexivity|]; do 4 eexists; apply X; clear X).
  1,4: intros j n0 Hn S Hj; destruct (Nat.lt_ge_cases j (length hns)) as [Lj|Lj];
    [destruct (once_dense _ _ _ _ _ _ _ _ _ R' F j n0 Hn S (Dn j Lj Hj)) as [O1 O2]; split; [exact O1|rewrite P4 by exact Lj; exact O2]
    |exfalso; apply S, P5; rewrite nth_error_app2 in Hn by exact Lj; eapply nth_error_In, Hn].
  1,3: exact P3.
  1,2: intros i j Hi Hj; eapply dense_back; [apply (p_distinct _ _ _ _ _ _ _ _ R)|exact Hi|]; apply Dn; [|exact Hj]; eapply (p_range _ _ _ _ _ _ _ _ R), Hi.
Qed.
Lemma both_checked p name pus pus0 us mp hns hps h ns ps mk mk' u : pure_rep pus us mp hns hps h ns ps ->
  both (pus ++ pus0) ns ps (kalways mk u) (some1 (mk' u)) -> both (pus ++ pus0) ns ps (kchecked p name h mk u) (checked p name mk' u).
Proof.
  intros R B. unfold kchecked, checked. destruct (valid_name name).
  - unfold kalways, some1 in B. destruct (mk u) as [[h' n] u1], (mk' u) as [q u2]. exact B.
  - destruct p; [exact I|]. split; [reflexivity|]. do 4 eexists. apply rep_none, R.
Qed.
Lemma both_leaf k xs pus us mp hns hps h ns ps vals u : pure_rep pus us mp hns hps h ns ps -> fit pus ps (flat_map item_uses xs) ->
  both (pus ++ flat_map item_uses xs) ns ps
    (kalways (fun u => let '(vs, u') := new_values (map (item_arg h ns vals) xs) u in ((h, SLeaf (k vs)), u')) u)
    (some1 (let '(vs, u') := new_values (map (vitem ps vals) xs) u in (read_leaf (k vs), u'))).
Proof.
  intros R F. unfold kalways, some1. rewrite (same_items _ _ _ _ _ _ _ _ vals xs R F). destruct (new_values (map (vitem ps vals) xs) u) as [vs u'].
  split; [reflexivity|]. pose proof (rep_leaf (MLeaf (k vs)) _ _ _ _ _ _ _ _ (flat_map item_uses xs) R eq_refl) as X. cbn [make make_pure] in X. eauto.
Qed.
Lemma both_attr k xs pus us mp hns hps h ns ps vals u : pure_rep pus us mp hns hps h ns ps -> fit pus ps (flat_map item_uses xs) ->
  both (pus ++ flat_map item_uses xs) ns ps
    (kalways (fun u => let '(vs, u') := new_values (map (item_arg h ns vals) xs) u in ((h ++ [k vs], SAttr (length h)), u')) u)
    (some1 (let '(vs, u') := new_values (map (vitem ps vals) xs) u in (NAttr (k vs), u'))).
Proof.
  intros R F. unfold kalways, some1. rewrite (same_items _ _ _ _ _ _ _ _ vals xs R F). destruct (new_values (map (vitem ps vals) xs) u) as [vs u'].
  split; [reflexivity|]. pose proof (rep_leaf (MAttr (k vs)) _ _ _ _ _ _ _ _ (flat_map item_uses xs) R eq_refl) as X. cbn [make make_pure] in X. eauto.
Qed.
Lemma both_group s mk mk' is pus us mp hns hps h ns ps u : pure_rep pus us mp hns hps h ns ps -> fit pus ps is -> args s = dense mp is ->
  make s h hns = (h, mk (pick hns (dense mp is))) -> make_pure s hps = mk' (pick hps (dense mp is)) ->
  both (pus ++ is) ns ps (kgroup h (kall (map (node_at ns) is) mk) u)
    (group1 (match all_some (map (vnode ps) is) with None => Panic | Some l => Done (mk' l) end) u).
Proof.
  intros R F A M M'. unfold kall. pose proof (all_some_both _ _ _ _ _ _ _ _ is R) as S.
  destruct (all_some (map (node_at ns) is)) as [l|], (all_some (map (vnode ps) is)) as [l'|]; try contradiction; [|exact I].
  destruct S as [-> ->]. split; [reflexivity|]. pose proof (rep_group s _ _ _ _ _ _ _ _ is R F A) as X. rewrite M, M' in X. eauto.
Qed.
Lemma both_collection is pus us mp hns hps h ns ps u : pure_rep pus us mp hns hps h ns ps -> fit pus ps is ->
  both (pus ++ is) ns ps (kgroup h (Done (SCollection (somes (map (node_at ns) is)))) u) (Done (Some (Collection (map (vnode ps) is)), u)).
Proof.
  intros R F. destruct (picks _ _ _ _ _ _ _ _ is R) as [P1 P2]. split; [reflexivity|].
  pose proof (rep_group (MCollection (dense mp is)) _ _ _ _ _ _ _ _ is R F eq_refl) as X. cbn [make make_pure] in X. rewrite P1, P2 in X. eauto.
Qed.
Lemma both_lone x pus us mp hns hps h ns ps u : pure_rep pus us mp hns hps h ns ps ->
  both (pus ++ []) ns ps (kgroup h (Done (SLeaf x)) u) (Done (Some (read_leaf x), u)).
Proof. intro R. split; [reflexivity|]. pose proof (rep_leaf (MLeaf x) _ _ _ _ _ _ _ _ [] R eq_refl) as X. cbn [make make_pure] in X. eauto. Qed.

(** ** html.Document

    Its inner nodes are made like nodes of the program, with numbers that the
    program does not use, and forgotten in the end. *)
Lemma nth_pad {A} (l : list (option A)) k i : nth i (l ++ repeat None k) None = nth i l None.
Proof.
  destruct (Nat.lt_ge_cases i (length l)) as [L|L]; [apply app_nth1, L|]. rewrite app_nth2 by exact L. rewrite (nth_overflow l) by exact L.
  generalize (i - length l). clear. induction k as [|k IH]; intros [|i]; cbn; auto.
Qed.
Lemma rep_pad k pus us mp hns hps h ns ps : pure_rep pus us mp hns hps h ns ps ->
  pure_rep pus us (mp ++ repeat None k) hns hps h (ns ++ repeat None k) (ps ++ repeat None k).
Proof.
  intro R. constructor; try apply R.
  - intros i j. rewrite nth_pad. apply R.
  - intros i i' j. rewrite !nth_pad. apply R.
  - intros i j. rewrite nth_pad. apply R.
  - rewrite map_app, (p_ns _ _ _ _ _ _ _ _ R). f_equal. clear. induction k; cbn; congruence.
  - rewrite map_app, (p_ps _ _ _ _ _ _ _ _ R). f_equal. clear. induction k; cbn; congruence.
Qed.
Lemma rep_drop pus pus' us a mid j hns hps h ns ps : pure_rep pus us (a ++ mid ++ [Some j]) hns hps h ns ps -> ~ In j us ->
  (forall i, In i pus -> i < length a -> In i pus') ->
  pure_rep pus' us (a ++ [Some j]) hns hps h (map (lookup hns) (a ++ [Some j])) (map (lookup hps) (a ++ [Some j])).
Proof.
  intros R Nj Pu.
  assert (N : forall i k, nth i (a ++ [Some j]) None = Some k -> (nth i (a ++ mid ++ [Some j]) None = Some k /\ i < length a) \/ (i = length a /\ k = j)).
  { intros i k H. apply nth_snoc_inv in H. destruct H as [[H L]|[-> H]]; [left; split; [rewrite app_nth1 by exact L; exact H|exact L]|right; split; congruence]. }
  assert (J : nth (length a + length mid) (a ++ mid ++ [Some j]) None = Some j).
  { rewrite app_nth2 by lia. replace (length a + length mid - length a) with (length mid) by lia. rewrite app_nth2, Nat.sub_diag by lia. reflexivity. }
  constructor; try apply R; try reflexivity.
  - intros i k H. apply N in H. destruct H as [[H _]|[_ ->]]; eapply (p_range _ _ _ _ _ _ _ _ R); eauto.
  - intros i i' k H H'. apply N in H. apply N in H'. destruct H as [[H L]|[-> ->]], H' as [[H' L']|[-> E]]; auto.
    + eapply (p_distinct _ _ _ _ _ _ _ _ R); eauto.
    + subst k. pose proof (p_distinct _ _ _ _ _ _ _ _ R _ _ _ H J). lia.
    + pose proof (p_distinct _ _ _ _ _ _ _ _ R _ _ _ H' J). lia.
  - intros i k H Hk. apply N in H. destruct H as [[H L]|[-> ->]]; [|contradiction]. apply Pu; [|exact L]. eapply (p_used _ _ _ _ _ _ _ _ R); eauto.
Qed.

Lemma fit_next pus ps ps' is1 is2 : fit pus ps (is1 ++ is2) -> (forall i, In i is2 -> vnode ps' i = vnode ps i) -> fit (pus ++ is1) ps' is2.
Proof.
  intros F E i n Hi Hn Hb. rewrite E in Hn by exact Hi. destruct (F i n (in_or_app _ _ _ (or_intror Hi)) Hn Hb) as [F1 F2]. rewrite count_occ_app in F2.
  assert (In i is2 -> count is2 i > 0) by (apply count_occ_In). specialize (H Hi). split; [|lia]. intro K. apply in_app_or in K. destruct K as [K|K]; [auto|].
  apply (count_occ_In Nat.eq_dec) in K. lia.
Qed.
Lemma fit_ext pus ps ps' is : fit pus ps is -> (forall i, In i is -> vnode ps' i = vnode ps i) -> fit pus ps' is.
Proof. intros F E i n Hi Hn. apply F; auto. rewrite <- E; auto. Qed.
Lemma item_arg_ext h ns ns' vals x : (forall i, In i (item_uses x) -> node_at ns' i = node_at ns i) -> item_arg h ns' vals x = item_arg h ns vals x.
Proof. intro E. destruct x; try reflexivity. cbn [item_arg]. rewrite E; [reflexivity|left; reflexivity]. Qed.
Lemma vitem_ext ps ps' vals x : (forall i, In i (item_uses x) -> vnode ps' i = vnode ps i) -> vitem ps' vals x = vitem ps vals x.
Proof. intro E. destruct x; try reflexivity. cbn [vitem]. rewrite E; [reflexivity|left; reflexivity]. Qed.
Lemma vitems_ext ps ps' vals xs : (forall i, In i (flat_map item_uses xs) -> vnode ps' i = vnode ps i) -> map (vitem ps' vals) xs = map (vitem ps vals) xs.
Proof. intro E. apply map_ext_in. intros x Hx. apply vitem_ext. intros i Hi. apply E, in_flat_map. eauto. Qed.
Lemma item_contents_ext h ns ns' vals xs : (forall i, In i (flat_map item_uses xs) -> node_at ns' i = node_at ns i) ->
  forall u, item_contents h ns' vals xs u = item_contents h ns vals xs u.
Proof.
  induction xs as [|x xs IH]; intros E u; [reflexivity|]. cbn [item_contents flat_map] in *.
  assert (C : item_content h ns' vals x u = item_content h ns vals x u).
  { destruct x; try reflexivity. cbn [item_content]. rewrite E; [reflexivity|]. left. reflexivity. }
  rewrite C. destruct (item_content h ns vals x u) as [n u1]. rewrite IH; [reflexivity|]. intros i Hi. apply E, in_or_app. auto.
Qed.

Definition opt_arg (q : option (node U)) : arg U := match q with Some n => ANode n | None => AData GNil end.
Definition vlang (a : arg U) (u : U) : arg U * U :=
  match a with AData GNil => (AData GNil, u) | _ => let '(n, u') := NewAttribute (B "lang") [a] u in (ANode n, u') end.
Definition vhead (l : list (arg U)) (u : U) : arg U * U :=
  match l with [] => (AData GNil, u) | _ => let '(n, u') := NewElement (B "head") l u in (ANode n, u') end.
Lemma nil_both pus us mp hns hps h ns ps vals x : pure_rep pus us mp hns hps h ns ps -> (item_arg h ns vals x = AData GNil <-> vitem ps vals x = AData GNil).
Proof.
  intro R. destruct x as [i|i|g|f|k]; cbn [item_arg vitem]; try tauto. pose proof (nodes_both _ _ _ _ _ _ _ _ i R) as B.
  destruct (node_at ns i), (vnode ps i); try contradiction; [|tauto]. split; discriminate.
Qed.
Definition klang (h : heap) (a : arg U) (u : U) : heap * option snode * U :=
  match a with
  | AData GNil => (h, None, u)
  | a => let '(vs, u') := new_values [a] u in (h ++ [APlain (B "lang") vs], Some (SAttr (length h)), u')
  end.
Lemma klang_some h a u : a <> AData GNil -> klang h a u = let '(vs, u') := new_values [a] u in (h ++ [APlain (B "lang") vs], Some (SAttr (length h)), u').
Proof. intro D. unfold klang. destruct a as [| | | |g]; try reflexivity. destruct g; try reflexivity. congruence. Qed.
Lemma vlang_some a u : a <> AData GNil -> vlang a u = let '(n, u') := NewAttribute (B "lang") [a] u in (ANode n, u').
Proof. intro D. unfold vlang. destruct a as [| | | |g]; try reflexivity. destruct g; try reflexivity. congruence. Qed.
Lemma both_lang x pus us mp hns hps h ns ps vals u : pure_rep pus us mp hns hps h ns ps -> fit pus ps (item_uses x) ->
  let '(h1, l, u1) := klang h (item_arg h ns vals x) u in
  exists q us1 mp1 hns1 hps1, vlang (vitem ps vals x) u = (opt_arg q, u1) /\ pure_rep (pus ++ item_uses x) us1 mp1 hns1 hps1 h1 (ns ++ [l]) (ps ++ [q]).
Proof.
  intros R F. assert (D : {item_arg h ns vals x = AData GNil} + {item_arg h ns vals x <> AData GNil}).
  { destruct (item_arg h ns vals x) as [| | | |g]; try (right; discriminate). destruct g; try (right; discriminate). left. reflexivity. }
  destruct D as [D|D].
  - rewrite D. cbn [klang]. exists None. pose proof (proj1 (nil_both _ _ _ _ _ _ _ _ vals x R) D) as E. rewrite E. do 4 eexists. split; [reflexivity|]. apply rep_none, R.
  - rewrite (klang_some _ _ _ D).
    assert (D' : vitem ps vals x <> AData GNil) by (intro E; apply D, (nil_both _ _ _ _ _ _ _ _ vals x R), E).
    rewrite (vlang_some _ _ D').
    assert (F' : fit pus ps (flat_map item_uses [x])) by (cbn [flat_map]; rewrite app_nil_r; exact F).
    pose proof (both_attr (APlain (B "lang")) [x] _ _ _ _ _ _ _ _ vals u R F') as B. cbn [flat_map map] in B. rewrite app_nil_r in B. unfold kalways, some1 in B. unfold NewAttribute.
    destruct (new_values [item_arg h ns vals x] u) as [vs u1]. destruct (new_values [vitem ps vals x] u) as [vs' u2]. cbn [both] in B. destruct B as [<- (us1 & mp1 & hns1 & hps1 & R')].
    exists (Some (NAttr (APlain (B "lang") vs'))). do 4 eexists. split; [reflexivity|exact R'].
Qed.
Lemma both_new_element name xs pus us mp hns hps h ns ps vals u : pure_rep pus us mp hns hps h ns ps -> fit pus ps (flat_map item_uses xs) ->
  let '(l, u1) := item_contents h ns vals xs u in
  let '(h1, n) := build false name l h in
  surface n = [] /\ is_sattr n = false /\
  exists q us1 mp1 hns1 hps1, NewElement name (map (vitem ps vals) xs) u = (q, u1) /\ is_attr q = false /\ pure_rep (pus ++ flat_map item_uses xs) us1 mp1 hns1 hps1 h1 (ns ++ [Some n]) (ps ++ [Some q]).
Proof.
  intros R F. pose proof (both_element false name xs _ _ _ _ _ _ _ _ vals u R F) as B. unfold kalways, some1 in B.
  assert (A : is_attr (fst (NewElement name (map (vitem ps vals) xs) u)) = false).
  { unfold NewElement. destruct (contents_to_nodes _ u). unfold mk_element. repeat match goal with |- context [let '(_, _) := ?X in _] => destruct X end. reflexivity. }
  destruct (item_contents h ns vals xs u) as [l u1].
  assert (E : exists a b c d, snd (build false name l h) = SElement name a b c d).
  { unfold build. destruct (scollect_all _ _ _) as [[? ?] ?]. destruct (fold_left _ _ _) as [[? ?] ?]. do 4 eexists. reflexivity. }
  destruct (build false name l h) as [h1 n]. destruct E as (a & b & c & d & E). cbn [snd] in E. subst n. split; [reflexivity|]. split; [reflexivity|].
  destruct (NewElement name (map (vitem ps vals) xs) u) as [q u2]. cbn [both fst] in *. destruct B as [<- (us1 & mp1 & hns1 & hps1 & R')].
  exists q. do 4 eexists. split; [reflexivity|]. split; [exact A|exact R'].
Qed.

Lemma node_app ns x i : i < length ns -> node_at (ns ++ x) i = node_at ns i.
Proof. apply app_nth1. Qed.
Lemma vnode_app (ps : list (option (node U))) x i : i < length ps -> vnode (ps ++ x) i = vnode ps i.
Proof. apply app_nth1. Qed.
Lemma rep_length pus us mp hns hps h ns ps : pure_rep pus us mp hns hps h ns ps -> length ns = length mp /\ length ps = length mp.
Proof. intro R. rewrite (p_ns _ _ _ _ _ _ _ _ R), (p_ps _ _ _ _ _ _ _ _ R), !map_length. auto. Qed.
Lemma list_max_in l i : In i l -> i <= list_max l.
Proof. intro H. pose proof (proj1 (list_max_le l (list_max l)) (le_n _)) as L. rewrite Forall_forall in L. auto. Qed.

Lemma both_document lang head body pus us mp hns hps h ns ps vals u : pure_rep pus us mp hns hps h ns ps ->
  fit pus ps (item_uses lang ++ flat_map item_uses head ++ flat_map item_uses body) ->
  both (pus ++ item_uses lang ++ flat_map item_uses head ++ flat_map item_uses body) ns ps
    (kalways (kdocument h ns vals lang head body) u) (some1 (Document (vitem ps vals lang) (map (vitem ps vals) head) (map (vitem ps vals) body) u)).
Proof.
  intros R F. set (ul := item_uses lang) in *. set (uh := flat_map item_uses head) in *. set (ub := flat_map item_uses body) in *.
  set (K := S (list_max (pus ++ ul ++ uh ++ ub))). destruct (rep_length _ _ _ _ _ _ _ _ R) as [L1 L2].
  pose proof (rep_pad K _ _ _ _ _ _ _ _ R) as R0.
  set (ns0 := ns ++ repeat None K) in *. set (ps0 := ps ++ repeat None K) in *. set (N := length ns0).
  assert (N0 : N = length mp + K) by (unfold N, ns0; rewrite app_length, repeat_length; lia).
  assert (N1 : length ps0 = N) by (unfold ps0; rewrite app_length, repeat_length; lia).
  assert (Small : forall i, In i (pus ++ ul ++ uh ++ ub) -> i < N) by (intros i Hi; apply list_max_in in Hi; unfold K in *; lia).
  assert (Sp : forall i, In i pus -> i < N) by (intros i Hi; apply Small, in_or_app; auto).
  assert (Sl : forall i, In i ul -> i < N) by (intros i Hi; apply Small; rewrite !in_app_iff; auto).
  assert (Sh : forall i, In i uh -> i < N) by (intros i Hi; apply Small; rewrite !in_app_iff; auto).
  assert (Sb : forall i, In i ub -> i < N) by (intros i Hi; apply Small; rewrite !in_app_iff; auto).
  assert (A0 : forall x i, i < N -> node_at (ns0 ++ x) i = node_at ns i) by (intros x i Hi; rewrite node_app by exact Hi; apply nth_pad).
  assert (B0 : forall x i, i < N -> vnode (ps0 ++ x) i = vnode ps i) by (intros x i Hi; rewrite vnode_app by lia; apply nth_pad).
  assert (A00 : forall i, node_at ns0 i = node_at ns i) by (intro; apply nth_pad).
  assert (B00 : forall i, vnode ps0 i = vnode ps i) by (intro; apply nth_pad).
  unfold kalways, some1, kdocument, Document.
  assert (EK : match item_arg h ns vals lang with
    | AData GNil => (h, None, u)
    | a => let '(vs, u') := new_values [a] u in (h ++ [APlain (B "lang") vs], Some (SAttr (length h)), u')
    end = klang h (item_arg h ns vals lang) u).
  { unfold klang. destruct (item_arg h ns vals lang) as [| | | |g]; try reflexivity. destruct g; reflexivity. }
  rewrite EK. clear EK.
  change (match vitem ps vals lang with
    | AData GNil => (AData GNil, u)
    | _ => let '(n, u') := NewAttribute (B "lang") [vitem ps vals lang] u in (ANode n, u')
    end) with (vlang (vitem ps vals lang) u).
  (* lang *)
  assert (F0 : fit pus ps0 ul) by (eapply fit_ext; [apply (fit_part _ _ _ _ F)|intros; apply B00]).
  pose proof (both_lang lang _ _ _ _ _ _ _ _ vals u R0 F0) as X.
  rewrite (item_arg_ext h ns ns0 vals lang) in X by (intros; apply A00). rewrite (vitem_ext ps ps0 vals lang) in X by (intros; apply B00).
  destruct (klang h (item_arg h ns vals lang) u) as [[h1 la] u1]. destruct X as (ql & us1 & mp1 & hns1 & hps1 & -> & R1). fold ul in R1.
  (* head *)
  assert (F1 : fit (pus ++ ul) (ps0 ++ [ql]) (uh ++ ub)).
  { eapply fit_next; [exact F|]. intros i Hi. apply B0. apply in_app_or in Hi. destruct Hi; auto. }
  assert (X : let '(h2, hd, u2) := match head with
      | [] => (h1, None, u1)
      | _ => let '(l, u') := item_contents h1 ns vals head u1 in let '(h', n) := build false (B "head") l h1 in (h', Some n, u')
      end in
    exists q us2 mp2 hns2 hps2, vhead (map (vitem ps vals) head) u1 = (opt_arg q, u2) /\
      pure_rep ((pus ++ ul) ++ uh) us2 mp2 hns2 hps2 h2 ((ns0 ++ [la]) ++ [hd]) ((ps0 ++ [ql]) ++ [q])).
  { destruct head as [|x head'].
    - exists None. do 4 eexists. split; [reflexivity|]. apply rep_none. exact R1.
    - assert (F1' : fit (pus ++ ul) (ps0 ++ [ql]) (flat_map item_uses (x :: head'))) by (apply (fit_part _ _ _ _ F1)).
      pose proof (both_new_element (B "head") (x :: head') _ _ _ _ _ _ _ _ vals u1 R1 F1') as X.
      rewrite (item_contents_ext h1 ns (ns0 ++ [la]) vals (x :: head')) in X by (intros i Hi; apply A0, Sh, Hi).
      rewrite (vitems_ext ps (ps0 ++ [ql]) vals (x :: head')) in X by (intros i Hi; apply B0, Sh, Hi).
      destruct (item_contents h1 ns vals (x :: head') u1) as [l u2]. destruct (build false (B "head") l h1) as [h2 n]. destruct X as (_ & _ & q & us2 & mp2 & hns2 & hps2 & Q & _ & R2).
      exists (Some q). do 4 eexists. split; [|exact R2]. unfold vhead. change (map (vitem ps vals) (x :: head')) with (vitem ps vals x :: map (vitem ps vals) head') at 1. cbv iota. rewrite Q. reflexivity. }
  change (match map (vitem ps vals) head with
    | [] => (AData GNil, u1)
    | _ => let '(n, u') := NewElement (B "head") (map (vitem ps vals) head) u1 in (ANode n, u')
    end) with (vhead (map (vitem ps vals) head) u1).
  destruct (match head with [] => _ | _ => _ end) as [[h2 hd] u2]. destruct X as (qh & us2 & mp2 & hns2 & hps2 & -> & R2).
  (* body *)
  assert (F2 : fit ((pus ++ ul) ++ uh) ((ps0 ++ [ql]) ++ [qh]) ub).
  { eapply fit_next; [exact F1|]. intros i Hi. rewrite <- app_assoc, !B0; auto. }
  pose proof (both_new_element (B "body") body _ _ _ _ _ _ _ _ vals u2 R2 F2) as X.
  rewrite (item_contents_ext h2 ns ((ns0 ++ [la]) ++ [hd]) vals body) in X by (intros i Hi; rewrite <- app_assoc; apply A0, Sb, Hi).
  rewrite (vitems_ext ps ((ps0 ++ [ql]) ++ [qh]) vals body) in X by (intros i Hi; rewrite <- app_assoc; apply B0, Sb, Hi).
  destruct (item_contents h2 ns vals body u2) as [l u3]. destruct (build false (B "body") l h2) as [h3 bd]. destruct X as (_ & _ & qb & us3 & mp3 & hns3 & hps3 & -> & _ & R3).
  unfold DocType, PI. destruct (new_values [AData (GString (B "html"))] u3) as [vs u4].
  (* html *)
  fold ub in R3. rewrite <- !app_assoc in R3. cbn [app] in R3. set (ns3 := ns0 ++ [la; hd; Some bd]) in *. set (ps3 := ps0 ++ [ql; qh; Some qb]) in *.
  assert (I0 : node_at ns3 N = la /\ node_at ns3 (N + 1) = hd /\ node_at ns3 (N + 2) = Some bd).
  { unfold node_at, ns3. rewrite !app_nth2 by (unfold N; lia). unfold N. replace (length ns0 - length ns0) with 0 by lia. replace (length ns0 + 1 - length ns0) with 1 by lia. replace (length ns0 + 2 - length ns0) with 2 by lia. auto. }
  assert (J0 : vnode ps3 N = ql /\ vnode ps3 (N + 1) = qh /\ vnode ps3 (N + 2) = Some qb).
  { unfold vnode, ps3. rewrite !app_nth2 by lia. rewrite N1. replace (N - N) with 0 by lia. replace (N + 1 - N) with 1 by lia. replace (N + 2 - N) with 2 by lia. auto. }
  destruct I0 as (I0 & I1 & I2). destruct J0 as (J0 & J1 & J2).
  assert (F3 : fit (pus ++ ul ++ uh ++ ub) ps3 (flat_map item_uses [INode N; INode (N + 1); INode (N + 2)])).
  { intros i n Hi _ _. cbn [flat_map item_uses app] in *. split.
    - intro Q. specialize (Small _ Q). destruct Hi as [<-|[<-|[<-|[]]]]; lia.
    - cbn [count_occ]. repeat match goal with |- context [Nat.eq_dec ?a ?b] => destruct (Nat.eq_dec a b) end; lia. }
  pose proof (both_new_element (B "html") [INode N; INode (N + 1); INode (N + 2)] _ _ _ _ _ _ _ _ vals u4 R3 F3) as X.
  replace (item_contents h3 ns3 vals [INode N; INode (N + 1); INode (N + 2)] u4) with (item_contents h3 [la; hd; Some bd] [] [INode 0; INode 1; INode 2] u4) in X
    by (cbn [item_contents item_content]; rewrite I0, I1, I2; reflexivity).
  replace (map (vitem ps3 vals) [INode N; INode (N + 1); INode (N + 2)]) with [opt_arg ql; opt_arg qh; ANode qb] in X
    by (cbn [map vitem]; rewrite J0, J1, J2; reflexivity).
  destruct (item_contents h3 [la; hd; Some bd] [] [INode 0; INode 1; INode 2] u4) as [l' u5]. destruct (build false (B "html") l' h3) as [h4 n].
  destruct X as (S4 & T4 & q & us4 & mp4 & hns4 & hps4 & -> & A4 & R4). cbn [both]. split; [reflexivity|].
  (* the document *)
  cbn [flat_map item_uses app] in R4.
  pose proof (nodes_both _ _ _ _ _ _ _ _ (N + 3) R4) as Q.
  assert (I4 : node_at (ns3 ++ [Some n]) (N + 3) = Some n).
  { unfold node_at. rewrite app_nth2; unfold ns3, N; rewrite app_length; cbn [length]; [|lia]. rewrite Nat.sub_diag. reflexivity. }
  assert (J4 : vnode (ps3 ++ [Some q]) (N + 3) = Some q).
  { unfold vnode. rewrite app_nth2; unfold ps3; rewrite app_length, N1; cbn [length]; [|lia]. rewrite Nat.sub_diag. reflexivity. }
  rewrite I4, J4 in Q. destruct Q as (j & Ej & Hn & Hq).
  pose proof (rep_step (MDocument (LPI (B "DOCTYPE") vs) [j]) _ _ _ _ _ _ _ _ [N + 3] R4) as X. cbn [args make make_pure] in X.
  assert (P1 : pick hns4 [j] = [n]) by (rewrite (pick_one _ _ _ n Hn); reflexivity). assert (P2 : pick hps4 [j] = [q]) by (rewrite (pick_one _ _ _ q Hq); reflexivity).
  rewrite P1, P2 in X. unfold others_of, non_attrs in X. cbn [filter] in X. rewrite T4, A4 in X. cbn [negb read_leaf] in X.
  match type of X with _ -> _ -> _ -> ?T => assert (R5 : T) end.
  { apply X.
    - intros j' m Hm Hs [<-|[]]. exfalso. apply Hs. congruence.
    - intros j' [<-|[]]. apply nth_error_Some. congruence.
    - intros i j' Hi [<-|[]]. left. eapply (p_distinct _ _ _ _ _ _ _ _ R4); eauto. }
  clear X. set (d := SDocument (LPI (B "DOCTYPE") vs) [n]) in *. set (dq := NDocument (Some (NPI (B "DOCTYPE") vs)) [q]) in *.
  destruct (rep_length _ _ _ _ _ _ _ _ R4) as [L3 _].
  assert (LN : length ns <= length mp4) by (rewrite <- L3; unfold ns3, ns0; rewrite !app_length; lia).
  set (a := firstn (length ns) mp4). set (mid := skipn (length ns) mp4).
  assert (La : length a = length ns) by (unfold a; rewrite firstn_length; lia).
  assert (E4 : mp4 = a ++ mid) by (symmetry; apply firstn_skipn). rewrite E4, <- (app_assoc a mid) in R5.
  assert (Fn : forall A (x y : list (option A)) z (f : option nat -> option A), x ++ y = map f (a ++ z) -> length x = length a -> x = map f a).
  { intros A x y z f E Lx. rewrite map_app in E. apply (f_equal (firstn (length a))) in E.
    rewrite <- Lx, firstn_app, Nat.sub_diag, firstn_all, firstn_O, app_nil_r in E. rewrite E.
    rewrite Lx, firstn_app, map_length, Nat.sub_diag, firstn_O, app_nil_r. rewrite <- (map_length f a). apply firstn_all. }
  pose proof (p_ns _ _ _ _ _ _ _ _ R5) as EN. pose proof (p_ps _ _ _ _ _ _ _ _ R5) as EP.
  pose proof (i_len _ _ _ _ (p_inv _ _ _ _ _ _ _ _ R4)) as LL.
  unfold ns3, ns0 in EN. unfold ps3, ps0 in EP. rewrite <- !app_assoc in EN, EP. apply Fn in EN; [|lia]. apply Fn in EP; [|lia].
  assert (NU : ~ In (length hns4) (us4 ++ [j])).
  { intro Q. apply in_app_or in Q. destruct Q as [Q|[Q|[]]]; [apply (p_us _ _ _ _ _ _ _ _ R4) in Q; lia|]. assert (j < length hns4) by (apply nth_error_Some; congruence). lia. }
  pose proof (rep_drop _ (pus ++ ul ++ uh ++ ub) _ a mid _ _ _ _ _ _ R5 NU) as R6.
  rewrite !map_app, <- EN, <- EP in R6. cbn [map lookup] in R6. rewrite nth_error_app2, Nat.sub_diag in R6 by auto. rewrite nth_error_app2, LL, Nat.sub_diag in R6 by lia. cbn [nth_error] in R6.
  do 4 eexists. apply R6.
  intros i Hi Li. rewrite !in_app_iff in Hi. rewrite !in_app_iff. cbn [In] in Hi. intuition lia.
Qed.

Lemma make_both p c pus us mp hns hps h ns ps vals u : pure_rep pus us mp hns hps h ns ps -> fit pus ps (call_uses c) ->
  both (pus ++ call_uses c) ns ps (kmake p c h ns vals u) (vmake p c ps vals u).
Proof.
  intros R F. destruct c as [xs|xs|xs|name xs| |name xs|name xs|name|name|name d xs|name d xs|name xs|name xs|name xs|name xs|is|f is|key is|f is|key is|f is|f|f|lang head body|property xs];
    cbn [call_uses kmake vmake] in *.
  - exact (both_leaf LText xs _ _ _ _ _ _ _ _ vals u R F).
  - exact (both_leaf LComment xs _ _ _ _ _ _ _ _ vals u R F).
  - exact (both_leaf LFragment xs _ _ _ _ _ _ _ _ vals u R F).
  - exact (both_leaf (LPI name) xs _ _ _ _ _ _ _ _ vals u R F).
  - exact (both_leaf (LPI (B "DOCTYPE")) [IData (GString (B "html"))] _ _ _ _ _ _ _ _ vals u R F).
  - eapply both_checked; [exact R|]. exact (both_attr (APlain name) xs _ _ _ _ _ _ _ _ vals u R F).
  - exact (both_attr (APlain name) xs _ _ _ _ _ _ _ _ vals u R F).
  - eapply both_checked; [exact R|]. exact (both_attr (fun _ => ABool name) [] _ _ _ _ _ _ _ _ vals u R F).
  - exact (both_attr (fun _ => ABool name) [] _ _ _ _ _ _ _ _ vals u R F).
  - eapply both_checked; [exact R|]. exact (both_attr (ADelim name d) xs _ _ _ _ _ _ _ _ vals u R F).
  - exact (both_attr (ADelim name d) xs _ _ _ _ _ _ _ _ vals u R F).
  - unfold Element. destruct (bmem name void_element_names).
    + eapply both_checked; [exact R|]. exact (both_element true name xs _ _ _ _ _ _ _ _ vals u R F).
    + eapply both_checked; [exact R|]. exact (both_element false name xs _ _ _ _ _ _ _ _ vals u R F).
  - eapply both_checked; [exact R|]. exact (both_element true name xs _ _ _ _ _ _ _ _ vals u R F).
  - exact (both_element false name xs _ _ _ _ _ _ _ _ vals u R F).
  - exact (both_element true name xs _ _ _ _ _ _ _ _ vals u R F).
  - eapply both_collection; eauto.
  - destruct f as [f|]; cbn [Conditional group1]; [|eapply both_collection; eauto].
    eapply (both_group (MConditional f (dense mp is))); eauto; reflexivity.
  - unfold When. destruct (has_prefix (B "!") key); cbn [Conditional];
      [eapply (both_group (MConditional _ (dense mp is)))|eapply (both_group (MConditional _ (dense mp is)))]; eauto; reflexivity.
  - destruct f as [f|]; cbn [Iterate group1]; [|exact I]. eapply (both_group (MIterate f (dense mp is))); eauto; reflexivity.
  - unfold IterateKey. eapply (both_group (MIterate (key_items key) (dense mp is))); eauto; reflexivity.
  - destruct f as [f|]; cbn [IterateYield group1]; [|exact I]. eapply (both_group (MYield f (dense mp is))); eauto; reflexivity.
  - destruct f as [f|]; cbn [ContentCollect].
    + exact (both_lone (LCollect f) _ _ _ _ _ _ _ _ u R).
    + exact (both_collection [] _ _ _ _ _ _ _ _ u R F).
  - exact (both_lone (LImper f) _ _ _ _ _ _ _ _ u R).
  - eapply both_document; eauto.
  - pose proof (both_attr (styled property) xs _ _ _ _ _ _ _ _ vals u R F) as B. unfold kalways in *. rewrite kstyle_eq.
    unfold style_attribute, NewConcatValue, NewDelimitedAttribute. cbn [new_values new_value value_to_bytes].
    destruct (new_values (map (vitem ps vals) xs) u). exact B.
Qed.

(** ** Programs *)
Lemma render_both pus us mp hns hps h ns ps i n q fr e : pure_rep pus us mp hns hps h ns ps ->
  node_at ns i = Some n -> vnode ps i = Some q -> is_attr q = false -> same (render (read h n) fr e) (render q fr e).
Proof.
  intros R Hn Hq A. pose proof (nodes_both _ _ _ _ _ _ _ _ i R) as B. rewrite Hn, Hq in B. destruct B as (j & _ & E1 & E2).
  pose proof (i_strip _ _ _ _ (p_inv _ _ _ _ _ _ _ _ R) j n q E1 E2) as S. pose proof (i_neat _ _ _ _ (p_inv _ _ _ _ _ _ _ _ R) j q E2) as N.
  apply strip_same; auto.
  - rewrite <- strip_attr. etransitivity; [exact (f_equal is_attr S)|]. rewrite strip_attr. exact A.
  - rewrite <- neat_strip. etransitivity; [exact (f_equal neat S)|]. rewrite neat_strip. exact N.
Qed.
Definition state_rep (pus : list nat) (s : kstate) (t : vstate) : Prop :=
  (exists us mp hns hps, pure_rep pus us mp hns hps (k_heap s) (k_nodes s) (v_nodes t)) /\ k_vals s = v_vals t /\ k_out s = v_out t.

Theorem prog_both p E cs : forall pus s t w, state_rep pus s t -> lone p E cs pus t w ->
  match kprog p E cs s w, vprog p E cs t w with
  | Done (s', w1), Done (t', w2) => w1 = w2 /\ exists pus', state_rep pus' s' t'
  | Panic, Panic => True
  | _, _ => False
  end.
Proof.
  induction cs as [|c cs IH]; intros pus s t w S L; cbn [kprog vprog lone] in *; [split; eauto|].
  destruct L as (F & A & L). destruct S as ((us & mp & hns & hps & R) & EV & EO). destruct s as [h ns vals out], t as [ps vals' out'].
  cbn [k_heap k_nodes k_vals k_out v_nodes v_vals v_out] in *. subst vals' out'. destruct c as [c|x|xs|i fr e]; cbn [kcmd vcmd uses] in *.
  - pose proof (make_both p c _ _ _ _ _ _ _ _ vals (w_u w) R F) as B. unfold both in B.
    destruct (kmake p c h ns vals (w_u w)) as [[[h' n] u1]|], (vmake p c ps vals (w_u w)) as [[q u2]|]; try contradiction; [|exact I].
    destruct B as [<- B]. eapply IH; [|exact L]. split; auto.
  - unfold NewValue in *. rewrite (same_item _ _ _ _ _ _ _ _ vals x (w_u w) R F).
    destruct (new_value (vitem ps vals x) (w_u w)) as [vs u']. destruct (match vs with [v] => (v, u') | _ => (Val [] None vs, u') end) as [v u1].
    eapply IH; [|exact L]. split; [|split; reflexivity]. do 4 eexists. apply rep_nil, R.
  - unfold NewConcatValue in *. rewrite (same_items _ _ _ _ _ _ _ _ vals xs R F).
    destruct (new_values (map (vitem ps vals) xs) (w_u w)) as [vs u'].
    eapply IH; [|exact L]. split; [|split; reflexivity]. do 4 eexists. apply rep_nil, R.
  - pose proof (nodes_both _ _ _ _ _ _ _ _ i R) as B. destruct (node_at ns i) as [n|] eqn:En, (vnode ps i) as [q|] eqn:Eq; try contradiction; [|exact I].
    rewrite (render_both _ _ _ _ _ _ _ _ i n q fr e R En Eq (A q eq_refl) E w). destruct (run E (render q fr e) w) as [r w'].
    eapply IH; [|exact L]. split; [|split; reflexivity]. do 4 eexists. apply rep_nil, R.
Qed.
Lemma state_rep_start : state_rep [] kstart vstart.
Proof.
  split; [|split; reflexivity]. exists [], [], [], []. assert (N : forall A i, @nth_error A [] i = None) by (intros A [|i]; reflexivity).
  assert (N' : forall A i, nth i (@nil (option A)) None = None) by (intros A [|i]; reflexivity).
  constructor; try reflexivity.
  - apply Inv_start.
  - intros j [].
  - intros j n p H. rewrite N in H. discriminate.
  - intros i j H. rewrite N' in H. discriminate.
  - intros i i' j H. rewrite N' in H. discriminate.
  - intros i j H. rewrite N' in H. discriminate.
Qed.
End Pure.
