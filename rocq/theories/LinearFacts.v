(** Construction histories in which no attribute is used twice: the version on
    shared nodes (Sharing.v) and the version on values (Build.v) agree. *)
From Coq Require Import Permutation.
From Verif Require Import Bytes IO Nodes Values Render Slices Build NodeInd IOFacts RenderFacts
  SpecOut AttrFacts Sharing SharingFacts Strip.

Section Linear.
Context {W : UserWorld}.

(** As [strip], but the attributes an element would take from the node stay. *)
Fixpoint rough (n : node U) : node U :=
  match n with
  | NAttr a => NAttr a
  | NCollection ns => NCollection (map rough ns)
  | NConditional f attrs ns => NConditional f attrs (map rough ns)
  | _ => strip n
  end.

Lemma rough_attr n : is_attr (rough n) = is_attr n.
Proof. destruct n; reflexivity. Qed.

Lemma strip_rough n : strip (rough n) = strip n.
Proof.
  apply (node_iprog_ind (fun n => strip (rough n) = strip n) (fun _ => True)); intros; auto;
    try (cbn [rough]; apply strip_idem).
  - cbn [rough strip]. f_equal. f_equal. rewrite map_map.
    induction H; simpl; congruence.
  - cbn [rough strip]. f_equal. rewrite map_map. induction H; simpl; congruence.
Qed.

Lemma collect_rough n c m : collect_attrs c (rough n) m = collect_attrs c n m.
Proof.
  assert (G : forall ns : list (node U),
    Forall (fun n => forall c m, collect_attrs c (rough n) m = collect_attrs c n m) ns ->
    forall c m, collect_all c (map rough ns) m = collect_all c ns m).
  { induction 1 as [|n' ns Hn _ IH]; intros c' m'; [reflexivity|].
    cbn [map collect_all]. rewrite Hn. destruct (collect_attrs c' n' m') as [[a1 c1] m1].
    rewrite IH. reflexivity. }
  revert c m. 
  apply (node_iprog_ind (fun n => forall c m, collect_attrs c (rough n) m = collect_attrs c n m)
           (fun _ => True)); intros; auto.
  - cbn [rough]. rewrite !collect_coll. apply G. assumption.
  - cbn [rough]. rewrite !collect_cond. destruct (append1 m c fn) as [m1 c1].
    rewrite G by assumption. reflexivity.
Qed.
Lemma collect_all_rough ns c m : collect_all c (map rough ns) m = collect_all c ns m.
Proof.
  revert m; induction ns as [|n ns IH]; intro m; [reflexivity|].
  cbn [map collect_all]. rewrite collect_rough. destruct (collect_attrs c n m) as [[a1 c1] m1].
  rewrite IH. reflexivity.
Qed.

(** The locations that matter when a node is rendered. *)
Fixpoint inner (n : snode) : list loc :=
  match n with
  | SAttr _ | SLeaf _ => []
  | SElement _ attrs _ conds ns => attrs ++ map fst conds ++ flat_map inner ns
  | SVoid _ attrs _ conds => attrs ++ map fst conds
  | SCollection ns | SConditional _ _ ns | SIter _ ns | SYield _ ns | SDocument _ ns => flat_map inner ns
  end.

Lemma inner_refs n l : In l (inner n) -> In l (refs n).
Proof.
  assert (G : forall ns, Forall (fun n => In l (inner n) -> In l (refs n)) ns ->
              In l (flat_map inner ns) -> In l (flat_map refs ns)).
  { intros ns F H. rewrite in_flat_map in *. rewrite Forall_forall in F.
    destruct H as (x & Hx & Hl). eauto. }
  induction n using snode_ind'; cbn [inner refs]; auto.
  - simpl; tauto.
  - intro K. apply in_or_app. auto.
  - intro K. apply in_app_or in K. apply in_or_app. destruct K as [|K]; auto.
    apply in_app_or in K. right. apply in_or_app. destruct K; auto.
Qed.
Lemma surface_refs n l : In l (surface n) -> In l (refs n).
Proof.
  assert (G : forall ns, Forall (fun n => In l (surface n) -> In l (refs n)) ns ->
              In l (flat_map surface ns) -> In l (flat_map refs ns)).
  { intros ns F H. rewrite in_flat_map in *. rewrite Forall_forall in F.
    destruct H as (x & Hx & Hl). eauto. }
  induction n using snode_ind'; cbn [surface refs]; auto; try (simpl; tauto).
  intro K. apply in_app_or in K. apply in_or_app. destruct K; auto.
Qed.
Lemma declared_surface n l : In l (declared n) -> In l (surface n).
Proof.
  induction n using snode_ind'; cbn [declared surface]; auto; try (simpl; tauto).
  rewrite !in_flat_map. rewrite Forall_forall in H. intros (x & Hx & Hl). eauto.
Qed.

Definition agree (h h' : heap) (ls : list loc) : Prop := forall l, In l ls -> deref h' l = deref h l.

Lemma agree_flat (h h' : heap) (f : snode -> list loc) ns :
  agree h h' (flat_map f ns) -> forall n, In n ns -> agree h h' (f n).
Proof. intros H n Hn l Hl. apply H. apply in_flat_map. eauto. Qed.

Lemma agree_attrs h h' ls : agree h h' ls -> map (deref h') ls = map (deref h) ls.
Proof. intro H. apply map_ext_in. exact H. Qed.
Lemma agree_conds h h' (cs : list (loc * list (condfn U))) :
  agree h h' (map fst cs) ->
  map (fun p => (deref h' (fst p), snd p)) cs = map (fun p => (deref h (fst p), snd p)) cs.
Proof. intro H. apply map_ext_in. intros p Hp. rewrite H; auto. apply in_map. exact Hp. Qed.
Lemma agree_app h h' l1 l2 : agree h h' (l1 ++ l2) -> agree h h' l1 /\ agree h h' l2.
Proof. intro H. split; intros l Hl; apply H; apply in_or_app; auto. Qed.

Lemma strip_read h h' n : agree h h' (inner n) -> strip (read h' n) = strip (read h n).
Proof.
  assert (G : forall ns : list snode,
    Forall (fun n => agree h h' (inner n) -> strip (read h' n) = strip (read h n)) ns ->
    agree h h' (flat_map inner ns) ->
    map strip (map (read h') ns) = map strip (map (read h) ns)).
  { intros ns F H. rewrite !map_map. apply map_ext_Forall. rewrite Forall_forall in *.
    intros x Hx. apply F; auto. eapply agree_flat; eauto. }
  induction n using snode_ind'; cbn [inner read]; intro A; auto.
  - cbn [strip]. rewrite G; auto.
  - cbn [strip]. rewrite G; auto.
  - apply agree_app in A. destruct A as [A1 A2]. apply agree_app in A2. destruct A2 as [A2 A3].
    cbn [strip]. rewrite G, agree_attrs with (1 := A1), agree_conds with (1 := A2); auto.
  - apply agree_app in A. destruct A as [A1 A2].
    cbn [strip]. rewrite agree_attrs with (1 := A1), agree_conds with (1 := A2); auto.
  - cbn [strip]. rewrite G; auto.
  - cbn [strip]. rewrite G; auto.
  - cbn [strip]. rewrite G; auto.
Qed.

Lemma rough_read h h' n :
  agree h h' (surface n) -> agree h h' (inner n) -> rough (read h' n) = rough (read h n).
Proof.
  assert (G : forall ns : list snode,
    Forall (fun n => agree h h' (surface n) -> agree h h' (inner n) ->
                     rough (read h' n) = rough (read h n)) ns ->
    agree h h' (flat_map surface ns) -> agree h h' (flat_map inner ns) ->
    map rough (map (read h') ns) = map rough (map (read h) ns)).
  { intros ns F H K. rewrite !map_map. apply map_ext_Forall. rewrite Forall_forall in *.
    intros x Hx. apply F; auto; eapply agree_flat; eauto. }
  induction n using snode_ind'; intros S A;
    try (apply (strip_read h h') in A; exact A).
  - cbn [read rough]. rewrite S; simpl; auto.
  - reflexivity.
  - cbn [surface inner read rough] in *. rewrite G; auto.
  - cbn [surface inner read rough] in *. apply agree_app in S. destruct S as [S1 S2].
    rewrite G, agree_attrs with (1 := S1); auto.
Qed.

(** ** The invariant *)

Record Inv (us : list nat) (h : heap) (ns : list snode) (ps : list (node U)) : Prop := {
  i_len : length ns = length ps;
  i_bound : forall i n l, nth_error ns i = Some n -> In l (refs n) -> l < length h;
  i_rough : forall i n p, nth_error ns i = Some n -> nth_error ps i = Some p ->
    ~ In i us \/ surface n = [] -> rough (read h n) = rough p;
  i_strip : forall i n p, nth_error ns i = Some n -> nth_error ps i = Some p ->
    strip (read h n) = strip p;
  i_neat : forall i p, nth_error ps i = Some p -> neat p = true;
  i_nodup : forall i n, ~ In i us -> nth_error ns i = Some n -> NoDup (surface n);
  i_apart : forall i j n n', ~ In i us -> ~ In j us -> i <> j ->
    nth_error ns i = Some n -> nth_error ns j = Some n' ->
    forall l, In l (surface n) -> ~ In l (surface n');
  i_inner : forall i j n n', ~ In i us -> nth_error ns i = Some n -> nth_error ns j = Some n' ->
    forall l, In l (surface n) -> ~ In l (inner n')
}.

(** The arguments of a call are used for the first time, as far as they carry
    attributes. *)
Definition once (us : list nat) (ns : list snode) (is : list nat) : Prop :=
  forall i n, nth_error ns i = Some n -> surface n <> [] -> In i is ->
  ~ In i us /\ count_occ Nat.eq_dec is i <= 1.

Lemma pick_in {A} (ns : list A) is x : In x (pick ns is) <-> exists i, In i is /\ nth_error ns i = Some x.
Proof.
  unfold pick. induction is as [|i is IH]; simpl.
  - split; [tauto|]. intros (i & [] & _).
  - destruct (nth_error ns i) as [y|] eqn:E.
    + simpl. rewrite IH. split.
      * intros [->|(j & Hj & Ej)]; eauto.
      * intros (j & [<-|Hj] & Ej); [left; congruence|right; eauto].
    + simpl. rewrite IH. split.
      * intros (j & Hj & Ej); eauto.
      * intros (j & [<-|Hj] & Ej); [congruence|eauto].
Qed.

Lemma pick_cons {A} (ns : list A) i is :
  pick ns (i :: is) = match nth_error ns i with Some x => [x] | None => [] end ++ pick ns is.
Proof. reflexivity. Qed.

(** Whoever holds a surface location of an argument is that argument. *)
Lemma items_surface us h ns ps is l :
  Inv us h ns ps -> once us ns is -> In l (flat_map surface (pick ns is)) ->
  exists k n, In k is /\ ~ In k us /\ nth_error ns k = Some n /\ In l (surface n).
Proof.
  intros I O H. apply in_flat_map in H. destruct H as (n & Hn & Hl).
  apply pick_in in Hn. destruct Hn as (k & Hk & Ek).
  exists k, n. split; auto. split; auto.
  apply (O k n Ek); auto. intro E. rewrite E in Hl. destruct Hl.
Qed.

Lemma items_nodup us h ns ps is :
  Inv us h ns ps -> once us ns is -> NoDup (flat_map surface (pick ns is)).
Proof.
  intros I. induction is as [|i is IH]; intro O; [constructor|].
  rewrite pick_cons, flat_map_app. 
  assert (O' : once us ns is).
  { intros j n Hj Hs Hi. destruct (O j n Hj Hs (or_intror Hi)) as [A B]. split; auto.
    cbn [count_occ] in B. destruct (Nat.eq_dec i j); lia. }
  apply nodup_app. split; [|split; [apply IH, O'|]].
  - destruct (nth_error ns i) as [n|] eqn:E; [|constructor].
    cbn [flat_map]. rewrite app_nil_r. destruct (surface n) as [|l0 ls] eqn:Es; [constructor|].
    rewrite <- Es. apply (i_nodup _ _ _ _ I i n); auto.
    apply (O i n E); [congruence|left; reflexivity].
  - intros l Hl Hr. destruct (nth_error ns i) as [n|] eqn:E; [|destruct Hl].
    cbn [flat_map] in Hl. rewrite app_nil_r in Hl.
    destruct (items_surface _ _ _ _ _ _ I O' Hr) as (k & n' & Hk & Uk & Ek & Lk).
    assert (Sn : surface n <> []) by (intro Q; rewrite Q in Hl; destruct Hl).
    destruct (O i n E Sn (or_introl eq_refl)) as [Ui Ci].
    assert (i <> k).
    { intros ->. cbn [count_occ] in Ci. destruct (Nat.eq_dec k k); [|congruence].
      pose proof (count_occ_In Nat.eq_dec is k) as [C _]. specialize (C Hk). lia. }
    exact (i_apart _ _ _ _ I i k n n' Ui Uk H E Ek l Hl Lk).
Qed.

Lemma nth_error_snoc {A} (l : list A) x i y :
  nth_error (l ++ [x]) i = Some y -> (nth_error l i = Some y) \/ (i = length l /\ y = x).
Proof.
  intro H. destruct (Nat.lt_ge_cases i (length l)) as [L|L].
  - rewrite nth_error_app1 in H by assumption. auto.
  - rewrite nth_error_app2 in H by assumption. right.
    destruct (i - length l) as [|k] eqn:E.
    + split; [lia|]. simpl in H. congruence.
    + simpl in H. destruct k; discriminate.
Qed.

Lemma Inv_push us h ns ps is h' n' p' :
  Inv us h ns ps -> once us ns is ->
  length h <= length h' ->
  (forall l, l < length h -> deref h' l = deref h l \/ In l (flat_map surface (pick ns is))) ->
  NoDup (surface n') ->
  (forall l, In l (surface n') -> In l (flat_map surface (pick ns is)) \/ length h <= l) ->
  (forall l, In l (inner n') ->
     In l (flat_map surface (pick ns is)) \/ In l (flat_map inner (pick ns is))) ->
  (forall l, In l (surface n') -> ~ In l (inner n')) ->
  (forall l, In l (refs n') -> l < length h') ->
  rough (read h' n') = rough p' -> neat p' = true ->
  Inv (us ++ is) h' (ns ++ [n']) (ps ++ [p']).
Proof.
  intros I O Hh Hc Hnd Hs Hi Hsi Hr Hp Hn.
  assert (Bd : forall i n l, nth_error ns i = Some n -> In l (surface n) -> l < length h).
  { intros i n l E L. eapply (i_bound _ _ _ _ I); eauto. apply surface_refs. exact L. }
  assert (Bi : forall i n l, nth_error ns i = Some n -> In l (inner n) -> l < length h).
  { intros i n l E L. eapply (i_bound _ _ _ _ I); eauto. apply inner_refs. exact L. }
  assert (Out : forall i, ~ In i (us ++ is) -> ~ In i us /\ ~ In i is).
  { intros i H. split; intro K; apply H; apply in_or_app; auto. }
  (* inner locations of old nodes are not changed *)
  assert (AgI : forall i n, nth_error ns i = Some n -> agree h h' (inner n)).
  { intros i n E l L. destruct (Hc l (Bi _ _ _ E L)) as [|K]; auto. exfalso.
    destruct (items_surface _ _ _ _ _ _ I O K) as (k & m & Hk & Uk & Ek & Lk).
    exact (i_inner _ _ _ _ I k i m n Uk Ek E l Lk L). }
  assert (AgS : forall i n, nth_error ns i = Some n -> ~ In i (us ++ is) \/ surface n = [] ->
                agree h h' (surface n)).
  { intros i n E [U0|S0] l L; [|rewrite S0 in L; destruct L].
    destruct (Out _ U0) as [U1 U2].
    destruct (Hc l (Bd _ _ _ E L)) as [|K]; auto. exfalso.
    destruct (items_surface _ _ _ _ _ _ I O K) as (k & m & Hk & Uk & Ek & Lk).
    assert (k <> i) by (intros ->; auto).
    exact (i_apart _ _ _ _ I k i m n Uk U1 H Ek E l Lk L). }
  constructor.
  - rewrite !app_length, (i_len _ _ _ _ I). reflexivity.
  - intros i n l E L. apply nth_error_snoc in E. destruct E as [E|[-> ->]]; auto.
    pose proof (i_bound _ _ _ _ I i n l E L). lia.
  - intros i n p E F C. apply nth_error_snoc in E. apply nth_error_snoc in F.
    destruct E as [E|[Ei ->]], F as [F|[Fi ->]].
    + rewrite (rough_read h h' n); [|eapply AgS; eauto|eapply AgI; eauto].
      apply (i_rough _ _ _ _ I i n p E F). destruct C as [C|C]; auto.
      left. apply Out, C.
    + exfalso. rewrite <- (i_len _ _ _ _ I) in Fi. subst i.
      assert (nth_error ns (length ns) <> None) by congruence. apply nth_error_Some in H. lia.
    + exfalso. subst i. rewrite (i_len _ _ _ _ I) in F.
      assert (nth_error ps (length ps) <> None) by congruence. apply nth_error_Some in H. lia.
    + exact Hp.
  - intros i n p E F. apply nth_error_snoc in E. apply nth_error_snoc in F.
    destruct E as [E|[Ei ->]], F as [F|[Fi ->]].
    + rewrite (strip_read h h' n); [|eapply AgI; eauto]. apply (i_strip _ _ _ _ I i n p E F).
    + exfalso. rewrite <- (i_len _ _ _ _ I) in Fi. subst i.
      assert (nth_error ns (length ns) <> None) by congruence. apply nth_error_Some in H. lia.
    + exfalso. subst i. rewrite (i_len _ _ _ _ I) in F.
      assert (nth_error ps (length ps) <> None) by congruence. apply nth_error_Some in H. lia.
    + rewrite <- strip_rough, Hp, strip_rough. reflexivity.
  - intros i p F. apply nth_error_snoc in F. destruct F as [F|[_ ->]]; auto.
    exact (i_neat _ _ _ _ I i p F).
  - intros i n U0 E. apply Out in U0. apply nth_error_snoc in E. destruct E as [E|[_ ->]]; auto.
    apply (i_nodup _ _ _ _ I i n); tauto.
  - assert (X : forall i n, ~ In i (us ++ is) -> nth_error ns i = Some n ->
                forall l, In l (surface n) -> ~ In l (surface n')).
    { intros i n U0 E l L L'. apply Out in U0. destruct U0 as [U1 U2].
      destruct (Hs l L') as [K|K].
      - destruct (items_surface _ _ _ _ _ _ I O K) as (k & m & Hk & Uk & Ek & Lk).
        assert (k <> i) by (intros ->; auto).
        exact (i_apart _ _ _ _ I k i m n Uk U1 H Ek E l Lk L).
      - pose proof (Bd _ _ _ E L). lia. }
    intros i j n m Ui Uj Nij E F l L L'.
    apply nth_error_snoc in E. apply nth_error_snoc in F.
    destruct E as [E|[Ei ->]], F as [F|[Fi ->]].
    + apply Out in Ui. apply Out in Uj.
      exact (i_apart _ _ _ _ I i j n m (proj1 Ui) (proj1 Uj) Nij E F l L L').
    + exact (X i n Ui E l L L').
    + exact (X j m Uj F l L' L).
    + congruence.
  - intros i j n m Ui E F l L L'.
    apply nth_error_snoc in E. apply nth_error_snoc in F.
    destruct E as [E|[Ei ->]], F as [F|[Fi ->]].
    + apply Out in Ui. exact (i_inner _ _ _ _ I i j n m (proj1 Ui) E F l L L').
    + apply Out in Ui. destruct Ui as [U1 U2]. destruct (Hi l L') as [K|K].
      * destruct (items_surface _ _ _ _ _ _ I O K) as (k & q & Hk & Uk & Ek & Lk).
        assert (k <> i) by (intros ->; auto).
        exact (i_apart _ _ _ _ I k i q n Uk U1 H Ek E l Lk L).
      * apply in_flat_map in K. destruct K as (q & Hq & Kq). apply pick_in in Hq.
        destruct Hq as (k & Hk & Ek). exact (i_inner _ _ _ _ I i k n q U1 E Ek l L Kq).
    + destruct (Hs l L) as [K|K].
      * destruct (items_surface _ _ _ _ _ _ I O K) as (k & q & Hk & Uk & Ek & Lk).
        exact (i_inner _ _ _ _ I k j q m Uk Ek F l Lk L').
      * pose proof (Bi _ _ _ F L'). lia.
    + exact (Hsi l L L').
Qed.

(** ** The steps *)

Lemma pick_rough us h ns ps is :
  Inv us h ns ps -> once us ns is ->
  map rough (map (read h) (pick ns is)) = map rough (pick ps is).
Proof.
  intros I O. unfold pick.
  assert (O' : forall i n, In i is -> nth_error ns i = Some n -> ~ In i us \/ surface n = []).
  { intros i n Hi E. destruct (surface n) as [|l ls] eqn:Es; auto. left.
    apply (O i n E); auto. congruence. }
  clear O. induction is as [|i is IH]; [reflexivity|].
  cbn [map]. specialize (IH (fun j n H => O' j n (or_intror H))).
  destruct (nth_error ns i) as [n|] eqn:E, (nth_error ps i) as [p|] eqn:F; cbn [somes flat_map app].
  - cbn [map]. f_equal; [|exact IH]. apply (i_rough _ _ _ _ I i n p E F).
    apply O'; auto. left; reflexivity.
  - exfalso. apply nth_error_None in F. rewrite <- (i_len _ _ _ _ I) in F.
    assert (nth_error ns i <> None) by congruence. apply nth_error_Some in H. lia.
  - exfalso. apply nth_error_None in E. rewrite (i_len _ _ _ _ I) in E.
    assert (nth_error ps i <> None) by congruence. apply nth_error_Some in H. lia.
  - exact IH.
Qed.

Lemma pick_neat us h ns ps is p : Inv us h ns ps -> In p (pick ps is) -> neat p = true.
Proof. intros I H. apply pick_in in H. destruct H as (i & _ & E). exact (i_neat _ _ _ _ I i p E). Qed.

Lemma pick_bound us h ns ps is n l :
  Inv us h ns ps -> In n (pick ns is) -> In l (refs n) -> l < length h.
Proof. intros I H. apply pick_in in H. destruct H as (i & _ & E). exact (i_bound _ _ _ _ I i n l E). Qed.

Lemma rough_others h (ns : list snode) (ps : list (node U)) :
  map rough (map (read h) ns) = map rough ps ->
  map (deref h) (sattrs_of ns) = node_attrs ps /\
  map rough (map (read h) (others_of ns)) = map rough (non_attrs ps).
Proof.
  revert ps; induction ns as [|n ns IH]; intros [|p ps] H; try discriminate; [split; reflexivity|].
  cbn [map] in H. injection H as H1 H2. destruct (IH _ H2) as [A B].
  assert (T : is_attr (read h n) = is_attr p) by (rewrite <- rough_attr, H1, rough_attr; reflexivity).
  assert (S : is_sattr n = is_attr (read h n)) by (destruct n as [| [] | | | | | | |]; reflexivity).
  unfold others_of, non_attrs. cbn [filter]. rewrite S, T.
  unfold sattrs_of, node_attrs. cbn [flat_map].
  destruct p, n; try discriminate; cbn in *; try (split; [exact A|]); try (f_equal; auto; fail);
    try (f_equal; [exact H1|exact B]); try (destruct x; discriminate).
  - injection H1 as <-. split; [f_equal; exact A|exact B].
Qed.

Lemma sattrs_others ns :
  Permutation (sattrs_of ns ++ flat_map surface (others_of ns)) (flat_map surface ns).
Proof.
  induction ns as [|n ns IH]; [constructor|].
  destruct (is_sattr n) eqn:E.
  - destruct n; try discriminate. cbn. constructor. exact IH.
  - assert (sattrs_of (n :: ns) = sattrs_of ns) as -> by (destruct n; try discriminate; reflexivity).
    unfold others_of in *. cbn [filter flat_map]. rewrite E. cbn [negb flat_map].
    eapply Permutation_trans; [|apply Permutation_app_head; exact IH].
    rewrite !app_assoc. apply Permutation_app_tail. apply Permutation_app_comm.
Qed.
Lemma others_in (f : snode -> list loc) ns l :
  In l (flat_map f (others_of ns)) -> In l (flat_map f ns).
Proof.
  rewrite !in_flat_map. intros (x & Hx & L). apply filter_In in Hx. exists x. tauto.
Qed.

Lemma neat_non_attrs (l : list (node U)) :
  (forall p, In p l -> neat p = true) ->
  forallb (fun c => negb (is_attr c) && neat c) (non_attrs l) = true.
Proof.
  intro H. apply forallb_forall. intros x Hx. apply filter_In in Hx. destruct Hx as [A B].
  rewrite B, (H x A). reflexivity.
Qed.

Lemma set_nth_len {A} (l : list A) i x : length (set_nth l i x) = length l.
Proof. revert i; induction l as [|y l IH]; intros [|i]; simpl; auto. Qed.

Lemma sadd_length ds : forall st, length (fst (fst (fold_left sadd ds st))) = length (fst (fst st)).
Proof.
  induction ds as [|d ds IH]; intros [[h a] i]; [reflexivity|]. cbn [fold_left]. rewrite IH.
  unfold sadd. destruct (idx_get i _); [|reflexivity]. destruct (nth_error a n); [|reflexivity].
  destruct (deref h l); try reflexivity. destruct (deref h d); try reflexivity.
  apply set_nth_len.
Qed.

Lemma strip_of_rough (l1 l2 : list (node U)) : map rough l1 = map rough l2 -> map strip l1 = map strip l2.
Proof.
  intro H. apply (f_equal (map strip)) in H. rewrite !map_map in H.
  rewrite (map_ext _ strip), (map_ext (fun x => strip (rough x)) strip) in H; auto using strip_rough.
Qed.

Lemma build_pure us h ns ps is void name :
  Inv us h ns ps -> once us ns is ->
  let '(h', n') := build void name (pick ns is) h in
  let p' := if void then mk_void name (pick ps is) else mk_element name (pick ps is) in
  Inv (us ++ is) h' (ns ++ [n']) (ps ++ [p']).
Proof.
  intros I O. set (items := pick ns is). 
  pose proof (items_nodup _ _ _ _ _ I O) as ND. fold items in ND.
  pose proof (pick_rough _ _ _ _ _ I O) as PR. fold items in PR.
  unfold build, mk_void, mk_element, attributes_and_contents.
  rewrite <- (collect_all_rough (pick ps is)), <- PR, collect_all_rough, collect_all_read.
  pose proof (scollect_all_spec items []) as SP.
  destruct (scollect_all nil_slice items []) as [[ds cs] m]. destruct SP as [Hds Hperm].
  assert (ND2 : NoDup (ds ++ map fst cs)) by (eapply Permutation_NoDup; [symmetry; exact Hperm|exact ND]).
  apply nodup_app in ND2. destruct ND2 as (NDd & NDc & Dis).
  pose proof (sadd_pure_fold ds h [] [] NDd) as SA. 
  pose proof (sadd_length ds (h, [], [])) as SL.
  unfold add_attributes.
  destruct (fold_left sadd ds (h, [], [])) as [[h' atts] idx]. cbn [fst map app] in *.
  destruct SA as (E1 & In1 & C1). rewrite <- E1.
  assert (Surf : forall l, In l ds \/ In l (map fst cs) -> In l (flat_map surface items)).
  { intros l K. eapply Permutation_in; [exact Hperm|]. apply in_or_app. exact K. }
  assert (Hbound : forall l, In l (flat_map surface items) -> l < length h').
  { intros l L. rewrite SL. apply in_flat_map in L. destruct L as (x & Hx & L).
    eapply pick_bound; eauto. apply surface_refs. exact L. }
  assert (Hbi : forall l, In l (flat_map refs (others_of items)) -> l < length h').
  { intros l L. rewrite SL. apply others_in in L. apply in_flat_map in L. destruct L as (x & Hx & L).
    eapply pick_bound; eauto. }
  assert (Ch : forall l, l < length h -> deref h' l = deref h l \/ In l (flat_map surface items)).
  { intros l _. destruct (in_dec Nat.eq_dec l ds) as [K|K]; [right; apply Surf; auto|left; auto]. }
  assert (Cds : map (fun p => (deref h' (fst p), snd p)) (map (fun p => (fst p, slice_elems m (snd p))) cs) =
                map (fun '(a, s) => (a, slice_elems m s)) (map (dcond h) cs)).
  { rewrite !map_map. apply map_ext_in. intros [l s] Hl. cbn. f_equal. apply C1.
    intro K. apply (Dis l K). apply in_map_iff. exists (l, s). auto. }
  assert (Fst : map fst (map (fun p => (fst p, slice_elems m (snd p))) cs) = map fst cs).
  { rewrite map_map. reflexivity. }
  destruct void.
  - apply (Inv_push us h ns ps is h'); auto.
    + rewrite SL. auto.
    + constructor.
    + intros l [].
    + cbn [inner]. rewrite Fst. intros l L. left. apply in_app_or in L. apply Surf. destruct L as [L|L]; auto.
    + cbn [refs]. rewrite Fst. intros l L. apply Hbound. apply in_app_or in L. apply Surf. destruct L as [L|L]; auto.
    + cbn [read rough strip]. rewrite Cds. reflexivity.
  - apply (Inv_push us h ns ps is h'); auto.
    + rewrite SL. auto.
    + constructor.
    + intros l [].
    + cbn [inner]. rewrite Fst. intros l L. apply in_app_or in L.
      destruct L as [L|L]; [left; apply Surf; auto|]. apply in_app_or in L.
      destruct L as [L|L]; [left; apply Surf; auto|]. right. apply others_in. exact L.
    + cbn [refs]. rewrite Fst. intros l L. apply in_app_or in L.
      destruct L as [L|L]; [apply Hbound, Surf; auto|]. apply in_app_or in L.
      destruct L as [L|L]; [apply Hbound, Surf; auto|]. apply Hbi. exact L.
    + cbn [read rough strip]. rewrite Cds. f_equal.
      destruct (rough_others _ _ _ PR) as [_ R2]. apply strip_of_rough in R2.
      unfold non_attrs in R2. rewrite <- R2, !map_map. apply map_ext_in. intros x Hx.
      apply (strip_read h h' x). apply filter_In in Hx. destruct Hx as [Hx _].
      pose proof Hx as Hx'. apply pick_in in Hx'. destruct Hx' as (k & Hk & Ek).
      intros l L. destruct (Ch l) as [|K]; auto.
      { eapply pick_bound; eauto. apply inner_refs; exact L. }
      exfalso. destruct (items_surface _ _ _ _ _ _ I O K) as (k' & q & Hk' & Uk & Ek' & Lk).
      exact (i_inner _ _ _ _ I k' k q x Uk Ek' Ek l Lk L).
    + cbn [neat]. apply neat_non_attrs. intros p Hp. eapply pick_neat; eauto.
Qed.

Definition args (s : step) : list nat :=
  match s with
  | MAttr _ | MLeaf _ => []
  | MCollection is | MConditional _ is | MElement _ _ is | MIterate _ is | MYield _ is | MDocument _ is => is
  end.

Lemma Inv_make us h ns ps s :
  Inv us h ns ps -> once us ns (args s) ->
  let '(h', n') := make s h ns in
  Inv (us ++ args s) h' (ns ++ [n']) (ps ++ [make_pure s ps]).
Proof.
  intros I O. destruct s as [a|x|is|f is|void name is|f is|f is|x is]; cbn [make make_pure args] in *.
  - apply (Inv_push us h ns ps []); auto.
    + rewrite app_length. lia.
    + intros l L. left. unfold deref. rewrite app_nth1 by assumption. reflexivity.
    + cbn. constructor; [simpl; tauto|constructor].
    + intros l L. right. destruct L as [<-|[]]. apply Nat.le_refl.
    + cbn. intros l [<-|[]]. rewrite app_length. simpl. lia.
    + cbn [read rough]. unfold deref. rewrite app_nth2, Nat.sub_diag by auto. reflexivity.
  - apply (Inv_push us h ns ps []); auto; try (intros l []); try constructor.
    destruct x; reflexivity.
  - apply (Inv_push us h ns ps is); auto.
    + eapply items_nodup; eauto.
    + intros l L L'. cbn [surface inner] in *.
      destruct (items_surface _ _ _ _ _ _ I O L) as (k & q & Hk & Uk & Ek & Lk).
      apply in_flat_map in L'. destruct L' as (y & Hy & Ly). apply pick_in in Hy.
      destruct Hy as (j & Hj & Ej). exact (i_inner _ _ _ _ I k j q y Uk Ek Ej l Lk Ly).
    + cbn [refs]. intros l L. apply in_flat_map in L. destruct L as (y & Hy & Ly). eapply pick_bound; eauto.
    + cbn [read rough]. f_equal. eapply pick_rough; eauto.
    + cbn [neat]. apply forallb_forall. intros y Hy. rewrite (pick_neat _ _ _ _ _ _ I Hy).
      apply Bool.orb_true_r.
  - destruct (rough_others _ _ _ (pick_rough _ _ _ _ _ I O)) as [R1 R2].
    pose proof (sattrs_others (pick ns is)) as PS.
    apply (Inv_push us h ns ps is); auto.
    + cbn [surface]. eapply Permutation_NoDup; [symmetry; exact PS|]. eapply items_nodup; eauto.
    + cbn [surface]. intros l L. left. eapply Permutation_in; eauto.
    + cbn [inner]. intros l L. right. apply others_in. exact L.
    + cbn [surface inner]. intros l L L'. eapply Permutation_in in L; [|exact PS]. apply others_in in L'.
      destruct (items_surface _ _ _ _ _ _ I O L) as (k & q & Hk & Uk & Ek & Lk).
      apply in_flat_map in L'. destruct L' as (y & Hy & Ly). apply pick_in in Hy.
      destruct Hy as (j & Hj & Ej). exact (i_inner _ _ _ _ I k j q y Uk Ek Ej l Lk Ly).
    + cbn [refs]. intros l L. apply in_app_or in L. destruct L as [L|L].
      * unfold sattrs_of in L. apply in_flat_map in L. destruct L as (y & Hy & Ly).
        eapply pick_bound; eauto. destruct y; try destruct Ly as [<-|[]]; try destruct Ly. left; reflexivity.
      * apply others_in in L. apply in_flat_map in L. destruct L as (y & Hy & Ly). eapply pick_bound; eauto.
    + cbn [read rough]. rewrite R1, R2. reflexivity.
    + cbn [neat]. apply neat_non_attrs. intros p Hp. eapply pick_neat; eauto.
  - exact (build_pure us h ns ps is void name I O).
  - destruct (rough_others _ _ _ (pick_rough _ _ _ _ _ I O)) as [R1 R2].
    apply (Inv_push us h ns ps is); auto.
    + constructor.
    + intros l [].
    + cbn [inner]. intros l L. right. apply others_in. exact L.
    + cbn [refs]. intros l L. apply others_in in L. apply in_flat_map in L. destruct L as (y & Hy & Ly). eapply pick_bound; eauto.
    + cbn [read rough strip]. f_equal. apply strip_of_rough. exact R2.
    + cbn [neat]. apply neat_non_attrs. intros p Hp. eapply pick_neat; eauto.
  - destruct (rough_others _ _ _ (pick_rough _ _ _ _ _ I O)) as [R1 R2].
    apply (Inv_push us h ns ps is); auto.
    + constructor.
    + intros l [].
    + cbn [inner]. intros l L. right. apply others_in. exact L.
    + cbn [refs]. intros l L. apply others_in in L. apply in_flat_map in L. destruct L as (y & Hy & Ly). eapply pick_bound; eauto.
    + cbn [read rough strip]. f_equal. apply strip_of_rough. exact R2.
    + cbn [neat]. apply neat_non_attrs. intros p Hp. eapply pick_neat; eauto.
  - destruct (rough_others _ _ _ (pick_rough _ _ _ _ _ I O)) as [R1 R2].
    apply (Inv_push us h ns ps is); auto.
    + constructor.
    + intros l [].
    + cbn [inner]. intros l L. right. apply others_in. exact L.
    + cbn [refs]. intros l L. apply others_in in L. apply in_flat_map in L. destruct L as (y & Hy & Ly). eapply pick_bound; eauto.
    + cbn [read rough strip]. f_equal. apply strip_of_rough. exact R2.
    + cbn [neat]. apply neat_non_attrs. intros p Hp. eapply pick_neat; eauto.
Qed.

Lemma Inv_start : Inv [] [] [] [].
Proof.
  assert (N : forall A i, @nth_error A [] i = None) by (intros A [|i]; reflexivity).
  constructor; auto; intros; rewrite N in *; discriminate.
Qed.

(** Nodes are only added. *)
Lemma history_grows l : forall st, exists extra, snd (history l st) = snd st ++ extra.
Proof.
  induction l as [|s l IH]; intro st; cbn [history].
  - exists []. symmetry. apply app_nil_r.
  - destruct (make s (fst st) (snd st)) as [h' n]. destruct (IH (h', snd st ++ [n])) as [ex E].
    exists (n :: ex). rewrite E. cbn. rewrite <- app_assoc. reflexivity.
Qed.

Lemma Inv_history l : forall us h ns ps,
  Inv us h ns ps ->
  (forall i n, nth_error (snd (history l (h, ns))) i = Some n -> surface n <> [] ->
     count_occ Nat.eq_dec (us ++ flat_map args l) i <= 1) ->
  Inv (us ++ flat_map args l) (fst (history l (h, ns))) (snd (history l (h, ns)))
      (history_pure l ps).
Proof.
  induction l as [|s l IH]; intros us h ns ps I C.
  - cbn. rewrite app_nil_r. exact I.
  - cbn [history history_pure flat_map fst snd] in *.
    pose proof (Inv_make us h ns ps s I) as M.
    destruct (make s h ns) as [h' n] eqn:Em.
    assert (O : once us ns (args s)).
    { intros i m E S0 Hi. destruct (history_grows l (h', ns ++ [n])) as [ex Eg].
      assert (nth_error (snd (history l (h', ns ++ [n]))) i = Some m) as E'.
      { rewrite Eg. cbn [snd]. rewrite <- app_assoc, nth_error_app1; auto.
        apply nth_error_Some. congruence. }
      specialize (C i m E' S0). rewrite !count_occ_app in C.
      pose proof (proj1 (count_occ_In Nat.eq_dec (args s) i) Hi).
      split; [|lia]. intro K. apply (count_occ_In Nat.eq_dec) in K. lia. }
    rewrite app_assoc. apply IH; [exact (M O)|]. rewrite <- app_assoc. exact C.
Qed.

End Linear.
