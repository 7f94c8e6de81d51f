(** Tags with attributes of the user's own types show what [x_spec] says. *)
From Coq Require Import Permutation.
From Verif Require Import Bytes IO IOFacts Nodes Values Render UserAttr AttrFacts.

Section Facts.
Context {W : UserWorld}.
Notation names := (map (@x_name W)).

(** ** Names *)

Lemma x_names_of_spec (ds : list xattr) :
  NoDup (x_names_of ds) /\ (forall n, In n (x_names_of ds) <-> In n (names ds)).
Proof.
  unfold x_names_of. split.
  - apply NoDup_rev, NoDup_nodup.
  - intro n. rewrite <- in_rev, nodup_In, <- in_rev. tauto.
Qed.

Lemma x_names_of_snoc (ds : list xattr) a :
  x_names_of (ds ++ [a]) =
  x_names_of ds ++ (if bmem (x_name a) (names ds) then [] else [x_name a]).
Proof.
  unfold x_names_of. rewrite map_app, rev_app_distr. cbn [map rev app nodup].
  destruct (in_dec bytes_dec (x_name a) (rev (names ds))) as [H|H].
  - assert (bmem (x_name a) (names ds) = true) as -> by (apply bmem_In, in_rev; auto).
    rewrite app_nil_r. reflexivity.
  - destruct (bmem (x_name a) (names ds)) eqn:E.
    + exfalso. apply H, in_rev. rewrite rev_involutive. apply bmem_In. auto.
    + reflexivity.
Qed.

Lemma x_keys_spec (l : list xattr) :
  NoDup (x_keys l) /\ (forall n, In n (x_keys l) <-> In n (names l)).
Proof.
  induction l as [|a l [IH1 IH2]]; simpl; [split; [constructor|tauto]|]. split.
  - constructor.
    + rewrite filter_In. intros [_ H]. rewrite beq_refl in H. discriminate.
    + apply NoDup_filter. auto.
  - intro n. simpl. rewrite filter_In, IH2. split.
    + intros [<-|[H _]]; auto.
    + intros [<-|H]; auto. destruct (bytes_dec (x_name a) n) as [->|D]; auto.
      right. split; auto. destruct (beq_spec n (x_name a)); [congruence|reflexivity].
Qed.

Lemma x_merge_name (x a : @xattr W) : x_name x = x_name a -> x_name (x_merge x a) = x_name a.
Proof.
  destruct x as [[n vs|n|n d vs]|n p]; try reflexivity.
  destruct a as [[m ws|m|m e ws]|m q]; auto.
Qed.

Lemma x_get_snoc (ds : list xattr) a n :
  x_get (ds ++ [a]) n = x_get ds n ++ (if beq (x_name a) n then [a] else []).
Proof.
  unfold x_get. rewrite filter_app. cbn [filter]. destruct (beq (x_name a) n); reflexivity.
Qed.

Lemma x_get_in (l : list (@xattr W)) n : x_get l n = [] <-> ~ In n (names l).
Proof.
  unfold x_get. induction l as [|a l IH]; simpl; [tauto|].
  destruct (beq_spec (x_name a) n) as [E|E]; [split; [discriminate|tauto]|].
  rewrite IH. tauto.
Qed.

(** ** What addAttributes stores *)

Lemma x_add1_names (l : list xattr) a :
  names (x_add1 l a) = names l ++ (if bmem (x_name a) (names l) then [] else [x_name a]).
Proof.
  induction l as [|x l IH]; [reflexivity|]. cbn [x_add1].
  destruct (beq_spec (x_name x) (x_name a)) as [E|E].
  - cbn [map]. rewrite x_merge_name by auto.
    assert (bmem (x_name a) (x_name x :: names l) = true) as ->
      by (apply bmem_In; left; auto).
    rewrite app_nil_r, E. reflexivity.
  - cbn [map app]. rewrite IH. f_equal. f_equal.
    assert (bmem (x_name a) (names l) = bmem (x_name a) (x_name x :: names l)) as ->; auto.
    apply eq_true_iff_eq. rewrite !bmem_In. simpl. intuition.
Qed.

Lemma x_add_snoc (ds : list (@xattr W)) a : x_add (ds ++ [a]) = x_add1 (x_add ds) a.
Proof. unfold x_add. rewrite fold_left_app. reflexivity. Qed.

Lemma x_add_names (ds : list xattr) : names (x_add ds) = x_names_of ds.
Proof.
  induction ds as [|a ds IH] using rev_ind; [reflexivity|].
  rewrite x_add_snoc, x_add1_names, x_names_of_snoc, IH. f_equal.
  assert (bmem (x_name a) (x_names_of ds) = bmem (x_name a) (names ds)) as ->; auto.
  apply eq_true_iff_eq. rewrite !bmem_In. apply x_names_of_spec.
Qed.

Lemma x_find_add1 (l : list xattr) a n :
  x_find (x_add1 l a) n =
  if beq (x_name a) n
  then Some (match x_find l n with Some x => x_merge x a | None => a end)
  else x_find l n.
Proof.
  unfold x_find. induction l as [|x l IH]; cbn [x_add1 find].
  - destruct (beq (x_name a) n); reflexivity.
  - destruct (beq_spec (x_name x) (x_name a)) as [E|E]; cbn [find].
    + rewrite x_merge_name by auto. rewrite <- E.
      destruct (beq (x_name x) n); reflexivity.
    + rewrite IH. destruct (beq_spec (x_name x) n) as [F|F]; [|reflexivity].
      destruct (beq_spec (x_name a) n); [congruence|reflexivity].
Qed.

Lemma x_while_app_rev (ds : list (@xattr W)) a :
  rev (x_while (rev (ds ++ [a]))) =
  if x_delimited a then rev (x_while (rev ds)) ++ [a] else [].
Proof.
  rewrite rev_app_distr. cbn [rev app x_while]. destruct (x_delimited a); reflexivity.
Qed.

Lemma x_while_all (l : list (@xattr W)) a : In a (x_while l) -> x_delimited a = true.
Proof.
  induction l as [|x l IH]; [simpl; tauto|]. cbn [x_while].
  destruct (x_delimited x) eqn:E; [|simpl; tauto]. intros [->|H]; auto.
Qed.

Lemma x_values_app (l r : list (@xattr W)) : x_values (l ++ r) = x_values l ++ x_values r.
Proof. apply flat_map_app. Qed.

Lemma x_effective_snoc (ds : list (@xattr W)) a :
  x_effective (ds ++ [a]) =
  Some (match x_effective ds with Some x => x_merge x a | None => a end).
Proof.
  unfold x_effective. rewrite x_while_app_rev.
  assert (D : forall x, In x (rev (x_while (rev ds))) -> x_delimited x = true)
    by (intros x H; apply in_rev, x_while_all in H; auto).
  destruct (x_delimited a) eqn:Da.
  - destruct a as [[m ws|m|m e ws]|m q]; try discriminate.
    destruct (rev (x_while (rev ds))) as [|x r] eqn:R.
    + cbn [app x_values flat_map attr_values]. rewrite app_nil_r.
      destruct (rev ds) as [|y l]; [reflexivity|]. cbn [hd_error].
      assert (Dy : x_delimited y = false).
      { cbn [x_while] in R. destruct (x_delimited y) eqn:Q; auto. exfalso.
        cbn [rev] in R. destruct (rev (x_while l)); discriminate. }
      destruct y as [[n vs|n|n d vs]|n p]; try discriminate; reflexivity.
    + assert (X : x_delimited x = true) by (apply D; left; auto).
      destruct x as [[n vs|n|n d vs]|n p]; try discriminate.
      cbn [app x_merge]. do 2 f_equal.
      change (Own (ADelim n d vs) :: r ++ [Own (ADelim m e ws)])
        with ((Own (ADelim n d vs) :: r) ++ [Own (ADelim m e ws)]).
      rewrite x_values_app. cbn [x_values flat_map attr_values].
      rewrite app_nil_r. reflexivity.
  - rewrite rev_app_distr. cbn [rev app hd_error]. f_equal.
    destruct (rev (x_while (rev ds))) as [|x r].
    + destruct (rev ds) as [|y l]; [reflexivity|]. cbn [hd_error].
      destruct y as [[n vs|n|n d vs]|n p]; try reflexivity.
      destruct a as [[m ws|m|m e ws]|m q]; try discriminate; reflexivity.
    + destruct x as [[n vs|n|n d vs]|n p]; try reflexivity.
      destruct a as [[m ws|m|m e ws]|m q]; try discriminate; reflexivity.
Qed.

Lemma x_find_add (ds : list xattr) n : x_find (x_add ds) n = x_effective (x_get ds n).
Proof.
  induction ds as [|a ds IH] using rev_ind; [reflexivity|].
  rewrite x_add_snoc, x_find_add1, x_get_snoc, IH.
  destruct (beq (x_name a) n); [|rewrite app_nil_r; reflexivity].
  rewrite x_effective_snoc. reflexivity.
Qed.

Definition x_shown (ds act : list (@xattr W)) (n : bytes) : list xattr :=
  match x_settled (x_effective (x_get ds n)) (x_get act n) with Some x => [x] | None => [] end.

Lemma x_settled_nil (st : option (@xattr W)) : x_settled st [] = st.
Proof.
  destruct st as [[[n vs|n|n d vs]|n p]|]; simpl; auto. rewrite app_nil_r. reflexivity.
Qed.

Lemma last_hd_rev {A} (l : list A) d : last l d = match rev l with a :: _ => a | [] => d end.
Proof.
  induction l as [|x l IH] using rev_ind; [reflexivity|].
  rewrite last_last, rev_app_distr. reflexivity.
Qed.

Lemma rev_cons_some {A} (x : A) l : exists y r, rev (x :: l) = y :: r.
Proof.
  destruct (rev (x :: l)) as [|y r] eqn:E; [|eauto].
  apply (f_equal (@length _)) in E. rewrite rev_length in E. discriminate.
Qed.

Lemma x_settled_static (a : @xattr W) x l :
  x_settled (Some a) (x :: l) = Some (x_resolve a (x :: l)).
Proof.
  unfold x_settled, x_resolve. destruct (rev_cons_some x l) as (y & r & E).
  destruct a as [[n vs|n|n d vs]|n p]; rewrite ?last_hd_rev, ?E; reflexivity.
Qed.

Lemma x_settled_dynamic (x : @xattr W) l :
  x_settled None (x :: l) = Some (x_resolve x l).
Proof.
  unfold x_settled, x_resolve. 
  destruct x as [[n vs|n|n d vs]|n p]; [| |reflexivity|];
    cbn [rev]; rewrite last_hd_rev; destruct (rev l); reflexivity.
Qed.

(** ** The loops as one pass over a list *)

Lemma x_each_app fr (l r : list xattr) err E w :
  run E (x_each fr (l ++ r) err) w =
  let '(e, w') := run E (x_each fr l err) w in run E (x_each fr r e) w'.
Proof.
  revert err w; induction l as [|a l IH]; intros err w; [reflexivity|].
  cbn [app x_each]. rewrite !run_bind.
  destruct (run E (x_render fr a err) w) as [e1 w1]. apply IH.
Qed.

Lemma x_static_run E fr ds act ns err w :
  (forall n, In n ns -> In n (names ds)) ->
  run E (x_static_loop fr (x_add ds) act ns err) w =
  run E (x_each fr (flat_map (x_shown ds act) ns) err) w.
Proof.
  revert err w; induction ns as [|n ns IH]; intros err w H; [reflexivity|].
  cbn [x_static_loop flat_map]. rewrite x_each_app, run_bind, x_find_add. unfold x_shown at 1.
  assert (IHn : forall e w', run E (x_static_loop fr (x_add ds) act ns e) w' =
                run E (x_each fr (flat_map (x_shown ds act) ns) e) w').
  { intros. apply IH. intros; apply H; right; auto. }
  destruct (x_effective (x_get ds n)) as [a|] eqn:A.
  - destruct (x_get act n) as [|x l]; [rewrite x_settled_nil|rewrite x_settled_static];
      cbn [x_each]; rewrite run_bind;
      match goal with |- context [run E (x_render fr ?y err) w] =>
        destruct (run E (x_render fr y err) w) as [e1 w1] end; apply IHn.
  - exfalso. assert (In n (names ds)) by (apply H; left; auto).
    assert (F : x_find (x_add ds) n = None) by (rewrite x_find_add; auto).
    assert (In n (names (x_add ds))) by (rewrite x_add_names; apply x_names_of_spec; auto).
    apply in_map_iff in H1 as (y & Hy & H1).
    pose proof (find_none _ _ F y H1) as X. simpl in X. rewrite Hy, beq_refl in X. discriminate.
Qed.

Definition x_new (ds : list (@xattr W)) (n : bytes) : bool := negb (bmem n (names ds)).

Lemma x_dynamic_run E fr ds act ns err w :
  run E (x_dynamic_loop fr (x_add ds) act ns err) w =
  run E (x_each fr (flat_map (x_shown ds act) (filter (x_new ds) ns)) err) w.
Proof.
  revert err w; induction ns as [|n ns IH]; intros err w; [reflexivity|].
  cbn [x_dynamic_loop filter]. unfold x_new at 1. rewrite run_bind, x_find_add.
  destruct (bmem n (names ds)) eqn:M; cbn [negb].
  - destruct (x_effective (x_get ds n)) as [a|] eqn:A; [apply IH|].
    exfalso. apply bmem_In in M.
    assert (G : x_get ds n <> []) by (rewrite x_get_in; tauto).
    destruct (x_get ds n) as [|x l] using rev_ind; [auto|].
    rewrite x_effective_snoc in A. discriminate.
  - assert (G : x_get ds n = []) by (apply x_get_in; rewrite <- bmem_In; congruence).
    cbn [flat_map]. rewrite x_each_app. unfold x_shown at 1. rewrite G. cbn [x_effective rev x_while hd_error].
    destruct (x_get act n) as [|x l]; [apply IH|].
    change (x_effective []) with (@None xattr). rewrite x_settled_dynamic.
    cbn [x_each]. rewrite run_bind.
    destruct (run E (x_render fr (x_resolve x l) err) w) as [e1 w1]. apply IH.
Qed.

(** ** Conditions *)

Lemma conds_eval_run E fr err cs w :
  run E (conds_eval fr err cs) w =
  let '(b, u) := x_holds (view fr err) cs (w_u w) in (b, World (w_log w) u (w_tick w)).
Proof.
  revert w; induction cs as [|f cs IH]; intro w; [destruct w; reflexivity|].
  cbn [conds_eval x_holds run]. destruct (f (view fr err) (w_u w)) as [b u].
  destruct b; [|reflexivity]. rewrite IH. reflexivity.
Qed.

Lemma x_active_run E fr err cas w :
  run E (x_active fr err cas) w =
  let '(l, u) := x_applying (view fr err) cas (w_u w) in (l, World (w_log w) u (w_tick w)).
Proof.
  revert w; induction cas as [|[a cs] cas IH]; intro w; [destruct w; reflexivity|].
  cbn [x_active x_applying]. rewrite run_bind, conds_eval_run.
  destruct (x_holds (view fr err) cs (w_u w)) as [b u1].
  rewrite run_bind, IH. cbn [w_u w_log w_tick].
  destruct (x_applying (view fr err) cas u1) as [l u2]. reflexivity.
Qed.

Lemma x_add_shown (ds : list xattr) : x_add ds = x_spec ds [].
Proof.
  unfold x_spec. rewrite app_nil_r, <- x_add_names.
  assert (ND : NoDup (names (x_add ds))) by (rewrite x_add_names; apply x_names_of_spec).
  rewrite (flat_map_ext _ (fun n => match x_find (x_add ds) n with Some x => [x] | None => [] end)).
  2:{ intro n. cbn [x_get filter]. rewrite x_settled_nil, x_find_add. reflexivity. }
  assert (H : forall l, (forall a, In a l -> In a (x_add ds)) ->
    l = flat_map (fun n => match x_find (x_add ds) n with Some x => [x] | None => [] end) (names l)).
  { induction l as [|a l IH]; intro H; [reflexivity|]. cbn [map flat_map].
    assert (x_find (x_add ds) (x_name a) = Some a) as ->.
    { assert (In a (x_add ds)) as Ia by (apply H; left; auto). clear - ND Ia.
      induction (x_add ds) as [|y r IHr]; [destruct Ia|]. unfold x_find. cbn [find].
      cbn [map] in ND. inversion ND; subst.
      destruct Ia as [->|Ia]; [rewrite beq_refl; reflexivity|].
      destruct (beq_spec (x_name y) (x_name a)) as [E|E]; [|apply IHr; auto].
      exfalso. apply H1. rewrite E. apply in_map. auto. }
    cbn [app]. f_equal. apply IH. intros; apply H; right; auto. }
  apply H. auto.
Qed.

(** ** renderAttributes *)

(** A moment at which a map has been iterated over. *)
Definition ticked (w : world U) : world U := World (w_log w) (w_u w) (S (w_tick w)).

(** The attributes are rendered in two groups, with an iteration over a map
    before each when a conditional attribute applies. *)
Theorem x_attributes_run E fr ds conds err w :
  ord_ok (e_ord E) ->
  let '(act, u) := x_applying (view fr err) conds (w_u w) in
  let w0 := World (w_log w) u (w_tick w) in
  match act with
  | [] => run E (x_attributes fr ds conds err) w = run E (x_each fr (x_spec ds []) err) w0
  | _ =>
      exists l1 l2,
        Permutation (l1 ++ l2) (x_spec ds act) /\
        run E (x_attributes fr ds conds err) w =
        (let '(e, w1) := run E (x_each fr l1 err) (ticked w0) in
         run E (x_each fr l2 e) (ticked w1))
  end.
Proof.
  intro O. unfold x_attributes. rewrite run_bind, x_active_run.
  destruct (x_applying (view fr err) conds (w_u w)) as [act u].
  destruct act as [|x act].
  - rewrite x_add_shown. reflexivity.
  - remember (x :: act) as ev. clear Heqev x act. cbn [run w_tick w_log w_u].
    destruct (x_names_of_spec ds) as [N1 N2].
    destruct (x_keys_spec ev) as [K1 K2].
    destruct (x_names_of_spec (ds ++ ev)) as [M1 M2].
    set (n1 := e_ord E (w_tick w) (names (x_add ds))).
    assert (P1 : Permutation (names (x_add ds)) n1) by apply O.
    rewrite x_add_names in P1.
    rewrite run_bind, x_static_run.
    2:{ intros n H. apply N2. apply (Permutation_in _ (Permutation_sym P1)). auto. }
    change (World (w_log w) u (S (w_tick w))) with (ticked (World (w_log w) u (w_tick w))).
    set (w0 := World (w_log w) u (w_tick w)).
    destruct (run E (x_each fr (flat_map (x_shown ds ev) n1) err) (ticked w0)) as [e w1] eqn:R.
    cbn [run]. set (n2 := e_ord E (w_tick w1) (x_keys ev)).
    assert (P2 : Permutation (x_keys ev) n2) by apply O.
    exists (flat_map (x_shown ds ev) n1), (flat_map (x_shown ds ev) (filter (x_new ds) n2)).
    split; [|rewrite R; apply x_dynamic_run].
    rewrite <- flat_map_app. unfold x_spec.
    change (fun n => match x_settled (x_effective (x_get ds n)) (x_get ev n) with
                     | Some x => [x] | None => [] end) with (x_shown ds ev).
    apply Permutation_flat_map, NoDup_Permutation; auto.
    + apply NoDup_app_iff_local.
      * eapply Permutation_NoDup; eauto.
      * apply NoDup_filter. eapply Permutation_NoDup; eauto.
      * intros n H1 H2. apply filter_In in H2 as [_ H2].
        apply (Permutation_in _ (Permutation_sym P1)), N2, bmem_In in H1.
        unfold x_new in H2. rewrite H1 in H2. discriminate.
    + intro n. rewrite M2, map_app, !in_app_iff, filter_In. unfold x_new.
      assert (I1 : In n n1 <-> In n (names ds)).
      { rewrite <- N2. split; apply Permutation_in; auto. symmetry; auto. }
      assert (I2 : In n n2 <-> In n (names ev)).
      { rewrite <- K2. split; apply Permutation_in; auto. symmetry; auto. }
      rewrite I1, I2. destruct (bmem n (names ds)) eqn:M.
      * apply bmem_In in M. tauto.
      * simpl. tauto.
Qed.

(** ** Names shown *)

Lemma x_while_incl (l : list (@xattr W)) a : In a (x_while l) -> In a l.
Proof.
  induction l as [|x l IH]; [simpl; tauto|]. cbn [x_while].
  destruct (x_delimited x); [|simpl; tauto]. intros [->|H]; [left|right]; auto.
Qed.

Lemma x_get_name (l : list (@xattr W)) n a : In a (x_get l n) -> x_name a = n.
Proof.
  unfold x_get. rewrite filter_In. intros [_ H]. destruct (beq_spec (x_name a) n); congruence.
Qed.

Lemma x_effective_name (ds : list (@xattr W)) n a :
  x_effective (x_get ds n) = Some a -> x_name a = n.
Proof.
  rewrite <- x_find_add. unfold x_find. intro H. apply find_some in H as [_ H].
  destruct (beq_spec (x_name a) n); congruence.
Qed.

Lemma x_effective_some (ds : list (@xattr W)) n :
  x_effective (x_get ds n) <> None <-> In n (names ds).
Proof.
  rewrite <- x_find_add. rewrite <- (proj2 (x_names_of_spec ds)), <- x_add_names.
  unfold x_find. split.
  - intro H. destruct (find _ (x_add ds)) as [a|] eqn:E; [|congruence].
    apply find_some in E as [E1 E2]. destruct (beq_spec (x_name a) n); [|discriminate].
    subst n. apply in_map. auto.
  - intros H E. apply in_map_iff in H as (a & <- & H).
    pose proof (find_none _ _ E a H) as X. simpl in X. rewrite beq_refl in X. discriminate.
Qed.

Lemma x_shown_spec (ds act : list (@xattr W)) n :
  In n (names (ds ++ act)) ->
  exists a, x_shown ds act n = [a] /\ x_name a = n.
Proof.
  intro H. unfold x_shown. rewrite map_app, in_app_iff in H.
  assert (L : forall y r, rev (x_get act n) = y :: r -> x_name y = n).
  { intros y r E. apply (x_get_name act). apply in_rev. rewrite E. left; auto. }
  destruct (x_effective (x_get ds n)) as [a|] eqn:A.
  - pose proof (x_effective_name _ _ _ A) as Na.
    destruct (x_get act n) as [|x l]; [rewrite x_settled_nil; eauto|].
    destruct (rev_cons_some x l) as (y & r & R). rewrite R in L.
    unfold x_settled. rewrite R.
    destruct a as [[m vs|m|m d vs]|m p]; eexists; (split; [reflexivity|]); eauto.
  - assert (Hn : ~ In n (names ds)) by (rewrite <- x_effective_some; tauto).
    assert (G : x_get act n <> []) by (rewrite x_get_in; tauto).
    pose proof (x_get_name act n) as Nx.
    destruct (x_get act n) as [|x l]; [congruence|].
    destruct (rev_cons_some x l) as (y & r & R). rewrite R in L.
    unfold x_settled. rewrite R.
    assert (x_name x = n) by (apply Nx; left; auto).
    destruct x as [[m vs|m|m d vs]|m p]; eexists; (split; [reflexivity|]); eauto.
Qed.

Lemma x_spec_names (ds act : list (@xattr W)) :
  names (x_spec ds act) = x_names_of (ds ++ act).
Proof.
  unfold x_spec.
  change (fun n => match x_settled (x_effective (x_get ds n)) (x_get act n) with
                   | Some x => [x] | None => [] end) with (x_shown ds act).
  assert (H : forall n, In n (x_names_of (ds ++ act)) -> In n (names (ds ++ act)))
    by (intro; apply x_names_of_spec).
  revert H. generalize (x_names_of (ds ++ act)). intro l.
  induction l as [|n l IH]; intro H; [reflexivity|].
  cbn [flat_map]. destruct (x_shown_spec ds act n) as (a & E & N); [apply H; left; auto|].
  rewrite E, map_app, IH by (intros; apply H; right; auto). cbn [map app].
  rewrite N. reflexivity.
Qed.

End Facts.
