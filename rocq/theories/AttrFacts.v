(** Facts about attribute tables, merging and the resolution of names. *)
From Coq Require Import Permutation.
From Verif Require Import Bytes IO IOFacts Escape Nodes NodeInd Values Render Slices Build SpecOut RenderFacts.

Lemma NoDup_app_iff_local {A} (l1 l2 : list A) :
  NoDup l1 -> NoDup l2 -> (forall x, In x l1 -> In x l2 -> False) -> NoDup (l1 ++ l2).
Proof.
  induction l1 as [|x l1 IH]; intros H1 H2 D; simpl; auto.
  inversion H1; subst. constructor.
  - rewrite in_app_iff. intros [H|H]; auto. apply (D x); simpl; auto.
  - apply IH; auto. intros y Hy. apply D. right; auto.
Qed.

Lemma filter_perm {A} (f : A -> bool) l1 l2 :
  Permutation l1 l2 -> Permutation (filter f l1) (filter f l2).
Proof.
  induction 1; simpl; auto.
  - destruct (f x); auto.
  - destruct (f x), (f y); auto. constructor.
  - etransitivity; eauto.
Qed.

Section Attrs.
Context {W : UserWorld}.
Notation attr := (attr U).
Notation names := (map (@attr_name U)).

Lemma set_nth_length {A} (l : list A) i x : length (set_nth l i x) = length l.
Proof. revert i; induction l as [|y l IH]; intros [|i]; simpl; auto. Qed.

Lemma nth_error_set_nth {A} (l : list A) i j x :
  nth_error (set_nth l i x) j =
  if (i =? j) && (i <? length l) then Some x else nth_error l j.
Proof.
  revert i j; induction l as [|y l IH]; intros [|i] [|j]; simpl; auto.
  - rewrite andb_false_r. reflexivity.
  - rewrite IH. reflexivity.
Qed.

Lemma set_nth_names (l : list attr) i x y :
  nth_error l i = Some y -> attr_name x = attr_name y -> names (set_nth l i x) = names l.
Proof.
  revert i; induction l as [|z l IH]; intros [|i] H E; simpl in *; try discriminate.
  - injection H as ->. rewrite E. reflexivity.
  - f_equal. eauto.
Qed.

Lemma idx_get_bound l k name i :
  idx_get (combine l (seq k (length l))) name = Some i ->
  k <= i < k + length l /\ nth_error l (i - k) = Some name.
Proof.
  revert k; induction l as [|x l IH]; intro k; simpl; [discriminate|].
  destruct (beq_spec x name) as [->|N]; intro H.
  - injection H as <-. rewrite Nat.sub_diag. split; [lia|reflexivity].
  - apply IH in H as [H1 H2]. split; [lia|].
    replace (i - k) with (S (i - S k)) by lia. exact H2.
Qed.

Lemma idx_get_none l k name :
  idx_get (combine l (seq k (length l))) name = None -> ~ In name l.
Proof.
  revert k; induction l as [|x l IH]; intro k; simpl; [tauto|].
  destruct (beq_spec x name) as [->|N]; [discriminate|].
  intros H [E|E]; [congruence|]. exact (IH _ H E).
Qed.

(** How a declaration acts on the one already there. *)
Definition merge2 (cur new : attr) : attr :=
  match cur, new with
  | ADelim n d vs, ADelim _ _ vs' => ADelim n d (vs ++ vs')
  | _, _ => new
  end.
Definition merge_opt (cur : option attr) (new : attr) : option attr :=
  match cur with None => Some new | Some c => Some (merge2 c new) end.

Lemma add_attribute_step attrs idx a :
  table_ok attrs idx ->
  let '(attrs', idx') := add_attribute (attrs, idx) a in
  table_ok attrs' idx' /\
  names attrs' = (if bmem (attr_name a) (names attrs) then names attrs
                  else names attrs ++ [attr_name a]) /\
  (forall n, static_of attrs' n =
     if beq (attr_name a) n then merge_opt (static_of attrs n) a else static_of attrs n).
Proof.
  intro T. unfold add_attribute.
  pose proof (table_get attrs idx (attr_name a) T) as G.
  assert (Len : length (names attrs) = length attrs) by apply map_length.
  destruct T as [-> ND].
  destruct (idx_get _ (attr_name a)) as [i|] eqn:E.
  - rewrite <- Len in E. pose proof (idx_get_bound _ _ _ _ E) as [B1 B2].
    rewrite Nat.sub_0_r in B2. simpl in B1.
    rewrite nth_error_map in B2. destruct (nth_error attrs i) as [c|] eqn:Ec; [|discriminate].
    injection B2 as Hc.
    assert (In (attr_name a) (names attrs)).
    { rewrite <- Hc. apply in_map. eapply nth_error_In; eauto. }
    assert (bmem (attr_name a) (names attrs) = true) as -> by (apply bmem_In; auto).
    set (new := merge2 c a).
    assert (Hnew : attr_name new = attr_name a).
    { unfold new, merge2. destruct c, a; simpl in *; congruence. }
    assert (Hst : forall n, static_of (set_nth attrs i new) n =
       if beq (attr_name a) n then merge_opt (static_of attrs n) a else static_of attrs n).
    { intro n. destruct (beq_spec (attr_name a) n) as [<-|Hn].
      - rewrite <- G. simpl. fold new. unfold static_of.
        clear - Ec Hc ND Hnew. revert i Ec. induction attrs as [|y l IH]; intros [|i] Ec;
          simpl in *; try discriminate.
        + rewrite Hnew, beq_refl. reflexivity.
        + inversion ND; subst.
          destruct (beq_spec (attr_name y) (attr_name a)) as [Ey|_].
          * exfalso. apply H1. rewrite Ey, <- Hc. apply in_map. eapply nth_error_In; eauto.
          * apply IH; auto.
      - clear - Ec Hc Hn Hnew. unfold static_of. revert i Ec.
        induction attrs as [|y l IH]; intros [|i] Ec; simpl in *; try discriminate.
        + injection Ec as ->. rewrite Hnew, Hc.
          destruct (beq_spec (attr_name a) n); congruence.
        + destruct (beq (attr_name y) n); eauto. }
    assert (Hnm : names (set_nth attrs i new) = names attrs).
    { eapply set_nth_names; eauto. congruence. }
    assert (K : table_ok (set_nth attrs i new)
        (combine (names attrs) (seq 0 (length attrs))) /\
        names (set_nth attrs i new) = names attrs /\
        (forall n, static_of (set_nth attrs i new) n =
          if beq (attr_name a) n then merge_opt (static_of attrs n) a else static_of attrs n)).
    { split; [|split]; auto. split.
      - rewrite Hnm, set_nth_length. reflexivity.
      - rewrite Hnm. exact ND. }
    rewrite Len in *. clear - K. unfold new in K. clear new.
    destruct c; simpl in K; auto. destruct a; auto.
  - rewrite <- Len in E. apply idx_get_none in E.
    assert (bmem (attr_name a) (names attrs) = false) as ->.
    { destruct (bmem (attr_name a) (names attrs)) eqn:X; auto.
      apply bmem_In in X. contradiction. }
    rewrite map_app. simpl. split; [|split]; auto.
    + split.
      * rewrite map_app, app_length, seq_app. simpl.
        rewrite <- Len.
        assert (forall (l : list bytes) (r : list nat) x y, length l = length r ->
                  combine l r ++ [(x, y)] = combine (l ++ [x]) (r ++ [y])) as ->; auto.
        -- induction l as [|p l IH]; intros [|q r] x y H; simpl in *; try discriminate; auto.
           f_equal. apply IH. lia.
        -- rewrite seq_length. reflexivity.
      * rewrite map_app. simpl.
        apply (Permutation_NoDup (Permutation_cons_append (names attrs) (attr_name a))).
        constructor; auto.
    + intro n. unfold static_of in *. clear - G E.
      destruct (beq_spec (attr_name a) n) as [<-|Hn].
      * rewrite <- G. simpl. clear G. induction attrs as [|y l IH]; simpl in *.
        -- rewrite beq_refl. reflexivity.
        -- destruct (beq_spec (attr_name y) (attr_name a)); [exfalso; auto|]. apply IH. auto.
      * clear G. induction attrs as [|y l IH]; simpl in *.
        -- destruct (beq_spec (attr_name a) n); congruence.
        -- destruct (beq (attr_name y) n); auto.
Qed.


(** Names in the order of their first declaration. *)
Fixpoint first_names (seen : list bytes) (l : list attr) : list bytes :=
  match l with
  | [] => []
  | a :: l' => if bmem (attr_name a) seen then first_names seen l'
               else attr_name a :: first_names (seen ++ [attr_name a]) l'
  end.

Definition decls (n : bytes) (l : list attr) : list attr :=
  filter (fun a => beq (attr_name a) n) l.

Lemma add_attributes_fold l attrs idx :
  table_ok attrs idx ->
  let '(attrs', idx') := fold_left add_attribute l (attrs, idx) in
  table_ok attrs' idx' /\
  names attrs' = names attrs ++ first_names (names attrs) l /\
  (forall n, static_of attrs' n = fold_left merge_opt (decls n l) (static_of attrs n)).
Proof.
  revert attrs idx; induction l as [|a l IH]; intros attrs idx T.
  - simpl. rewrite app_nil_r. auto.
  - cbn [fold_left]. pose proof (add_attribute_step attrs idx a T) as S.
    destruct (add_attribute (attrs, idx) a) as [a1 i1]. destruct S as (T1 & N1 & S1).
    specialize (IH a1 i1 T1). destruct (fold_left add_attribute l (a1, i1)) as [a2 i2].
    destruct IH as (T2 & N2 & S2). split; [|split]; auto.
    + rewrite N2, N1. cbn [first_names].
      destruct (bmem (attr_name a) (names attrs)); auto.
      rewrite <- app_assoc. reflexivity.
    + intro n. rewrite S2, S1. unfold decls. simpl.
      destruct (beq (attr_name a) n); reflexivity.
Qed.

Lemma add_attributes_facts l :
  let '(attrs, idx) := add_attributes l in
  table_ok attrs idx /\
  names attrs = first_names [] l /\
  (forall n, static_of attrs n = fold_left merge_opt (decls n l) None).
Proof.
  apply (add_attributes_fold l [] []). split; [reflexivity|constructor].
Qed.

Lemma first_names_spec seen l :
  NoDup (first_names seen l) /\
  (forall n, In n (first_names seen l) <-> In n (names l) /\ ~ In n seen).
Proof.
  revert seen; induction l as [|a l IH]; intro seen; simpl.
  - split; [constructor|tauto].
  - destruct (bmem (attr_name a) seen) eqn:E.
    + apply bmem_In in E. destruct (IH seen) as [H1 H2]. split; auto.
      intro n. rewrite H2. split; intros [A B]; split; auto.
      destruct A as [<-|A]; auto. contradiction.
    + assert (N : ~ In (attr_name a) seen) by (rewrite <- bmem_In; congruence).
      destruct (IH (seen ++ [attr_name a])) as [H1 H2]. split.
      * constructor; auto. rewrite H2, in_app_iff. simpl. tauto.
      * intro n. simpl. rewrite H2, in_app_iff. simpl.
        destruct (bytes_dec (attr_name a) n) as [<-|D]; [tauto|].
        tauto.
Qed.

Lemma static_of_some (l : list attr) n a : static_of l n = Some a -> In a l /\ attr_name a = n.
Proof.
  unfold static_of. intro H. apply find_some in H as [H1 H2]. apply beq_eq in H2. auto.
Qed.

Lemma static_of_none (l : list attr) n : static_of l n = None <-> ~ In n (names l).
Proof.
  unfold static_of. split.
  - intros H F. apply in_map_iff in F as (a & <- & F).
    pose proof (find_none _ _ H a F) as X. simpl in X. rewrite beq_refl in X. discriminate.
  - intro H. destruct (find _ l) as [a|] eqn:E; auto. exfalso. apply H.
    apply static_of_some in E as [E1 E2]. rewrite <- E2. apply in_map; auto.
Qed.

Lemma static_of_in (l : list attr) a :
  NoDup (names l) -> In a l -> static_of l (attr_name a) = Some a.
Proof.
  unfold static_of. induction l as [|y l IH]; intros ND H; [destruct H|]. simpl.
  inversion ND; subst. destruct H as [->|H].
  - rewrite beq_refl. reflexivity.
  - destruct (beq_spec (attr_name y) (attr_name a)) as [E|_]; auto.
    exfalso. apply H2. rewrite E. apply in_map; auto.
Qed.

(** ** Active conditional attributes *)

Lemma ev_names_spec l : NoDup (ev_names l) /\ (forall n, In n (ev_names l) <-> In n (names l)).
Proof.
  induction l as [|a l [IH1 IH2]]; simpl; [split; [constructor|tauto]|]. split.
  - constructor.
    + rewrite filter_In. intros [_ H]. rewrite beq_refl in H. discriminate.
    + apply NoDup_filter. auto.
  - intro n. simpl. rewrite filter_In, IH2. split.
    + intros [<-|[H _]]; auto.
    + intros [<-|H]; auto. destruct (bytes_dec (attr_name a) n) as [->|D]; auto.
      right. split; auto. destruct (beq_spec n (attr_name a)); [congruence|reflexivity].
Qed.

Lemma ev_get_nonempty l n : In n (names l) <-> ev_get l n <> [].
Proof.
  unfold ev_get. split.
  - intros H E. apply in_map_iff in H as (a & <- & H).
    assert (In a (filter (fun x => beq (attr_name x) (attr_name a)) l)).
    { apply filter_In. rewrite beq_refl. auto. }
    rewrite E in H0. destruct H0.
  - intro H. destruct (filter (fun a => beq (attr_name a) n) l) as [|a r] eqn:E; [congruence|].
    assert (In a (filter (fun a => beq (attr_name a) n) l)) by (rewrite E; left; auto).
    apply filter_In in H0 as [H1 H2]. apply beq_eq in H2. subst. apply in_map; auto.
Qed.

Lemma ev_get_name l n a : In a (ev_get l n) -> attr_name a = n.
Proof. unfold ev_get. rewrite filter_In. intros [_ H]. apply beq_eq; auto. Qed.

Lemma last_in {A} (l : list A) d : l <> [] -> In (last l d) l.
Proof.
  induction l as [|x l IH]; intro H; [congruence|]. simpl. destruct l; [auto|].
  right. apply IH. discriminate.
Qed.

(** [shown] gives at most one attribute, of the name asked for; it gives one
    exactly when there is a declaration in force. *)
Lemma shown_name attrs act n a : In a (shown attrs act n) -> attr_name a = n.
Proof.
  unfold shown. intro H.
  destruct (static_of attrs n) as [s|] eqn:Es; destruct (ev_get act n) as [|e es] eqn:Ee;
    simpl in H; try tauto.
  - destruct H as [<-|[]]. apply static_of_some in Es. tauto.
  - destruct H as [<-|[]]. apply static_of_some in Es as [_ Es].
    destruct s; simpl; auto; change (attr_name (last (e :: es) (APlain name vs)) = n) ||
      change (attr_name (last (e :: es) (ABool name)) = n) || idtac;
      apply (ev_get_name act); rewrite Ee; apply last_in; discriminate.
  - destruct H as [<-|[]].
    assert (He : attr_name e = n) by (apply (ev_get_name act); rewrite Ee; left; auto).
    destruct e; simpl; auto.
    + destruct es as [|e' es']; auto.
      apply (ev_get_name act). rewrite Ee. right. apply last_in. discriminate.
    + destruct es as [|e' es']; auto.
      apply (ev_get_name act). rewrite Ee. right. apply last_in. discriminate.
Qed.

Lemma shown_length attrs act n :
  length (shown attrs act n) =
  (if bmem n (names attrs ++ names act) then 1 else 0).
Proof.
  unfold shown.
  destruct (static_of attrs n) as [s|] eqn:Es; destruct (ev_get act n) as [|e es] eqn:Ee; simpl.
  - apply static_of_some in Es as [H1 H2].
    assert (bmem n (names attrs ++ names act) = true) as ->; auto.
    apply bmem_In, in_or_app. left. rewrite <- H2. apply in_map; auto.
  - apply static_of_some in Es as [H1 H2].
    assert (bmem n (names attrs ++ names act) = true) as ->; auto.
    apply bmem_In, in_or_app. left. rewrite <- H2. apply in_map; auto.
  - destruct (bmem n (names attrs ++ names act)) eqn:E; auto.
    apply bmem_In, in_app_or in E as [E|E].
    + apply static_of_none in Es. contradiction.
    + apply ev_get_nonempty in E. congruence.
  - assert (bmem n (names attrs ++ names act) = true) as ->; auto.
    apply bmem_In, in_or_app. right. apply ev_get_nonempty. congruence.
Qed.

Lemma flat_shown_names attrs act l :
  (forall n, In n l -> In n (names attrs ++ names act)) ->
  names (flat_map (shown attrs act) l) = l.
Proof.
  induction l as [|n l IH]; intro H; simpl; auto.
  rewrite map_app, IH by (intros; apply H; right; auto).
  pose proof (shown_length attrs act n) as L.
  assert (bmem n (names attrs ++ names act) = true) as E by (apply bmem_In, H; left; auto).
  rewrite E in L. pose proof (shown_name attrs act n) as N.
  destruct (shown attrs act n) as [|a [|b r]]; try discriminate. simpl.
  rewrite (N a) by (left; auto). reflexivity.
Qed.

(** The names written in an opening tag, exactly. *)
Lemma tag_attrs_names o fr attrs conds s :
  ord_ok o -> NoDup (names attrs) ->
  let '(l, s') := tag_attrs o fr attrs conds s in
  let active := fst (sactive fr conds (fst s)) in
  NoDup (names l) /\
  (forall n, In n (names l) <-> In n (names attrs) \/ In n (names active)).
Proof.
  intros O ND. unfold tag_attrs.
  destruct (sactive fr conds (fst s)) as [act u']. cbn [fst].
  destruct act as [|x act'].
  - simpl. split; auto. tauto.
  - remember (x :: act') as act eqn:Eact. clear Eact x act'.
    destruct (ev_names_spec act) as [EN1 EN2].
    assert (P1 : Permutation (names attrs) (o (snd s) (names attrs))) by apply O.
    assert (P2 : Permutation (ev_names act) (o (S (snd s)) (ev_names act))) by apply O.
    rewrite map_app, !flat_shown_names.
    + assert (F : forall n, In n (filter (fun n => negb (is_static attrs n)) (o (S (snd s)) (ev_names act)))
                 <-> In n (names act) /\ ~ In n (names attrs)).
      { intro n. rewrite filter_In. unfold is_static.
        assert (In n (o (S (snd s)) (ev_names act)) <-> In n (names act)) as ->.
        { rewrite <- EN2. split; apply Permutation_in; auto. symmetry; auto. }
        rewrite <- static_of_none. destruct (static_of attrs n); simpl.
        - split; intros [_ H]; discriminate H.
        - tauto. }
      assert (I1 : forall n, In n (o (snd s) (names attrs)) <-> In n (names attrs)).
      { intro n. split; apply Permutation_in; auto. symmetry; auto. }
      split.
      * apply NoDup_app_iff_local.
        -- apply (Permutation_NoDup P1). auto.
        -- apply NoDup_filter. apply (Permutation_NoDup P2). auto.
        -- intros n H1 H2. apply I1 in H1. apply F in H2. tauto.
      * intro n. rewrite in_app_iff, F, I1.
        destruct (in_dec bytes_dec n (names attrs)); tauto.
    + intros n H. apply filter_In in H as [H _]. apply in_or_app. right.
      apply EN2. apply (Permutation_in _ (Permutation_sym P2)). auto.
    + intros n H. apply in_or_app. left. apply (Permutation_in _ (Permutation_sym P1)). auto.
Qed.

(** Map order only permutes. *)
Lemma tag_attrs_perm o1 o2 fr attrs conds s :
  ord_ok o1 -> ord_ok o2 ->
  Permutation (fst (tag_attrs o1 fr attrs conds s)) (fst (tag_attrs o2 fr attrs conds s)) /\
  snd (tag_attrs o1 fr attrs conds s) = snd (tag_attrs o2 fr attrs conds s).
Proof.
  intros O1 O2. unfold tag_attrs. destruct (sactive fr conds (fst s)) as [act u'].
  destruct act as [|x act']; simpl; [auto|]. split; auto.
  apply Permutation_app.
  - apply Permutation_flat_map. rewrite <- (O1 (snd s) (names attrs)). apply O2.
  - apply Permutation_flat_map. apply filter_perm.
    rewrite <- (O1 (S (snd s)) (ev_names (x :: act'))). apply O2.
Qed.

End Attrs.
