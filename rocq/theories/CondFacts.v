(** Collecting the attributes of an element (element.go 231-268): which
    conditions end up with which attribute, in spite of shared slices. *)
From Verif Require Import Bytes IO Nodes NodeInd Values Render Slices Build SpecOut SpecElem
  RenderFacts AttrFacts ApiFacts.

Section Facts.
Context {W : UserWorld}.
Notation fn := (condfn U).
Notation mem := (mem (condfn U)).

(** Capacity of a slice that grew from nil by appending [n] times. *)
Fixpoint capof (n : nat) : nat :=
  match n with
  | 0 => 0
  | S n' => if n' <? capof n' then capof n' else go_grow (capof n')
  end.
Definition spare (n : nat) : bool := n <? capof n.

Lemma capof_le n : n <= capof n.
Proof.
  induction n as [|n IH]; simpl; [lia|]. destruct (Nat.ltb_spec n (capof n)); [lia|].
  unfold go_grow. destruct (capof n =? 0) eqn:E; [apply Nat.eqb_eq in E; lia|].
  apply Nat.eqb_neq in E. destruct (capof n <? 256).
  - lia.
  - assert (1 <= (capof n + 768) / 4); [|lia].
    apply Nat.div_le_lower_bound; lia.
Qed.

(** Condition under which no slot of a shared array is written twice: a
    conditional at a depth where the slice of conditions has room to grow has
    at most one conditional below it. *)
Fixpoint linear (d : nat) (n : node U) : Prop :=
  match n with
  | NCollection ns => all (linear d) ns
  | NConditional _ _ ns =>
      (spare (S d) = true -> list_sum (map conds_in ns) <= 1) /\ all (linear (S d)) ns
  | _ => True
  end.

Record wf (m : mem) (s : slice) (chain : list fn) : Prop := {
  wf_len : s_len s = length chain;
  wf_cap : s_cap s = capof (length chain);
  wf_arr : chain = [] \/ s_arr s < length m;
  wf_cells : chain = [] \/ exists rest, nth (s_arr s) m [] = map Some chain ++ rest /\
                                        length (nth (s_arr s) m []) = s_cap s
}.

Lemma wf_elems m s chain : wf m s chain -> slice_elems m s = chain.
Proof.
  intros [H1 H2 H3 H4]. unfold slice_elems. rewrite H1.
  destruct H4 as [->|(rest & H4 & _)].
  - reflexivity.
  - rewrite H4, firstn_app, map_length, Nat.sub_diag. simpl. rewrite app_nil_r.
    rewrite <- (map_length Some chain) at 1. rewrite firstn_all.
    unfold somes. clear. induction chain; simpl; congruence.
Qed.

Lemma nth_set_nth {A} (l : list A) i j x d :
  nth j (set_nth l i x) d = if (i =? j) && (i <? length l) then x else nth j l d.
Proof.
  revert i j; induction l as [|y l IH]; intros [|i] [|j]; simpl; auto.
  - rewrite andb_false_r. reflexivity.
  - rewrite IH. reflexivity.
Qed.

(** Which part of the memory may have changed: arrays other than that of a
    slice with room are as before; its array keeps its first cells. *)
Definition kept (m m' : mem) (s : slice) : Prop :=
  length m <= length m' /\
  (forall a, a < length m -> (a <> s_arr s \/ s_len s = s_cap s) -> nth a m' [] = nth a m []) /\
  (s_arr s < length m ->
   length (nth (s_arr s) m' []) = length (nth (s_arr s) m []) /\
   firstn (s_len s) (nth (s_arr s) m' []) = firstn (s_len s) (nth (s_arr s) m [])).

Lemma kept_refl m s : kept m m s.
Proof. split; [lia|split; auto]. Qed.

Lemma kept_trans m1 m2 m3 s : kept m1 m2 s -> kept m2 m3 s -> kept m1 m3 s.
Proof.
  intros (A1 & B1 & C1) (A2 & B2 & C2). split; [lia|split].
  - intros a Ha Hc. rewrite B2, B1; auto. lia.
  - intro H. destruct (C1 H) as [D1 D2]. destruct (C2 ltac:(lia)) as [E1 E2].
    split; congruence.
Qed.

Lemma kept_wf m m' s chain : kept m m' s -> wf m s chain -> wf m' s chain.
Proof.
  intros (A & Bb & C) [H1 H2 H3 H4]. constructor; auto.
  - destruct H3; auto. right. lia.
  - destruct H4 as [H4|(rest & H4 & H5)]; auto.
    destruct H3 as [H3|H3]; [auto|]. right.
    destruct (C H3) as [D1 D2]. rewrite H1, H4 in D2.
    rewrite firstn_app, map_length, Nat.sub_diag in D2. simpl in D2.
    rewrite app_nil_r in D2. rewrite <- (map_length Some chain), firstn_all in D2.
    exists (skipn (length chain) (nth (s_arr s) m' [])). split; [|congruence].
    rewrite <- D2. rewrite map_length. symmetry. apply firstn_skipn.
Qed.

(** [append1] on a well-formed slice. *)
Lemma append_wf m s chain f :
  wf m s chain ->
  let '(m', s') := append1 m s f in
  wf m' s' (chain ++ [f]) /\ kept m m' s /\
  (s_arr s' = length m \/ (s_arr s' = s_arr s /\ s_len s < s_cap s)) /\ s_arr s' < length m'.
Proof.
  intros [H1 H2 H3 H4]. unfold append1.
  assert (Lc : length (chain ++ [f]) = S (length chain)) by (rewrite app_length; simpl; lia).
  destruct (Nat.ltb_spec (s_len s) (s_cap s)) as [L|L].
  - (* in place *)
    destruct H3 as [->|H3].
    { simpl in *. rewrite H1, H2 in L. simpl in L. lia. }
    destruct H4 as [->|(rest & H4 & H5)].
    { simpl in *. rewrite H1, H2 in L. simpl in L. lia. }
    assert (Hcell : nth (s_arr s) (set_nth m (s_arr s) (set_nth (nth (s_arr s) m []) (s_len s) (Some f))) []
              = set_nth (nth (s_arr s) m []) (s_len s) (Some f)).
    { rewrite nth_set_nth, Nat.eqb_refl. destruct (Nat.ltb_spec (s_arr s) (length m)); [reflexivity|lia]. }
    assert (Hset : forall (c : list fn) r, length c < length (map Some c ++ r) ->
        exists r', set_nth (map Some c ++ r) (length c) (Some f) = map Some (c ++ [f]) ++ r' ).
    { clear. induction c as [|x c IH]; intros r Hl; simpl in *.
      - destruct r as [|y r]; simpl in *; [lia|]. exists r. reflexivity.
      - destruct (IH r) as (r' & E); [lia|]. exists r'. rewrite E. reflexivity. }
    split; [constructor; simpl|split; [split; [|split]|split]].
    + lia.
    + rewrite Lc. simpl. destruct (Nat.ltb_spec (length chain) (capof (length chain))); lia.
    + right. rewrite set_nth_length. lia.
    + right. rewrite Hcell, H4, H1. destruct (Hset chain rest) as (r' & E).
      * rewrite <- H4. lia.
      * exists r'. split; auto. rewrite set_nth_length, <- H4. auto.
    + rewrite set_nth_length. lia.
    + intros a Ha [N|N]; [|lia]. rewrite nth_set_nth.
      destruct (Nat.eqb_spec (s_arr s) a); [congruence|reflexivity].
    + intros _. rewrite Hcell, set_nth_length. split; auto.
      clear. generalize (nth (s_arr s) m []). intro l. generalize (s_len s). intro n.
      revert n; induction l as [|y l IH]; intros [|n]; simpl; auto. f_equal. auto.
    + right. simpl. auto.
    + simpl. rewrite set_nth_length. auto.
  - (* fresh array *)
    assert (Hn : nth (length m) (m ++ [firstn (s_len s) (nth (s_arr s) m []) ++ Some f ::
           repeat None (go_grow (s_cap s) - S (s_len s))]) [] =
           firstn (s_len s) (nth (s_arr s) m []) ++ Some f ::
           repeat None (go_grow (s_cap s) - S (s_len s))).
    { rewrite app_nth2, Nat.sub_diag by lia. reflexivity. }
    assert (Hf : firstn (s_len s) (nth (s_arr s) m []) = map Some chain).
    { rewrite H1. destruct H4 as [->|(rest & H4 & _)]; [reflexivity|].
      rewrite H4, firstn_app, map_length, Nat.sub_diag. simpl.
      rewrite app_nil_r, <- (map_length Some chain). apply firstn_all. }
    assert (Hcap : capof (S (length chain)) = go_grow (s_cap s)).
    { simpl. rewrite <- H2. destruct (Nat.ltb_spec (length chain) (s_cap s)); [lia|reflexivity]. }
    pose proof (capof_le (S (length chain))) as Hle. rewrite Hcap in Hle.
    split; [constructor; simpl|split; [split; [|split]|split]].
    + lia.
    + rewrite Lc. auto.
    + right. rewrite app_length. simpl. lia.
    + right. rewrite Hn, Hf. exists (repeat None (go_grow (s_cap s) - S (s_len s))).
      rewrite map_app, <- app_assoc. split; [reflexivity|].
      rewrite app_length, map_length. simpl. rewrite repeat_length. lia.
    + rewrite app_length. lia.
    + intros a Ha _. apply app_nth1. auto.
    + intro Ha. rewrite app_nth1 by auto. auto.
    + left. reflexivity.
    + simpl. rewrite app_length. simpl. lia.
Qed.

Definition read (m : mem) (c : list (attr U * slice)) : list (attr U * list fn) :=
  map (fun '(a, s) => (a, slice_elems m s)) c.

(** Invariant for one item (or a list of items) collected under [s]. *)
Definition good (m : mem) (s : slice) (c : list (attr U * slice)) (m' : mem)
  (k : nat) (spec : list (attr U * list fn)) : Prop :=
  kept m m' s /\ (k = 0 -> m' = m /\ forall p, In p c -> snd p = s) /\
  read m' c = spec /\
  (forall p, In p c -> s_arr (snd p) < length m' /\
     (snd p = s \/ length m <= s_arr (snd p) \/ (s_arr (snd p) = s_arr s /\ s_len s < s_cap s))).

(** Later changes leave a slice's elements alone. *)
Lemma elems_kept m m' s sl :
  kept m m' s -> s_arr sl < length m ->
  (sl = s \/ s_arr sl <> s_arr s \/ s_len s = s_cap s) ->
  slice_elems m' sl = slice_elems m sl.
Proof.
  intros (A & Bb & C) H [->|[D|D]]; unfold slice_elems.
  - destruct (C H) as [_ E]. rewrite E. reflexivity.
  - rewrite Bb; auto.
  - rewrite Bb; auto.
Qed.

Lemma good_app m s chain c1 m1 k1 sp1 c2 m2 k2 sp2 :
  wf m s chain -> (spare (length chain) = true -> k1 + k2 <= 1) ->
  good m s c1 m1 k1 sp1 -> good m1 s c2 m2 k2 sp2 -> good m s (c1 ++ c2) m2 (k1 + k2) (sp1 ++ sp2).
Proof.
  intros Wf Hk (K1 & Z1 & R1 & P1) (K2 & Z2 & R2 & P2).
  assert (Hsp : spare (length chain) = true \/ s_len s = s_cap s).
  { destruct Wf as [H1 H2 _ _]. unfold spare. rewrite H1, H2.
    pose proof (capof_le (length chain)).
    destruct (Nat.ltb_spec (length chain) (capof (length chain))); [auto|right; lia]. }
  split; [|split; [|split]].
  - eapply kept_trans; eauto.
  - intro E. destruct Z1 as [E1 F1]; [lia|]. destruct Z2 as [E2 F2]; [lia|]. split; [congruence|].
    intros p Hp. apply in_app_or in Hp as [Hp|Hp]; auto.
  - unfold read in *. rewrite map_app, R2. f_equal. rewrite <- R1. apply map_ext_in.
    intros [a sl] Hin. f_equal.
    destruct (P1 _ Hin) as [A1 A2]. simpl in A1, A2.
    destruct k2 as [|k2].
    { destruct (Z2 eq_refl) as [-> _]. reflexivity. }
    apply (elems_kept m1 m2 s); auto.
    destruct Hsp as [Hsp|Hsp]; auto. specialize (Hk Hsp).
    assert (k1 = 0) by lia. subst k1. destruct (Z1 eq_refl) as [_ F]. left. apply (F _ Hin).
  - intros p Hp. destruct K1 as (L1 & _ & _). destruct K2 as (L2 & _ & _).
    apply in_app_or in Hp as [Hp|Hp].
    + destruct (P1 _ Hp) as [A1 A2]. split; [lia|auto].
    + destruct (P2 _ Hp) as [A1 A2]. split; [auto|]. destruct A2 as [A2|[A2|A2]]; auto.
      right; left. lia.
Qed.

Definition items_attrs (s : slice) := fix go (ns : list (node U)) (m : mem) :=
         match ns with
         | [] => ([], [], m)
         | n :: ns' =>
             let '(a1, c1, m1) := collect_attrs s n m in
             let '(a2, c2, m2) := go ns' m1 in
             (a1 ++ a2, c1 ++ c2, m2)
         end.

Lemma collect_all_items s ns m : collect_all s ns m = items_attrs s ns m.
Proof.
  revert m; induction ns as [|n ns IH]; intro m; simpl; auto.
  destruct (collect_attrs s n m) as [[a1 c1] m1]. rewrite IH. reflexivity.
Qed.

Lemma collect_attrs_collection s ns m : collect_attrs s (NCollection ns) m = items_attrs s ns m.
Proof. reflexivity. Qed.
Lemma collect_attrs_conditional s f attrs ns m :
  collect_attrs s (NConditional f attrs ns) m =
  let '(m1, s') := append1 m s f in
  let '(_, c2, m2) := items_attrs s' ns m1 in
  ([], map (fun a => (a, s')) attrs ++ c2, m2).
Proof. reflexivity. Qed.

Definition item_good (n : node U) : Prop :=
  forall m s chain, wf m s chain -> linear (length chain) n ->
  (spare (length chain) = true -> conds_in n <= 1) ->
  let '(a, c, m') := collect_attrs s n m in
  a = (match chain with [] => static_decls n | _ => [] end) /\
  good m s c m' (conds_in n) (cond_decls chain n).

Lemma items_good ns :
  Forall item_good ns -> forall m s chain, wf m s chain -> all (linear (length chain)) ns ->
  (spare (length chain) = true -> list_sum (map conds_in ns) <= 1) ->
  let '(a, c, m') := items_attrs s ns m in
  a = (match chain with [] => flat_map static_decls ns | _ => [] end) /\
  good m s c m' (list_sum (map conds_in ns)) (flat_map (cond_decls chain) ns).
Proof.
  induction 1 as [|n ns Hn _ IH]; intros m s chain Wf L K; cbn [items_attrs].
  - split; [destruct chain; reflexivity|]. split; [apply kept_refl|split; [|split]].
    + intros _. split; auto. intros p [].
    + reflexivity.
    + intros p [].
  - fold (items_attrs s). destruct L as [L1 L2]. cbn [map list_sum fold_right] in K.
    change (fold_right Nat.add 0 (map conds_in ns)) with (list_sum (map conds_in ns)) in K.
    assert (Kn : spare (length chain) = true -> conds_in n <= 1) by (intro X; specialize (K X); lia).
    specialize (Hn m s chain Wf L1 Kn).
    destruct (collect_attrs s n m) as [[a1 c1] m1]. destruct Hn as [-> G1].
    assert (Wf1 : wf m1 s chain) by (eapply kept_wf; [apply G1|auto]).
    specialize (IH m1 s chain Wf1 L2).
    destruct (items_attrs s ns m1) as [[a2 c2] m2].
    destruct IH as [-> G2]. { intro X; specialize (K X); lia. }
    split. { destruct chain; reflexivity. }
    cbn [map list_sum fold_right flat_map].
    change (fold_right Nat.add 0 (map conds_in ns)) with (list_sum (map conds_in ns)).
    eapply good_app; eauto.
Qed.

Lemma collect_item n : item_good n.
Proof.
  apply (node_simple_ind item_good);
    try (intros; intros m s chain Wf L K; simpl;
         (split; [destruct chain; reflexivity|]); split; [apply kept_refl|split; [|split]];
         [intros _; split; [reflexivity|intros q []]|reflexivity|intros q []]; fail).
  - (* attribute *)
    intros a m s chain Wf L K. cbn [collect_attrs]. pose proof (wf_len _ _ _ Wf) as Hl. rewrite Hl.
    destruct chain as [|f chain].
    + simpl. split; auto. split; [apply kept_refl|split; [|split]].
      * intros _; split; [reflexivity|intros p []].
      * reflexivity.
      * intros p [].
    + change (0 <? length (f :: chain)) with true. cbn [cond_decls static_decls conds_in].
      split; auto. split; [apply kept_refl|split; [|split]].
      * intros _. split; auto. intros p [<-|[]]. reflexivity.
      * unfold read. simpl. rewrite (wf_elems _ _ _ Wf). reflexivity.
      * intros p [<-|[]]. simpl. destruct (wf_arr _ _ _ Wf) as [X|X]; [discriminate|auto].
  - (* collection *)
    intros ns F m s chain Wf L K. rewrite collect_attrs_collection.
    apply items_good; auto.
  - (* conditional *)
    intros f attrs ns F m s chain Wf L K. rewrite collect_attrs_conditional.
    destruct L as [L1 L2].
    pose proof (append_wf m s chain f Wf) as A. destruct (append1 m s f) as [m1 s'].
    destruct A as (Wf' & K1 & Harr & Hlt).
    assert (Lc : length (chain ++ [f]) = S (length chain)) by (rewrite app_length; simpl; lia).
    pose proof (items_good ns F m1 s' (chain ++ [f]) Wf') as G. rewrite Lc in G. specialize (G L2 L1).
    destruct (items_attrs s' ns m1) as [[a2 c2] m2]. destruct G as [_ (K2 & Z2 & R2 & P2)].
    split; [destruct chain; reflexivity|]. cbn [conds_in cond_decls].
    assert (Lm : length m <= length m1) by apply K1.
    assert (Lm2 : length m1 <= length m2) by apply K2.
    split; [|split; [|split]].
    + (* kept m m2 s *)
      split; [lia|split].
      * intros a Ha Hc. destruct K1 as (_ & B1 & _), K2 as (_ & B2 & _).
        rewrite B2, B1; auto; [lia|]. left. destruct Harr as [->|[-> Hs]]; [lia|].
        destruct Hc; [auto|lia].
      * intro Ha. destruct K1 as (_ & B1 & C1), K2 as (_ & B2 & C2).
        destruct (C1 Ha) as [D1 D2].
        destruct (Nat.eq_dec (s_arr s) (s_arr s')) as [E|E].
        -- destruct Harr as [Hx|[_ Hs]]; [lia|].
           destruct (C2 Hlt) as [E1 E2]. rewrite E. rewrite <- E in E1, E2 |- *.
           split; [congruence|]. rewrite <- D2.
           assert (Hle : s_len s <= s_len s').
           { rewrite (wf_len _ _ _ Wf), (wf_len _ _ _ Wf'), Lc. lia. }
           rewrite <- (firstn_firstn (nth (s_arr s) m2 []) (s_len s) (s_len s')) || idtac.
           assert (X : forall l : list (option fn), firstn (s_len s) l = firstn (s_len s) (firstn (s_len s') l)).
           { intro l. rewrite firstn_firstn. f_equal. lia. }
           rewrite X, E2, <- X. reflexivity.
        -- rewrite B2 by (auto; lia). auto.
    + discriminate.
    + unfold read in *. rewrite map_app, R2. f_equal. rewrite map_map. apply map_ext_in.
      intros a _. f_equal. rewrite <- (wf_elems _ _ _ Wf').
      apply (elems_kept m1 m2 s'); auto.
    + intros p Hp. apply in_app_or in Hp as [Hp|Hp].
      * apply in_map_iff in Hp as (a & <- & _). simpl. split; [lia|].
        destruct Harr as [->|Harr]; [right; left; lia|right; right; auto].
      * destruct (P2 _ Hp) as [A1 A2]. split; auto.
        destruct A2 as [->|[A2|[A2 A3]]].
        -- destruct Harr as [->|Harr]; [right; left; lia|right; right; auto].
        -- right; left; lia.
        -- rewrite A2. destruct Harr as [->|Harr]; [right; left; lia|right; right; auto].
Qed.

Lemma wf_nil : wf [] nil_slice [].
Proof. constructor; simpl; auto. Qed.

(** The declarations found by the constructor are those of the specification. *)
Theorem attributes_exact ns :
  all (linear 0) ns ->
  attributes_and_contents ns =
  (flat_map static_decls ns, flat_map (cond_decls []) ns, filter (fun n => negb (is_attr n)) ns).
Proof.
  intro L. unfold attributes_and_contents. rewrite collect_all_items.
  pose proof (items_good ns) as G. specialize (G ltac:(apply Forall_forall; intros; apply collect_item)).
  specialize (G [] nil_slice [] wf_nil L). destruct (items_attrs nil_slice ns []) as [[a c] m].
  destruct G as [-> (_ & _ & R & _)]. { discriminate. }
  rewrite <- R. reflexivity.
Qed.

(** Without the restriction: the static declarations, and the attributes of the
    conditional ones, are still right. *)
Definition item_shape (n : node U) : Prop :=
  forall m s chain, s_len s = length chain ->
  let '(a, c, m') := collect_attrs s n m in
  a = (match chain with [] => static_decls n | _ => [] end) /\
  map fst c = map fst (cond_decls chain n).

Lemma items_shape ns :
  Forall item_shape ns -> forall m s chain, s_len s = length chain ->
  let '(a, c, m') := items_attrs s ns m in
  a = (match chain with [] => flat_map static_decls ns | _ => [] end) /\
  map fst c = map fst (flat_map (cond_decls chain) ns).
Proof.
  induction 1 as [|n ns Hn _ IH]; intros m s chain Hl; cbn [items_attrs].
  - destruct chain; auto.
  - fold (items_attrs s). specialize (Hn m s chain Hl).
    destruct (collect_attrs s n m) as [[a1 c1] m1]. destruct Hn as [-> E1].
    specialize (IH m1 s chain Hl). destruct (items_attrs s ns m1) as [[a2 c2] m2].
    destruct IH as [-> E2]. cbn [flat_map]. rewrite !map_app, E1, E2. destruct chain; auto.
Qed.

Lemma collect_shape n : item_shape n.
Proof.
  apply (node_simple_ind item_shape);
    try (intros; intros m s chain Hl; simpl; destruct chain; auto; fail).
  - intros a m s chain Hl. cbn [collect_attrs]. rewrite Hl. destruct chain; cbn; auto.
  - intros ns F m s chain Hl. rewrite collect_attrs_collection. apply items_shape; auto.
  - intros f attrs ns F m s chain Hl. rewrite collect_attrs_conditional.
    assert (Hl' : s_len (snd (append1 m s f)) = length (chain ++ [f])).
    { unfold append1. rewrite app_length. simpl. destruct (s_len s <? s_cap s); simpl; lia. }
    destruct (append1 m s f) as [m1 s']. simpl in Hl'.
    pose proof (items_shape ns F m1 s' (chain ++ [f]) Hl') as G.
    destruct (items_attrs s' ns m1) as [[a2 c2] m2]. destruct G as [_ G].
    split; [destruct chain; reflexivity|]. cbn [cond_decls]. rewrite !map_app, G, !map_map.
    reflexivity.
Qed.

Theorem attributes_shape ns :
  let '(attrs, conds, contents) := attributes_and_contents ns in
  attrs = flat_map static_decls ns /\ map fst conds = map fst (flat_map (cond_decls []) ns) /\
  contents = filter (fun n => negb (is_attr n)) ns.
Proof.
  unfold attributes_and_contents. rewrite collect_all_items.
  pose proof (items_shape ns) as G. specialize (G ltac:(apply Forall_forall; intros; apply collect_shape)).
  specialize (G [] nil_slice [] eq_refl). destruct (items_attrs nil_slice ns []) as [[a c] m].
  destruct G as [-> E]. split; [reflexivity|split; [|reflexivity]]. rewrite <- E, map_map.
  apply map_ext. intros [x y]. reflexivity.
Qed.

(** Three levels of nesting are always fine. *)
Lemma cond_depth_in n ns : In n ns -> cond_depth n <= list_max (map (@cond_depth W) ns).
Proof.
  intro H. assert (F : Forall (fun k => k <= list_max (map cond_depth ns)) (map cond_depth ns)).
  { apply list_max_le. lia. }
  rewrite Forall_forall in F. apply F. apply in_map. auto.
Qed.

Lemma no_depth_no_conds n : @cond_depth W n = 0 -> conds_in n = 0.
Proof.
  revert n. apply (node_simple_ind (fun n => cond_depth n = 0 -> conds_in n = 0)); auto.
  - intros ns F H. cbn [cond_depth] in H. cbn [conds_in].
    assert (E : forall n, In n ns -> conds_in n = 0).
    { intros n Hn. rewrite Forall_forall in F. apply F; auto.
      pose proof (cond_depth_in n ns Hn). lia. }
    clear F H. induction ns as [|n ns IH]; auto. cbn [map list_sum fold_right].
    rewrite (E n) by (left; auto). apply IH. intros; apply E; right; auto.
  - intros ? ? ? ? H. discriminate.
Qed.

Lemma depth_linear n d : cond_depth n + d <= 3 -> linear d n.
Proof.
  revert n d. apply (node_simple_ind (fun n => forall d, cond_depth n + d <= 3 -> linear d n));
    try (intros; exact I).
  - intros ns F d H. cbn [cond_depth] in H. apply all_Forall. apply Forall_forall. intros n Hn.
    rewrite Forall_forall in F. apply F; auto. pose proof (cond_depth_in n ns Hn). lia.
  - intros f attrs ns F d H. cbn [cond_depth] in H. split.
    + intro S. assert (list_max (map cond_depth ns) = 0 \/ d <= 1) as [Z|Z] by lia.
      * assert (list_sum (map conds_in ns) = 0); [|lia].
        assert (E : forall n, In n ns -> conds_in n = 0).
        { intros n Hn. apply no_depth_no_conds. pose proof (cond_depth_in n ns Hn). lia. }
        clear - E. induction ns as [|n ns IH]; auto. cbn [map list_sum fold_right].
        rewrite (E n) by (left; auto). apply IH. intros; apply E; right; auto.
      * exfalso. destruct d as [|[|d]]; [discriminate S|discriminate S|lia].
    + apply all_Forall. apply Forall_forall. intros n Hn.
      rewrite Forall_forall in F. apply F; auto. pose proof (cond_depth_in n ns Hn). lia.
Qed.

End Facts.
