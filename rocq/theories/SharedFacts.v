(** Proof that the constructor of elements finds the conditions of [SpecShared.v]. *)
From Verif Require Import Bytes IO Nodes NodeInd Values Render Slices Build SpecOut SpecElem
  RenderFacts AttrFacts ApiFacts CondFacts SpecShared.

Section Facts.
Context {W : UserWorld}.
Notation fn := (condfn U).
Notation mem := (Slices.mem (condfn U)).
Notation crefs := (crefs spare).

Definition cell (m : mem) (s : slice) (i : nat) : option fn := nth (s_len s + i) (nth (s_arr s) m []) None.

Definition ref_ok (m m' : mem) (s : slice) (len : nat) (p : attr U * slice) (q : attr U * cref) : Prop :=
  fst p = fst q /\
  match snd q with
  | Own j => s_arr (snd p) = s_arr s /\ s_len (snd p) = len + j /\ s_len (snd p) <= s_cap s
  | Known c => length m <= s_arr (snd p) < length m' /\ slice_elems m' (snd p) = c
  end.

Definition exactly (m : mem) (s : slice) (path : list fn) (k : nat) (c : list (attr U * slice)) (m' : mem)
  (last : nat -> option fn) (spec : list (attr U * cref)) : Prop :=
  kept m m' s /\
  (forall i, s_len s + i < s_cap s -> cell m' s i = later (cell m s i) (last i)) /\
  Forall2 (ref_ok m m' s (length path - k)) c spec.

Lemma Forall2_weaken {A C} (P Q : A -> C -> Prop) l1 l2 :
  (forall x y, P x y -> Q x y) -> Forall2 P l1 l2 -> Forall2 Q l1 l2.
Proof. induction 2; constructor; auto. Qed.
Lemma wf_pos m s path : wf m s path -> path <> [] -> s_arr s < length m.
Proof. intros Wf N. destruct (wf_arr _ _ _ Wf); [contradiction|auto]. Qed.
Lemma wf_full m s : wf m s [] -> s_len s = s_cap s.
Proof. intros [H1 H2 _ _]. rewrite H1, H2. reflexivity. Qed.

Lemma ref_later m m1 m2 s path len p q : wf m s path -> kept m m1 s -> kept m1 m2 s ->
  ref_ok m m1 s len p q -> ref_ok m m2 s len p q.
Proof.
  intros Wf (A1 & _) (A2 & B2 & _) [E R]. split; auto. destruct (snd q) as [j|c]; auto.
  destruct R as [[R1 R2] R3]. split; [lia|]. rewrite <- R3. unfold slice_elems. rewrite B2; auto.
  destruct path as [|f path].
  - right. apply (wf_full m). auto.
  - left. assert (s_arr s < length m); [|lia]. apply (wf_pos m s (f :: path)); [auto|discriminate].
Qed.
Lemma ref_earlier m m1 m2 s len p q : length m <= length m1 -> ref_ok m1 m2 s len p q -> ref_ok m m2 s len p q.
Proof. intros L [E R]. split; auto. destruct (snd q); auto. destruct R as [R1 R2]. split; auto. lia. Qed.

Definition item_exact (n : node U) : Prop :=
  forall m s path k, wf m s path -> k <= length path ->
  let '(_, c, m') := collect_attrs s n m in
  exactly m s path k c m' (fun i => last_at i n) (crefs path k n).

Lemma items_exact ns :
  Forall item_exact ns -> forall m s path k, wf m s path -> k <= length path ->
  let '(_, c, m') := items_attrs s ns m in
  exactly m s path k c m' (fun i => last_of i ns) (flat_map (crefs path k) ns).
Proof.
  induction 1 as [|n ns Hn _ IH]; intros m s path k Wf L; cbn [items_attrs].
  - split; [apply kept_refl|]. split; [reflexivity|constructor].
  - fold (items_attrs s). specialize (Hn m s path k Wf L). destruct (collect_attrs s n m) as [[a1 c1] m1].
    destruct Hn as (K1 & C1 & R1). assert (Wf1 : wf m1 s path) by (eapply kept_wf; eauto).
    specialize (IH m1 s path k Wf1 L). destruct (items_attrs s ns m1) as [[a2 c2] m2]. destruct IH as (K2 & C2 & R2).
    split; [eapply kept_trans; eauto|]. split.
    + intros i Hi. rewrite C2, C1 by auto. cbn [last_of fold_right]. fold (last_of i ns). destruct (last_of i ns); reflexivity.
    + cbn [flat_map]. apply Forall2_app.
      * eapply Forall2_weaken; [|exact R1]. intros. eapply ref_later; eauto.
      * eapply Forall2_weaken; [|exact R2]. intros. eapply ref_earlier; [apply K1|eauto].
Qed.

Lemma nth_firstn_same {A} (l1 l2 : list A) n i d : firstn n l1 = firstn n l2 -> i < n -> nth i l1 d = nth i l2 d.
Proof.
  revert l1 l2 i; induction n as [|n IH]; intros [|x l1] [|y l2] [|i] E L; try lia; try discriminate; auto; cbn in *.
  - congruence.
  - apply IH; [congruence|lia].
Qed.
Lemma nth_ge_none {A} (l : list (option A)) i : length l <= i -> nth i l None = None.
Proof. intro. apply nth_overflow. auto. Qed.
Lemma firstn_cells {A} (l : list (option A)) base j :
  length base + j <= length l -> (exists r, l = map Some base ++ r) ->
  somes (firstn (length base + j) l) = base ++ flat_map (fun i => oapp (nth (length base + i) l None)) (seq 0 j).
Proof.
  intros L [r ->]. rewrite firstn_app, map_length. replace (length base + j - length base) with j by lia.
  rewrite firstn_all2 by (rewrite map_length; lia). unfold somes. rewrite flat_map_app. f_equal.
  - clear. induction base; simpl; congruence.
  - rewrite app_length, map_length in L. assert (Lr : j <= length r) by lia. clear L.
    assert (E : flat_map (fun i => oapp (nth (length base + i) (map Some base ++ r) None)) (seq 0 j) =
                flat_map (fun i => oapp (nth i r None)) (seq 0 j)).
    { apply flat_map_ext. intro i. rewrite app_nth2 by (rewrite map_length; lia). rewrite map_length. do 2 f_equal. lia. }
    rewrite E. clear E. revert r Lr. induction j as [|j IH]; intros r Lr; [reflexivity|].
    destruct r as [|x r]; [cbn in Lr; lia|]. cbn [firstn flat_map seq nth]. f_equal.
    rewrite IH by (cbn in Lr; lia). rewrite <- seq_shift. rewrite !flat_map_concat_map, map_map. reflexivity.
Qed.

Lemma collect_exact n : item_exact n.
Proof.
  apply (node_simple_ind item_exact);
    try (intros; intros m s path k Wf L; cbn; split; [apply kept_refl|split; [reflexivity|constructor]]; fail).
  - intros a m s path k Wf L. cbn [collect_attrs crefs]. pose proof (wf_len _ _ _ Wf) as Hl. rewrite Hl.
    destruct path as [|f path].
    + cbn. split; [apply kept_refl|split; [reflexivity|constructor]].
    + change (0 <? length (f :: path)) with true. split; [apply kept_refl|split; [reflexivity|]].
      constructor; [|constructor]. split; [reflexivity|]. cbn [snd]. split; [reflexivity|]. split; [lia|].
      rewrite (wf_cap _ _ _ Wf), Hl. apply capof_le.
  - intros ns F m s path k Wf L. rewrite collect_attrs_collection. apply items_exact; auto.
  - intros f attrs ns F m s path k Wf L. rewrite collect_attrs_conditional.
    pose proof (append_wf m s path f Wf) as A.
    assert (Hlen : s_len s = length path) by apply Wf. assert (Hcap : s_cap s = capof (length path)) by apply Wf.
    assert (Lc : length (path ++ [f]) = S (length path)) by (rewrite app_length; simpl; lia).
    assert (Sp : spare (length path) = (s_len s <? s_cap s)) by (rewrite Hcap, Hlen; reflexivity).
    cbn [SpecShared.crefs last_at]. rewrite Sp. unfold append1 in *.
    destruct (Nat.ltb_spec (s_len s) (s_cap s)) as [Room|Full].
    + (* in place *)
      set (m1 := set_nth m (s_arr s) (set_nth (nth (s_arr s) m []) (s_len s) (Some f))) in *.
      set (s' := Slice (s_arr s) (S (s_len s)) (s_cap s)) in *.
      destruct A as (Wf' & K1 & _ & Hlt).
      assert (Np : path <> []). { intros ->. cbn in *. lia. }
      pose proof (wf_pos _ _ _ Wf Np) as Hs.
      assert (Cap : length (nth (s_arr s) m []) = s_cap s).
      { destruct (wf_cells _ _ _ Wf) as [X|(r & _ & X)]; [contradiction|auto]. }
      assert (Arr1 : nth (s_arr s) m1 [] = set_nth (nth (s_arr s) m []) (s_len s) (Some f)).
      { unfold m1. rewrite nth_set_nth, Nat.eqb_refl. destruct (Nat.ltb_spec (s_arr s) (length m)); [reflexivity|lia]. }
      pose proof (items_exact ns F m1 s' (path ++ [f]) (S k) Wf' ltac:(lia)) as G.
      destruct (items_attrs s' ns m1) as [[a2 c2] m2]. destruct G as (K2 & C2 & R2).
      destruct K2 as (A2 & B2 & D2). destruct (D2 Hlt) as [D2a D2b]. destruct K1 as (A1 & B1 & D1). destruct (D1 Hs) as [D1a D1b].
      cbn [s_arr s_len s_cap s'] in *.
      split; [|split].
      * split; [lia|split].
        -- intros a Ha [N|N]; [|lia]. rewrite B2, B1 by (auto; lia). reflexivity.
        -- intros _. split; [congruence|]. rewrite <- D1b.
           assert (X : forall l : list (option fn), firstn (s_len s) l = firstn (s_len s) (firstn (S (s_len s)) l)).
           { intro l. rewrite firstn_firstn. f_equal. lia. }
           rewrite X, D2b, <- X. reflexivity.
      * intros i Hi. unfold cell. destruct i as [|i].
        -- cbn [later]. rewrite Nat.add_0_r. rewrite (nth_firstn_same _ (nth (s_arr s) m1 []) (S (s_len s))) by (auto; lia).
           rewrite Arr1, nth_set_nth, Nat.eqb_refl, Cap. destruct (Nat.ltb_spec (s_len s) (s_cap s)); [reflexivity|lia].
        -- fold (last_of i ns). specialize (C2 i ltac:(lia)). unfold cell in C2. cbn [s_arr s_len s'] in C2.
           replace (s_len s + S i) with (S (s_len s) + i) by lia. rewrite C2. f_equal. rewrite Arr1, nth_set_nth.
           destruct (Nat.eqb_spec (s_len s) (S (s_len s) + i)); [lia|reflexivity].
      * apply Forall2_app.
        -- assert (G : forall l, Forall2 (ref_ok m m2 s (length path - k)) (map (fun a => (a, s')) l) (map (fun a => (a, Own (S k))) l)).
           { induction l as [|a l IHl]; [constructor|]. constructor; auto. split; [reflexivity|]. cbn [snd s_arr s_len s']. lia. }
           apply G.
        -- eapply Forall2_weaken; [|exact R2]. intros p q [E R]. split; auto. destruct (snd q) as [j|c].
           ++ cbn [s_arr s_len s_cap s'] in R. rewrite Lc in R. lia.
           ++ destruct R as [[R0 R1] R3]. split; auto. lia.
    + (* a fresh array *)
      set (cells := firstn (s_len s) (nth (s_arr s) m []) ++ Some f :: repeat None (go_grow (s_cap s) - S (s_len s))) in *.
      set (s' := Slice (length m) (S (s_len s)) (go_grow (s_cap s))) in *.
      destruct A as (Wf' & K1 & _ & Hlt).
      pose proof (items_exact ns F (m ++ [cells]) s' (path ++ [f]) 0 Wf' ltac:(lia)) as G.
      destruct (items_attrs s' ns (m ++ [cells])) as [[a2 c2] m2]. destruct G as (K2 & C2 & R2).
      assert (Wf2 : wf m2 s' (path ++ [f])) by (eapply kept_wf; eauto).
      destruct K2 as (A2 & B2 & D2). destruct (D2 Hlt) as [D2a D2b]. destruct K1 as (A1 & B1 & D1).
      rewrite app_length in A2, B2. cbn [length] in A2, B2.
      split; [|split].
      * split; [lia|split].
        -- intros a Ha _. rewrite B2, app_nth1 by (cbn [s_arr s']; lia). reflexivity.
        -- intro Ha. rewrite B2, app_nth1 by (cbn [s_arr s']; lia). auto.
      * intros i Hi. lia.
      * assert (Cells : nth (s_arr s') (m ++ [cells]) [] = cells).
        { cbn [s_arr s']. rewrite app_nth2, Nat.sub_diag by lia. reflexivity. }
        assert (Len2 : length (nth (s_arr s') m2 []) = go_grow (s_cap s)).
        { destruct (wf_cells _ _ _ Wf2) as [X|(r & _ & X)]; [destruct path; discriminate|exact X]. }
        assert (Pre2 : exists r, nth (s_arr s') m2 [] = map Some (path ++ [f]) ++ r).
        { destruct (wf_cells _ _ _ Wf2) as [X|(r & X & _)]; [destruct path; discriminate|eauto]. }
        assert (Hfirst : length (firstn (s_len s) (nth (s_arr s) m [])) = s_len s).
        { destruct (wf_cells _ _ _ Wf) as [->|(r & X & _)]; [rewrite Hlen; reflexivity|]. rewrite X, firstn_length, app_length, map_length. lia. }
        assert (Base : forall j sl, s_arr sl = s_arr s' -> s_len sl = S (length path) + j -> s_len sl <= go_grow (s_cap s) ->
          slice_elems m2 sl = (path ++ [f]) ++ shared j ns).
        { intros j sl E1 E2 E3. unfold slice_elems. rewrite E1, E2, <- Lc.
          rewrite firstn_cells; [|rewrite Lc, Len2; lia|exact Pre2]. f_equal. unfold shared.
          rewrite !flat_map_concat_map. f_equal. apply map_ext_in. intros i Hi. apply in_seq in Hi. f_equal.
          specialize (C2 i). unfold cell in C2. cbn [s_len s_cap s'] in C2. rewrite Lc, <- Hlen, C2 by lia. rewrite Cells.
          unfold cells. rewrite app_nth2 by lia. rewrite Hfirst. replace (S (s_len s) + i - s_len s) with (S i) by lia.
          cbn [nth]. rewrite nth_repeat. destruct (last_of i ns); reflexivity. }
        rewrite map_app. apply Forall2_app.
        -- assert (G : forall l, Forall2 (ref_ok m m2 s (length path - k)) (map (fun a => (a, s')) l)
             (map (settle (path ++ [f]) ns) (map (fun a => (a, Own 0)) l))).
           { induction l as [|a l IHl]; [constructor|]. constructor; auto. split; [reflexivity|]. cbn [snd settle fst]. split.
             - cbn [s_arr s']. lia.
             - rewrite (Base 0); [reflexivity|reflexivity|cbn [s_len s']; lia|].
               cbn [s_len s']. rewrite <- Len2. destruct Pre2 as [r ->]. rewrite app_length, map_length. lia. }
           apply G.
        -- clear - R2 Base A1 A2 Lc Hlen. revert R2. generalize (flat_map (crefs (path ++ [f]) 0) ns). intros spec R2. induction R2 as [|p q c2 spec R _ IH]; [constructor|]. cbn [map]. constructor; auto.
           destruct R as [E R]. split; [exact E|]. cbn [settle snd]. destruct (snd q) as [j|c].
           ++ destruct R as (R1 & R2 & R3). split; [rewrite R1; cbn [s_arr s']; lia|]. apply Base; auto. lia.
           ++ destruct R as [[R0 R1] R3]. split; auto. rewrite app_length in R0. cbn in R0. lia.
Qed.

(** At the top there is no array yet, so that every list gets known. *)
Lemma crefs_known (ns : list (node U)) : forall d, In d (flat_map (crefs [] 0) ns) -> exists c, snd d = Known c.
Proof.
  assert (G : forall n, forall d, In d (crefs [] 0 n) -> exists c, snd d = Known c).
  { apply (node_simple_ind (fun n => forall d, In d (crefs [] 0 n) -> exists c, snd d = Known c)); try (intros; contradiction).
    - intros l F d Hd. cbn [crefs] in Hd. apply in_flat_map in Hd as (n & Hn & Hd). rewrite Forall_forall in F. eauto.
    - intros f attrs l F d Hd. cbn [crefs length] in Hd. change (spare 0) with false in Hd. cbn iota in Hd.
      apply in_map_iff in Hd as (q & <- & _). eexists. reflexivity. }
  intros d Hd. apply in_flat_map in Hd as (n & _ & Hd). eauto.
Qed.

Theorem attributes_deciding ns :
  attributes_and_contents ns =
  (flat_map static_decls ns, deciding spare ns, filter (fun n => negb (is_attr n)) ns).
Proof.
  pose proof (attributes_shape ns) as Sh. unfold attributes_and_contents in *. rewrite collect_all_items in *.
  pose proof (items_exact ns) as G. specialize (G ltac:(apply Forall_forall; intros; apply collect_exact)).
  specialize (G [] nil_slice [] 0 wf_nil ltac:(auto)). destruct (items_attrs nil_slice ns []) as [[a c] m].
  destruct G as (_ & _ & R). destruct Sh as (-> & _ & _). do 2 f_equal. unfold deciding.
  pose proof (crefs_known ns) as Kn. revert Kn. induction R as [|p q c spec [E R] _ IH]; intro Kn; [reflexivity|].
  cbn [map]. rewrite IH by (intros; apply Kn; right; auto). f_equal. destruct p as [x sl]. cbn [fst snd] in *.
  destruct (Kn q) as [ch Hq]; [left; auto|]. rewrite Hq in R |- *. destruct R as [_ <-]. rewrite E. reflexivity.
Qed.

End Facts.
