(** What Start does to memory when the values of the plain attributes it is
    given fill their arrays. *)
From Coq Require Import Lia.
From Verif Require Import Bytes IO Nodes Values Render Slices Memory MemoryFacts.

Section Facts.
Context {W : UserWorld}.
Local Open Scope nat_scope.

Lemma frame_trans own own1 own2 s s1 :
  frame_but (target s) own own1 -> target_ok own s s1 -> frame_but (target s1) own1 own2 ->
  frame_but (target s) own own2.
Proof.
  intros [F1 F2] T [G1 G2]. split; [lia|]. intros b Hb N. rewrite G2; [apply F2; auto|lia|].
  destruct T as [T|[T|(a & T & L)]]; rewrite T; [discriminate|auto|]. intro Q. inversion Q. lia.
Qed.
Lemma target_trans own own1 s s1 s2 :
  length own <= length own1 -> target_ok own s s1 -> target_ok own1 s1 s2 -> target_ok own s s2.
Proof.
  intros L T1 T2. destruct T2 as [T2|[T2|(a & T2 & L2)]]; [left; auto| |].
  - unfold target_ok. rewrite T2. exact T1.
  - right. right. exists a. split; auto. lia.
Qed.

(** A slice of this goroutine's that holds [vs]. *)
Definition good (sh own : arrays) (s : mslice) (vs : list (value U)) : Prop :=
  private s /\ real own s /\ holds sh own s vs.

Lemma opt_delim_alone g sh own (b : bool) d s vs tr : grows g -> good sh own s vs ->
  exists s' own', alone (if b then mappend1 g s (Some (Val d None [])) else MRet s) sh own tr = (s', sh, own', tr) /\
    good sh own' s' (if b then vs ++ [Val d None []] else vs) /\ frame_but (target s) own own' /\ target_ok own s s'.
Proof.
  intros G (P & R & H). destruct b.
  - destruct (mappend1_alone g s (Val d None []) vs sh own tr G P R H) as (s' & own' & E & P' & R' & H' & F & T).
    exists s', own'. unfold good. auto.
  - exists s, own. unfold good, target_ok. repeat split; auto; apply R || apply H.
Qed.

Lemma start_append_alone g sh d i : grows g -> forall ws n j s own vs tr,
  length ws = n -> (forall k, k < n -> cell sh i (j + k) = nth k (map Some ws) None) -> good sh own s vs ->
  exists s' own', alone (start_append g d n (Shared i) j s) sh own tr = (s', sh, own', tr) /\
    good sh own' s' (append_delim d vs ws) /\ frame_but (target s) own own' /\ target_ok own s s'.
Proof.
  intros G. induction ws as [|w ws IH]; intros n j s own vs tr L C K; cbn in L; subst n; cbn [start_append append_delim].
  - exists s, own. cbn. unfold target_ok. repeat split; auto; apply K.
  - cbn [alone load]. pose proof (C 0 ltac:(lia)) as C0. rewrite Nat.add_0_r in C0. rewrite C0. cbn [map nth].
    rewrite alone_bind.
    destruct (opt_delim_alone g sh own (0 <? m_len s) d s vs tr G K) as (s1 & own1 & E1 & K1 & F1 & T1).
    rewrite E1, alone_bind. destruct K1 as (P1 & R1 & H1).
    destruct (mappend1_alone g s1 w _ sh own1 tr G P1 R1 H1) as (s2 & own2 & E2 & P2 & R2 & H2 & F2 & T2).
    rewrite E2.
    destruct (IH (length ws) (S j) s2 own2 ((match vs with [] => vs | _ => vs ++ [Val d None []] end) ++ [w]) tr)
      as (s3 & own3 & E3 & K3 & F3 & T3).
    + reflexivity.
    + intros k Hk. pose proof (C (S k) ltac:(lia)) as X. rewrite Nat.add_succ_r in X. exact X.
    + split; [exact P2|]. split; [exact R2|]. destruct K as (_ & _ & HK). destruct HK as [HK _].
      rewrite HK in H2. destruct vs as [|v vs]; exact H2.
    + exists s3, own3. split; [exact E3|]. split; [exact K3|].
      assert (F12 : frame_but (target s) own own2) by (eapply frame_trans; eauto).
      assert (T12 : target_ok own s s2) by (eapply target_trans; [apply F1|exact T1|exact T2]).
      split; [eapply frame_trans; eauto|]. eapply target_trans; [apply F12|exact T12|exact T3].
Qed.

(** Values each preceded by the delimiter. *)
Definition preceded (d : bytes) (ws : list (value U)) : list (value U) :=
  flat_map (fun w => [Val d None []; w]) ws.
Lemma interpose_preceded d w ws : interpose d (w :: ws) = w :: preceded d ws.
Proof.
  revert w. induction ws as [|x ws IH]; intro w; [reflexivity|].
  change (interpose d (w :: x :: ws)) with (w :: Val d None [] :: interpose d (x :: ws)). rewrite IH. reflexivity.
Qed.

Lemma start_fill_alone g sh d i : grows g -> forall ws n j s own vs tr,
  length ws = n -> (forall k, k < n -> cell sh i (j + k) = nth k (map Some ws) None) -> good sh own s vs ->
  exists s' own', alone (start_fill g d n (Shared i) j s) sh own tr = (s', sh, own', tr) /\
    good sh own' s' (vs ++ if 0 <? j then preceded d ws else interpose d ws) /\
    frame_but (target s) own own' /\ target_ok own s s'.
Proof.
  intros G. induction ws as [|w ws IH]; intros n j s own vs tr L C K; cbn in L; subst n; cbn [start_fill].
  - exists s, own. split; [reflexivity|]. unfold target_ok.
    replace (vs ++ if 0 <? j then preceded d [] else interpose d []) with vs
      by (destruct (0 <? j); rewrite app_nil_r; reflexivity).
    repeat split; auto; apply K.
  - cbn [alone load]. pose proof (C 0 ltac:(lia)) as C0. rewrite Nat.add_0_r in C0. rewrite C0. cbn [map nth].
    rewrite alone_bind.
    destruct (opt_delim_alone g sh own (0 <? j) d s vs tr G K) as (s1 & own1 & E1 & K1 & F1 & T1).
    rewrite E1, alone_bind. destruct K1 as (P1 & R1 & H1).
    destruct (mappend1_alone g s1 w _ sh own1 tr G P1 R1 H1) as (s2 & own2 & E2 & P2 & R2 & H2 & F2 & T2).
    rewrite E2.
    destruct (IH (length ws) (S j) s2 own2 _ tr eq_refl (fun k Hk => ltac:(pose proof (C (S k) ltac:(cbn; lia)) as X;
        rewrite Nat.add_succ_r in X; exact X)) (conj P2 (conj R2 H2)))
      as (s3 & own3 & E3 & K3 & F3 & T3).
    exists s3, own3. split; [exact E3|]. split.
    { change (0 <? S j) with true in K3. cbv iota in K3. destruct (0 <? j).
      - rewrite <- !app_assoc in K3. exact K3.
      - rewrite interpose_preceded. rewrite <- app_assoc in K3. exact K3. }
    assert (F12 : frame_but (target s) own own2) by (eapply frame_trans; eauto).
    assert (T12 : target_ok own s s2) by (eapply target_trans; [apply F1|exact T1|exact T2]).
    split; [eapply frame_trans; eauto|]. eapply target_trans; [apply F12|exact T12|exact T3].
Qed.

(** The list built so far, in memory. *)
Definition entry (sh own : arrays) (x : bytes * option mslice) (y : bytes * option (list (value U))) : Prop :=
  fst x = fst y /\
  match snd x, snd y with
  | Some s, Some vs => good sh own s vs
  | None, None => True
  | _, _ => False
  end.
Definition tgt (x : bytes * option mslice) : list nat :=
  match snd x with Some s => match target s with Some a => [a] | None => [] end | None => [] end.
Definition tgts (l : list (bytes * option mslice)) : list nat := flat_map tgt l.

Lemma entry_frame t sh own own' x y :
  frame_but t own own' -> (forall a, t = Some a -> ~ In a (tgt x)) ->
  entry sh own x y -> entry sh own' x y.
Proof.
  intros F N [E1 E2]. split; auto. destruct x as [n [s|]], y as [n' [vs|]]; cbn [snd] in *; auto.
  destruct E2 as (P & R & H).
  assert (T : target s = None \/ target s <> t).
  { unfold tgt in N. cbn [snd] in N. destruct (target s) as [a|]; [|left; reflexivity].
    right. intro Q. apply (N a); auto. left. reflexivity. }
  split; [exact P|]. split; [eapply real_frame; eauto|eapply holds_frame; eauto].
Qed.
Lemma entries_frame t sh own own' l l' :
  frame_but t own own' -> (forall a, t = Some a -> ~ In a (tgts l)) ->
  Forall2 (entry sh own) l l' -> Forall2 (entry sh own') l l'.
Proof.
  intros F N H. induction H as [|x y l l' Hxy H IH]; constructor.
  - eapply entry_frame; eauto. intros a Ha Hi. apply (N a Ha). apply in_or_app. auto.
  - apply IH. intros a Ha Hi. apply (N a Ha). apply in_or_app. auto.
Qed.
Lemma tgts_real sh own l l' a : Forall2 (entry sh own) l l' -> In a (tgts l) -> a < length own.
Proof.
  induction 1 as [|x y l l' Hxy H IH]; [intros []|]. cbn [tgts flat_map]. intro Hi. apply in_app_or in Hi.
  destruct Hi as [Hi|Hi]; [|auto]. destruct x as [n [s|]], y as [n' [vs|]]; destruct Hxy as [_ Hxy]; cbn in *; try contradiction.
  unfold tgt, target in Hi. cbn [snd] in Hi. destruct Hxy as (_ & [_ R] & _).
  destruct (m_at s) as [i|b]; [destruct Hi|]. destruct (Nat.eqb_spec (m_cap s) 0); [destruct Hi|].
  destruct Hi as [<-|[]]. destruct R; lia.
Qed.

(** The two association lists agree on where a name is. *)
Lemma find_assoc sh own l l' name : Forall2 (entry sh own) l l' ->
  match get_assoc l name with
  | Some old => exists l1 l2 l1' l2' fold,
      l = l1 ++ (name, old) :: l2 /\ l' = l1' ++ (name, fold) :: l2' /\
      Forall2 (entry sh own) l1 l1' /\ entry sh own (name, old) (name, fold) /\ Forall2 (entry sh own) l2 l2' /\
      bmem name (map fst l') = true /\
      (forall x, set_assoc l name x = l1 ++ (name, x) :: l2) /\
      (forall f, upd_assoc l' name f = l1' ++ (name, f fold) :: l2')
  | None => bmem name (map fst l') = false
  end.
Proof.
  induction 1 as [|[n x] [n' y] l l' Hxy H IH]; [reflexivity|].
  destruct Hxy as [E1 E2]. cbn [fst snd] in E1, E2. subst n'. cbn [get_assoc map fst bmem existsb set_assoc upd_assoc].
  destruct (beq_spec n name) as [->|N].
  - exists [], l, [], l', y. rewrite beq_refl. cbn [orb].
    repeat split; auto.
  - destruct (get_assoc l name) as [old|].
    + destruct IH as (l1 & l2 & l1' & l2' & fo & -> & -> & H1 & H2 & H3 & H4 & H5 & H6).
      exists ((n, x) :: l1), l2, ((n, y) :: l1'), l2', fo.
      split; [reflexivity|]. split; [reflexivity|]. split; [constructor; [split|]; auto|].
      split; [exact H2|]. split; [exact H3|]. split; [rewrite orb_true_iff; right; exact H4|].
      split; intro; [rewrite H5|rewrite H6]; reflexivity.
    + destruct (beq_spec name n); [subst; congruence|]. exact IH.
Qed.

Lemma tgts_app l1 l2 : tgts (l1 ++ l2) = tgts l1 ++ tgts l2.
Proof. unfold tgts. apply flat_map_app. Qed.
Lemma nodup_swap (l1 l2 a b : list nat) : NoDup (l1 ++ a ++ l2) -> NoDup b ->
  (forall x, In x b -> ~ In x l1 /\ ~ In x l2) -> NoDup (l1 ++ b ++ l2).
Proof.
  intros H Hb N. induction l1 as [|y l1 IH]; cbn in *.
  - assert (H2 : NoDup l2). { induction a; cbn in H; auto. inversion H; auto. }
    clear H. induction b as [|z b IHb]; cbn; auto. inversion Hb; subst. constructor.
    + intro Q. apply in_app_or in Q. destruct Q as [Q|Q]; [auto|]. apply (N z); [left; auto|auto].
    + apply IHb; auto. intros x Hx. apply N. right. auto.
  - inversion H; subst. constructor.
    + intro Q. rewrite !in_app_iff in *. destruct Q as [Q|[Q|Q]]; [tauto| |tauto].
      destruct (N y Q) as [N1 _]. apply N1. left. reflexivity.
    + apply IH; auto. intros x Hx. destruct (N x Hx) as [N1 N2]. split; [intro Q; apply N1; right; exact Q|exact N2].
Qed.

(** Attribute nodes whose slices have no room left. *)
Definition full (m : mattr) : Prop :=
  match m with MPlain _ s => m_len s = m_cap s | _ => True end.

Lemma cells_of sh s ws i : holds sh [] s ws -> m_at s = Shared i ->
  forall k, k < m_len s -> cell sh i (0 + k) = nth k (map Some ws) None.
Proof. intros [H1 H2] E k Hk. rewrite <- H2 by auto. rewrite E. reflexivity. Qed.
Lemma plain_good sh own s ws : is_shared s -> m_len s = m_cap s -> holds sh [] s ws -> good sh own s ws.
Proof.
  intros S L H. split; [|split].
  - unfold private. destruct (m_at s); auto.
  - split; [lia|]. unfold is_shared in S. destruct (m_at s); [exact I|contradiction].
  - eapply holds_shared; eauto.
Qed.
Lemma shared_tgt n s : is_shared s -> tgt (n, Some s) = [].
Proof. intro S. unfold tgt, target, is_shared in *. cbn [snd]. destruct (m_at s); [reflexivity|contradiction]. Qed.

Lemma start_one_alone g sh own acc facc m a tr : grows g ->
  Forall2 (entry sh own) acc facc -> NoDup (tgts acc) -> stored sh m a -> full m ->
  exists acc' own', alone (start_one g acc m) sh own tr = (acc', sh, own', tr) /\
    Forall2 (entry sh own') acc' (start_add facc a) /\ NoDup (tgts acc').
Proof.
  intros G F N S Fu. unfold start_one, start_add.
  assert (Nm : mattr_name m = attr_name a).
  { destruct m, a; cbn in S; try contradiction; cbn; try apply S; auto. }
  rewrite Nm. pose proof (find_assoc sh own acc facc (attr_name a) F) as X.
  destruct (get_assoc acc (attr_name a)) as [old|].
  - destruct X as (l1 & l2 & l1' & l2' & fo & -> & -> & H1 & H2 & H3 & -> & H5 & H6). rewrite H6.
    assert (Simple : forall x y, entry sh own (attr_name a, x) (attr_name a, y) -> tgt (attr_name a, x) = [] ->
       Forall2 (entry sh own) (l1 ++ (attr_name a, x) :: l2) (l1' ++ (attr_name a, y) :: l2') /\
       NoDup (tgts (l1 ++ (attr_name a, x) :: l2))).
    { intros x y Hxy T. split; [apply Forall2_app; auto|].
      rewrite tgts_app in *. cbn [tgts flat_map] in *. rewrite T. cbn [app].
      eapply (nodup_swap _ _ _ []) in N; [exact N|constructor|intros ? []]. }
    destruct m as [n s|n|n d s], a as [n' ws|n'|n' d' ws]; cbn [stored] in S; try contradiction; cbn [attr_name] in *.
    + destruct S as (-> & S1 & S2). cbn [alone]. rewrite H5. eexists _, own. split; [reflexivity|].
      apply Simple; [|apply shared_tgt; auto]. split; [reflexivity|]. apply plain_good; auto.
    + subst n'. cbn [alone]. rewrite H5. eexists _, own. split; [reflexivity|]. apply Simple; [|reflexivity].
      split; cbn; auto.
    + destruct S as (-> & -> & S1 & S2). rewrite alone_bind.
      destruct (m_at s) as [i|i] eqn:Ei; [|unfold is_shared in S1; rewrite Ei in S1; contradiction].
      set (s0 := match old with Some avs => avs | None => mnil end).
      set (vs0 := match fo with Some avs => avs | None => [] end).
      assert (K0 : good sh own s0 vs0).
      { destruct H2 as [_ H2]. unfold s0, vs0. destruct old, fo; cbn [snd] in H2; try contradiction; [exact H2|].
        split; [exact I|]. split; [split; [cbn; lia|left; reflexivity]|]. split; [reflexivity|]. cbn. lia. }
      destruct (start_append_alone g sh d' i G ws (m_len s) 0 s0 own vs0 tr) as (s1 & own1 & E & K1 & F1 & T1);
        [symmetry; apply S2|eapply cells_of; eauto|exact K0|].
      rewrite E. cbn [alone]. rewrite H5.
      assert (T0 : forall b, target s0 = Some b -> In b (tgt (n', old))).
      { intros b Hb. unfold s0 in Hb. unfold tgt. cbn [snd]. destruct old as [avs|]; [|discriminate Hb].
        rewrite Hb. left. reflexivity. }
      assert (Nmid : forall b, In b (tgt (n', old)) -> ~ In b (tgts l1) /\ ~ In b (tgts l2)).
      { intros b Hb. rewrite tgts_app in N. cbn [tgts flat_map] in N. fold (tgts l1) (tgts l2) in N. split; intro Q.
        - clear - N Hb Q. induction (tgts l1) as [|y l IH]; [destruct Q|]. cbn in N. inversion N; subst.
          destruct Q as [->|Q]; [|auto]. apply H1. rewrite !in_app_iff. auto.
        - clear - N Hb Q. induction (tgts l1) as [|y l IH]; cbn in N.
          + induction (tgt (n', old)) as [|z t IHt]; [destruct Hb|]. cbn in N. inversion N; subst.
            destruct Hb as [->|Hb]; [|auto]. apply H1. apply in_or_app. auto.
          + inversion N; auto. }
      assert (F1l : forall l lf, Forall2 (entry sh own) l lf -> (forall b, In b (tgt (n', old)) -> ~ In b (tgts l)) ->
                Forall2 (entry sh own1) l lf).
      { intros l lf Hl Hd. eapply entries_frame; [exact F1| |exact Hl]. intros b Hb. apply Hd, T0, Hb. }
      destruct (Nat.eqb_spec (m_len s) 0) as [Z|Z].
      * assert (ws = []) by (destruct S2 as [S2 _]; destruct ws; [auto|cbn in S2; lia]). subst ws.
        rewrite Z in E. cbn in E. inversion E; subst s1 own1.
        eexists _, own. split; [reflexivity|]. split; [apply Forall2_app; auto|exact N].
      * destruct ws as [|w ws]; [destruct S2 as [S2 _]; cbn in S2; lia|].
        eexists _, own1. split; [reflexivity|]. split.
        { apply Forall2_app; [apply F1l; [exact H1|intros; apply Nmid; auto]|].
          constructor; [|apply F1l; [exact H3|intros; apply Nmid; auto]]. split; [reflexivity|]. exact K1. }
        rewrite tgts_app in N |- *. cbn [tgts flat_map] in N |- *. fold (tgts l1) (tgts l2) in N |- *.
        eapply nodup_swap; [exact N| |].
        { unfold tgt. cbn [snd]. destruct (target s1); repeat constructor. intros []. }
        intros b Hb. unfold tgt in Hb. cbn [snd] in Hb. destruct (target s1) as [c|] eqn:Ec; [|destruct Hb].
        destruct Hb as [->|[]]. destruct T1 as [T1|[T1|(c & T1 & L1)]]; rewrite Ec in T1.
        -- discriminate.
        -- apply Nmid, T0. auto.
        -- inversion T1; subst c. split; intro Q; eapply tgts_real in Q; eauto; lia.
  - rewrite X.
    assert (Simple : forall x y, entry sh own (attr_name a, x) (attr_name a, y) -> tgt (attr_name a, x) = [] ->
       Forall2 (entry sh own) (acc ++ [(attr_name a, x)]) (facc ++ [(attr_name a, y)]) /\
       NoDup (tgts (acc ++ [(attr_name a, x)]))).
    { intros x y Hxy T. split; [apply Forall2_app; auto|].
      rewrite tgts_app in *. cbn [tgts flat_map] in *. rewrite T. rewrite !app_nil_r. exact N. }
    destruct m as [n s|n|n d s], a as [n' ws|n'|n' d' ws]; cbn [stored] in S; try contradiction; cbn [attr_name] in *.
    + destruct S as (-> & S1 & S2). cbn [alone]. eexists _, own. split; [reflexivity|].
      apply Simple; [|apply shared_tgt; auto]. split; [reflexivity|]. apply plain_good; auto.
    + subst n'. cbn [alone]. eexists _, own. split; [reflexivity|]. apply Simple; [|reflexivity].
      split; cbn; auto.
    + destruct S as (-> & -> & S1 & S2). cbn [alone]. rewrite alone_bind.
      destruct (m_at s) as [i|i] eqn:Ei; [|unfold is_shared in S1; rewrite Ei in S1; contradiction].
      set (s0 := MSlice (Own (length own)) 0 (m_len s * 2)). set (own0 := own ++ [repeat None (m_len s * 2)]).
      assert (K0 : good sh own0 s0 []).
      { split; [exact I|]. split.
        - split; [cbn; lia|]. right. unfold own0. cbn [m_at s0 m_cap]. rewrite own_app_len, own_app_new, repeat_length. lia.
        - split; [reflexivity|]. cbn. lia. }
      destruct (start_fill_alone g sh d' i G ws (m_len s) 0 s0 own0 [] tr) as (s1 & own1 & E & K1 & F1 & T1);
        [symmetry; apply S2|eapply cells_of; eauto|exact K0|].
      rewrite E. cbn [alone]. eexists _, own1. split; [reflexivity|].
      assert (FO : frame_but None own own0).
      { unfold own0. split; [rewrite own_app_len; lia|]. intros b Hb _. apply own_app_old. auto. }
      assert (F0 : Forall2 (entry sh own0) acc facc).
      { eapply entries_frame; [exact FO|discriminate|exact F]. }
      assert (Ts : forall b, target s0 = Some b -> b = length own).
      { intros b Hb. unfold s0, target in Hb. cbn [m_at m_cap] in Hb. destruct (m_len s * 2 =? 0); inversion Hb; auto. }
      split.
      { apply Forall2_app; [|constructor; [split; [reflexivity|exact K1]|constructor]].
        eapply entries_frame; [exact F1| |exact F0]. intros b Hb Q. apply Ts in Hb. subst b.
        eapply tgts_real in Q; [|exact F]. lia. }
      rewrite tgts_app. cbn [tgts flat_map]. rewrite app_nil_r.
      rewrite <- (app_nil_r (tgt _)). eapply (nodup_swap _ [] []); [rewrite !app_nil_r; exact N| |].
      { unfold tgt. cbn [snd]. destruct (target s1); repeat constructor. intros []. }
      intros b Hb. split; [|intros []]. intro Q. eapply tgts_real in Q; [|exact F].
      unfold tgt in Hb. cbn [snd] in Hb. destruct (target s1) as [c|] eqn:Ec; [|destruct Hb].
      destruct Hb as [->|[]]. destruct T1 as [T1|[T1|(c & T1 & L1)]]; rewrite Ec in T1.
      * discriminate.
      * symmetry in T1. apply Ts in T1. lia.
      * inversion T1; subst c. unfold own0 in L1. rewrite own_app_len in L1. lia.
Qed.

Lemma start_all_alone g sh : grows g -> forall l l', Forall2 (stored sh) l l' -> Forall full l ->
  forall acc facc own tr, Forall2 (entry sh own) acc facc -> NoDup (tgts acc) ->
  exists acc' own', alone (start_all g acc l) sh own tr = (acc', sh, own', tr) /\
    Forall2 (entry sh own') acc' (fold_left start_add l' facc) /\ NoDup (tgts acc').
Proof.
  intros G l l' F. induction F as [|m a l l' S F IH]; intros Fu acc facc own tr E N.
  - exists acc, own. auto.
  - inversion Fu; subst. cbn [start_all fold_left]. rewrite alone_bind.
    destruct (start_one_alone g sh own acc facc m a tr G E N S) as (acc1 & own1 & E1 & K1 & N1); auto.
    rewrite E1. apply IH; auto.
Qed.

Definition as_attr (e : bytes * option (list (value U))) : attr U :=
  match e with (n, None) => ABool n | (n, Some vs) => APlain n vs end.

Lemma start_show_alone sh own : forall acc facc tr, Forall2 (entry sh own) acc facc ->
  alone (start_show acc) sh own tr = (tt, sh, own, tr ++ flat_map (fun e => shown (as_attr e)) facc).
Proof.
  intros acc facc tr F. revert tr. induction F as [|[n x] [n' y] acc facc [E1 E2] F IH]; intro tr.
  - cbn. rewrite app_nil_r. reflexivity.
  - cbn [fst snd] in *. subst n'. cbn [start_show flat_map].
    destruct x as [s|], y as [vs|]; try contradiction; cbn [as_attr shown].
    + cbn [alone]. rewrite alone_bind. destruct E2 as (_ & _ & H). rewrite (holds_shown sh own s vs) by exact H.
      cbn [alone]. rewrite IH. rewrite <- !app_assoc. cbn [app]. rewrite <- !app_assoc. reflexivity.
    + cbn [alone]. rewrite IH. rewrite <- app_assoc. reflexivity.
Qed.

Theorem start_attributes_alone g sh l l' tr : grows g -> Forall2 (stored sh) l l' -> Forall full l ->
  exists own', alone (start_attributes g l) sh [] tr =
    (tt, sh, own', tr ++ flat_map (fun e => shown (as_attr e)) (fold_left start_add l' [])).
Proof.
  intros G F Fu. unfold start_attributes. rewrite alone_bind.
  destruct (start_all_alone g sh G l l' F Fu [] [] [] tr) as (acc & own & E & K & _); [constructor|constructor|].
  rewrite E. exists own. apply start_show_alone. exact K.
Qed.

(** The list of Render.v. *)
Lemma start_attrs_fold l acc : start_attrs (map (fun a => Some (NAttr a)) l) acc = fold_left start_add l acc.
Proof. revert acc. induction l as [|a l IH]; intro acc; cbn; auto. Qed.

(** No store to a shared array. *)
Lemma mappend1_safe g s v : private s -> safe private (mappend1 g s v).
Proof.
  intro P. unfold mappend1. destruct (Nat.leb_spec (S (m_len s)) (m_cap s)) as [L|L].
  - unfold private in P |- *. destruct (m_at s) as [i|a] eqn:Ea; [lia|]. cbn. exact I.
  - cbn [safe]. intro i. eapply safe_bind; [apply mcopy_safe|]. intros _ _. cbn. exact I.
Qed.
Lemma start_append_safe g d n x : forall j s, private s -> safe private (start_append g d n x j s).
Proof.
  induction n as [|n IH]; intros j s P; cbn [start_append safe]; auto. intro v.
  eapply safe_bind with (Q := private); [destruct (0 <? m_len s); [apply mappend1_safe; auto|exact P]|].
  intros a1 P1. eapply safe_bind; [apply mappend1_safe; exact P1|]. intros a2 P2. apply IH. exact P2.
Qed.
Lemma start_fill_safe g d n x : forall j s, private s -> safe private (start_fill g d n x j s).
Proof.
  induction n as [|n IH]; intros j s P; cbn [start_fill safe]; auto. intro v.
  eapply safe_bind with (Q := private); [destruct (0 <? j); [apply mappend1_safe; auto|exact P]|].
  intros a1 P1. eapply safe_bind; [apply mappend1_safe; exact P1|]. intros a2 P2. apply IH. exact P2.
Qed.
Definition all_private (acc : list (bytes * option mslice)) : Prop :=
  Forall (fun e => match snd e with Some s => private s | None => True end) acc.
Lemma set_private acc n x : all_private acc -> match x with Some s => private s | None => True end ->
  all_private (set_assoc acc n x).
Proof.
  intros H Hx. induction H as [|[m y] acc Hy H IH]; cbn [set_assoc]; [constructor|].
  destruct (beq m n); constructor; auto.
Qed.
Lemma get_private acc n old : all_private acc -> get_assoc acc n = Some old ->
  match old with Some s => private s | None => True end.
Proof.
  induction 1 as [|[m y] acc Hy H IH]; cbn [get_assoc]; [discriminate|].
  destruct (beq m n); [|exact IH]. intro E. inversion E; subst. exact Hy.
Qed.
Lemma start_one_safe g acc m : all_private acc -> full m -> safe all_private (start_one g acc m).
Proof.
  intros H Fu. unfold start_one. destruct (get_assoc acc (mattr_name m)) as [old|] eqn:E.
  - pose proof (get_private _ _ _ H E) as Ho. destruct m as [n s|n|n d s].
    + cbn [safe]. apply set_private; auto. unfold private. cbn in Fu. destruct (m_at s); auto.
    + cbn [safe]. apply set_private; auto.
    + eapply safe_bind; [apply start_append_safe; destruct old; [exact Ho|exact I]|]. intros avs P.
      cbn [safe]. apply set_private; auto. destruct (m_len s =? 0); auto.
  - destruct m as [n s|n|n d s].
    + cbn [safe]. apply Forall_app. split; auto. constructor; [|constructor]. cbn [snd]. unfold private. cbn in Fu.
      destruct (m_at s); auto.
    + cbn [safe]. apply Forall_app. split; auto.
    + cbn [safe]. intro i. eapply safe_bind; [apply start_fill_safe; exact I|]. intros avs P.
      cbn [safe]. apply Forall_app. split; auto.
Qed.
Theorem start_attributes_safe g l : Forall full l -> safe anything (start_attributes g l).
Proof.
  intro Fu. unfold start_attributes. eapply safe_bind with (Q := all_private).
  - assert (G : forall acc, all_private acc -> safe all_private (start_all g acc l)).
    { induction Fu as [|m l Hm Fu IH]; intros acc H; cbn [start_all]; [exact H|].
      eapply safe_bind; [apply start_one_safe; auto|]. intros acc' H'. apply IH. exact H'. }
    apply G. constructor.
  - intros acc _. induction acc as [|[n [s|]] acc IH]; cbn [start_show safe]; [exact I| |exact IH].
    eapply safe_bind; [apply mvalues_safe|]. intros _ _. cbn. exact IH.
Qed.

End Facts.
