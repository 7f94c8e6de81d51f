(** The translated source of contentsToNodes and attributesAndContents
    (element.go 218-268) does what Sharing.v and Build.v say. *)
From Coq Require Import ZArith Lia.
From Verif Require Import Bytes IO IOFacts Nodes NodeInd Values Build Slices Sharing SharingFacts
  GoSyntax Source GoSem GoRun GoRep GoStep GoOwn RefineNode RefineUser RefineIter RefineStart RefineNew RefineMake RefineGroup GoShare.
Local Open Scope nat_scope.

Section Refine.
Context {W : UserWorld}.
Variable M : go_mode.
Hypothesis MO : mode_ok M.
Notation C := (go_config M).
Notation sim := (sim C).

(** ** The slices of conditions

    [cl] gives the address of each array of conditions. *)
Definition cmem := mem (condfn U).
Definition mem_le (m m' : cmem) : Prop :=
  forall a cs, nth_error m a = Some cs ->
  exists cs', nth_error m' a = Some cs' /\ length cs' = length cs /\
    forall i f, nth_error cs i = Some (Some f) -> exists f', nth_error cs' i = Some (Some f').
Lemma mem_le_refl m : mem_le m m.
Proof. intros a cs H. exists cs. split; [exact H|]. split; [reflexivity|]. eauto. Qed.
Lemma mem_le_trans m m1 m2 : mem_le m m1 -> mem_le m1 m2 -> mem_le m m2.
Proof.
  intros H1 H2 a cs Ha. destruct (H1 a cs Ha) as (cs1 & E1 & L1 & K1). destruct (H2 a cs1 E1) as (cs2 & E2 & L2 & K2).
  exists cs2. split; [exact E2|]. split; [congruence|]. intros i f Hf. destruct (K1 i f Hf) as [f1 Hf1]. eauto.
Qed.
Definition cell (v : gv) (o : option (condfn U)) : Prop :=
  match o with Some f => cond_fun M v f | None => v = VNil end.
Record mem_rep (h : heap) (cl : list loc) (m : cmem) : Prop := {
  mr_len : length cl = length m;
  mr_nodup : NoDup cl;
  mr_arr : forall i l cs, nth_error cl i = Some l -> nth_error m i = Some cs ->
    exists xs, nth_error h l = Some (OArr xs) /\ all2 cell xs cs
}.
Definition cs_rep (m : cmem) (cl : list loc) (v : gv) (s : slice) : Prop :=
  (v = VNil /\ s = nil_slice) \/
  (exists l cs, v = VSlice l (s_len s) /\ nth_error cl (s_arr s) = Some l /\ nth_error m (s_arr s) = Some cs /\
     length cs = s_cap s /\ s_len s <= s_cap s /\ 0 < s_len s /\
     forall i, i < s_len s -> exists f, nth_error cs i = Some (Some f)).
Lemma cs_more m m' cl x v s : cs_rep m cl v s -> mem_le m m' -> cs_rep m' (cl ++ x) v s.
Proof.
  intros [H|(l & cs & -> & H1 & H2 & H3 & H4 & H5 & H6)] K; [left; exact H|right].
  destruct (K _ _ H2) as (cs' & E & L & F). exists l, cs'. split; [reflexivity|]. split; [apply nth_app_old, H1|].
  split; [exact E|]. split; [congruence|]. split; [exact H4|]. split; [exact H5|]. intros i Hi. destruct (H6 i Hi) as [f Hf]. eauto.
Qed.
Lemma cs_len m cl v s : cs_rep m cl v s -> exists n, v = VSlice n (s_len s) /\ 0 < s_len s \/ v = VNil /\ s_len s = 0.
Proof. intros [[-> ->]|(l & cs & -> & H1 & H2 & H3 & H4 & H5 & H6)]; [exists 0; right; auto|exists l; left; auto]. Qed.

(** Only the arrays of conditions change. *)
Definition frame (cl : list loc) (h h' : heap) : Prop :=
  length h <= length h' /\ forall l o, ~ In l cl -> nth_error h l = Some o -> nth_error h' l = Some o.
Lemma frame_refl cl h : frame cl h h.
Proof. split; auto. Qed.
Lemma frame_trans cl x h h1 h2 : frame cl h h1 -> (forall l, In l x -> length h <= l) -> frame (cl ++ x) h1 h2 -> frame cl h h2.
Proof.
  intros [L1 F1] Hx [L2 F2]. split; [lia|]. intros l o N Ho. apply F2; [|apply F1; auto].
  intro I. apply in_app_or in I. destruct I as [I|I]; [auto|]. apply Hx in I. apply nth_lt in Ho. lia.
Qed.
Lemma all2_set {X Y} (R : X -> Y -> Prop) : forall ys xs i x y, all2 R xs ys -> R x y -> all2 R (set_nth xs i x) (set_nth ys i y).
Proof.
  induction ys as [|y0 ys IH]; intros xs i x y Hx Hr; cbn [all2] in Hx; [subst; destruct i; reflexivity|].
  destruct Hx as (x0 & xs' & -> & H1 & H2). destruct i; cbn [set_nth all2]; eauto 10.
Qed.
Lemma all2_repeat n : all2 cell (repeat VNil n) (repeat None n).
Proof. induction n; cbn [repeat all2]; [reflexivity|]. eexists _, _. split; [reflexivity|]. split; [reflexivity|exact IHn]. Qed.
Lemma all2_firstn {X Y} (R : X -> Y -> Prop) : forall n ys xs, all2 R xs ys -> all2 R (firstn n xs) (firstn n ys).
Proof.
  induction n as [|n IH]; intros ys xs H; [reflexivity|]. destruct ys as [|y ys]; cbn [all2] in H; [subst; reflexivity|].
  destruct H as (x & xs' & -> & H1 & H2). cbn [firstn all2]. eauto 10.
Qed.
Lemma grow_one c n : n = c -> 0 < c -> grow c (n + 1) = go_grow c.
Proof.
  intros -> H. unfold grow, go_grow. replace (2 * c <? c + 1) with false by (symmetry; apply Nat.ltb_ge; lia).
  replace (c =? 0) with false by (symmetry; apply Nat.eqb_neq; lia).
  destruct (c <? 256) eqn:E; [lia|]. apply Nat.ltb_ge in E. apply Nat.max_r. pose proof (Nat.div_le_mono 4 (c + 768) 4 ltac:(lia) ltac:(lia)).
  change (4 / 4) with 1 in H0. lia.
Qed.

Lemma nodup_snoc {X} (l : list X) x : NoDup l -> ~ In x l -> NoDup (l ++ [x]).
Proof.
  intros H N. induction H as [|y l Hy Hl IH]; cbn [app]; [constructor; [auto|constructor]|].
  constructor; [|apply IH; intro J; apply N; right; exact J].
  intro J. apply in_app_or in J. destruct J as [J|[->|[]]]; [auto|]. apply N. left. reflexivity.
Qed.

(** append(conditions, cn.fn) (element.go 254). *)
Lemma simb_append_cond {A' B} cv s fv f h cl m (k : list gv -> prog A') (mm : io U B) Q :
  mem_rep h cl m -> cs_rep m cl cv s -> cond_fun M fv f ->
  (forall h' cv' x m' s', append1 m s f = (m', s') -> mem_rep h' (cl ++ x) m' -> cs_rep m' (cl ++ x) cv' s' -> mem_le m m' ->
     0 < s_len s' -> frame cl h h' -> (forall l, In l x -> length h <= l) -> sim (k [cv']) h' mm Q) ->
  sim (pbind (external C "append" [cv; fv] false) k) h mm Q.
Proof.
  intros I R Hf K. unfold external. lazy [String.eqb Ascii.eqb Bool.eqb]. unfold append_builtin. apply sim_assoc.
  assert (New : forall xs cs, all2 cell xs cs ->
    mem_rep (h ++ [OArr xs]) (cl ++ [length h]) (m ++ [cs])).
  { intros xs cs Hx. constructor.
    - rewrite !app_length, (mr_len _ _ _ I). reflexivity.
    - apply nodup_snoc; [apply I|]. intro J. apply In_nth_error in J. destruct J as [i J].
      destruct (nth_error m i) as [cs'|] eqn:E; [|apply nth_error_None in E; rewrite <- (mr_len _ _ _ I) in E; apply nth_lt in J; lia].
      destruct (mr_arr _ _ _ I i _ _ J E) as (ys & Y & _). apply nth_lt in Y. lia.
    - intros i l cs' Hl Hc. destruct (Nat.lt_ge_cases i (length cl)) as [L|L].
      + rewrite nth_error_app1 in Hl by exact L. rewrite (mr_len _ _ _ I) in L. rewrite nth_error_app1 in Hc by exact L.
        destruct (mr_arr _ _ _ I i l cs' Hl Hc) as (ys & Y1 & Y2). exists ys. split; [apply nth_app_old, Y1|exact Y2].
      + rewrite nth_error_app2 in Hl by exact L. rewrite (mr_len _ _ _ I) in L. rewrite nth_error_app2 in Hc by exact L.
        rewrite (mr_len _ _ _ I) in Hl. destruct (i - length m) as [|j]; [|destruct j; discriminate]. cbn [nth_error] in Hl, Hc.
        injection Hl as <-. injection Hc as <-. exists xs. split; [apply nth_app_new|exact Hx]. }
  assert (Le : forall cs, mem_le m (m ++ [cs])).
  { intros cs a cs' Ha. exists cs'. split; [apply nth_app_old, Ha|]. split; [reflexivity|]. eauto. }
  destruct R as [[-> ->]|(l & cs & -> & H1 & H2 & H3 & H4 & H5 & H6)].
  - cbn [append_slice]. unfold new_slice. apply sim_assoc. apply simb_alloc. cbn [pbind length].
    eapply (K _ _ [length h]); [reflexivity|apply (New [fv] [Some f]); cbn [all2]; exists fv, []; auto| | |auto|split; [rewrite app_length; lia|intros; apply nth_app_old; auto]|intros l [<-|[]]; lia].
    + right. cbn [s_len s_arr s_cap go_grow nil_slice Nat.eqb]. exists (length h), [Some f]. split; [reflexivity|].
      split; [rewrite <- (mr_len _ _ _ I); apply nth_app_new|]. split; [apply nth_app_new|]. split; [reflexivity|]. split; [auto|]. split; [auto|].
      intros i Hi. replace i with 0 by lia. exists f. reflexivity.
    + apply Le.
  - destruct (mr_arr _ _ _ I _ _ _ H1 H2) as (xs & X1 & X2). pose proof (all2_length _ _ _ X2) as XL. cbn [append_slice].
    apply sim_assoc. eapply simb_load; [exact X1|]. cbn beta iota zeta. cbn [length].
    unfold append1 in K. destruct (s_len s <? s_cap s) eqn:LT.
    + apply Nat.ltb_lt in LT. rewrite (proj2 (Nat.leb_le _ _)) by lia. apply sim_assoc. apply simb_update; [apply Nat.le_0_l|]. cbn [write_cells pbind].
      assert (CN : nth (s_arr s) m [] = cs) by (apply nth_error_nth with (1 := H2)).
      rewrite CN in K. pose proof (nth_lt _ _ _ H1) as LC. pose proof (nth_lt _ _ _ H2) as LM.
      eapply (K _ _ [] _ _ eq_refl); [| | | |split; [rewrite length_set_nth; auto|]|intros ? []].
      * rewrite app_nil_r. constructor.
        -- rewrite length_set_nth. apply I.
        -- apply I.
        -- intros i l' cs' Hl Hc. destruct (Nat.eq_dec (s_arr s) i) as [<-|N].
           ++ rewrite nth_set_same in Hc by exact LM. injection Hc as <-. rewrite H1 in Hl. injection Hl as <-.
              exists (set_nth xs (s_len s) fv). split; [apply nth_set_same; eapply nth_lt; eauto|]. apply all2_set; [exact X2|exact Hf].
           ++ rewrite nth_set_other in Hc by exact N. destruct (mr_arr _ _ _ I i l' cs' Hl Hc) as (ys & Y1 & Y2). exists ys.
              split; [rewrite nth_set_other; [exact Y1|]|exact Y2]. intros ->. apply N.
              apply (proj1 (NoDup_nth_error cl) (mr_nodup _ _ _ I)); [exact LC|congruence].
      * rewrite app_nil_r. right. cbn [s_len s_arr s_cap]. exists l, (set_nth cs (s_len s) (Some f)). rewrite Nat.add_1_r. split; [reflexivity|].
        split; [exact H1|]. split; [apply nth_set_same, LM|]. split; [rewrite length_set_nth; exact H3|]. split; [lia|]. split; [lia|].
        intros i Hi. destruct (Nat.eq_dec (s_len s) i) as [<-|N]; [exists f; apply nth_set_same; lia|]. rewrite nth_set_other by exact N. apply H6. lia.
      * intros a cs' Ha. destruct (Nat.eq_dec (s_arr s) a) as [<-|N].
        -- rewrite H2 in Ha. injection Ha as <-. eexists. split; [apply nth_set_same, LM|]. split; [apply length_set_nth|].
           intros i g Hg. destruct (Nat.eq_dec (s_len s) i) as [<-|N]; [exists f; apply nth_set_same; eapply nth_lt; eauto|]. rewrite nth_set_other by exact N. eauto.
        -- exists cs'. split; [rewrite nth_set_other; auto|]. split; [reflexivity|]. eauto.
      * cbn [s_len]. lia.
      * intros l' o N Ho. rewrite nth_set_other; [exact Ho|]. intros ->. apply N. eapply nth_error_In; eauto.
    + apply Nat.ltb_ge in LT. assert (SL : s_len s = s_cap s) by lia. rewrite (proj2 (Nat.leb_gt _ _)) by lia. apply sim_assoc. apply simb_alloc. cbn [pbind].
      assert (CN : nth (s_arr s) m [] = cs) by (apply nth_error_nth with (1 := H2)).
      rewrite CN in K. rewrite XL, H3, grow_one by lia.
      assert (GG : s_cap s + 1 <= go_grow (s_cap s)).
      { rewrite <- (grow_one _ (s_len s) SL) by lia. unfold grow. destruct (_ <? _); [lia|]. rewrite SL. apply Nat.le_max_l. }
      assert (FL : length (firstn (s_len s) cs) = s_len s) by (apply firstn_length_le; lia).
      eapply (K _ _ [length h] _ _ eq_refl).
      * apply New. apply all2_app; [apply all2_firstn, X2|]. cbn [app]. eexists _, _. split; [reflexivity|]. split; [exact Hf|].
        replace (go_grow (s_cap s) - S (s_len s)) with (go_grow (s_cap s) - (s_len s + 1)) by lia. apply all2_repeat.
      * right. cbn [s_len s_arr s_cap]. exists (length h). eexists. rewrite Nat.add_1_r. split; [reflexivity|].
        split; [rewrite <- (mr_len _ _ _ I); apply nth_app_new|]. split; [apply nth_app_new|].
        split; [rewrite app_length; cbn [length]; rewrite repeat_length, FL; lia|]. split; [lia|]. split; [lia|].
        intros i Hi. destruct (Nat.eq_dec i (s_len s)) as [->|N].
        -- exists f. rewrite nth_error_app2 by lia. rewrite FL, Nat.sub_diag. reflexivity.
        -- rewrite nth_error_app1 by lia. rewrite nth_firstn by lia. apply H6. lia.
      * apply Le.
      * cbn [s_len]. lia.
      * split; [rewrite app_length; lia|intros; apply nth_app_old; auto].
      * intros l' [<-|[]]. lia.
Qed.

Lemma mem_lt h cl m l : mem_rep h cl m -> In l cl -> l < length h.
Proof.
  intros I J. apply In_nth_error in J. destruct J as [i J].
  destruct (nth_error m i) as [cs|] eqn:E; [|apply nth_error_None in E; rewrite <- (mr_len _ _ _ I) in E; apply nth_lt in J; lia].
  destruct (mr_arr _ _ _ I i _ _ J E) as (ys & Y & _). eapply nth_lt; eauto.
Qed.
Lemma mem_kept h h' cl m : mem_rep h cl m -> (forall l o, In l cl -> nth_error h l = Some o -> nth_error h' l = Some o) -> mem_rep h' cl m.
Proof.
  intros I K. constructor; try apply I. intros i l cs Hl Hc. destruct (mr_arr _ _ _ I i l cs Hl Hc) as (xs & X1 & X2).
  exists xs. split; [apply K; [eapply nth_error_In; eauto|exact X1]|exact X2].
Qed.
(** The conditions of a slice. *)
Lemma cs_slice h cl m v s : mem_rep h cl m -> cs_rep m cl v s ->
  exists xs, slice_is h v xs /\ length xs = s_len s /\ all2 (cond_fun M) xs (slice_elems m s).
Proof.
  intros I [[-> ->]|(l & cs & -> & H1 & H2 & H3 & H4 & H5 & H6)].
  - exists []. split; [reflexivity|]. split; [reflexivity|]. unfold slice_elems. cbn [nil_slice s_len firstn somes flat_map]. reflexivity.
  - destruct (mr_arr _ _ _ I _ _ _ H1 H2) as (xs & X1 & X2). pose proof (all2_length _ _ _ X2) as XL.
    exists (firstn (s_len s) xs). split; [exists xs; split; [exact X1|]; split; [lia|reflexivity]|].
    split; [apply firstn_length_le; lia|]. unfold slice_elems. rewrite (nth_error_nth _ _ _ H2).
    assert (L : s_len s <= length cs) by lia. clear - X2 H6 L. revert xs cs X2 H6 L. induction (s_len s) as [|n IH]; intros xs cs X2 H6 L; [reflexivity|].
    destruct cs as [|c cs]; [cbn [length] in L; lia|]. cbn [all2] in X2. destruct X2 as (x & xs' & -> & Hx & Hr).
    destruct (H6 0 ltac:(lia)) as [f Hf]. cbn [nth_error] in Hf. injection Hf as ->. cbn [firstn somes flat_map app all2].
    exists x, (firstn n xs'). split; [reflexivity|]. split; [exact Hx|]. apply IH; [exact Hr| |cbn [length] in L; lia].
    intros i Hi. destruct (H6 (S i) ltac:(lia)) as [g Hg]. exists g. exact Hg.
Qed.

(** ** attributesAndContents (element.go 231-268) *)

Section Collect.
Variable ls : list loc.
Variable h0 : heap.
Variable sh : Sharing.heap.
Hypothesis HI : sinv M ls h0 sh.

Definition off (cl : list loc) (v : gv) : Prop := match v with VSlice l _ => ~ In l cl | _ => True end.
Definition held {Y} (b : nat) (h : heap) (cl : list loc) (v : gv) (R : gv -> Y -> Prop) (L : list Y) : Prop :=
  exists ws, slice_is h v ws /\ own b v /\ off cl v /\ all2 R ws L.
Definition crep (m : cmem) (cl : list loc) (v : gv) (c : nat * slice) : Prop :=
  exists av sv, v = VStruct "conditionalAttribute" [("attribute"%string, av); ("conditions"%string, sv)] /\
    aptr ls av (fst c) /\ cs_rep m cl sv (snd c).
Lemma crep_more m m' cl x v c : crep m cl v c -> mem_le m m' -> crep m' (cl ++ x) v c.
Proof. intros (av & sv & -> & H1 & H2) K. exists av, sv. split; [reflexivity|]. split; [exact H1|]. eapply cs_more; eauto. Qed.

(** Appending to one slice leaves the others alone. *)
Lemma held_other {Y} b h cl v (R : gv -> Y -> Prop) L w w' h' :
  held b h cl v R L -> apart w v -> appended w h w' h' -> held b h' cl v R L /\ apart w' v.
Proof.
  intros (ws & H1 & H2 & H3 & H4) A (_ & K & N & _). split.
  - exists ws. split; [|auto]. eapply slice_same; [exact H1|]. intros l o (n & ->) Ho. apply K; [|exact Ho]. destruct w; cbn [not_at apart] in *; auto.
  - destruct w'; cbn [apart]; auto. destruct v; auto. destruct (N _ _ eq_refl) as [(n' & ->)|Hl]; [exact A|]. apply slice_lt in H1. lia.
Qed.
Lemma held_frame {Y} b h cl x v (R R' : gv -> Y -> Prop) L h' :
  held b h cl v R L -> frame cl h h' -> (forall l, In l x -> length h <= l) -> (forall v y, R v y -> R' v y) -> held b h' (cl ++ x) v R' L.
Proof.
  intros (ws & H1 & H2 & H3 & H4) [_ K] Hx HR. exists ws. split; [|split; [exact H2|split; [|eapply all2_mono; [|exact H4]; intros ? ?; apply HR]]].
  - eapply slice_same; [exact H1|]. intros l o (n & ->) Ho. apply K; auto.
  - destruct v; cbn [off] in *; auto. intro I. apply in_app_or in I. destruct I as [I|I]; [auto|]. apply Hx in I. apply slice_lt in H1. lia.
Qed.
Lemma frame_appended b cl h w h' w' : own b w -> off cl w -> b <= length h -> appended w h w' h' ->
  (forall l o, In l cl -> nth_error h l = Some o -> nth_error h' l = Some o) /\ same_below b h h'.
Proof.
  intros H1 H2 H3 A. split; [|eapply appended_same; eauto]. destruct A as (_ & K & _).
  intros l o I Ho. apply K; [|exact Ho]. destruct w; cbn [off not_at] in *; auto. intros ->. contradiction.
Qed.
Lemma held_append {Y} b h cl m v (R : gv -> Y -> Prop) L ws h' v' xs ys : mem_rep h cl m -> all2 R ws L -> off cl v ->
  appended v h v' h' -> own b v' -> slice_is h' v' (ws ++ xs) -> all2 R xs ys -> held b h' cl v' R (L ++ ys).
Proof.
  intros I H1 H2 (_ & _ & N & _) H3 H4 H5. exists (ws ++ xs). split; [exact H4|]. split; [exact H3|].
  split; [|apply all2_app; assumption]. destruct v'; cbn [off]; auto. destruct (N _ _ eq_refl) as [(n' & ->)|Hl]; [exact H2|].
  intro J. pose proof (mem_lt _ _ _ _ I J). lia.
Qed.

(** The state of the loop: [he] and [cle] at the beginning of the function. *)
Definition going (he : heap) (cle : list loc) (h : heap) (cl : list loc) (m : cmem) (av kv ov : gv)
  (As : list nat) (Ks : list (nat * slice)) (Os : list snode) : Prop :=
  (exists x, cl = cle ++ x /\ forall l, In l x -> length he <= l) /\ frame cle he h /\ mem_rep h cl m /\
  held (length he) h cl av (aptr ls) As /\ held (length he) h cl kv (crep m cl) Ks /\ held (length he) h cl ov (srep M ls h0) Os /\
  apart av kv /\ apart av ov /\ apart kv ov.
Definition entry (he : heap) (cle : list loc) (m : cmem) : Prop :=
  grown h0 he /\ mem_rep he cle m /\ forall l, In l cle -> length h0 <= l.
Lemma frame_grown he cle m h : entry he cle m -> frame cle he h -> grown h0 h.
Proof.
  intros (G & I & N) [L K]. eapply grown_same; [exact G|]. split; [exact L|]. intros l o Hl Ho. apply K; [|exact Ho]. intro J. apply N in J. lia.
Qed.
Lemma going_entry he cle m1 h cl m av kv ov As Ks Os : entry he cle m1 -> going he cle h cl m av kv ov As Ks Os -> entry h cl m.
Proof.
  intros E ((x & -> & Hx) & F & I & _). pose proof E as (G & _ & N). split; [eapply frame_grown; eauto|]. split; [exact I|].
  intros l J. apply in_app_or in J. destruct J as [J|J]; [auto|]. apply Hx in J. apply grown_length in G. lia.
Qed.
Lemma frame_same cle he h h' : frame cle he h -> same_below (length he) h h' -> frame cle he h'.
Proof. intros [L1 K1] [L2 K2]. split; [lia|]. intros l o N Ho. apply K2; [eapply nth_lt; eauto|auto]. Qed.

Lemma going_attr he cle h cl m av kv ov As Ks Os av' h' ws xs ys :
  going he cle h cl m av kv ov As Ks Os -> slice_is h av ws -> own (length he) av' -> appended av h av' h' -> slice_is h' av' (ws ++ xs) ->
  all2 (aptr ls) xs ys -> going he cle h' cl m av' kv ov (As ++ ys) Ks Os.
Proof.
  intros (X & F & I & (ws' & A1 & A2 & A3 & A4) & HK & HO & P1 & P2 & P3) Hw Ho Ha Hs Hx. pose proof (slice_unique _ _ _ _ Hw A1) as <-.
  destruct (frame_appended _ cl h av h' av' A2 A3 (proj1 F) Ha) as [M1 M2].
  destruct (held_other _ _ _ _ _ _ _ _ _ HK P1 Ha) as [HK' P1']. destruct (held_other _ _ _ _ _ _ _ _ _ HO P2 Ha) as [HO' P2'].
  split; [exact X|]. split; [eapply frame_same; eauto|]. split; [eapply mem_kept; eauto|]. split; [eapply held_append; eauto|]. auto 10.
Qed.
Lemma going_cond he cle h cl m av kv ov As Ks Os kv' h' ws xs ys :
  going he cle h cl m av kv ov As Ks Os -> slice_is h kv ws -> own (length he) kv' -> appended kv h kv' h' -> slice_is h' kv' (ws ++ xs) ->
  all2 (crep m cl) xs ys -> going he cle h' cl m av kv' ov As (Ks ++ ys) Os.
Proof.
  intros (X & F & I & HA & (ws' & A1 & A2 & A3 & A4) & HO & P1 & P2 & P3) Hw Ho Ha Hs Hx. pose proof (slice_unique _ _ _ _ Hw A1) as <-.
  destruct (frame_appended _ cl h kv h' kv' A2 A3 (proj1 F) Ha) as [M1 M2].
  destruct (held_other _ _ _ _ _ _ _ _ _ HA (apart_sym _ _ P1) Ha) as [HA' P1']. destruct (held_other _ _ _ _ _ _ _ _ _ HO P3 Ha) as [HO' P3'].
  split; [exact X|]. split; [eapply frame_same; eauto|]. split; [eapply mem_kept; eauto|]. split; [exact HA'|]. split; [eapply held_append; eauto|].
  split; [exact HO'|]. split; [apply apart_sym, P1'|]. auto.
Qed.
Lemma going_other he cle h cl m av kv ov As Ks Os ov' h' ws xs ys :
  going he cle h cl m av kv ov As Ks Os -> slice_is h ov ws -> own (length he) ov' -> appended ov h ov' h' -> slice_is h' ov' (ws ++ xs) ->
  all2 (srep M ls h0) xs ys -> going he cle h' cl m av kv ov' As Ks (Os ++ ys).
Proof.
  intros (X & F & I & HA & HK & (ws' & A1 & A2 & A3 & A4) & P1 & P2 & P3) Hw Ho Ha Hs Hx. pose proof (slice_unique _ _ _ _ Hw A1) as <-.
  destruct (frame_appended _ cl h ov h' ov' A2 A3 (proj1 F) Ha) as [M1 M2].
  destruct (held_other _ _ _ _ _ _ _ _ _ HA (apart_sym _ _ P2) Ha) as [HA' P2']. destruct (held_other _ _ _ _ _ _ _ _ _ HK (apart_sym _ _ P3) Ha) as [HK' P3'].
  split; [exact X|]. split; [eapply frame_same; eauto|]. split; [eapply mem_kept; eauto|]. split; [exact HA'|]. split; [exact HK'|]. split; [eapply held_append; eauto|].
  split; [exact P1|]. split; apply apart_sym; assumption.
Qed.
(** More conditions. *)
Lemma going_frame he cle h cl m av kv ov As Ks Os h' x m' :
  going he cle h cl m av kv ov As Ks Os -> frame cl h h' -> mem_rep h' (cl ++ x) m' -> mem_le m m' -> (forall l, In l x -> length h <= l) ->
  going he cle h' (cl ++ x) m' av kv ov As Ks Os.
Proof.
  intros ((y & -> & Hy) & F & I & HA & HK & HO & P1 & P2 & P3) F' I' Le Hx.
  split. { exists (y ++ x). rewrite app_assoc. split; [reflexivity|]. intros l J. apply in_app_or in J. destruct J as [J|J]; [auto|]. apply Hx in J. destruct F. lia. }
  split; [eapply frame_trans; eauto|]. split; [exact I'|]. split; [eapply held_frame; eauto|]. split; [eapply held_frame; eauto; intros; eapply crep_more; eauto|].
  split; [eapply held_frame; eauto|]. auto.
Qed.

(** What the struct of a node is called. *)
Definition stag (n : snode) : string :=
  match n with
  | SAttr _ => "attribute"
  | SLeaf (LText _) => "text" | SLeaf (LComment _) => "comment" | SLeaf (LFragment _) => "fragment" | SLeaf (LPI _ _) => "pi"
  | SLeaf (LImper _) => "imperative" | SLeaf (LCollect _) => "contentCollector"
  | SCollection _ => "collection" | SConditional _ _ _ => "conditional"
  | SElement _ _ _ _ _ => "element" | SVoid _ _ _ _ => "voidElement" | SIter _ _ => "iterator" | SYield _ _ => "yieldIterator" | SDocument _ _ => "document"
  end.
Lemma srep_tag h n v : is_sattr n = false -> srep M ls h v n -> exists l fs, v = VPtr l /\ nth_error h l = Some (OStruct (stag n) fs).
Proof.
  destruct n as [|[]| | | | | | |]; cbn [srep is_sattr stag read_leaf node_rep]; try discriminate; intros _ H; split_all; subst; do 2 eexists; (split; [reflexivity|eassumption]).
Qed.

Definition ac_body : stmt :=
  (SBlock [(SIf None (EBin ONe (ELoc "item") ENil)
     (SBlock [(SIf None (EBin OEq (EMethod (ELoc "item") "Type" [] false) (EInt 1))
     (SBlock [(SIf None (EBin OGt (ECall (EExt "len") [(ELoc "conditions")] false) (EInt 0))
     (SBlock [(SAssign [(LLoc "condAttrs")] [(ECall (EExt "append") [(ELoc "condAttrs"); (ELit false "conditionalAttribute" [("attribute", (ELoc "item")); ("conditions", (ELoc "conditions"))])] false)])])
     (SBlock [(SAssign [(LLoc "attrs")] [(ECall (EExt "append") [(ELoc "attrs"); (ELoc "item")] false)])]))])
     (SBlock [(SAssign [(LLoc "contents")] [(ECall (EExt "append") [(ELoc "contents"); (ELoc "item")] false)]);
     (STypeSwitch "cn" (ELoc "item") [("*collection", (SBlock [(SDefine ["addA"; "addCa"; "_"] [(ECall (EFun "aitch.attributesAndContents") [(ELoc "conditions"); (EField (ELoc "cn") "nodes")] false)]);
     (SAssign [(LLoc "attrs")] [(ECall (EExt "append") [(ELoc "attrs"); (ELoc "addA")] true)]);
     (SAssign [(LLoc "condAttrs")] [(ECall (EExt "append") [(ELoc "condAttrs"); (ELoc "addCa")] true)])]));
     ("*conditional", (SBlock [(SDefine ["newConditions"] [(ECall (EExt "append") [(ELoc "conditions"); (EField (ELoc "cn") "fn")] false)]);
     (SRange "_" "a" (EField (ELoc "cn") "attributes")
     (SBlock [(SAssign [(LLoc "condAttrs")] [(ECall (EExt "append") [(ELoc "condAttrs"); (ELit false "conditionalAttribute" [("attribute", (ELoc "a")); ("conditions", (ELoc "newConditions"))])] false)])]));
     (SDefine ["_"; "addCa"; "_"] [(ECall (EFun "aitch.attributesAndContents") [(ELoc "newConditions"); (EField (ELoc "cn") "nodes")] false)]);
     (SAssign [(LLoc "condAttrs")] [(ECall (EExt "append") [(ELoc "condAttrs"); (ELoc "addCa")] true)])]))]
     SSkip)]))])
     SSkip)])%string.
Definition ac_env (av kv ov cv sv : gv) : venv :=
  [("attrs"%string, av); ("condAttrs"%string, kv); ("contents"%string, ov); ("content"%string, sv); ("conditions"%string, cv)].
Definition item_ok (n : snode) : Prop := forall he cle me h cl m av kv ov As Ks Os cv s sv x,
  entry he cle me -> going he cle h cl m av kv ov As Ks Os -> cs_rep m cl cv s -> srep M ls h0 x n ->
  sim (exec C ac_body (("item"%string, x) :: ac_env av kv ov cv sv)) h (Ret tt)
    (fun r h' _ => exists av' kv' ov' y m' a1 c1, r = (FNext, ("item"%string, x) :: ac_env av' kv' ov' cv sv) /\
       scollect s n m = (a1, c1, m') /\ mem_le m m' /\ going he cle h' (cl ++ y) m' av' kv' ov' (As ++ a1) (Ks ++ c1) (Os ++ others_of [n])).
Definition collects (ns : list snode) : Prop := forall he cle m cv s sv xs,
  entry he cle m -> cs_rep m cle cv s -> slice_is h0 sv xs -> all2 (srep M ls h0) xs ns ->
  sim (PCall (CFun "aitch.attributesAndContents") [cv; sv] false PRet) he (Ret tt)
    (fun vs h' _ => exists av kv ov y m' As Ks, vs = [av; kv; ov] /\ scollect_all s ns m = (As, Ks, m') /\ mem_le m m' /\
       going he cle h' (cle ++ y) m' av kv ov As Ks (others_of ns)).
Lemma others_cons n ns : others_of (n :: ns) = others_of [n] ++ others_of ns.
Proof. unfold others_of. cbn [filter]. destruct (negb (is_sattr n)); reflexivity. Qed.
Lemma ac_loop he cle me cv s sv : entry he cle me ->
  forall ns, Forall item_ok ns -> forall h cl m av kv ov As Ks Os pre xs,
  going he cle h cl m av kv ov As Ks Os -> cs_rep m cl cv s -> slice_is h0 sv (pre ++ xs) -> all2 (srep M ls h0) xs ns ->
  sim (range_with (exec C ac_body) "_" "item" (slice_items sv (length pre) (length xs)) (ac_env av kv ov cv sv)) h (Ret tt)
    (fun r h' _ => exists av' kv' ov' y m' a1 c1, r = (FNext, ac_env av' kv' ov' cv sv) /\
       scollect_all s ns m = (a1, c1, m') /\ mem_le m m' /\ going he cle h' (cl ++ y) m' av' kv' ov' (As ++ a1) (Ks ++ c1) (Os ++ others_of ns)).
Proof.
  intros E ns F. induction F as [|n ns Hn Hns IH]; intros h cl m av kv ov As Ks Os pre xs HG Hc Hs Hx; cbn [all2] in Hx.
  - subst xs. apply sim_ret. exists av, kv, ov, [], m, [], []. unfold others_of. cbn [filter]. rewrite !app_nil_r.
    split; [reflexivity|]. split; [reflexivity|]. split; [apply mem_le_refl|exact HG].
  - destruct Hx as (x & xs' & -> & Hx & Hxs). cbn [length].
    assert (G : grown h0 h) by (pose proof (going_entry _ _ _ _ _ _ _ _ _ _ _ _ E HG) as (G & _); exact G).
    eapply sim_range_cons; [eapply slice_grown; [exact G|exact Hs]|]. cbn [String.eqb Ascii.eqb Bool.eqb].
    change (Ret tt) with (bind (@Ret U unit tt) (fun _ => Ret tt)). eapply sim_bind; [eapply (Hn he cle me h cl m); eauto|].
    intros r h1 _ (av1 & kv1 & ov1 & y1 & m1 & a1 & c1 & -> & E1 & Le1 & HG1). unfold ac_env. cbn beta iota. cbn [leave length Nat.sub skipn].
    replace (pre ++ x :: xs') with ((pre ++ [x]) ++ xs') in Hs by (rewrite <- app_assoc; reflexivity).
    eapply sim_conseq; [eapply (IH h1 (cl ++ y1) m1 av1 kv1 ov1 _ _ _ (pre ++ [x]) xs' HG1); [eapply cs_more; eauto|exact Hs|exact Hxs]|].
    intros r h2 _ (av2 & kv2 & ov2 & y2 & m2 & a2 & c2 & -> & E2 & Le2 & HG2).
    exists av2, kv2, ov2, (y1 ++ y2), m2, (a1 ++ a2), (c1 ++ c2). split; [reflexivity|]. cbn [scollect_all]. rewrite E1, E2.
    split; [reflexivity|]. split; [eapply mem_le_trans; eauto|]. rewrite (others_cons n ns), !app_assoc. exact HG2.
Qed.
Lemma ac_call ns : Forall item_ok ns -> collects ns.
Proof.
  intros F he cle m cv s sv xs E Hc Hs Hx. pose proof E as (G & I & N). enter. steps.
  pose proof (slice_grown _ _ _ _ G Hs) as Hs0. steps.
  eapply (simb_make_new M); [reflexivity|]. intros s1 h1 S1 O1 _ G1. steps. pose proof (slice_grown _ _ _ _ G1 Hs0) as Hs1. steps.
  eapply (simb_make_new M); [reflexivity|]. intros s2 h2 S2 O2 _ G2. steps. pose proof (slice_grown _ _ _ _ G2 Hs1) as Hs2. steps.
  eapply (simb_make_new M); [reflexivity|]. intros s3 h3 S3 O3 _ G3. steps. pose proof (slice_grown _ _ _ _ G3 Hs2) as Hs3. steps.
  change (Ret tt) with (bind (@Ret U unit tt) (fun _ => Ret tt)). eapply sim_bind;
    [apply (ac_loop he cle m cv s sv E ns F h3 cle m s1 s2 s3 [] [] [] [] xs); [|exact Hc|exact Hs|exact Hx]|].
  - pose proof (slice_grown _ _ _ _ (grown_trans _ _ _ G2 G3) S1) as S1'. pose proof (slice_grown _ _ _ _ G3 S2) as S2'.
    pose proof (grown_length _ _ G1) as L1. pose proof (grown_length _ _ G2) as L2.
    assert (FF : frame cle he h3).
    { pose proof (grown_trans _ _ _ G1 (grown_trans _ _ _ G2 G3)) as G4. split; [apply grown_length, G4|]. intros l o _ Ho. eapply grown_nth; eauto. }
    assert (OF : forall b v, own b v -> length he <= b -> own (length he) v /\ off cle v).
    { intros b v Ho Hb. destruct v; cbn [own off] in *; auto. split; [lia|]. intro J. pose proof (mem_lt _ _ _ _ I J). lia. }
    assert (AP : forall v w vs h b, slice_is h v vs -> own b w -> length h <= b -> apart v w).
    { intros v w vs h b Hv Hw Hb. destruct v, w; cbn [apart own] in *; auto. apply slice_lt in Hv. lia. }
    split; [exists []; rewrite app_nil_r; split; [reflexivity|intros ? []]|]. split; [exact FF|].
    split; [eapply mem_kept; [exact I|]; intros l o _ Ho; eapply grown_nth; [exact (grown_trans _ _ _ G1 (grown_trans _ _ _ G2 G3))|exact Ho]|].
    destruct (OF _ _ O1 (le_n _)) as [Q1 Q2]. destruct (OF _ _ O2 L1) as [Q3 Q4]. destruct (OF _ _ O3 (Nat.le_trans _ _ _ L1 L2)) as [Q5 Q6].
    split; [exists []; cbn [all2]; auto|]. split; [exists []; cbn [all2]; auto|]. split; [exists []; cbn [all2]; auto|].
    split; [eapply AP; [exact S1|exact O2|lia]|]. split; [eapply AP; [exact S1|exact O3|lia]|eapply AP; [exact S2|exact O3|lia]].
  - intros r h4 _ (av & kv & ov & y & m' & a1 & c1 & -> & E1 & Le & HG). unfold ac_env. steps. apply sim_ret.
    exists av, kv, ov, y, m', a1, c1. auto.
Qed.

Ltac app_to Hv Ov b := (eapply (simb_append M); [exact Hv|exact Ov|exact b|]); intros ? ? ? ? ? _.
Ltac app_spread Hv Ov b Hw := (eapply (simb_append_spread M); [exact Hv|exact Ov|exact b|exact Hw|]); intros.
Lemma item_attr i : item_ok (SAttr i).
Proof.
  intros he cle me h cl m av kv ov As Ks Os cv s sv x E HG Hc Hx. cbn [srep] in Hx.
  pose proof (going_entry _ _ _ _ _ _ _ _ _ _ _ _ E HG) as (G & I & _). pose proof HG as (_ & F & _ & (ws & A1 & A2 & _) & (ks & B1 & B2 & _) & _).
  apply sim_eta. unfold ac_body, ac_env. steps. eapply simb_eq; [rewrite (equal_nil _ (aptr_not_nil _ _ _ Hx)); reflexivity|]. steps.
  eapply simb_type; [apply (srep_read M ls h sh (sinv_grown M ls h0 h sh HI G) (SAttr i)); exact Hx|]. intros z Hz. cbn [read is_attr] in Hz. steps. rewrite Hz. steps.
  destruct (cs_slice _ _ _ _ _ I Hc) as (cs & C1 & C2 & _). steps. rewrite C2, pos_of_nat. cbn [scollect]. destruct (0 <? s_len s) eqn:L; steps.
  - app_to B1 B2 (proj1 F). steps. leaves. steps. apply sim_ret. exists av. do 2 eexists. exists [], m, [], [(i, s)]. split; [reflexivity|]. split; [reflexivity|].
    split; [apply mem_le_refl|]. unfold others_of. cbn [filter is_sattr negb]. rewrite !app_nil_r.
    eapply going_cond; [exact HG|exact B1|eassumption|eassumption|eassumption|]. cbn [all2]. eexists _, _. split; [reflexivity|]. split; [|reflexivity].
    exists x, cv. auto.
  - app_to A1 A2 (proj1 F). steps. leaves. steps. apply sim_ret. do 3 eexists. exists [], m, [i], []. split; [reflexivity|]. split; [reflexivity|].
    split; [apply mem_le_refl|]. unfold others_of. cbn [filter is_sattr negb]. rewrite !app_nil_r.
    eapply going_attr; [exact HG|exact A1|eassumption|eassumption|eassumption|]. cbn [all2]. eauto.
Qed.

(** What is done to a node that is not an attribute, up to the type switch. *)
Lemma going_slices he cle h cl m av kv ov As Ks Os : going he cle h cl m av kv ov As Ks Os ->
  exists ws ks os, slice_is h av ws /\ own (length he) av /\ slice_is h kv ks /\ own (length he) kv /\ slice_is h ov os /\ own (length he) ov /\ length he <= length h.
Proof. intros (_ & F & _ & (ws & A1 & A2 & _) & (ks & B1 & B2 & _) & (os & D1 & D2 & _) & _). exists ws, ks, os. destruct F. auto 10. Qed.
Lemma item_plain n : is_sattr n = false ->
  String.eqb "*collection" (String "*" (stag n)) = false -> String.eqb "*conditional" (String "*" (stag n)) = false ->
  (forall s m, scollect s n m = ([], [], m)) -> item_ok n.
Proof.
  intros NA T1 T2 ES he cle me h cl m av kv ov As Ks Os cv s sv x E HG Hc Hx.
  pose proof (going_entry _ _ _ _ _ _ _ _ _ _ _ _ E HG) as (G & I & _). destruct (going_slices _ _ _ _ _ _ _ _ _ _ _ HG) as (ws & ks & os & A1 & A2 & B1 & B2 & D1 & D2 & L).
  apply sim_eta. unfold ac_body, ac_env. steps. eapply simb_eq; [rewrite (equal_nil _ (srep_not_nil _ _ _ _ _ Hx)); reflexivity|]. steps.
  eapply simb_type; [apply (srep_read M ls h sh (sinv_grown M ls h0 h sh HI G) n); eapply srep_grown; [exact G|exact Hx]|]. intros z Hz.
  assert (NR : is_attr (read sh n) = false) by (destruct n as [|[]| | | | | | |]; try discriminate NA; reflexivity). rewrite NR in Hz. steps. rewrite Hz. steps.
  app_to D1 D2 L. steps.
  assert (HG' : going he cle h' cl m av kv s' As Ks (Os ++ [n])).
  { eapply going_other; [exact HG|exact D1|eassumption|eassumption|eassumption|]. cbn [all2]. eauto. }
  pose proof (going_entry _ _ _ _ _ _ _ _ _ _ _ _ E HG') as (G' & _).
  destruct (srep_tag _ _ _ NA (srep_grown M _ _ _ _ _ G' Hx)) as (l & fs & -> & Hl).
  eapply simb_heap; [reflexivity|apply stays_same|]. steps. unfold tswitch_with at 1.
  rewrite (has_type_ptr M _ _ _ _ "*collection" Hl eq_refl), (has_type_ptr M _ _ _ _ "*conditional" Hl eq_refl), T1, T2. cbn [named String.eqb Ascii.eqb Bool.eqb]. steps. leaves. steps. apply sim_ret.
  exists av, kv, s', [], m, [], []. split; [reflexivity|]. split; [apply ES|]. split; [apply mem_le_refl|].
  unfold others_of. cbn [filter]. rewrite NA. cbn [negb]. rewrite !app_nil_r. exact HG'.
Qed.
Lemma item_collection ns : Forall item_ok ns -> item_ok (SCollection ns).
Proof.
  intros HF he cle me h cl m av kv ov As Ks Os cv s sv x E HG Hc Hx.
  pose proof (going_entry _ _ _ _ _ _ _ _ _ _ _ _ E HG) as (G & I & _). destruct (going_slices _ _ _ _ _ _ _ _ _ _ _ HG) as (ws & ks & os & A1 & A2 & B1 & B2 & D1 & D2 & L).
  apply sim_eta. unfold ac_body, ac_env. steps. eapply simb_eq; [rewrite (equal_nil _ (srep_not_nil _ _ _ _ _ Hx)); reflexivity|]. steps.
  eapply simb_type; [apply (srep_read M ls h sh (sinv_grown M ls h0 h sh HI G) (SCollection ns)); eapply srep_grown; [exact G|exact Hx]|]. intros z Hz.
  cbn [read is_attr] in Hz. steps. rewrite Hz. steps.
  app_to D1 D2 L. steps.
  assert (HG' : going he cle h' cl m av kv s' As Ks (Os ++ [SCollection ns])).
  { eapply going_other; [exact HG|exact D1|eassumption|eassumption|eassumption|]. cbn [all2]. eauto. }
  pose proof (going_entry _ _ _ _ _ _ _ _ _ _ _ _ E HG') as E'. pose proof E' as (G' & _).
  cbn [srep] in Hx. destruct Hx as (l & nv & xs & -> & X1 & X2 & X3). pose proof (grown_nth _ _ _ _ G' X1) as Hl.
  eapply simb_heap; [reflexivity|apply stays_same|]. steps. unfold tswitch_with at 1.
  rewrite (has_type_ptr M _ _ _ _ "*collection" Hl eq_refl). cbn [named String.eqb Ascii.eqb Bool.eqb]. steps.
  change (Ret tt) with (bind (@Ret U unit tt) (fun _ => Ret tt)). eapply simb_pcall; [apply (ac_call ns HF h' cl m cv s nv xs E' Hc X2 X3)|].
  intros vs h1 _ (av1 & kv1 & ov1 & y & m1 & a1 & c1 & -> & ES & Le & HG1). steps.

  assert (Hy : forall l, In l y -> length h' <= l).
  { destruct HG1 as ((y' & Ey & Hy) & _). apply app_inv_head in Ey. subst y'. exact Hy. }
  pose proof (going_frame _ _ _ _ _ _ _ _ _ _ _ h1 y m1 HG' (proj1 (proj2 HG1)) (proj1 (proj2 (proj2 HG1))) Le Hy) as HG2.
  destruct (going_slices _ _ _ _ _ _ _ _ _ _ _ HG2) as (ws2 & ks2 & os2 & A1' & A2' & B1' & B2' & _ & _ & L').
  pose proof HG1 as (_ & _ & _ & (aw & W1 & W2 & W3 & W4) & (kw & K1 & K2 & K3 & K4) & _).
  app_spread A1' A2' L' W1. steps.
  assert (HG3 : going he cle h'0 (cl ++ y) m1 s'0 kv s' (As ++ a1) Ks (Os ++ [SCollection ns])).
  { eapply going_attr; [exact HG2|exact A1'|eassumption|eassumption|eassumption|exact W4]. }
  destruct (going_slices _ _ _ _ _ _ _ _ _ _ _ HG3) as (_ & ks3 & _ & _ & _ & B1'' & B2'' & _ & _ & L'').
  assert (K1' : slice_is h'0 kv1 kw).
  { eapply slice_same; [exact K1|]. intros lk o (nk & ->) Hk. match goal with H : appended av _ _ _ |- _ => apply (proj1 (proj2 H)); [|exact Hk] end.
    destruct (going_slices _ _ _ _ _ _ _ _ _ _ _ HG') as (w & _ & _ & Hw & _). destruct av; cbn [not_at own] in *; auto. apply slice_lt in Hw. lia. }
  app_spread B1'' B2'' L'' K1'. steps. leaves. steps. leaves. apply sim_ret. do 3 eexists. exists y, m1, a1, c1. split; [reflexivity|].
  rewrite scollect_coll. split; [exact ES|]. split; [exact Le|]. unfold others_of at 1. cbn [filter is_sattr negb].
  eapply going_cond; [exact HG3|exact B1''|eassumption|eassumption|eassumption|exact K4].
Qed.

Definition ca_body : stmt :=
  (SBlock [(SAssign [(LLoc "condAttrs")] [(ECall (EExt "append") [(ELoc "condAttrs"); (ELit false "conditionalAttribute" [("attribute", (ELoc "a")); ("conditions", (ELoc "newConditions"))])] false)])])%string.
Definition ca_env (nv x : gv) (en : venv) : venv := ("newConditions"%string, nv) :: ("cn"%string, x) :: ("item"%string, x) :: en.
Lemma ca_loop he cle me cl m av ov As Os cv sv nv s x zv : entry he cle me -> cs_rep m cl nv s ->
  forall ats h kv Ks pre zs, going he cle h cl m av kv ov As Ks Os -> slice_is h0 zv (pre ++ zs) -> all2 (aptr ls) zs ats ->
  sim (range_with (exec C ca_body) "_" "a" (slice_items zv (length pre) (length zs)) (ca_env nv x (ac_env av kv ov cv sv))) h (Ret tt)
    (fun r h' _ => exists kv', r = (FNext, ca_env nv x (ac_env av kv' ov cv sv)) /\
       going he cle h' cl m av kv' ov As (Ks ++ map (fun a => (a, s)) ats) Os).
Proof.
  intros E Hc. induction ats as [|a ats IH]; intros h kv Ks pre zs HG Hs Hx; cbn [all2] in Hx.
  - subst zs. apply sim_ret. exists kv. cbn [map]. rewrite app_nil_r. auto.
  - destruct Hx as (z & zs' & -> & Hz & Hzs). cbn [length].
    pose proof (going_entry _ _ _ _ _ _ _ _ _ _ _ _ E HG) as (G & I & _). destruct (going_slices _ _ _ _ _ _ _ _ _ _ _ HG) as (ws & ks & os & _ & _ & B1 & B2 & _ & _ & L).
    eapply sim_range_cons; [eapply slice_grown; [exact G|exact Hs]|]. unfold ca_body at 1, ca_env at 1, ac_env at 1. steps.
    app_to B1 B2 L. steps. leaves. steps.
    replace (pre ++ z :: zs') with ((pre ++ [z]) ++ zs') in Hs by (rewrite <- app_assoc; reflexivity).
    eapply sim_conseq; [apply (IH h' s' (Ks ++ [(a, s)]) (pre ++ [z]) zs'); [|exact Hs|exact Hzs]|].
    + eapply going_cond; [exact HG|exact B1|eassumption|eassumption|eassumption|]. cbn [all2]. eexists _, _. split; [reflexivity|]. split; [|reflexivity].
      exists z, nv. auto.
    + intros r h2 _ (kv' & -> & HG2). exists kv'. split; [reflexivity|]. rewrite <- app_assoc in HG2. exact HG2.
Qed.
Lemma item_conditional f ats ns : Forall item_ok ns -> item_ok (SConditional f ats ns).
Proof.
  intros HF he cle me h cl m av kv ov As Ks Os cv s sv x E HG Hc Hx.
  pose proof (going_entry _ _ _ _ _ _ _ _ _ _ _ _ E HG) as (G & I & _). destruct (going_slices _ _ _ _ _ _ _ _ _ _ _ HG) as (ws & ks & os & A1 & A2 & B1 & B2 & D1 & D2 & L).
  apply sim_eta. unfold ac_body, ac_env. steps. eapply simb_eq; [rewrite (equal_nil _ (srep_not_nil _ _ _ _ _ Hx)); reflexivity|]. steps.
  eapply simb_type; [apply (srep_read M ls h sh (sinv_grown M ls h0 h sh HI G) (SConditional f ats ns)); eapply srep_grown; [exact G|exact Hx]|]. intros z Hz.
  cbn [read is_attr] in Hz. steps. rewrite Hz. steps.
  app_to D1 D2 L. steps.
  assert (HG' : going he cle h' cl m av kv s' As Ks (Os ++ [SConditional f ats ns])).
  { eapply going_other; [exact HG|exact D1|eassumption|eassumption|eassumption|]. cbn [all2]. eauto. }
  pose proof (going_entry _ _ _ _ _ _ _ _ _ _ _ _ E HG') as E'. pose proof E' as (G' & I' & _).
  cbn [srep] in Hx. destruct Hx as (l & nv & zv & fv & xs & zs & -> & X1 & X2 & X3 & X4 & X5 & X6). pose proof (grown_nth _ _ _ _ G' X1) as Hl.
  eapply simb_heap; [reflexivity|apply stays_same|]. steps. unfold tswitch_with at 1.
  rewrite (has_type_ptr M _ _ _ _ "*collection" Hl eq_refl), (has_type_ptr M _ _ _ _ "*conditional" Hl eq_refl). cbn [named String.eqb Ascii.eqb Bool.eqb]. steps.
  eapply simb_append_cond; [exact I'|exact Hc|exact X6|]. intros h1 nc y1 m1 s1 EA I1 Hnc Le1 P1 F1 Hy1. steps.
  pose proof (going_frame _ _ _ _ _ _ _ _ _ _ _ h1 y1 m1 HG' F1 I1 Le1 Hy1) as HG1.
  pose proof (going_entry _ _ _ _ _ _ _ _ _ _ _ _ E HG1) as E1. pose proof E1 as (G1 & _).
  pose proof (grown_nth _ _ _ _ G1 X1) as Hl1. steps. pose proof (slice_grown _ _ _ _ G1 X4) as X4'. steps.
  change (Ret tt) with (bind (@Ret U unit tt) (fun _ => Ret tt)). eapply sim_bind;
    [exact (ca_loop he cle me (cl ++ y1) m1 av s' As (Os ++ [SConditional f ats ns]) cv sv nc s1 (VPtr l) zv E Hnc ats h1 kv Ks [] zs HG1 X4 X5)|].
  intros r h2 _ (kv2 & -> & HG2). unfold ca_env, ac_env. steps.
  pose proof (going_entry _ _ _ _ _ _ _ _ _ _ _ _ E HG2) as E2. pose proof E2 as (G2 & _).
  pose proof (grown_nth _ _ _ _ G2 X1) as Hl2. steps.
  change (Ret tt) with (bind (@Ret U unit tt) (fun _ => Ret tt)). eapply simb_pcall; [apply (ac_call ns HF h2 (cl ++ y1) m1 nc s1 nv xs E2 Hnc X2 X3)|].
  intros vs h3 _ (av3 & kv3 & ov3 & y3 & m3 & a3 & c3 & -> & ES & Le3 & HG3). steps.
  assert (Hy3 : forall l, In l y3 -> length h2 <= l).
  { destruct HG3 as ((y' & Ey & Hy) & _). apply app_inv_head in Ey. subst y'. exact Hy. }
  pose proof (going_frame _ _ _ _ _ _ _ _ _ _ _ h3 y3 m3 HG2 (proj1 (proj2 HG3)) (proj1 (proj2 (proj2 HG3))) Le3 Hy3) as HG4.
  destruct (going_slices _ _ _ _ _ _ _ _ _ _ _ HG4) as (_ & ks4 & _ & _ & _ & B1' & B2' & _ & _ & L').
  pose proof HG3 as (_ & _ & _ & _ & (kw & K1 & K2 & K3 & K4) & _).
  app_spread B1' B2' L' K1. steps. leaves. steps. leaves. apply sim_ret. do 3 eexists. exists (y1 ++ y3), m3, [], (map (fun a => (a, s1)) ats ++ c3). split; [reflexivity|].
  rewrite scollect_cond, EA, ES. split; [reflexivity|]. split; [eapply mem_le_trans; eauto|]. unfold others_of. cbn [filter is_sattr negb]. rewrite app_nil_r, !app_assoc.
  eapply going_cond; [exact HG4|exact B1'|eassumption|eassumption|eassumption|exact K4].
Qed.
Lemma item_all n : item_ok n.
Proof.
  induction n using snode_ind'; [apply item_attr|apply item_plain; destruct x; reflexivity|apply item_collection; assumption|apply item_conditional; assumption|
    apply item_plain; reflexivity|apply item_plain; reflexivity|apply item_plain; reflexivity|apply item_plain; reflexivity|apply item_plain; reflexivity].
Qed.
(** element.go 231-268 *)
Theorem attributesAndContents_spec ns : collects ns.
Proof. apply ac_call. apply Forall_forall. intros n _. apply item_all. Qed.
End Collect.
End Refine.
