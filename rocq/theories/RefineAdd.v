(** The translated source of addAttributes (element.go 84-102, 150-168): it does
    to the Go heap what [Sharing.sadd] does. *)
From Coq Require Import ZArith Lia.
From Verif Require Import Bytes IO IOFacts Nodes NodeInd Values Render Build Slices Sharing SharingFacts
  GoSyntax Source GoSem GoRun GoRep GoStep GoOwn RefineNode RefineUser RefineIter RefineAttrs RefineStart RefineNew RefineMake RefineGroup GoShare RefineCollect RefineBuild.
Local Open Scope nat_scope.

Section Refine.
Context {W : UserWorld}.
Variable M : go_mode.
Notation C := (go_config M).
Notation sim := (sim C).

(** ** The attributes while an element is being built

    [hb] is the heap before the element was allocated. *)
Section Adds.
Variable ls : list loc.
Variable hb : heap.

Definition kept_attr (h : heap) (p : loc) (a : attr U) : Prop :=
  match a with
  | ADelim n d vs =>
      exists nv dv sv ys,
        nth_error h p = Some (OStruct "delimitedAttribute"
          [("name"%string, nv); ("delimiter"%string, dv); ("values"%string, sv)]) /\
        bytes_of nv = Some n /\ bytes_of dv = Some d /\ slice_is h sv ys /\ all2 (val_rep M hb) ys vs
  | _ => attr_rep M hb (VPtr p) a
  end.
Record adds (h : heap) (sh : Sharing.heap) : Prop := {
  ad_changes : changes ls hb h;
  ad_old : forall p, In p ls -> p < length hb;
  ad_len : length ls = length sh;
  ad_nodup : NoDup ls;
  ad_attr : forall i p a, nth_error ls i = Some p -> nth_error sh i = Some a -> kept_attr h p a;
  ad_spare : forall p sv, In p ls -> vslice h p sv -> spare h sv;
  ad_apart : forall p q sv sw, In p ls -> In q ls -> p <> q -> vslice h p sv -> vslice h q sw -> apart sv sw;
  ad_free : spares ls hb h
}.
Lemma adds_sinv h sh : adds h sh -> sinv M ls h sh.
Proof.
  intros [K1 K2 K3 K4 K5 K6 K7 _]. constructor; auto. intros i p a Hp Ha. specialize (K5 i p a Hp Ha).
  destruct a; cbn [kept_attr attr_rep] in *.
  - destruct K5 as (l & nv & sv & E & H1 & H2 & H3). exists l, nv, sv. split; [exact E|].
    split; [eapply struct_changes; eauto; discriminate|]. split; [exact H2|eapply vals_changes; eauto].
  - destruct K5 as (l & nv & E & H1 & H2). exists l, nv. split; [exact E|]. split; [eapply struct_changes; eauto; discriminate|exact H2].
  - destruct K5 as (nv & dv & sv & ys & H1 & H2 & H3 & H4 & H5). exists p, nv, dv, sv. repeat (split; [assumption || reflexivity|]).
    exists ys. split; [exact H4|]. eapply all2_mono; [|exact H5]. intros x y. apply (val_changes M ls), K1.
Qed.
Lemma sinv_adds sh : sinv M ls hb sh -> adds hb sh.
Proof.
  intros [K1 K2 K3 K4 K5]. constructor; auto.
  - apply changes_refl.
  - intros p Hp. apply In_nth_error in Hp. destruct Hp as [i Hi]. pose proof (nth_lt _ _ _ Hi) as L. rewrite K1 in L.
    destruct (nth_error sh i) as [a|] eqn:E; [|apply nth_error_None in E; lia]. specialize (K3 i p a Hi E).
    destruct a; cbn [attr_rep] in K3; split_all; match goal with H : VPtr _ = VPtr _ |- _ => injection H as -> end; eapply nth_lt; eauto.
  - intros i p a Hp Ha. specialize (K3 i p a Hp Ha). destruct a; cbn [kept_attr]; auto.
    cbn [attr_rep] in K3. destruct K3 as (l & nv & dv & sv & E & H1 & H2 & H3 & ys & H4 & H5). injection E as <-. exists nv, dv, sv, ys. auto.
  - intros l cs Hl F. auto.
Qed.

(** Objects other than the attributes and their slices may change. *)
Lemma vslice_back h h' p sv : (forall o, nth_error h p = Some o -> nth_error h' p = Some o) -> p < length h -> vslice h' p sv -> vslice h p sv.
Proof.
  intros K L (fs & H1 & H2). destruct (nth_error h p) as [o|] eqn:E; [|apply nth_error_None in E; lia].
  specialize (K o eq_refl). exists fs. split; [congruence|exact H2].
Qed.
Lemma adds_frame h h' sh (Y : loc -> Prop) : adds h sh -> length h <= length h' ->
  (forall l o, ~ Y l -> nth_error h l = Some o -> nth_error h' l = Some o) ->
  (forall l, Y l -> length hb <= l) ->
  (forall p sv l, In p ls -> vslice h p sv -> Y l -> not_at l sv) -> adds h' sh.
Proof.
  intros A L K Hb Hv. pose proof A as [K1 K2 K3 K4 K5 K6 K7 K8].
  assert (VB : forall p sv, In p ls -> vslice h' p sv -> vslice h p sv).
  { intros p sv Hp. pose proof (K2 p Hp) as Lp. apply vslice_back; [|destruct K1; lia]. intro o. apply K. intro Yp. apply Hb in Yp. lia. }
  assert (SV : forall p sv l o, In p ls -> vslice h p sv -> (exists n, sv = VSlice l n) -> nth_error h l = Some o -> nth_error h' l = Some o).
  { intros p sv l o Hp Hs (n & ->). apply K. intro Yl. apply (Hv _ _ _ Hp Hs Yl). reflexivity. }
  constructor; auto.
  - split; [destruct K1; lia|]. intros l o Ho. destruct K1 as [_ K1]. specialize (K1 l o Ho). apply nth_lt in Ho.
    assert (NY : ~ Y l) by (intro Yl; apply Hb in Yl; lia). destruct o; auto.
    destruct K1 as (cs & C1 & C2). exists cs. split; [apply K; auto|exact C2].
  - intros i p a Hp Ha. specialize (K5 i p a Hp Ha). destruct a; cbn [kept_attr] in *; auto.
    destruct K5 as (nv & dv & sv & ys & H1 & H2 & H3 & H4 & H5). exists nv, dv, sv, ys.
    assert (Ip : In p ls) by (eapply nth_error_In; eauto).
    split; [apply K; auto; intro Yp; apply Hb in Yp; specialize (K2 p Ip); lia|]. split; [exact H2|]. split; [exact H3|]. split; [|exact H5].
    eapply slice_same; [exact H4|]. intros l o. apply (SV p sv); [exact Ip|]. eexists. split; [exact H1|reflexivity].
  - intros p sv Hp Hs. apply VB in Hs; [|exact Hp]. specialize (K6 p sv Hp Hs). destruct sv; cbn [spare] in *; auto.
    destruct K6 as (cs & C1 & C2). exists cs. split; [eapply SV; eauto|exact C2].
  - intros p q sv sw Hp Hq N Hs Hw. apply VB in Hs, Hw; auto. eauto.
  - intros l cs Hl F. destruct (K8 l cs Hl F) as [Hl1 F1]. split; [apply K; [|exact Hl1]; intro Yl; apply Hb in Yl; apply nth_lt in Hl; lia|].
    intros p sv Hp Hs. apply F1 with p; auto.
Qed.
Lemma at_or_not l (s : gv) : not_at l s \/ exists n, s = VSlice l n.
Proof. destruct s; cbn [not_at]; auto. destruct (Nat.eq_dec l0 l) as [->|N]; eauto. Qed.
(** A delimited attribute gets more values. *)
Lemma changes_appended h h' s s' : spare h s -> appended s h s' h' -> changes ls h h'.
Proof.
  intros Hs (L & K & _ & _ & R). split; [exact L|]. intros l o Ho. destruct o as [t fs|cs|es].
  - intros _. apply K; [|exact Ho]. destruct s; cbn [not_at spare] in *; auto. intros ->. destruct Hs as (cs & H & _). congruence.
  - destruct (at_or_not l s) as [N|(n & ->)]; [exists cs; split; [apply K; auto|]; auto|].
    destruct (R _ _ _ eq_refl Ho) as (cs' & E1 & E2 & E3). exists cs'. split; [exact E1|]. split; [lia|].
    intros i v Hv Nv. destruct (Nat.lt_ge_cases i n) as [Hi|Hi]; [rewrite E3 by exact Hi; exact Hv|].
    destruct Hs as (cs1 & S1 & S2). rewrite Ho in S1. injection S1 as <-. exfalso. apply Nv. eauto.
  - apply K; [|exact Ho]. destruct s; cbn [not_at spare] in *; auto. intros ->. destruct Hs as (cs & H & _). congruence.
Qed.
Lemma vslice_one h p sv sw : vslice h p sv -> vslice h p sw -> sv = sw.
Proof. intros (fs & H1 & H2) (fs' & H3 & H4). congruence. Qed.
Lemma adds_more h h' sh i p n d vs nv dv sv s' ys zs vs' : adds h sh -> nth_error ls i = Some p -> nth_error sh i = Some (ADelim n d vs) ->
  nth_error h p = Some (OStruct "delimitedAttribute" [("name"%string, nv); ("delimiter"%string, dv); ("values"%string, sv)]) ->
  slice_is h sv ys -> all2 (val_rep M hb) ys vs -> bytes_of nv = Some n -> bytes_of dv = Some d ->
  all2 (val_rep M hb) zs vs' -> slice_is h' s' (ys ++ zs) -> appended sv h s' h' ->
  adds (set_nth h' p (OStruct "delimitedAttribute" [("name"%string, nv); ("delimiter"%string, dv); ("values"%string, s')]))
    (set_nth sh i (ADelim n d (vs ++ vs'))).
Proof.
  intros A Hi Ha Ho Hs Hy Bn Bd Hz Hs' HA. pose proof A as [K1 K2 K3 K4 K5 K6 K7 K8].
  assert (Ip : In p ls) by (eapply nth_error_In; eauto). pose proof (K2 p Ip) as Lp.
  assert (Vp : vslice h p sv) by (eexists; split; [exact Ho|reflexivity]).
  pose proof (K6 p sv Ip Vp) as Sp. pose proof HA as (L & K & N & S & _).
  pose proof (changes_appended _ _ _ _ Sp HA) as Ch.
  set (o := OStruct "delimitedAttribute" _). set (h2 := set_nth h' p o).
  assert (Ho' : nth_error h' p = Some (OStruct "delimitedAttribute" [("name"%string, nv); ("delimiter"%string, dv); ("values"%string, sv)])).
  { apply K; [eapply slice_not_at; eauto|exact Ho]. }
  assert (Ho2 : nth_error h2 p = Some o) by (apply nth_set_same; eapply nth_lt; eauto).
  assert (Vp2 : vslice h2 p s') by (eexists; split; [exact Ho2|reflexivity]).
  assert (VO : forall q sw, In q ls -> q <> p -> vslice h2 q sw -> vslice h q sw).
  { intros q sw Iq Nq (fs & V1 & V2). unfold h2 in V1. rewrite nth_set_other in V1 by auto. pose proof (K2 q Iq) as Lq.
    destruct (nth_error h q) as [oq|] eqn:E; [|apply nth_error_None in E; destruct K1; lia].
    destruct oq as [t gs|cs|es].
    - exists fs. split; [|exact V2]. assert (Na : not_at q sv) by (eapply slice_not_at; eauto). pose proof (K _ _ Na E) as E'. congruence.
    - destruct Ch as [_ Ch]. destruct (Ch _ _ E) as (cs' & E' & _). congruence.
    - destruct Ch as [_ Ch]. pose proof (Ch _ _ E) as E'. cbn in E'. congruence. }
  assert (SL : forall q sw xs, In q ls -> q <> p -> vslice h q sw -> slice_is h sw xs -> slice_is h2 sw xs).
  { intros q sw xs Iq Nq V Hw. apply slice_update; [|eapply slice_not_at; [|exact Ho']].
    - eapply slice_same; [exact Hw|]. intros l o' (m & ->) Ho1. apply K; [|exact Ho1].
      pose proof (K7 _ _ _ _ Ip Iq (not_eq_sym Nq) Vp V) as AP. destruct sv; cbn [apart not_at] in *; auto.
    - eapply slice_same; [exact Hw|]. intros l o' (m & ->) Ho1. apply K; [|exact Ho1].
      pose proof (K7 _ _ _ _ Ip Iq (not_eq_sym Nq) Vp V) as AP. destruct sv; cbn [apart not_at] in *; auto. }
  constructor; auto.
  - eapply changes_trans; [exact K1|]. eapply changes_trans; [exact Ch|]. split; [unfold h2; rewrite length_set_nth; auto|].
    intros l ol Hl. unfold h2. destruct (Nat.eq_dec p l) as [<-|Nl].
    + rewrite Ho' in Hl. injection Hl as <-. intro X. exfalso. exact (X eq_refl Ip).
    + rewrite nth_set_other by exact Nl. destruct ol; auto. eexists. split; [exact Hl|]. auto.
  - rewrite length_set_nth. exact K3.
  - intros j q a Hj Hq. destruct (Nat.eq_dec i j) as [<-|Nj].
    + rewrite nth_set_same in Hq by (eapply nth_lt; eauto). injection Hq as <-. rewrite Hi in Hj. injection Hj as <-. cbn [kept_attr].
      exists nv, dv, s', (ys ++ zs). split; [exact Ho2|]. split; [exact Bn|]. split; [exact Bd|]. split; [|apply all2_app; auto].
      apply slice_update; [exact Hs'|]. eapply slice_not_at; eauto.
    + rewrite nth_set_other in Hq by exact Nj. assert (Nq : q <> p).
      { intros ->. apply Nj. eapply (NoDup_nth_error ls); [exact K4|eapply nth_lt; eauto|congruence]. }
      specialize (K5 j q a Hj Hq). destruct a as [| |n1 d1 vs1]; cbn [kept_attr] in *; auto.
      destruct K5 as (nv1 & dv1 & sv1 & ys1 & H1 & H2 & H3 & H4 & H5). exists nv1, dv1, sv1, ys1.
      assert (Iq : In q ls) by (eapply nth_error_In; eauto).
      split; [unfold h2; rewrite nth_set_other by auto; apply K; [eapply slice_not_at; eauto|exact H1]|].
      split; [exact H2|]. split; [exact H3|]. split; [|exact H5]. eapply SL; eauto. eexists. split; [exact H1|reflexivity].
  - intros q sw Iq V. destruct (Nat.eq_dec q p) as [->|Nq].
    + rewrite (vslice_one _ _ _ _ V Vp2). apply spare_update; [exact (S Sp)|]. eapply slice_not_at; eauto.
    + pose proof (VO q sw Iq Nq V) as V'. pose proof (K6 q sw Iq V') as Sq. destruct sw; cbn [spare] in *; auto.
      destruct Sq as (cs & C1 & C2). exists cs. split; [|exact C2]. unfold h2. rewrite nth_set_other; [apply K; [|exact C1]|].
      * pose proof (K7 _ _ _ _ Ip Iq (not_eq_sym Nq) Vp V') as AP. destruct sv; cbn [apart not_at] in *; auto.
      * intros ->. congruence.
  - assert (AP : forall q sw, In q ls -> q <> p -> vslice h2 q sw -> apart s' sw).
    { intros q sw Iq Nq V. pose proof (VO q sw Iq Nq V) as V'. pose proof (K7 _ _ _ _ Ip Iq (not_eq_sym Nq) Vp V') as AP.
      pose proof (K6 q sw Iq V') as Sq. destruct s'; cbn [apart]; auto. destruct sw; auto.
      destruct (N _ _ eq_refl) as [(n' & ->)|Hl]; [exact AP|]. destruct Sq as (cs & C1 & _). apply nth_lt in C1. lia. }
    intros q r sw sx Iq Ir Nr V1 V2. destruct (Nat.eq_dec q p) as [->|Nq].
    + rewrite (vslice_one _ _ _ _ V1 Vp2). apply (AP r); auto.
    + destruct (Nat.eq_dec r p) as [->|Nr'].
      * rewrite (vslice_one _ _ _ _ V2 Vp2). apply apart_sym. apply (AP q); auto.
      * apply (K7 q r); auto.
  - intros l cs Hl F. destruct (K8 l cs Hl F) as [Hl1 F1]. pose proof (F1 p sv Ip Vp) as Nl.
    pose proof (K l (OArr cs) Nl Hl1) as Hl'. split; [unfold h2; rewrite nth_set_other; [exact Hl'|intros ->; congruence]|].
    intros q sw Iq V. destruct (Nat.eq_dec q p) as [->|Nq]; [|apply F1 with q; auto].
    rewrite (vslice_one _ _ _ _ V Vp2). destruct s'; cbn [not_at]; auto. destruct (N _ _ eq_refl) as [(n' & ->)|Hn]; [exact Nl|].
    intros ->. apply nth_lt in Hl1. lia.
Qed.

(** ** The element *)

Variable le li : loc.
Variable tag : string.
Variable fs : gv -> list (string * gv).
Hypothesis Lle : length hb <= le.
Hypothesis Lli : length hb <= li.
Hypothesis HF : one_field "attributes" fs.
Hypothesis HX : forall s, assoc "attIndices" (fs s) = Some (VMap li).

Record adding (h : heap) (sh : Sharing.heap) (at_ : list nat) (idx : list (bytes * nat)) (tv : gv) (zs : list gv) : Prop := {
  g_adds : adds h sh;
  g_obj : nth_error h le = Some (OStruct tag (fs tv));
  g_map : nth_error h li = Some (idx_obj idx);
  g_slice : slice_is h tv zs;
  g_own : own (length hb) tv;
  g_zs : all2 (aptr ls) zs at_;
  g_apart : forall p sv, In p ls -> vslice h p sv -> apart tv sv;
  g_range : in_range at_ idx
}.

Lemma map_not_at h s xs l es : slice_is h s xs -> nth_error h l = Some (OMap es) -> not_at l s.
Proof. destruct s; cbn [slice_is not_at]; auto. intros (cs & H & _) H' ->. congruence. Qed.
Lemma spare_not_at h s l o : spare h s -> nth_error h l = Some o -> (forall cs, o <> OArr cs) -> not_at l s.
Proof. destruct s; cbn [spare not_at]; auto. intros (cs & H & _) H' N ->. apply (N cs). congruence. Qed.

(** A new name. *)
Lemma adding_new h sh at_ idx tv zs x l h2 s' k : adding h sh at_ idx tv zs -> idx_get idx k = None -> aptr ls x l ->
  slice_is h2 s' (zs ++ [x]) -> own (length hb) s' ->
  appended tv (set_nth h li (idx_obj (idx ++ [(k, length at_)]))) s' h2 ->
  adding (set_nth h2 le (OStruct tag (fs s'))) sh (at_ ++ [l]) (idx ++ [(k, length at_)]) s' (zs ++ [x]).
Proof.
  intros [A Ho Hm Hs Hw Hz Hp Hr] Hk Hx Hs' Hw' HA. pose proof HA as (L & K & N & _). rewrite length_set_nth in L.
  set (o := OStruct tag (fs s')). set (h3 := set_nth h2 le o).
  assert (Ne : li <> le) by (intros ->; unfold idx_obj in Hm; congruence).
  assert (NL : not_at le tv) by (eapply slice_not_at; eauto). assert (NI : not_at li tv) by (eapply map_not_at; eauto).
  assert (H2e : nth_error h2 le = Some (OStruct tag (fs tv))) by (apply K; [exact NL|]; rewrite nth_set_other by exact Ne; exact Ho).
  assert (H2i : nth_error h2 li = Some (idx_obj (idx ++ [(k, length at_)]))) by (apply K; [exact NI|]; apply nth_set_same; eapply nth_lt; eauto).
  assert (KA : forall l0 o0, ~ (l0 = le \/ l0 = li \/ exists n, tv = VSlice l0 n) -> nth_error h l0 = Some o0 -> nth_error h3 l0 = Some o0).
  { intros l0 o0 Hn Hl. unfold h3. rewrite nth_set_other by (intros ->; apply Hn; auto). apply K; [destruct (at_or_not l0 tv) as [?|E]; auto; exfalso; apply Hn; auto|].
    rewrite nth_set_other by (intros ->; apply Hn; auto). exact Hl. }
  assert (A' : adds h3 sh).
  { eapply (adds_frame h h3 sh (fun l0 => l0 = le \/ l0 = li \/ exists n, tv = VSlice l0 n)); [exact A|unfold h3; rewrite length_set_nth; exact L|exact KA| |].
    - intros l0 [->|[->|(n & ->)]]; auto.
    - intros p sv l0 Ip V Y. pose proof (ad_spare _ _ A p sv Ip V) as Sp. destruct Y as [->|[->|(n & ->)]].
      + eapply spare_not_at; [exact Sp|exact Ho|discriminate].
      + eapply spare_not_at; [exact Sp|exact Hm|discriminate].
      + specialize (Hp p sv Ip V). destruct sv; cbn [apart not_at] in *; auto. }
  constructor; auto.
  - apply nth_set_same. eapply nth_lt; eauto.
  - unfold h3. rewrite nth_set_other by auto. exact H2i.
  - apply slice_update; [exact Hs'|]. eapply slice_not_at; [exact Hs'|exact H2e].
  - apply all2_app; [exact Hz|]. cbn [all2]. eauto.
  - intros p sv Ip V. assert (V' : vslice h p sv).
    { eapply vslice_back; [|pose proof (ad_old _ _ A p Ip); pose proof (proj1 (ad_changes _ _ A)); lia|exact V].
      intros o0. apply KA. pose proof (ad_old _ _ A p Ip). intros [->|[->|(n & ->)]]; try lia. cbn [own] in Hw. lia. }
    specialize (Hp p sv Ip V'). pose proof (ad_spare _ _ A p sv Ip V') as Sp. destruct s'; cbn [apart]; auto. destruct sv; auto.
    destruct (N _ _ eq_refl) as [(n' & ->)|Hl]; [exact Hp|]. destruct Sp as (cs & C1 & _). apply nth_lt in C1. rewrite length_set_nth in Hl. lia.
  - intros nm i. rewrite idx_get_app, app_length. cbn [length]. destruct (idx_get idx nm) as [j|] eqn:E.
    + intro X. injection X as <-. specialize (Hr _ _ E). eapply Nat.lt_le_trans; [exact Hr|apply Nat.le_add_r].
    + destruct (beq k nm); [|discriminate]. intro X. injection X as <-. lia.
Qed.
(** A later attribute replaces an earlier one. *)
Lemma adding_replace h sh at_ idx lt n cs zs x l i : adding h sh at_ idx (VSlice lt n) zs -> i < length at_ -> aptr ls x l ->
  nth_error h lt = Some (OArr cs) -> zs = firstn n cs ->
  adding (set_nth h lt (OArr (set_nth cs i x))) sh (set_nth at_ i l) idx (VSlice lt n) (set_nth zs i x).
Proof.
  intros [A Ho Hm Hs Hw Hz Hp Hr] Hi Hx Hl Ez. set (h3 := set_nth h lt _).
  assert (KA : forall l0 o0, l0 <> lt -> nth_error h l0 = Some o0 -> nth_error h3 l0 = Some o0).
  { intros l0 o0 Hn H0. unfold h3. rewrite nth_set_other by auto. exact H0. }
  assert (A' : adds h3 sh).
  { eapply (adds_frame h h3 sh (fun l0 => l0 = lt)); [exact A|unfold h3; rewrite length_set_nth; auto|exact KA| |].
    - intros l0 ->. exact Hw.
    - intros p sv l0 Ip V ->. specialize (Hp p sv Ip V). destruct sv; cbn [apart not_at] in *; auto. }
  pose proof (slice_length _ _ _ Hs) as Lz. destruct Hs as (cs' & C1 & C2 & C3). rewrite Hl in C1. injection C1 as <-.
  pose proof (all2_length _ _ _ Hz) as La.
  constructor; auto.
  - apply KA; [intros ->; congruence|exact Ho].
  - apply KA; [intros ->; unfold idx_obj in Hm; congruence|exact Hm].
  - cbn [slice_is]. exists (set_nth cs i x). split; [apply nth_set_same; eapply nth_lt; eauto|]. rewrite length_set_nth. split; [exact C2|].
    subst zs. clear. revert i n. induction cs as [|c cs IH]; intros [|i] [|n]; cbn [set_nth firstn]; auto. f_equal. apply IH.
  - clear - Hz Hx. revert i zs Hz. induction at_ as [|a at_ IH]; intros i zs Hz; cbn [all2] in Hz.
    + subst zs. destruct i; reflexivity.
    + destruct Hz as (z & zs' & -> & H1 & H2). destruct i; cbn [set_nth all2]; eexists _, _; (split; [reflexivity|auto]).
  - intros p sv Ip V. apply Hp with p; [exact Ip|]. eapply vslice_back; [|pose proof (ad_old _ _ A p Ip); pose proof (proj1 (ad_changes _ _ A)); lia|exact V].
    intros o0. apply KA. pose proof (ad_old _ _ A p Ip). cbn [own] in Hw. lia.
  - intros nm j Hj. rewrite length_set_nth. eauto.
Qed.
(** A delimited attribute is extended. *)
Lemma adding_more h h' sh at_ idx tv us i p n d vs nv dv sv s' ys zs vs' : adding h sh at_ idx tv us ->
  nth_error ls i = Some p -> nth_error sh i = Some (ADelim n d vs) ->
  nth_error h p = Some (OStruct "delimitedAttribute" [("name"%string, nv); ("delimiter"%string, dv); ("values"%string, sv)]) ->
  slice_is h sv ys -> all2 (val_rep M hb) ys vs -> bytes_of nv = Some n -> bytes_of dv = Some d ->
  all2 (val_rep M hb) zs vs' -> slice_is h' s' (ys ++ zs) -> appended sv h s' h' ->
  adding (set_nth h' p (OStruct "delimitedAttribute" [("name"%string, nv); ("delimiter"%string, dv); ("values"%string, s')]))
    (set_nth sh i (ADelim n d (vs ++ vs'))) at_ idx tv us.
Proof.
  intros [A Ho Hm Hs Hw Hz Hp Hr] Hi Ha Hd Hsv Hy Bn Bd Hv Hs' HA. pose proof HA as (L & K & N & _).
  assert (Ip : In p ls) by (eapply nth_error_In; eauto). pose proof (ad_old _ _ A p Ip) as Lp.
  assert (Vp : vslice h p sv) by (eexists; split; [exact Hd|reflexivity]).
  assert (Hd' : nth_error h' p = Some (OStruct "delimitedAttribute" [("name"%string, nv); ("delimiter"%string, dv); ("values"%string, sv)])).
  { apply K; [eapply slice_not_at; eauto|exact Hd]. }
  assert (T' : slice_is h' tv us).
  { eapply slice_same; [exact Hs|]. intros l o (m & ->) Hl. apply K; [|exact Hl]. specialize (Hp p sv Ip Vp). destruct sv; cbn [apart not_at] in *; auto. }
  constructor; auto.
  - eapply adds_more; eauto.
  - rewrite nth_set_other by lia. apply K; [eapply slice_not_at; eauto|exact Ho].
  - rewrite nth_set_other by lia. apply K; [eapply map_not_at; eauto|exact Hm].
  - apply slice_update; [exact T'|]. eapply slice_not_at; eauto.
  - intros q sw Iq (gs & V1 & V2). destruct (Nat.eq_dec q p) as [->|Nq].
    + rewrite nth_set_same in V1 by (eapply nth_lt; eauto). injection V1 as <-. cbn in V2. injection V2 as <-.
      specialize (Hp p sv Ip Vp). destruct s'; try (destruct tv; exact I). destruct tv; cbn [apart]; auto.
      destruct (N _ _ eq_refl) as [(n' & ->)|Hl]; [exact Hp|]. apply slice_lt in Hs. lia.
    + rewrite nth_set_other in V1 by auto. apply Hp with q; [exact Iq|]. exists gs. split; [|exact V2].
      pose proof (ad_old _ _ A q Iq) as Lq. pose proof (proj1 (ad_changes _ _ A)) as Lh.
      destruct (nth_error h q) as [oq|] eqn:E; [|apply nth_error_None in E; lia].
      destruct (at_or_not q sv) as [Na|(m & ->)]; [pose proof (K _ _ Na E) as E'; congruence|].
      exfalso. pose proof (changes_appended _ _ _ _ (ad_spare _ _ A p _ Ip Vp) HA) as [_ Ch].
      cbn [slice_is] in Hsv. destruct Hsv as (cs & C1 & _). destruct (Ch _ _ C1) as (cs' & C2 & _). congruence.
Qed.

Definition aa_body : stmt :=
  (SBlock [(SDefine ["name"] [(EMethod (ELoc "att") "Name" [] false)]);
     (SIf (Some (SDefine ["idx"; "ok"] [(EIndex (EField (ELoc "e") "attIndices") (ELoc "name"))])) (ELoc "ok")
     (SBlock [(SDefine ["existing"] [(EIndex (EField (ELoc "e") "attributes") (ELoc "idx"))]);
     (SIf (Some (SDefine ["delimited"; "ok"] [(EAssert (ELoc "existing") "*delimitedAttribute")])) (ELoc "ok")
     (SBlock [(SIf (Some (SDefine ["addD"; "ok"] [(EAssert (ELoc "att") "*delimitedAttribute")])) (ELoc "ok")
     (SBlock [(SAssign [(LField (ELoc "delimited") "values")] [(ECall (EExt "append") [(EField (ELoc "delimited") "values"); (EField (ELoc "addD") "values")] true)]);
     SContinue])
     SSkip)])
     SSkip);
     (SAssign [(LIndex (EField (ELoc "e") "attributes") (ELoc "idx"))] [(ELoc "att")])])
     (SBlock [(SAssign [(LIndex (EField (ELoc "e") "attIndices") (ELoc "name"))] [(ECall (EExt "len") [(EField (ELoc "e") "attributes")] false)]);
     (SAssign [(LField (ELoc "e") "attributes")] [(ECall (EExt "append") [(EField (ELoc "e") "attributes"); (ELoc "att")] false)])]))])%string.
Definition aa_env (av : gv) : venv := [("attrs"%string, av); ("e"%string, VPtr le)].

Lemma idx_lookup idx k : bassoc k (map (fun '(n, i) => (n, VInt (Z.of_nat i))) idx) =
  match idx_get idx k with Some i => Some (VInt (Z.of_nat i)) | None => None end.
Proof. induction idx as [|[n i] idx IH]; cbn [map bassoc idx_get]; [reflexivity|]. destruct (beq n k); auto. Qed.
Lemma deref_nth (sh : Sharing.heap) i p : length ls = length sh -> nth_error ls i = Some p -> nth_error sh i = Some (deref sh i).
Proof.
  intros E H. apply nth_lt in H. unfold deref. destruct (nth_error sh i) as [a|] eqn:X; [rewrite (nth_error_nth _ _ _ X); reflexivity|].
  apply nth_error_None in X. lia.
Qed.
Lemma sadd_some (sh : Sharing.heap) (at_ : list nat) idx l i e : idx_get idx (attr_name (deref sh l)) = Some i -> nth_error at_ i = Some e ->
  sadd (sh, at_, idx) l = match deref sh e, deref sh l with
    | ADelim n d vs, ADelim _ _ addVs => (set_nth sh e (ADelim n d (vs ++ addVs)), at_, idx)
    | _, _ => (sh, set_nth at_ i l, idx)
    end.
Proof. intros H1 H2. unfold sadd. rewrite H1. unfold Sharing.loc. rewrite H2. reflexivity. Qed.
Lemma sadd_none (sh : Sharing.heap) (at_ : list nat) idx l : idx_get idx (attr_name (deref sh l)) = None ->
  sadd (sh, at_, idx) l = (sh, at_ ++ [l], idx ++ [(attr_name (deref sh l), length at_)]).
Proof. intro H1. unfold sadd. rewrite H1. reflexivity. Qed.

Lemma aa_loop av : forall As h sh at_ idx tv zs pre xs, adding h sh at_ idx tv zs ->
  slice_is hb av (pre ++ xs) -> full (pre ++ xs) -> all2 (aptr ls) xs As ->
  sim (range_with (exec C aa_body) "_" "att" (slice_items av (length pre) (length xs)) (aa_env av)) h (Ret tt)
    (fun r h' _ => r = (FNext, aa_env av) /\ exists sh' at' idx' tv' zs',
       fold_left sadd As (sh, at_, idx) = (sh', at', idx') /\ adding h' sh' at' idx' tv' zs').
Proof.
  induction As as [|l As IH]; intros h sh at_ idx tv zs pre xs HG Hs Hf Hx; cbn [all2] in Hx.
  - subst xs. apply sim_ret. split; [reflexivity|]. exists sh, at_, idx, tv, zs. auto.
  - destruct Hx as (x & xs' & -> & Hx & Hxs). cbn [length fold_left].
    pose proof HG as [A Ho Hm Hz Hw Ha Hp Hr]. pose proof (adds_sinv _ _ A) as SI.
    pose proof (slice_changes ls hb h av _ Hs Hf (ad_changes _ _ A)) as Hs1.
    pose proof (aptr_attr M ls h sh x l SI Hx) as Rx.
    eapply sim_range_cons; [exact Hs1|]. unfold aa_body at 1. steps.
    eapply simb_attr_name; [exact Rx|]. assert (EE : assoc "e" (aa_env av) = Some (VPtr le)) by reflexivity. steps.
    eapply simb_field; [exact Ho|apply HX|]. steps. eapply simb_index_map; [exact Hm|]. rewrite idx_lookup.
    assert (Next : forall h' sh' at' idx' tv' zs', adding h' sh' at' idx' tv' zs' -> sadd (sh, at_, idx) l = (sh', at', idx') ->
      sim (range_with (exec C aa_body) "_" "att" (slice_items av (length (pre ++ [x])) (length xs')) (aa_env av)) h' (Ret tt)
        (fun r h' _ => r = (FNext, aa_env av) /\ exists sh' at' idx' tv' zs',
           fold_left sadd As (sadd (sh, at_, idx) l) = (sh', at', idx') /\ adding h' sh' at' idx' tv' zs')).
    { intros h' sh' at' idx' tv' zs' HG' ->. replace (pre ++ x :: xs') with ((pre ++ [x]) ++ xs') in * by (rewrite <- app_assoc; reflexivity).
      eapply IH; eauto. }
    destruct (idx_get idx (attr_name (deref sh l))) as [i|] eqn:Ei.
    + steps. pose proof (Hr _ _ Ei) as Li. pose proof (all2_length _ _ _ Ha) as La.
      destruct (nth_error zs i) as [z|] eqn:Ez; [|apply nth_error_None in Ez; unfold Sharing.loc in *; lia].
      eapply simb_field; [exact Ho|apply (HF tv)|]. steps. eapply simb_index_slice; [exact Hz|lia|rewrite Nat2Z.id; exact Ez|]. steps.
      destruct (nth_error at_ i) as [e|] eqn:Ee; [|apply nth_error_None in Ee; unfold Sharing.loc in *; lia].
      pose proof (all2_nth _ _ _ Ha i z e Ez Ee) as Hze. pose proof (aptr_attr M ls h sh z e SI Hze) as Rz.
      pose proof (sadd_some sh at_ idx l i e Ei Ee) as Es.
      assert (Repl : exists lt n cs, tv = VSlice lt n /\ i < n /\ nth_error h lt = Some (OArr cs) /\
        adding (set_nth h lt (OArr (set_nth cs i x))) sh (set_nth at_ i l) idx (VSlice lt n) (set_nth zs i x)).
      { pose proof (slice_length _ _ _ Hz) as Lz. pose proof (nth_lt _ _ _ Ez) as Lzi.
        destruct tv; try contradiction; [cbn [slice_is] in Hz; subst zs; destruct i; discriminate|].
        pose proof Hz as (cs & C1 & C2 & C3). exists l0, n, cs. split; [reflexivity|]. subst zs. rewrite firstn_length in Lzi. split; [lia|]. split; [exact C1|].
        apply adding_replace; auto. }
      destruct Repl as (lt & n & cs & Et & Hin & Hlt & HG').
      eapply simb_assert_ok; [apply is_delimited; exact Rz|]. destruct (deref sh e) as [en evs|en|en ed evs] eqn:De.
      * steps. leaves. steps. eapply simb_field; [exact Ho|apply (HF tv)|]. steps. rewrite Et.
        eapply simb_store_slice; [exact Hlt|exact Hin|]. steps. leaves. steps. leaves. eapply Next; [exact HG'|exact Es].
      * steps. leaves. steps. eapply simb_field; [exact Ho|apply (HF tv)|]. steps. rewrite Et.
        eapply simb_store_slice; [exact Hlt|exact Hin|]. steps. leaves. steps. leaves. eapply Next; [exact HG'|exact Es].
      * steps. eapply simb_assert_ok; [apply is_delimited; exact Rx|]. destruct (deref sh l) as [an avs|an|an ad avs] eqn:Dl.
        -- steps. leaves. steps. eapply simb_field; [exact Ho|apply (HF tv)|]. steps. rewrite Et.
           eapply simb_store_slice; [exact Hlt|exact Hin|]. steps. leaves. steps. leaves. eapply Next; [exact HG'|exact Es].
        -- steps. leaves. steps. eapply simb_field; [exact Ho|apply (HF tv)|]. steps. rewrite Et.
           eapply simb_store_slice; [exact Hlt|exact Hin|]. steps. leaves. steps. leaves. eapply Next; [exact HG'|exact Es].
        -- steps. destruct Hze as (p & Hpe & ->). destruct Hx as (q & Hql & ->).
           pose proof (deref_nth sh e p (ad_len _ _ A) Hpe) as Se. pose proof (deref_nth sh l q (ad_len _ _ A) Hql) as Sl. rewrite De in Se. rewrite Dl in Sl.
           pose proof (ad_attr _ _ A e p _ Hpe Se) as Ke. pose proof (ad_attr _ _ A l q _ Hql Sl) as Kl. cbn [kept_attr] in Ke, Kl.
           destruct Ke as (nv & dv & sv & ys & K1 & K2 & K3 & K4 & K5). destruct Kl as (nv' & dv' & sv' & ys' & L1 & L2 & L3 & L4 & L5).
           steps.
           eapply (simb_append_spread M) with (b := 0); [exact K4|destruct sv; try contradiction; cbn [own]; auto using Nat.le_0_l|apply Nat.le_0_l|exact L4|].
           intros h' s' Y1 _ Y3. steps.
           assert (K1' : nth_error h' p = Some (OStruct "delimitedAttribute" [("name"%string, nv); ("delimiter"%string, dv); ("values"%string, sv)])).
           { apply (proj1 (proj2 Y3)); [eapply slice_not_at; eauto|exact K1]. }
           eapply simb_set_field; [exact K1'|reflexivity|]. steps. leaves. steps. leaves. steps. leaves. steps.
           eapply Next; [|exact Es]. cbn [set_assoc String.eqb Ascii.eqb Bool.eqb]. eapply adding_more; eauto.
    + steps. eapply simb_field; [exact Ho|apply HX|]. steps. eapply simb_field; [exact Ho|apply (HF tv)|]. steps.
      eapply simb_store_map; [exact Hm|].
      pose proof (all2_length _ _ _ Ha) as La. rewrite bstore_new by (rewrite idx_lookup, Ei; reflexivity). rewrite La.
      assert (EI : OMap (map (fun '(n, i) => (n, VInt (Z.of_nat i))) idx ++ [(attr_name (deref sh l), VInt (Z.of_nat (length at_)))])
        = idx_obj (idx ++ [(attr_name (deref sh l), length at_)])) by (unfold idx_obj; rewrite map_app; reflexivity).
      rewrite EI. clear EI.
      assert (Ne : li <> le) by (intros ->; unfold idx_obj in Hm; congruence).
      assert (Ho1 : nth_error (set_nth h li (idx_obj (idx ++ [(attr_name (deref sh l), length at_)]))) le = Some (OStruct tag (fs tv)))
        by (rewrite nth_set_other by exact Ne; exact Ho).
      steps. eapply simb_field; [exact Ho1|apply (HF tv)|]. steps.
      eapply simb_append; [apply slice_update; [exact Hz|eapply map_not_at; eauto]|exact Hw| |].
      { rewrite length_set_nth. exact (proj1 (ad_changes _ _ A)). }
      intros h' s' Y1 Y2 Y3 _. steps.
      assert (Ho2 : nth_error h' le = Some (OStruct tag (fs tv))).
      { apply (proj1 (proj2 Y3)); [eapply slice_not_at; eauto|exact Ho1]. }
      eapply simb_set_field; [exact Ho2|apply (HF tv)|]. rewrite (proj2 (HF tv)). steps. leaves. steps. leaves. steps. leaves. steps.
      eapply Next; [|exact (sadd_none sh at_ idx l Ei)]. eapply adding_new; eauto.
Qed.
End Adds.
End Refine.
