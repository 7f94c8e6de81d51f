(** The translated source of imperative.go does what the model says, provided the
    nodes given to it do; all but Start, which is in RefineStart.v. *)
From Coq Require Import ZArith Lia.
From Verif Require Import Bytes IO IOFacts Nodes NodeInd Values Escape Render Build SpecOut Slices GoSyntax Source GoSem GoRun GoRep GoStep GoOwn RefineValue RefineNode RefineUser RefineIter RefineEscape.
Local Open Scope nat_scope.

Section Refine.
Context {W : UserWorld}.
Context {FL : floor}.
Variable M : go_mode.
Notation C := (go_config M).
Notation sim := (sim C).
Notation node_spec := (node_spec M).

(** The imperativeContext at [li]; the stack of the model is innermost first. *)
Definition ic_obj (lc : loc) (sv : gv) : obj :=
  OStruct "imperativeContext" [("ctx"%string, VPtr lc); ("openedStack"%string, sv)].
Definition ic_at (h0 h : heap) (li lc : loc) (fr : frame U) (e : option error) (stack : list bytes) : Prop :=
  kept lc h0 h /\ ctx_at h lc fr e /\ length h0 <= li /\
  exists sv, nth_error h li = Some (ic_obj lc sv) /\ slice_is h sv (map VBytes (rev stack)) /\ own (length h0) sv.

Lemma ic_kept h0 h h' li lc fr e e' stack :
  ic_at h0 h li lc fr e stack -> kept lc h h' -> ctx_at h' lc fr e' -> ic_at h0 h' li lc fr e' stack.
Proof.
  intros (K0 & HC & L & sv & H1 & H2 & H3) K HC'. split; [eapply kept_trans; eauto|]. split; [exact HC'|]. split; [exact L|].
  exists sv. split; [apply (kept_keeps _ _ _ K); [discriminate|exact H1]|]. split; [|exact H3]. eapply slice_keeps; [eapply kept_keeps; eauto|exact H2].
Qed.
Lemma ic_grown h0 h h' li lc fr e stack : ic_at h0 h li lc fr e stack -> grown h h' -> ic_at h0 h' li lc fr e stack.
Proof.
  intros I G. pose proof I as (_ & HC & _). eapply ic_kept; [exact I|eapply grown_kept; eauto|eapply ctx_grown; eauto].
Qed.

(** A new value of openedStack. *)
Lemma ic_stack h0 h li lc fr e stack stack' sv sv' h1 :
  ic_at h0 h li lc fr e stack -> nth_error h li = Some (ic_obj lc sv) -> appended sv h sv' h1 \/ h1 = h ->
  nth_error h1 li = Some (ic_obj lc sv) ->
  slice_is h1 sv' (map VBytes (rev stack')) -> own (length h0) sv' ->
  ic_at h0 (set_nth h1 li (ic_obj lc sv')) li lc fr e stack'.
Proof.
  intros (K0 & HC & L & sv0 & H1 & H2 & H3) Ho HA Ho1 Hs' Ho'. rewrite H1 in Ho. inversion Ho; subst sv0. clear Ho.
  assert (SB : same_below (length h0) h h1). { destruct HA as [HA| ->]; [eapply appended_same; [exact H3|exact HA]|apply same_refl]. }
  assert (SB2 : same_below (length h0) h (set_nth h1 li (ic_obj lc sv'))) by (eapply same_trans; [exact SB|apply same_update; exact L]).
  split; [eapply kept_same; eauto|]. split; [eapply ctx_same; [exact HC|eapply kept_lt; eauto|exact SB2]|]. split; [exact L|].
  exists sv'. split; [apply nth_set_same; eapply nth_lt; eauto|]. split; [|exact Ho'].
  apply slice_update; [exact Hs'|]. destruct sv'; try exact I. cbn [not_at]. intros ->. destruct Hs' as (cs & X & _). rewrite Ho1 in X. discriminate.
Qed.

Ltac enter_call := unfold call; cbn [pbind]; enter.

(** Context *)
Lemma simb_context {A' B} h0 h li lc fr e stack (f : list gv -> prog A') (m : io U B) Q :
  ic_at h0 h li lc fr e stack -> sim (f [VPtr lc]) h m Q ->
  sim (pbind (call "imperativeContext.Context" [VPtr li] false) f) h m Q.
Proof. intros (K0 & HC & L & sv & H1 & H2 & H3) K. enter_call. steps. exact K. Qed.

(** WriteString and WriteRaw *)
Lemma simb_write_string {A' B} h0 h li lc fr e stack s (f : list gv -> prog A') (g : option error -> io U B) Q :
  ic_at h0 h li lc fr e stack ->
  (forall h' e' vs, ic_at h0 h' li lc fr e' stack -> sim (f vs) h' (g e') Q) ->
  sim (pbind (call "imperativeContext.WriteString" [VPtr li; VStr s] false) f) h (bind (ctx_write (html_escape_string s) e) g) Q.
Proof.
  intros I K. pose proof I as (K0 & HC & L & sv & H1 & H2 & H3). enter_call. steps.
  apply simb_escape_f; [destruct I as (? & ? & _); floored|]. intros h1 G1. pose proof (ic_grown _ _ _ _ _ _ _ _ I G1) as I1. pose proof I1 as (_ & HC1 & _). steps.
  eapply simb_ctx_write; [exact HC1|reflexivity|]. intros h2 e2 K2 HC2. steps. apply K. eapply ic_kept; eauto.
Qed.
Lemma simb_write_raw {A' B} h0 h li lc fr e stack s (f : list gv -> prog A') (g : option error -> io U B) Q :
  ic_at h0 h li lc fr e stack ->
  (forall h' e' vs, ic_at h0 h' li lc fr e' stack -> sim (f vs) h' (g e') Q) ->
  sim (pbind (call "imperativeContext.WriteRaw" [VPtr li; VBytes s] false) f) h (bind (ctx_write s e) g) Q.
Proof.
  intros I K. pose proof I as (K0 & HC & L & sv & H1 & H2 & H3). enter_call. steps.
  eapply simb_ctx_write; [exact HC|reflexivity|]. intros h2 e2 K2 HC2. steps. apply K. eapply ic_kept; eauto.
Qed.

(** WriteNodes *)
Lemma node_loop lc fr sv li st en : assoc "ic" en = Some (VPtr li) ->
  forall ns, Forall (SpecOut.opt node_spec) ns -> SpecOut.all (SpecOut.opt SpecOut.tables_ok) ns ->
  forall h e pre xs, nth_error h li = Some (ic_obj lc st) -> ctx_at h lc fr e -> slice_is h sv (pre ++ xs) -> all2 (opt_rep M h) xs ns ->
  sim (range_with (exec C (content_body "node" (EField (ELoc "ic") "ctx"))) "_" "node" (slice_items sv (length pre) (length xs)) en)
    h (each_content_ignore (fun c e => render c fr e) ns e)
    (fun r h' e' => r = (FNext, en) /\ went lc fr h h' e').
Proof.
  intros He ns. induction 1 as [|c cs Hc _ IH]; intros T h e pre xs Hi HC Hs Hcs; cbn [all2] in Hcs.
  - subst xs. cbn [length slice_items seq map range_with each_content_ignore]. apply sim_ret.
    split; [auto|]. split; [kept_chain|exact HC].
  - destruct T as [T1 T2]. destruct Hcs as (x & xs' & -> & Hx & Hcs). cbn [length]. eapply sim_range_cons; [exact Hs|].
    destruct c as [c|]; cbn [opt_rep SpecOut.opt] in *.
    + steps. rewrite (equal_nil x) by (eapply node_not_nil; eauto). steps.
      eapply simb_type; [exact Hx|]. intros z Hz. steps. rewrite Hz. cbn [each_content_ignore].
      destruct (is_attr c).
      * steps. next_turn Hs IH; auto.
      * steps. eapply simb_node; eauto. intros h1 x1 e1 K1 HC1. carry K1.
        apply (all2_mono _ _ _ _ (fun x y => opt_keeps M _ _ x y (kept_keeps _ _ _ K1))) in Hcs. steps.
        next_turn Hs IH; auto. intros r h' b (H1 & H3 & H4). split; [auto|]. split; [kept_chain|exact H4].
    + subst x. steps. next_turn Hs IH; auto.
Qed.
Lemma simb_write_nodes {A' B} h0 h li lc fr e stack s xs ns (f : list gv -> prog A') (g : option error -> io U B) Q :
  ic_at h0 h li lc fr e stack -> slice_is h s xs -> all2 (opt_rep M h) xs ns ->
  Forall (SpecOut.opt node_spec) ns -> SpecOut.all (SpecOut.opt SpecOut.tables_ok) ns ->
  (forall h' e' vs, ic_at h0 h' li lc fr e' stack -> sim (f vs) h' (g e') Q) ->
  sim (pbind (call "imperativeContext.WriteNodes" [VPtr li; s] true) f) h (bind (each_content_ignore (fun c e => render c fr e) ns e) g) Q.
Proof.
  intros I Hs Hx HN T K. pose proof I as (K0 & HC & L & sv & H1 & H2 & H3). enter_call. steps.
  eapply sim_bind; [eapply (fun H => node_loop lc fr s li sv _ H ns HN T h e [] xs); eauto|].
  intros r h2 e2 (-> & K2 & HC2). steps. apply K. eapply ic_kept; eauto.
Qed.

(** End and EndAll *)
Lemma simb_sub {A' B} s xs h b n (f : gv -> prog A') (m : io U B) Q :
  slice_is h s xs -> own b s -> n <= length xs ->
  (forall s', slice_is h s' (firstn n xs) -> own b s' -> sim (f s') h m Q) ->
  sim (pbind (sub_slice s None (Some (VInt (Z.of_nat n)))) f) h m Q.
Proof.
  intros Hs Ho Hn K. destruct s; try contradiction.
  - cbn [slice_is] in Hs. subst xs. assert (n = 0) as -> by (cbn [length] in Hn; lia). apply K; [reflexivity|exact I].
  - pose proof (slice_length _ _ _ Hs) as L. destruct Hs as (cs & H1 & H2 & ->). cbn [sub_slice].
    rewrite (proj2 (Z.leb_le _ _)) by lia. rewrite Nat2Z.id. apply sim_assoc. eapply simb_load; [exact H1|]. cbn beta iota.
    rewrite (proj2 (Nat.leb_le _ _)) by lia. apply K; [|exact Ho]. exists cs. split; [auto|]. split; [lia|].
    rewrite firstn_firstn. f_equal. lia.
Qed.
Lemma simb_end {A' B} h0 h li lc fr e stack (f : list gv -> prog A') (g : list bytes -> option error -> io U B) Q :
  ic_at h0 h li lc fr e stack ->
  (forall h' e' st' vs, ic_at h0 h' li lc fr e' st' -> sim (f vs) h' (g st' e') Q) ->
  sim (pbind (call "imperativeContext.End" [VPtr li] false) f) h
    (match stack with [] => g stack e | n :: s => e <- close_tag n e ;; g s e end) Q.
Proof.
  intros I K. pose proof I as (K0 & HC & L & sv & H1 & H2 & H3). enter_call. steps. rewrite map_length, rev_length.
  steps. rewrite pos_of_nat. destruct stack as [|n s]; cbn [length Nat.ltb Nat.leb].
  - steps. apply K. exact I.
  - steps. replace (Z.of_nat (S (length s)) - 1)%Z with (Z.of_nat (length s)) by lia. unfold close_tag.
    apply sim_model_assoc. eapply simb_ctx_write; [exact HC|reflexivity|]. intros h1 e1 K1 HC1. pose proof (ic_kept _ _ _ _ _ _ _ _ _ I K1 HC1) as I1. carry K1. steps.
    eapply simb_index_slice; [exact H2|lia| |].
    { rewrite Nat2Z.id. cbn [rev]. rewrite map_app, nth_error_app2 by (rewrite map_length, rev_length; lia).
      rewrite map_length, rev_length, Nat.sub_diag. reflexivity. }
    steps. apply sim_model_assoc. eapply simb_ctx_write; [exact HC1|reflexivity|]. intros h2 e2 K2 HC2. pose proof (ic_kept _ _ _ _ _ _ _ _ _ I1 K2 HC2) as I2. carry K2. steps.
    eapply simb_ctx_write; [exact HC2|reflexivity|]. intros h3 e3 K3 HC3. pose proof (ic_kept _ _ _ _ _ _ _ _ _ I2 K3 HC3) as I3. carry K3. steps.
    eapply simb_sub; [exact H2|exact H3|rewrite map_length, rev_length; cbn [length]; lia|]. intros s' Hs' Ho'.
    rewrite firstn_map in Hs'. cbn [rev] in Hs'. rewrite firstn_app, rev_length, Nat.sub_diag, firstn_O, app_nil_r, firstn_all2 in Hs' by (rewrite rev_length; lia).
    steps. eapply simb_set_field_f; [floored|exact H1|reflexivity|]. lazy [set_assoc String.eqb Ascii.eqb Bool.eqb]. steps.
    apply K. eapply (ic_stack h0 h3); eauto.
Qed.

Lemma simb_end_all {A' B} h0 h li lc fr e stack (f : list gv -> prog A') (g : option error -> io U B) Q :
  ic_at h0 h li lc fr e stack ->
  (forall h' e' vs, ic_at h0 h' li lc fr e' [] -> sim (f vs) h' (g e') Q) ->
  sim (pbind (call "imperativeContext.EndAll" [VPtr li] false) f) h (bind (close_all stack e) g) Q.
Proof.
  intros I K. pose proof I as (K0 & HC & L & sv & H1 & H2 & H3). enter_call. steps. rewrite map_length, rev_length. steps.
  lazymatch goal with |- @GoRun.sim _ _ _ _ _ _ (pbind (PLoop ?b _ ?k) ?F) _ _ _ => remember b as bd eqn:Ebd; set (kk := k); set (FF := F) end.
  assert (G : forall s done h e, stack = done ++ s -> ic_at h0 h li lc fr e stack -> 
     sim (pbind (PLoop bd [("i"%string, VInt (Z.of_nat (length s) - 1)); ("ic"%string, VPtr li)] kk) FF) h (bind (close_all s e) g) Q).
  2:{ apply (G stack [] h e eq_refl I). }
  clear h e I K0 HC L sv H1 H2 H3. induction s as [|n s IH]; intros done h e Hd I; pose proof I as (K0 & HC & L & sv & H1 & H2 & H3).
  - apply simb_loop. eapply simb_eq; [rewrite Ebd; reflexivity|]. steps. cbn [length Z.of_nat Z.sub Z.opp Z.add Z.leb Z.compare]. steps. subst kk FF. steps.
    eapply simb_set_field_f; [floored|exact H1|reflexivity|]. lazy [set_assoc String.eqb Ascii.eqb Bool.eqb]. steps. cbn [close_all bind].
    apply K. eapply (ic_stack h0 h li lc fr e stack [] sv VNil h); eauto; reflexivity || exact Logic.I.
  - replace (Z.of_nat (length (n :: s)) - 1)%Z with (Z.of_nat (length s)) by (cbn [length]; lia).
    apply simb_loop. eapply simb_eq; [rewrite Ebd; reflexivity|]. steps.
    rewrite (proj2 (Z.leb_le _ _)) by lia. steps. cbn [close_all]. unfold close_tag. 
    repeat apply sim_model_assoc. eapply simb_ctx_write; [exact HC|reflexivity|]. intros h1 e1 K1 HC1. pose proof (ic_kept _ _ _ _ _ _ _ _ _ I K1 HC1) as I1. carry K1. steps.
    eapply simb_index_slice; [exact H2|lia| |].
    { rewrite Nat2Z.id, Hd, rev_app_distr. cbn [rev]. rewrite <- app_assoc, map_app, nth_error_app2 by (rewrite map_length, rev_length; lia).
      rewrite map_length, rev_length, Nat.sub_diag. reflexivity. }
    steps. repeat apply sim_model_assoc. eapply simb_ctx_write; [exact HC1|reflexivity|]. intros h2 e2 K2 HC2. pose proof (ic_kept _ _ _ _ _ _ _ _ _ I1 K2 HC2) as I2. carry K2. steps.
    eapply simb_ctx_write; [exact HC2|reflexivity|]. intros h3 e3 K3 HC3. pose proof (ic_kept _ _ _ _ _ _ _ _ _ I2 K3 HC3) as I3. carry K3. steps.
    apply (IH (done ++ [n])); [rewrite <- app_assoc; exact Hd|exact I3].
Qed.

End Refine.
