(** The translated source of NewElement, NewVoidElement, Element and VoidElement
    (element.go 110-118, 177-216): they do to the Go heap what [Sharing.build]
    does, or panic. *)
From Coq Require Import ZArith Lia.
From Verif Require Import Bytes IO IOFacts Nodes NodeInd Values Render Build Slices Sharing SharingFacts
  GoSyntax Source GoSem GoRun GoRep GoStep GoOwn RefineNode RefineUser RefineIter RefineAttrs RefineStart RefineNew RefineMake RefineGroup GoShare RefineCollect RefineBuild RefineAdd.
Local Open Scope nat_scope.

Section Refine.
Context {W : UserWorld}.
Variable M : go_mode.
Hypothesis MO : mode_ok M.
Notation C := (go_config M).
Notation sim := (sim C).

Lemma aptrs_full ls xs ns : all2 (aptr ls) xs ns -> full xs.
Proof. apply all2_full. intros v y. apply aptr_not_nil. Qed.
(** addAttributes, once the element is there. *)
Lemma addAttributes_spec ls hb le li tag fs av h sh at_ idx tv zs ws As :
  tag = "element"%string \/ tag = "voidElement"%string ->
  length hb <= le -> length hb <= li -> one_field "attributes" fs -> (forall s, assoc "attIndices" (fs s) = Some (VMap li)) ->
  adding M ls hb le li tag fs h sh at_ idx tv zs -> slice_is hb av ws -> all2 (aptr ls) ws As ->
  sim (PCall (CFun (dot tag "addAttributes")) [VPtr le; av] false PRet) h (Ret tt)
    (fun vs h' _ => vs = [VPtr le] /\ exists sh' at' idx' tv' zs',
       fold_left sadd As (sh, at_, idx) = (sh', at', idx') /\ adding M ls hb le li tag fs h' sh' at' idx' tv' zs').
Proof.
  intros HT H1 H2 HF HX HG Hs Hx. pose proof (g_adds _ _ _ _ _ _ _ _ _ _ _ _ _ HG) as A.
  pose proof (slice_changes ls hb h av _ Hs (aptrs_full _ _ _ Hx) (ad_changes _ _ _ _ _ A)) as Hs1.
  destruct HT as [-> | ->]; cbn [dot append]; enter; steps;
  (change (Ret tt) with (bind (@Ret U unit tt) (fun _ => Ret tt)); eapply sim_bind;
    [exact (aa_loop M ls hb le li _ fs H1 H2 HF HX av As h sh at_ idx tv zs [] ws HG Hs (aptrs_full _ _ _ Hx) Hx)|];
   intros r h' _ (-> & HG'); unfold aa_env; steps; apply sim_ret; split; [reflexivity|exact HG']).
Qed.

(** ** The state after collecting *)
Definition conds_of (m : cmem) (Ks : list (nat * slice)) : list (nat * list (condfn U)) := map (fun p => (fst p, slice_elems m (snd p))) Ks.
Lemma creps_conds ls h cl m : mem_rep M h cl m -> forall Ks xs, all2 (crep ls m cl) xs Ks -> all2 (cptr M ls h) xs (conds_of m Ks).
Proof.
  intro I. induction Ks as [|[a s] Ks IH]; intros xs Hx; cbn [all2 conds_of map] in *; [exact Hx|].
  destruct Hx as (x & xs' & -> & (av & sv & -> & H1 & H2) & H3). eexists _, xs'. split; [reflexivity|]. split; [|apply IH, H3].
  destruct (cs_slice M _ _ _ _ _ I H2) as (ys & Y1 & _ & Y3). exists av, sv, ys. auto.
Qed.
Lemma adding_start ls hb sh h2 tv tag fs : sinv M ls hb sh -> grown hb h2 -> slice_is h2 tv [] -> own (length hb) tv ->
  adding M ls hb (length (h2 ++ [OMap []])) (length h2) tag fs ((h2 ++ [OMap []]) ++ [OStruct tag (fs tv)]) sh [] [] tv [].
Proof.
  intros I G Ht Ho. set (h4 := (h2 ++ [OMap []]) ++ [OStruct tag (fs tv)]).
  assert (G4 : grown h2 h4) by (eapply grown_trans; apply grown_app). pose proof (grown_trans _ _ _ G G4) as G'.
  pose proof (sinv_adds M ls hb sh I) as A0.
  assert (A : adds M ls hb h4 sh).
  { apply (adds_frame M ls hb hb h4 sh (fun _ => False)); [exact A0|apply grown_length, G'| |intros l []|intros p sv l _ _ []]. intros l o _. apply grown_nth, G'. }
  constructor; auto.
  - apply nth_app_new.
  - unfold h4. exact (nth_app_old _ _ _ _ (nth_app_new h2 (OMap []))).
  - eapply slice_grown; [exact G4|exact Ht].
  - reflexivity.
  - intros p sv Ip V. assert (V' : vslice hb p sv).
    { eapply vslice_back; [|apply (ad_old _ _ _ _ _ A0 p Ip)|exact V]. intro o. apply grown_nth, G'. }
    pose proof (ad_spare _ _ _ _ _ A0 p sv Ip V') as Sp. destruct tv; cbn [apart]; auto. destruct sv; auto.
    destruct Sp as (cs & H & _). apply nth_lt in H. cbn [own] in Ho. lia.
  - intros nm i. discriminate.
Qed.
Lemma entry_start h : entry M h h [] [].
Proof.
  split; [apply grown_refl|]. split; [|intros l []]. constructor; [reflexivity|constructor|]. intros i l cs H. destruct i; discriminate.
Qed.
Definition build_args (void : bool) (name : bytes) (args : list sarg) (sh : Sharing.heap) (u : U) : (Sharing.heap * snode) * U :=
  let '(ns, u') := scontents args u in (Sharing.build void name ns sh, u').
Definition el_fields (nv li kv ov t : gv) : list (string * gv) :=
  [("name"%string, nv); ("attributes"%string, t); ("attIndices"%string, li); ("conditionals"%string, kv); ("contents"%string, ov)].
Definition vo_fields (nv li kv t : gv) : list (string * gv) :=
  [("name"%string, nv); ("attributes"%string, t); ("attIndices"%string, li); ("conditionals"%string, kv)].
Definition element_made (ls : list loc) (h : heap) (vs : list gv) (h' : heap) (r : Sharing.heap * snode) : Prop :=
  exists v, vs = [v] /\ sinv M ls h' (fst r) /\ srep M ls h' v (snd r) /\ changes ls h h' /\ spares ls h h'.

Lemma build_eq void name ns sh As Ks m' (sh' : Sharing.heap) (at' : list nat) idx' :
  scollect_all nil_slice ns [] = (As, Ks, m') -> fold_left sadd As (sh, [], []) = (sh', at', idx') ->
  Sharing.build void name ns sh = (sh', if void then SVoid name at' idx' (conds_of m' Ks) else SElement name at' idx' (conds_of m' Ks) (others_of ns)).
Proof. intros H1 H2. unfold Sharing.build, conds_of. rewrite H1. unfold Sharing.loc in *. rewrite H2. reflexivity. Qed.
Lemma NewElement_spec ls h sh nv name cv xs args : sinv M ls h sh -> bytes_of nv = Some name -> slice_is h cv xs -> all2 (sarg_rep M ls h) xs args ->
  sim (PCall (CFun "aitch.NewElement") [nv; cv] true PRet) h (cb (build_args false name args sh)) (element_made ls h).
Proof.
  intros I Hn Hs Hx. enter. steps.
  apply sim_model_eq with (bind (cb (scontents args)) (fun ns => Ret (Sharing.build false name ns sh))).
  { intros E w. unfold cb, build_args. cbn [bind run]. destruct (scontents args (w_u w)); reflexivity. }
  eapply simb_pcall; [apply (contentsToNodes_spec M MO ls h sh cv xs args I Hs Hx)|].
  intros vs h1 ns (s & ys & -> & Y1 & Y2 & G1). pose proof (sinv_grown M _ _ _ _ I G1) as I1. steps.
  change (Ret (Sharing.build false name ns sh)) with (bind (@Ret U unit tt) (fun _ => Ret (Sharing.build false name ns sh))).
  eapply simb_pcall; [apply (attributesAndContents_spec M ls h1 sh I1 ns h1 [] [] VNil nil_slice s ys (entry_start h1)); [left; auto|exact Y1|exact Y2]|].
  intros vs h2 _ (av & kv & ov & y & m' & As & Ks & -> & ES & _ & HG).
  pose proof (going_entry M ls h1 h1 [] [] h2 _ _ _ _ _ _ _ _ (entry_start h1) HG) as (G2 & MR & _).
  pose proof (sinv_grown M _ _ _ _ I1 G2) as I2.
  destruct HG as (_ & _ & _ & (aw & A1 & _ & _ & A4) & (kw & K1 & _ & _ & K4) & (ow & O1 & _ & _ & O4) & _).
  steps.
  eapply simb_make_new; [reflexivity|]. intros tv h3 T1 T2 _ G3. pose proof (slice_grown _ _ _ _ G3 A1) as A1'. steps.
  eapply simb_make_map; [reflexivity|]. steps.
  pose proof (adding_start ls h2 sh h3 tv "element" (el_fields nv (VMap (length h3)) kv ov) I2 G3 T1 T2) as HA.
  change (Ret (Sharing.build false name ns sh)) with (bind (@Ret U unit tt) (fun _ => Ret (Sharing.build false name ns sh))).
  eapply simb_method; [apply nth_app_new|reflexivity|reflexivity|]. 
  eapply simb_pcall; [eapply (addAttributes_spec ls h2 _ (length h3) "element" (el_fields nv (VMap (length h3)) kv ov)); [auto| | | | |exact HA|exact A1|exact A4]|].
  { rewrite app_length. pose proof (grown_length _ _ G3). lia. }
  { pose proof (grown_length _ _ G3). lia. }
  { intro t. split; reflexivity. }
  { reflexivity. }
  intros vs h' _ (-> & sh' & at' & idx' & tv' & zs' & EF & HG). steps. apply sim_ret.
  rewrite (build_eq _ _ _ _ _ _ _ _ _ _ ES EF). eexists. split; [reflexivity|]. cbn [fst snd].
  pose proof (g_adds _ _ _ _ _ _ _ _ _ _ _ _ _ HG) as AD. pose proof (ad_changes _ _ _ _ _ AD) as Ch.
  split; [eapply adds_sinv; exact AD|]. split.
  - cbn [srep]. eexists _, nv, tv', (VMap (length h3)), kv, ov, zs', kw, ow. split; [reflexivity|].
    split; [exact (g_obj _ _ _ _ _ _ _ _ _ _ _ _ _ HG)|]. split; [exact Hn|]. split; [exact (g_slice _ _ _ _ _ _ _ _ _ _ _ _ _ HG)|].
    split; [exact (g_zs _ _ _ _ _ _ _ _ _ _ _ _ _ HG)|]. split; [eexists; split; [reflexivity|exact (g_map _ _ _ _ _ _ _ _ _ _ _ _ _ HG)]|].
    pose proof (creps_conds ls h2 _ m' MR _ _ K4) as CC.
    split; [eapply slice_changes; [exact K1| |exact Ch]; eapply all2_full; [|exact CC]; intros v c; apply cptr_not_nil|].
    split; [eapply all2_mono; [|exact CC]; intros v c; apply cptr_changes; exact Ch|].
    assert (OC : all2 (srep M ls h2) ow (others_of ns)) by (eapply all2_mono; [|exact O4]; intros v c; apply srep_grown; exact G2).
    split; [eapply slice_changes; [exact O1| |exact Ch]; eapply all2_full; [|exact OC]; intros v c; apply srep_not_nil|].
    eapply all2_mono; [|exact OC]. intros v c. apply srep_changes. exact Ch.
  - split; [eapply changes_trans; [apply changes_grown; exact G1|]; eapply changes_trans; [apply changes_grown; exact G2|exact Ch]|].
    eapply spares_trans; [eapply spares_grown; [exact I|exact G1]|]. eapply spares_trans; [eapply spares_grown; [exact I1|exact G2]|exact (ad_free _ _ _ _ _ AD)].
Qed.
Lemma NewVoidElement_spec ls h sh nv name cv xs args : sinv M ls h sh -> bytes_of nv = Some name -> slice_is h cv xs -> all2 (sarg_rep M ls h) xs args ->
  sim (PCall (CFun "aitch.NewVoidElement") [nv; cv] true PRet) h (cb (build_args true name args sh)) (element_made ls h).
Proof.
  intros I Hn Hs Hx. enter. steps.
  apply sim_model_eq with (bind (cb (scontents args)) (fun ns => Ret (Sharing.build true name ns sh))).
  { intros E w. unfold cb, build_args. cbn [bind run]. destruct (scontents args (w_u w)); reflexivity. }
  eapply simb_pcall; [apply (contentsToNodes_spec M MO ls h sh cv xs args I Hs Hx)|].
  intros vs h1 ns (s & ys & -> & Y1 & Y2 & G1). pose proof (sinv_grown M _ _ _ _ I G1) as I1. steps.
  change (Ret (Sharing.build true name ns sh)) with (bind (@Ret U unit tt) (fun _ => Ret (Sharing.build true name ns sh))).
  eapply simb_pcall; [apply (attributesAndContents_spec M ls h1 sh I1 ns h1 [] [] VNil nil_slice s ys (entry_start h1)); [left; auto|exact Y1|exact Y2]|].
  intros vs h2 _ (av & kv & ov & y & m' & As & Ks & -> & ES & _ & HG).
  pose proof (going_entry M ls h1 h1 [] [] h2 _ _ _ _ _ _ _ _ (entry_start h1) HG) as (G2 & MR & _).
  pose proof (sinv_grown M _ _ _ _ I1 G2) as I2.
  destruct HG as (_ & _ & _ & (aw & A1 & _ & _ & A4) & (kw & K1 & _ & _ & K4) & (ow & O1 & _ & _ & O4) & _).
  steps.
  eapply simb_make_new; [reflexivity|]. intros tv h3 T1 T2 _ G3. pose proof (slice_grown _ _ _ _ G3 A1) as A1'. steps.
  eapply simb_make_map; [reflexivity|]. steps.
  pose proof (adding_start ls h2 sh h3 tv "voidElement" (vo_fields nv (VMap (length h3)) kv) I2 G3 T1 T2) as HA.
  change (Ret (Sharing.build true name ns sh)) with (bind (@Ret U unit tt) (fun _ => Ret (Sharing.build true name ns sh))).
  eapply simb_method; [apply nth_app_new|reflexivity|reflexivity|]. 
  eapply simb_pcall; [eapply (addAttributes_spec ls h2 _ (length h3) "voidElement" (vo_fields nv (VMap (length h3)) kv)); [auto| | | | |exact HA|exact A1|exact A4]|].
  { rewrite app_length. pose proof (grown_length _ _ G3). lia. }
  { pose proof (grown_length _ _ G3). lia. }
  { intro t. split; reflexivity. }
  { reflexivity. }
  intros vs h' _ (-> & sh' & at' & idx' & tv' & zs' & EF & HG). steps. apply sim_ret.
  rewrite (build_eq _ _ _ _ _ _ _ _ _ _ ES EF). eexists. split; [reflexivity|]. cbn [fst snd].
  pose proof (g_adds _ _ _ _ _ _ _ _ _ _ _ _ _ HG) as AD. pose proof (ad_changes _ _ _ _ _ AD) as Ch.
  split; [eapply adds_sinv; exact AD|]. split.
  - cbn [srep]. eexists _, nv, tv', (VMap (length h3)), kv, zs', kw. split; [reflexivity|].
    split; [exact (g_obj _ _ _ _ _ _ _ _ _ _ _ _ _ HG)|]. split; [exact Hn|]. split; [exact (g_slice _ _ _ _ _ _ _ _ _ _ _ _ _ HG)|].
    split; [exact (g_zs _ _ _ _ _ _ _ _ _ _ _ _ _ HG)|]. split; [eexists; split; [reflexivity|exact (g_map _ _ _ _ _ _ _ _ _ _ _ _ _ HG)]|].
    pose proof (creps_conds ls h2 _ m' MR _ _ K4) as CC.
    split; [eapply slice_changes; [exact K1| |exact Ch]; eapply all2_full; [|exact CC]; intros v c; apply cptr_not_nil|].
    eapply all2_mono; [|exact CC]; intros v c; apply cptr_changes; exact Ch.
  - split; [eapply changes_trans; [apply changes_grown; exact G1|]; eapply changes_trans; [apply changes_grown; exact G2|exact Ch]|].
    eapply spares_trans; [eapply spares_grown; [exact I|exact G1]|]. eapply spares_trans; [eapply spares_grown; [exact I1|exact G2]|exact (ad_free _ _ _ _ _ AD)].
Qed.

(** ** Names are checked *)

(** What a constructor does to the attributes [ls], when it does not fail: the
    heap of the model is [sh'] then, and the node is represented (nil for
    [None]). *)
Definition builds (ls : list loc) (p : prog (list gv)) (h : heap) (r : U -> outcome ((Sharing.heap * option snode) * U)) : Prop :=
  forall E w, ord_ok (e_ord E) ->
  match r (w_u w) with
  | Done ((sh', n), u') =>
      exists fuel v h' x, go_run C fuel E p h w = Some (ROk [v] h' (World (w_log w) u' (w_tick w))) /\
        sinv M (ls ++ x) h' sh' /\ (forall l, In l x -> length h <= l) /\ changes ls h h' /\ opt_of (srep M (ls ++ x) h') v n
  | Panic => exists fuel w', go_run C fuel E p h w = Some (RPanic w')
  end.
Lemma builds_element ls p h (mk : U -> (Sharing.heap * snode) * U) : sim p h (cb mk) (element_made ls h) ->
  builds ls p h (fun u => let '((sh', n), u') := mk u in Done ((sh', Some n), u')).
Proof.
  intros H E w O. destruct (sim_never _ _ _ _ _ H E w O) as (n & a & h' & RR & v & -> & H1 & H2 & H3 & _). unfold cb in *. cbn [run] in *.
  destruct (mk (w_u w)) as [[sh' nd] u']. cbn [run fst snd] in *. exists n, v, h', []. rewrite app_nil_r. split; [exact RR|]. split; [exact H1|]. split; [intros l []|]. auto.
Qed.
Lemma builds_nil ls sh p h : sinv M ls h sh -> sim p h (Ret tt) (fun vs h' _ => vs = [VNil] /\ grown h h') -> builds ls p h (fun u => Done ((sh, None), u)).
Proof.
  intros I H E w O. destruct (sim_never _ _ _ _ _ H E w O) as (n & a & h' & RR & -> & G). cbn [run fst snd] in *. exists n, VNil, h', []. rewrite app_nil_r.
  destruct w. split; [exact RR|]. split; [eapply sinv_grown; eauto|]. split; [intros l []|]. split; [apply changes_grown, G|reflexivity].
Qed.
Lemma builds_panic ls p h : pan C p h -> builds ls p h (fun _ => Panic).
Proof. intros H E w O. apply H, O. Qed.
Lemma builds_eq ls p h r r' : (forall u, r u = r' u) -> builds ls p h r -> builds ls p h r'.
Proof. intros E H E' w O. rewrite <- E. apply H, O. Qed.

Definition checked_build (name : bytes) (sh : Sharing.heap) (mk : U -> (Sharing.heap * snode) * U) (u : U) : outcome ((Sharing.heap * option snode) * U) :=
  if valid_name name then let '((sh', n), u') := mk u in Done ((sh', Some n), u')
  else if m_panics M then Panic else Done ((sh, None), u).
Ltac check := (eapply simb_eq; [apply glob_regex|]); steps; apply simb_matches; steps.
Definition void_map : list (bytes * gv) := map (fun n => (n, VStruct "struct{}" [])) void_element_names.
Lemma glob_void : global C "aitch.voidElementNames" = pbind (alloc (OMap void_map)) (fun l => PRet (VMap l)).
Proof. reflexivity. Qed.
Lemma void_lookup name : bassoc name void_map = if bmem name void_element_names then Some (VStruct "struct{}" []) else None.
Proof.
  unfold void_map. induction void_element_names as [|n l IH]; [reflexivity|]. cbn [map bassoc bmem existsb].
  rewrite (beq_sym n name).
  destruct (beq name n); [reflexivity|exact IH].
Qed.
Lemma VoidElement_builds ls h sh name cv xs args : sinv M ls h sh -> slice_is h cv xs -> all2 (sarg_rep M ls h) xs args ->
  builds ls (PCall (CFun "aitch.VoidElement") [VStr name; cv] true PRet) h (checked_build name sh (build_args true name args sh)).
Proof.
  intros I Hs Hx. unfold checked_build. destruct (valid_name name) eqn:V; [|destruct (m_panics M) eqn:Pm].
  - apply builds_element. enter. steps. check. rewrite V. steps. eapply simb_last; [eapply NewVoidElement_spec; [exact I|reflexivity|exact Hs|exact Hx]|].
    intros vs h' b (v & -> & Y). steps. apply sim_ret. exists v. auto.
  - apply builds_panic. apply sim_pan with (B := unit) (m := Ret tt). enter. steps. check. rewrite V. steps.
    change (c_panics C) with (m_panics M). rewrite Pm. steps. apply simb_panic, may.
  - apply builds_nil; [exact I|]. enter. steps. check. rewrite V. steps. change (c_panics C) with (m_panics M). rewrite Pm. steps. apply sim_ret.
    split; [reflexivity|apply grown_refl].
Qed.
Lemma sarg_grown ls h h' v a : grown h h' -> sarg_rep M ls h v a -> sarg_rep M ls h' v a.
Proof. intro G. destruct a; cbn [sarg_rep]; [apply srep_grown, G|]. intros [H1 H2]. split; [exact H1|]. eapply arg_grown; eauto. Qed.
Lemma element_made_grown ls h h1 sh vs h' r : sinv M ls h sh -> grown h h1 -> element_made ls h1 vs h' r -> element_made ls h vs h' r.
Proof.
  intros I G (v & H1 & H2 & H3 & H4 & H5). exists v. repeat (split; [assumption|]). split; [eapply changes_trans; [apply changes_grown, G|exact H4]|].
  eapply spares_trans; [eapply spares_grown; eauto|exact H5].
Qed.
Lemma Element_builds ls h sh name cv xs args : sinv M ls h sh -> slice_is h cv xs -> all2 (sarg_rep M ls h) xs args ->
  builds ls (PCall (CFun "aitch.Element") [VStr name; cv] true PRet) h
    (checked_build name sh (build_args (bmem name void_element_names) name args sh)).
Proof.
  intros I Hs Hx. unfold checked_build. destruct (valid_name name) eqn:V; [|destruct (m_panics M) eqn:Pm].
  - apply builds_element. enter. steps. check. rewrite V. steps.
    eapply simb_eq; [apply glob_void|]. steps. eapply simb_index_map; [apply nth_app_new|]. rewrite void_lookup.
    pose proof (grown_app h [OMap void_map]) as G.
    pose proof (sinv_grown M _ _ _ _ I G) as I1. pose proof (slice_grown _ _ _ _ G Hs) as Hs1.
    assert (Hx1 : all2 (sarg_rep M ls (h ++ [OMap void_map])) xs args) by (eapply all2_mono; [|exact Hx]; intros v a; apply sarg_grown, G).
    destruct (bmem name void_element_names); steps.
    + eapply simb_last; [eapply NewVoidElement_spec; [exact I1|reflexivity|exact Hs1|exact Hx1]|].
      intros vs h' b Y. pose proof (element_made_grown _ _ _ _ _ _ _ I G Y) as Y'. destruct Y as (v & -> & _). steps. apply sim_ret. exact Y'.
    + eapply simb_last; [eapply NewElement_spec; [exact I1|reflexivity|exact Hs1|exact Hx1]|].
      intros vs h' b Y. pose proof (element_made_grown _ _ _ _ _ _ _ I G Y) as Y'. destruct Y as (v & -> & _). steps. apply sim_ret. exact Y'.
  - apply builds_panic. apply sim_pan with (B := unit) (m := Ret tt). enter. steps. check. rewrite V. steps.
    change (c_panics C) with (m_panics M). rewrite Pm. steps. apply simb_panic, may.
  - apply builds_nil; [exact I|]. enter. steps. check. rewrite V. steps. change (c_panics C) with (m_panics M). rewrite Pm. steps. apply sim_ret.
    split; [reflexivity|apply grown_refl].
Qed.
End Refine.
