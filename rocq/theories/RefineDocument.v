(** html.Document (html/document.go 32-46) and the element constructors that it
    calls, on the heap of the Go source, with attributes that are shared. *)
From Coq Require Import ZArith Lia.
From Verif Require Import Bytes IO IOFacts Nodes NodeInd Values Render Build SpecOut AttrFacts Slices Sharing SharingFacts Programs ProgramFacts
  GoSyntax Source GoSem GoRun GoRep GoStep GoOwn RefineNode RefineUser RefineIter RefineAttrs RefineStart RefineNew RefineMake RefineGroup GoShare RefineCollect RefineBuild RefineAdd RefineNewElement.
Local Open Scope nat_scope.

Section Document.
Context {W : UserWorld}.
Variable M : go_mode.
Hypothesis MO : mode_ok M.
Notation C := (go_config M).
Notation sim := (sim C).

(** A new attribute. *)
Lemma sinv_attr ls h h' sh l a : sinv M ls h sh -> grown h h' -> length h <= l -> attr_rep M h' (VPtr l) a -> tidy (length h) h' l ->
  sinv M (ls ++ [l]) h' (sh ++ [a]).
Proof.
  intros I G Hl Ha Ht. pose proof (sinv_grown M _ _ _ _ I G) as I'.
  assert (Old : forall p, In p ls -> p < length h).
  { intros p Hp. apply In_nth_error in Hp. destruct Hp as [i Hp]. destruct (nth_error sh i) as [b|] eqn:E.
    - pose proof (si_attr _ _ _ _ I i p b Hp E) as R. destruct b; cbn [attr_rep] in R; split_all; match goal with H : VPtr _ = VPtr _ |- _ => injection H as -> end; eapply nth_lt; eauto.
    - apply nth_error_None in E. rewrite <- (si_len _ _ _ _ I) in E. apply nth_lt in Hp. lia. }
  assert (OS : forall p sv, In p ls -> vslice h' p sv -> spare h sv).
  { intros p sv Hp (fs & H1 & H2). apply (si_spare _ _ _ _ I p sv Hp). exists fs. split; [|exact H2].
    specialize (Old p Hp). destruct (nth_error h p) as [o|] eqn:E; [|apply nth_error_None in E; lia].
    rewrite (grown_nth _ _ _ _ G E) in H1. exact H1. }
  assert (AP : forall p sv sw, In p ls -> vslice h' p sv -> vslice h' l sw -> apart sv sw).
  { intros p sv sw Hp Hv (fs & H1 & H2). destruct (Ht fs sw H1 H2) as [Hw _]. specialize (OS p sv Hp Hv).
    destruct sv; cbn [apart]; auto. destruct sw; auto. cbn [own spare] in *. destruct OS as (cs & H & _). apply nth_lt in H. lia. }
  assert (apart_sym : forall s t, apart s t -> apart t s) by (intros [] []; cbn [apart]; auto).
  constructor.
  - rewrite !app_length. cbn [length]. f_equal. apply (si_len _ _ _ _ I).
  - apply NoDup_app_iff_local; [apply (si_nodup _ _ _ _ I)|repeat constructor; auto|]. intros p Hp [<-|[]]. specialize (Old _ Hp). lia.
  - intros i p b Hp Hb. destruct (Nat.lt_ge_cases i (length ls)) as [L|L].
    + rewrite nth_error_app1 in Hp by exact L. rewrite (si_len _ _ _ _ I) in L. rewrite nth_error_app1 in Hb by exact L. apply (si_attr _ _ _ _ I' i p b); auto.
    + rewrite nth_error_app2 in Hp by exact L. rewrite (si_len _ _ _ _ I) in *. rewrite nth_error_app2 in Hb by exact L.
      destruct (i - length sh) as [|[|k]]; cbn in Hp, Hb; try discriminate. injection Hp as <-. injection Hb as <-. exact Ha.
  - intros p sv Hp Hv. apply in_app_or in Hp. destruct Hp as [Hp|[<-|[]]]; [apply (si_spare _ _ _ _ I' p); auto|].
    destruct Hv as (fs & H1 & H2). apply (Ht fs sv H1 H2).
  - intros p q sv sw Hp Hq N Hv Hw. apply in_app_or in Hp. apply in_app_or in Hq.
    destruct Hp as [Hp|[<-|[]]], Hq as [Hq|[<-|[]]].
    + apply (si_apart _ _ _ _ I' p q); auto.
    + eapply AP; eauto.
    + apply apart_sym. eapply AP; eauto.
    + congruence.
Qed.

#[local] Transparent GoRun.sim.
Lemma sim_cb_read {A D D'} (p : prog A) h (fn : U -> D * U) (g : D -> D') (Q : A -> heap -> D' -> Prop) :
  sim p h (cb (fun u => let '(d, u') := fn u in (g d, u'))) Q -> sim p h (cb fn) (fun a h' d => Q a h' (g d)).
Proof.
  unfold cb. intros H E w O. specialize (H E w O). cbn [run] in *. destruct (fn (w_u w)) as [d u']. exact H.
Qed.
#[local] Opaque GoRun.sim.

(** ** Slices of arguments that wait for a later call *)

Definition free_at (ls : list loc) (h : heap) (v : gv) : Prop := match v with VSlice l _ => free ls h l | _ => True end.
Definition kept (ls : list loc) (h : heap) (v : gv) (args : list sarg) : Prop :=
  exists xs, slice_is h v xs /\ all2 (sarg_rep M ls h) xs args /\ free_at ls h v.
Lemma sarg_changes ls h h' v a : changes ls h h' -> sarg_rep M ls h v a -> sarg_rep M ls h' v a.
Proof.
  intro K. destruct a as [n|a]; cbn [sarg_rep]; [apply srep_changes, K|]. intros [H1 H2]. split; [exact H1|].
  destruct a; cbn [arg_rep is_node] in *; auto; [discriminate|]. eapply val_changes; eauto.
Qed.
Lemma sarg_more ls x h v a : sarg_rep M ls h v a -> sarg_rep M (ls ++ x) h v a.
Proof. destruct a; cbn [sarg_rep]; auto. apply srep_more. Qed.
Lemma kept_changes ls h h' v args : changes ls h h' -> spares ls h h' -> kept ls h v args -> kept ls h' v args.
Proof.
  intros K S (xs & H1 & H2 & H3). exists xs. split; [|split; [eapply all2_mono; [|exact H2]; intros x y; apply sarg_changes, K|]].
  - destruct v; cbn [slice_is free_at] in *; auto. destruct H1 as (cs & H1 & H4). exists cs. split; [apply (S _ _ H1 H3)|exact H4].
  - destruct v; cbn [slice_is free_at] in *; auto. destruct H1 as (cs & H1 & H4). apply (S _ _ H1 H3).
Qed.
Lemma kept_attr ls h h' sh l v args : sinv M ls h sh -> grown h h' -> tidy (length h) h' l -> kept ls h v args -> kept (ls ++ [l]) h' v args.
Proof.
  intros I G T (xs & H1 & H2 & H3). exists xs. split; [eapply slice_grown; eauto|]. split.
  - eapply all2_mono; [|exact H2]. intros x y Hx. apply sarg_more. eapply sarg_grown; eauto.
  - destruct v; cbn [free_at slice_is] in *; auto. destruct H1 as (cs & H1 & _). intros p sv Hp Hv. apply in_app_or in Hp. destruct Hp as [Hp|[<-|[]]].
    + apply H3 with p; auto. eapply vslice_grown; eauto.
    + destruct Hv as (fs & Hv & Hf). destruct (T fs sv Hv Hf) as [Ho _]. eapply own_not_at; [exact Ho|]. eapply nth_lt; eauto.
Qed.

(** ** The elements of the document *)

Lemma Head_spec ls h sh cv xs args : sinv M ls h sh -> slice_is h cv xs -> all2 (sarg_rep M ls h) xs args ->
  sim (PCall (CFun "html.Head") [cv] true PRet) h (cb (build_args false (B "head") args sh)) (element_made M ls h).
Proof.
  intros I Hs Hx. enter. steps. eapply simb_last; [eapply NewElement_spec; [exact MO|exact I|reflexivity|exact Hs|exact Hx]|].
  intros vs h' r Hr. destruct Hr as (v & -> & Hr). steps. apply sim_ret. exists v. auto.
Qed.
Lemma Body_spec ls h sh cv xs args : sinv M ls h sh -> slice_is h cv xs -> all2 (sarg_rep M ls h) xs args ->
  sim (PCall (CFun "html.Body") [cv] true PRet) h (cb (build_args false (B "body") args sh)) (element_made M ls h).
Proof.
  intros I Hs Hx. enter. steps. eapply simb_last; [eapply NewElement_spec; [exact MO|exact I|reflexivity|exact Hs|exact Hx]|].
  intros vs h' r Hr. destruct Hr as (v & -> & Hr). steps. apply sim_ret. exists v. auto.
Qed.
(** Called with three arguments. *)
Lemma Html_spec ls h sh x1 x2 x3 args : sinv M ls h sh -> all2 (sarg_rep M ls h) [x1; x2; x3] args ->
  sim (PCall (CFun "html.Html") [x1; x2; x3] false PRet) h (cb (build_args false (B "html") args sh)) (element_made M ls h).
Proof.
  intros I Hx. enter. steps. apply simb_new_slice. steps. 
  assert (G : grown h (h ++ [OArr [x1; x2; x3]])) by apply grown_app.
  eapply simb_last; [eapply NewElement_spec; [exact MO|eapply sinv_grown; [exact I|exact G]|reflexivity|apply slice_new|]|].
  { eapply all2_mono; [|exact Hx]. intros x y. apply sarg_grown, G. }
  intros vs h' r Hr. pose proof (element_made_grown M _ _ _ _ _ _ _ I G Hr) as (v & -> & Hr'). steps. apply sim_ret. exists v. auto.
Qed.
Lemma Lang_spec h lv la : arg_rep M h lv la ->
  sim (PCall (CFun "html.Lang") [lv] false PRet) h (cb (NewAttribute (B "lang") [la])) (returns_of (new_attr M h) h).
Proof.
  intros Ha. enter. steps. apply simb_new_slice. steps.
  assert (G : grown h (h ++ [OArr [lv]])) by apply grown_app.
  eapply simb_last; [eapply (NewAttribute_spec M MO); [reflexivity|apply (arg_list_new M h [lv] [la])]|].
  { cbn [all2]. eexists _, _. split; [reflexivity|]. auto. }
  intros vs h' n (v & -> & (l & a & -> & -> & H1 & H2 & H3) & H4). steps. apply sim_ret. eexists. split; [reflexivity|].
  pose proof (grown_length _ _ G). split; [|eapply grown_trans; eauto].
  exists l, a. split; [reflexivity|]. split; [reflexivity|]. split; [lia|]. split; [exact H2|].
  intros fs sv Hs Hf. destruct (H3 fs sv Hs Hf) as [Ho Hp]. split; [|exact Hp]. destruct sv; cbn [own] in *; auto. lia.
Qed.

(** ** html.Document *)

Definition opt_sarg (n : option snode) : sarg := match n with Some n => SNode n | None => SOther (AData GNil) end.
Definition lang_step (la : arg U) (sh : Sharing.heap) (u : U) : (Sharing.heap * option snode) * U :=
  match la with
  | AData GNil => ((sh, None), u)
  | a => let '(vs, u') := new_values [a] u in ((sh ++ [APlain (B "lang") vs], Some (SAttr (length sh))), u')
  end.
Definition head_step (args : list sarg) (sh : Sharing.heap) (u : U) : (Sharing.heap * option snode) * U :=
  match args with
  | [] => ((sh, None), u)
  | _ => let '(r, u') := build_args false (B "head") args sh u in ((fst r, Some (snd r)), u')
  end.
Definition doctype (u : U) : leaf * U := let '(vs, u') := new_values [AData (GString (B "html"))] u in (LPI (B "DOCTYPE") vs, u').
Definition sdocument (la : arg U) (head body : list sarg) (sh : Sharing.heap) (u : U) : (Sharing.heap * snode) * U :=
  let '(r1, u1) := lang_step la sh u in
  let '(r2, u2) := head_step head (fst r1) u1 in
  let '(r3, u3) := build_args false (B "body") body (fst r2) u2 in
  let '(x, u4) := doctype u3 in
  let '(r4, u5) := build_args false (B "html") [opt_sarg (snd r1); opt_sarg (snd r2); SNode (snd r3)] (fst r3) u4 in
  ((fst r4, SDocument x [snd r4]), u5).

(** The nodes so far: one that may be nil. *)
Definition stage (ls : list loc) (h : heap) (vs : gv) (h' : heap) (r : Sharing.heap * option snode) : Prop :=
  sinv M ls h' (fst r) /\ opt_of (srep M ls h') vs (snd r) /\ changes ls h h' /\ spares ls h h'.
Definition document_made (ls : list loc) (h : heap) (vs : list gv) (h' : heap) (r : Sharing.heap * snode) : Prop :=
  exists v x, vs = [v] /\ sinv M (ls ++ x) h' (fst r) /\ (forall l, In l x -> length h <= l) /\ changes ls h h' /\ srep M (ls ++ x) h' v (snd r).

Lemma opt_sarg_rep ls h v n : opt_of (srep M ls h) v n -> sarg_rep M ls h v (opt_sarg n).
Proof. destruct n; cbn [opt_of opt_sarg sarg_rep]; auto. intros ->. split; [reflexivity|left; reflexivity]. Qed.

Lemma Document_spec ls h sh lv la hv head bv body : sinv M ls h sh ->
  arg_rep M h lv la -> (la = AData GNil -> lv = VNil) -> kept ls h hv head -> kept ls h bv body ->
  sim (PCall (CFun "html.Document") [lv; hv; bv] false PRet) h (cb (sdocument la head body sh)) (document_made ls h).
Proof.
  intros I Ha Hna Hh Hb.
  apply sim_model_eq with
    (bind (cb (lang_step la sh)) (fun r1 => bind (cb (head_step head (fst r1))) (fun r2 => bind (cb (build_args false (B "body") body (fst r2)))
      (fun r3 => bind (cb doctype) (fun x => bind (cb (build_args false (B "html") [opt_sarg (snd r1); opt_sarg (snd r2); SNode (snd r3)] (fst r3)))
        (fun r4 => Ret (fst r4, SDocument x [snd r4]))))))).
  { intros E w. unfold cb, sdocument. cbn [bind run]. destruct (lang_step la sh (w_u w)) as [r1 u1]. cbn [bind run w_u].
    destruct (head_step head (fst r1) u1) as [r2 u2]. cbn [bind run w_u]. destruct (build_args _ _ body _ u2) as [r3 u3]. cbn [bind run w_u].
    destruct (doctype u3) as [x u4]. cbn [bind run w_u]. destruct (build_args _ _ _ (fst r3) u4) as [r4 u5]. reflexivity. }
  enter. red_head. do 7 step.
  (* the attribute *)
  eapply sim_bind with (R := fun a h' r => exists v x, a = (FNext, [("langAtt"%string, v); ("body"%string, bv); ("head"%string, hv); ("lang"%string, lv)]) /\
    sinv M (ls ++ x) h' (fst r) /\ (forall l, In l x -> length h <= l) /\ changes ls h h' /\
    opt_of (srep M (ls ++ x) h') v (snd r) /\ kept (ls ++ x) h' hv head /\ kept (ls ++ x) h' bv body).
  { apply sim_eta. steps.
    assert (D : lv = VNil \/ lv <> VNil) by (destruct lv; [left; reflexivity|..]; right; discriminate). destruct D as [D|D].
    - pose proof (arg_nil _ _ _ _ Ha D) as ->. subst lv. steps. cbn [lang_step]. apply sim_cb_pure with (d := (sh, None)); [reflexivity|]. leaves. steps. apply sim_ret. exists VNil, []. rewrite app_nil_r.
      split; [reflexivity|]. split; [exact I|]. split; [intros l []|]. split; [apply changes_refl|]. split; [reflexivity|]. auto.
    - assert (N : la <> AData GNil) by auto.
      apply sim_model_eq with (cb (fun u => let '(vs, u') := new_values [la] u in ((sh ++ [APlain (B "lang") vs], Some (SAttr (length sh))), u'))).
      { intros E w. unfold cb. cbn [run]. replace (lang_step la sh (w_u w)) with (let '(vs, u') := new_values [la] (w_u w) in ((sh ++ [APlain (B "lang") vs], Some (SAttr (length sh))), u')); [reflexivity|].
        destruct la as [| | | |g]; try reflexivity. destruct g; try reflexivity. congruence. }
      apply sim_cb_map. eapply simb_eq; [rewrite (equal_nil _ D); reflexivity|]. steps.
      eapply simb_pcall; [apply (sim_cb_read _ _ _ (fun vs => NAttr (APlain (B "lang") vs))), (Lang_spec h lv la Ha)|].
      intros vs h' xs (v & -> & (l & a & -> & Ea & H1 & H2 & H3) & H4). injection Ea as <-. steps. leaves. steps. apply sim_ret.
      exists (VPtr l), [l]. split; [reflexivity|]. split; [eapply sinv_attr; eauto|]. split; [intros x [<-|[]]; exact H1|]. split; [apply changes_grown, H4|].
      split; [|split; eapply kept_attr; eauto].
      cbn [opt_of srep fst snd]. exists l. split; [|reflexivity]. rewrite <- (si_len _ _ _ _ I). rewrite nth_error_app2, Nat.sub_diag by auto. reflexivity. }
  intros a h1 r1 (v1 & x & -> & I1 & X1 & K1 & V1 & Hh1 & Hb1). do 5 step.
  (* the head *)
  set (ls1 := ls ++ x) in *.
  eapply sim_bind with (R := fun a h' r => exists v, a = (FNext, [("headNode"%string, v); ("langAtt"%string, v1); ("body"%string, bv); ("head"%string, hv); ("lang"%string, lv)]) /\
    stage ls1 h1 v h' r).
  { apply sim_eta. destruct Hh1 as (xs & S1 & A1 & F1). steps. destruct head as [|a head].
    - cbn [all2] in A1. subst xs. steps. cbn [head_step]. apply sim_cb_pure with (d := (fst r1, None)); [reflexivity|]. leaves. steps. apply sim_ret.
      exists VNil. split; [reflexivity|]. split; [exact I1|]. split; [reflexivity|]. split; [apply changes_refl|]. eapply spares_grown; [exact I1|apply grown_refl].
    - pose proof A1 as A1'. cbn [all2] in A1'. destruct A1' as (y & ys & -> & _). cbn [length]. steps.
      unfold head_step. apply sim_cb_map.
      eapply simb_pcall; [eapply Head_spec; [exact I1|exact S1|exact A1]|]. intros vs h' r (v & -> & H1 & H2 & H3 & H4). steps. leaves. steps. apply sim_ret.
      exists v. split; [reflexivity|]. split; [exact H1|]. split; [exact H2|]. auto. }
  intros a h2 r2 (v2 & -> & I2 & V2 & K2 & P2).
  assert (Hb2 : kept ls1 h2 bv body) by (eapply kept_changes; eauto).
  assert (V12 : opt_of (srep M ls1 h2) v1 (snd r1)) by (destruct (snd r1); cbn [opt_of] in *; auto; eapply srep_changes; eauto).
  (* the body *)
  destruct Hb2 as (xs & S2 & A2 & _). steps.
  eapply simb_pcall; [eapply Body_spec; [exact I2|exact S2|exact A2]|]. intros vs h3 r3 (v3 & -> & I3 & V3 & K3 & _). steps.
  (* the prologue *)
  eapply simb_pcall; [apply (sim_cb_read _ _ _ read_leaf)|].
  { eapply sim_model_eq; [|apply (DocType_spec M MO)]. intros E w. unfold cb, doctype, DocType, PI. cbn [run]. destruct (new_values _ _). reflexivity. }
  intros vs h4 y (pv & -> & H4 & G4). steps.
  (* the element around all *)
  assert (K34 : changes ls1 h3 h4) by (apply changes_grown, G4).
  assert (K4 : changes ls1 h2 h4) by (eapply changes_trans; eauto).
  eapply simb_pcall; [apply (Html_spec ls1 h4 (fst r3) v1 v2 v3); [eapply sinv_grown; eauto|]|].
  { eexists _, _. split; [reflexivity|]. split; [apply opt_sarg_rep; destruct (snd r1); cbn [opt_of] in *; auto; eapply srep_changes; eauto|].
    eexists _, _. split; [reflexivity|]. split; [apply opt_sarg_rep; destruct (snd r2); cbn [opt_of] in *; auto; eapply srep_changes; eauto|].
    eexists _, _. split; [reflexivity|]. split; [cbn [sarg_rep]; eapply srep_changes; [exact K34|exact V3]|reflexivity]. }
  intros vs h5 r5 (v5 & -> & I5 & V5 & K5 & _). steps. apply simb_new_slice. steps.
  apply sim_ret.
  assert (G5 : grown h5 ((h5 ++ [OArr [v5]]) ++ [OStruct "document" [("prologue"%string, pv); ("contents"%string, VSlice (length h5) 1)]]))
    by (eapply grown_trans; apply grown_app).
  assert (K6 : changes ls1 h4 ((h5 ++ [OArr [v5]]) ++ [OStruct "document" [("prologue"%string, pv); ("contents"%string, VSlice (length h5) 1)]]))
    by (eapply changes_trans; [exact K5|apply changes_grown, G5]).
  eexists _, x. split; [reflexivity|]. split; [eapply sinv_grown; [exact I5|exact G5]|]. split; [exact X1|]. split.
  - apply changes_new with x; [exact X1|]. eapply changes_trans; [apply changes_more, K1|]. eapply changes_trans; [exact K2|]. eapply changes_trans; [exact K4|exact K6].
  - cbn [snd srep]. eexists _, pv, _, [v5]. split; [reflexivity|]. split; [apply nth_app_new|]. split; [eapply leaf_changes; [exact K6|exact H4]|].
    split; [eapply slice_grown; [apply grown_app|apply (slice_new h5 [v5])]|]. cbn [all2]. eexists _, _. split; [reflexivity|]. split; [eapply srep_grown; [exact G5|exact V5]|reflexivity].
Qed.
End Document.
