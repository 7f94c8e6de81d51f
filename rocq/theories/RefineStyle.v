(** css.styleAttribute of the Go source makes the attribute of the model. *)
From Coq Require Import ZArith Lia.
From Verif Require Import Bytes IO IOFacts Nodes Values Build Packages
  GoSyntax Source GoSem GoRun GoRep GoStep GoOwn RefineUser RefineIter RefineStart RefineNew RefineMake RefineVariadic.
Local Open Scope nat_scope.

Section Style.
Context {W : UserWorld}.
Variable M : go_mode.
Hypothesis MO : mode_ok M.
Notation C := (go_config M).
Notation sim := (sim C).

(** A new attribute is also new to an older heap. *)
Lemma new_attr_grown h h1 vs h' n : grown h h1 -> returns_of (new_attr M h1) h1 vs h' n -> returns_of (new_attr M h) h vs h' n.
Proof.
  intros G (v & -> & (l & a & -> & -> & H1 & H2 & H3) & H4). pose proof (grown_length _ _ G).
  eexists. split; [reflexivity|]. split; [|eapply grown_trans; eauto]. exists l, a. split; [reflexivity|]. split; [reflexivity|].
  split; [lia|]. split; [exact H2|]. intros fs sv Hs Hf. destruct (H3 fs sv Hs Hf) as [Ho Hp]. split; [|exact Hp]. destruct sv; cbn [own] in *; auto. lia.
Qed.
(** After an append to a slice of one's own. *)
Lemma appended_grown h s h1 s' h2 : own (length h) s -> grown h h1 -> appended s h1 s' h2 -> grown h h2.
Proof. intros O G A. eapply RefineNew.grown_same; [exact G|]. eapply appended_same; eauto. Qed.

Lemma styleAttribute_spec property cv args h : arg_list M h cv args ->
  sim (PCall (CFun "css.styleAttribute") [VBytes property; cv] true PRet) h (cb (style_attribute property args)) (returns_of (new_attr M h) h).
Proof.
  intros (xs & S & A).
  apply sim_model_eq with (bind (cb (NewConcatValue (AData (GBytes property) :: args))) (fun v => cb (NewDelimitedAttribute (B "style") (B "; ") [AVal v]))).
  { intros E w. unfold cb, style_attribute. cbn [bind run]. destruct (NewConcatValue _ (w_u w)). reflexivity. }
  enter. steps. apply (simb_eq M) with (X' := PRet (VBytes (B "style"))); [reflexivity|]. steps.
  apply (simb_eq M) with (X' := PRet (VBytes (B "; "))); [reflexivity|]. steps. apply simb_new_slice. steps.
  assert (G1 : grown h (h ++ [OArr [VBytes property]])) by apply grown_app.
  eapply simb_append_spread with (b := length h); [apply slice_new|cbn [own]; lia|rewrite app_length; lia|eapply slice_grown; eauto|].
  intros h2 s2 S2 O2 A2. steps.
  assert (G2 : grown h h2) by (eapply appended_grown; [|exact G1|exact A2]; cbn [own]; lia).
  eapply simb_pcall; [apply (NewConcatValue_spec M MO s2 (AData (GBytes property) :: args))|].
  { eexists. split; [exact S2|]. cbn [all2 app]. eexists _, _. split; [reflexivity|]. split; [right; reflexivity|].
    eapply all2_mono; [|exact A]. intros x y. apply arg_grown, G2. }
  intros vs h3 v (vv & -> & V3 & G3). steps.
  eapply simb_last; [apply (sim_variadic M _ [VBytes (B "style"); VBytes (B "; ")] [vv]); [eexists _, _, _; split; reflexivity|];
    eapply (NewDelimitedAttribute_spec M MO); [reflexivity|reflexivity|apply (arg_list_new M h3 [vv] [AVal v])]|].
  { cbn [all2]. eexists _, _. split; [reflexivity|]. auto. }
  intros vs h4 n R. steps. eapply new_attr_grown in R; [|exact (grown_trans _ _ _ (grown_trans _ _ _ G2 G3) (grown_app _ _))].
  destruct R as (v4 & -> & R1 & R2). steps. apply sim_ret. exists v4. auto.
Qed.
End Style.
