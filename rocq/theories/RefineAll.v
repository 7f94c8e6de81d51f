(** Every node: the translated source of its Render method does what the model
    says. *)
From Coq Require Import ZArith Lia.
From Verif Require Import Bytes IO IOFacts Nodes NodeInd Values Escape Render Build SpecOut Slices GoSyntax Source GoSem GoRun GoRep GoStep GoOwn RefineValue RefineNode RefineAttrs RefineElement RefineUser RefineIter RefineEscape RefineImper RefineStart.
Local Open Scope nat_scope.
Local Notation "x <-- p ;; q" := (pbind p (fun x => q))
  (at level 100, p at next level, right associativity).

Section All.
Context {W : UserWorld}.
Context {FL : floor}.
Variable M : go_mode.
Notation C := (go_config M).
Notation sim := (sim C).
Notation user_imper := (user_imper C).
Notation node_spec := (node_spec M).

(** ** What user code hands over *)

Lemma makes_ctx : forall c h, makes M (reify_ctx c) h (fun v h' => exists l, v = VPtr l /\ l < length h' /\ parent_rep h' (S l) v (Some c)).
Proof.
  fix IH 1. intros [e d g p] h. cbn [reify_ctx].
  eapply makes_bind with (R := fun v h' => forall b, length h' <= b -> parent_rep h' b v p).
  - destruct p as [c|].
    + eapply makes_conseq; [apply IH|]. intros v h1 G1 (l & -> & Hl & Hp) b Hb. inversion Hp; subst. econstructor; [lia|eassumption|eassumption].
    + apply makes_ret. intros. constructor.
  - intros pv h1 G1 H1. eapply makes_bind; [apply (makes_alloc M _ h1 (fun l h' => l = length h1 /\ h' = h1 ++ [ctx_obj e d g pv])); auto|].
    intros l h2 G2 (-> & ->). apply makes_ret. exists (length h1). split; [auto|]. split; [rewrite app_length; cbn [length]; lia|].
    econstructor; [lia|apply nth_app_new|]. eapply parent_grown; [exact G2|]. apply H1. lia.
Qed.
Lemma makes_tight_opt n h : known_ok M -> makes M (reify_start C n) h (fun v h' => tight_opt M h' v n).
Proof.
  intro KN. destruct n as [n|]; cbn [reify_start reify_opt]; [|apply makes_ret; split; [reflexivity|exact I]].
  destruct n as [[m vs|m|m d vs]| | | | | | | | | | | | |]; try (eapply makes_conseq; [apply makes_node, KN|]; intros v h' _ H; split; [exact H|first [exact I|split; [exact H|exact I]]]).
  assert (MA : makes M (reify_attr (APlain m vs)) h (fun v h' => tight_opt M h' v (Some (NAttr (APlain m vs))))).
  { eapply makes_conseq; [apply makes_attr|]. intros v h' _ H. split; [apply H|exact H]. }
  intros FL' A' B f mm Q K. eapply simb_heap; [reflexivity|apply stays_same|]. cbn [c_known go_config].
  destruct (m_known M h (NAttr (APlain m vs))) as [v|] eqn:Ek; [|apply MA, K]. destruct (roomy h v) eqn:R; [apply MA, K|].
  apply K; [apply grown_refl|]. apply KN in Ek. split; [exact Ek|]. split; [exact Ek|].
  destruct Ek as (l & nv & sv & -> & Ho & _). cbn [roomy] in R. rewrite Ho in R. lazy [assoc String.eqb Ascii.eqb Bool.eqb] in R.
  destruct sv; try discriminate R. destruct (nth_error h l0) as [[]|] eqn:El; try discriminate R.
  eexists l, _, _, _. split; [reflexivity|]. split; [exact Ho|]. split; [reflexivity|]. split; [discriminate|].
  apply Bool.negb_false_iff, Nat.eqb_eq in R. subst. eexists _, _. split; [reflexivity|exact El].
Qed.
Lemma makes_tight_opts ns h : known_ok M -> makes M (mapP (reify_start C) ns) h (fun xs h' => all2 (tight_opt M h') xs ns).
Proof.
  intro KN. apply (makes_map M _ (tight_opt M)).
  - intros h1 h2 d a G. apply tight_opt_keeps, grown_keeps, G.
  - apply Forall_forall. intros x _ h0. apply makes_tight_opt, KN.
Qed.

(** Another context, created later, changes. *)
Lemma ic_other hb h h' li lc fr e stack l :
  ic_at hb h li lc fr e stack -> kept l h h' -> lc < l -> length hb <= l -> ic_at hb h' li lc fr e stack.
Proof.
  intros (K0 & HC & L & sv & H1 & H2 & H3) K Hl Hb. pose proof (kept_keeps _ _ _ K) as Kk.
  assert (SB : same_below (length hb) h h').
  { split; [eapply kept_length; eauto|]. intros l' o Hl' Ho. destruct K as (_ & _ & K). apply K; [lia|exact Ho]. }
  split; [eapply kept_same; eauto|]. split; [eapply ctx_kept_other; eauto|]. split; [exact L|].
  exists sv. split; [apply Kk; [discriminate|exact H1]|]. split; [eapply slice_keeps; eauto|exact H3].
Qed.

(** ** The user's function of an Imperative *)

Definition prog_spec (p : iprog U) : Prop := forall hb h li lc fr e stack,
  ic_at hb h li lc fr e stack -> SpecOut.tables_ok_prog p ->
  sim (user_imper p (VPtr li)) h (run_imper p fr stack e)
    (fun vs h' r => vs = [verr (fst r)] /\ kept lc hb h' /\ ctx_at h' lc fr (snd r)).

Lemma err_of_verr e : err_of (verr e) = Some e.
Proof. destruct e; reflexivity. Qed.

Lemma imper_none_spec : node_spec (NImper None).
Proof.
  intros h lc fr e v HC (l & -> & Ho) T. apply sim_eta. eapply simb_method; [exact Ho|reflexivity|reflexivity|]. enter. steps.
  cbn [render]. apply sim_ret. split; [reflexivity|]. split; [kept_chain|exact HC].
Qed.
Lemma imper_spec p : prog_spec p -> node_spec (NImper (Some p)).
Proof.
  intros Hp h lc fr e v HC (l & -> & Ho) T. apply sim_eta. eapply simb_method; [exact Ho|reflexivity|reflexivity|]. enter. steps.
  set (h2 := h ++ _). assert (G2 : grown h h2) by apply grown_app.
  assert (I2 : ic_at h h2 (length h) lc fr e []).
  { split; [eapply grown_kept; eauto|]. split; [eapply ctx_grown; eauto|]. split; [auto|]. exists VNil.
    split; [apply nth_app_new|]. split; [reflexivity|exact I]. }
  eapply simb_funfield; [eapply grown_nth; eauto|reflexivity|]. apply simb_call. cbn [body_of].
  apply sim_eta_model. cbn [render]. eapply sim_bind; [apply (Hp _ _ _ _ _ _ _ I2 T)|].
  intros vs h3 [x3 e3] (X & K3 & HC3). cbn [fst snd] in *. subst vs. steps. apply sim_ret. split; [reflexivity|]. split; [exact K3|exact HC3].
Qed.

(** Rendering a node from within the user's function, with the context of the
    Imperative itself or with one of the user's own making. *)
Lemma simb_get_error {A' B} h l fr e (f : option error -> prog A') (m : io U B) Q :
  ctx_at h l fr e -> sim (f e) h m Q -> sim (pbind (get_error l) f) h m Q.
Proof.
  intros (pv & H & _) K. unfold get_error. apply sim_assoc. eapply simb_field; [exact H|reflexivity|]. rewrite err_of_verr. exact K.
Qed.
Lemma simb_rendered {A' B} n v h l fr e (f : option error -> option error -> prog A') (g : option error * option error -> io U B) Q :
  node_spec n -> SpecOut.tables_ok n -> node_rep M h v n -> ctx_at h l fr e ->
  (forall h' r e', kept l h h' -> ctx_at h' l fr e' -> sim (f r e') h' (g (r, e')) Q) ->
  sim (pbind (invoke v "Render" [VPtr l] false) (fun rs => pbind (one rs) (fun r => pbind (lift (err_of r)) (fun x => pbind (get_error l) (fun e => f x e))))) h
    (bind (render n fr e) g) Q.
Proof.
  intros Hn T Hv HC K. eapply sim_bind; [apply Hn; eauto|]. intros rs h1 [r e1] (-> & K1 & HC1). cbn [fst snd one pbind] in *.
  rewrite err_of_verr. cbn [lift pbind]. eapply simb_get_error; [exact HC1|]. apply K; auto.
Qed.

Ltac done_with I := split; [reflexivity|]; split; apply I.

Theorem every_node : mode_ok M -> (forall n, node_spec n) /\ (forall p, prog_spec p).
Proof.
  intro MO. apply NodeInd.node_iprog_ind.
  - intro a. apply attr_node_spec.
  - intros. apply element_spec; auto.
  - intros. apply void_spec; auto.
  - intros. apply text_spec.
  - intros. apply comment_spec.
  - intros. apply pi_spec.
  - intros. apply fragment_spec.
  - intros. apply collection_spec; auto.
  - intros. apply conditional_spec; auto.
  - intros. apply collect_spec; auto.
  - apply imper_none_spec.
  - intros. apply imper_spec; auto.
  - intros. apply iterator_spec; auto.
  - intros. apply yield_spec; auto.
  - intros. apply document_spec; auto.
  - intros x hb h li lc fr e stack I T. cbn [GoSem.user_imper run_imper]. apply sim_ret. done_with I.
  - intros k IH hb h li lc fr e stack I T. cbn [GoSem.user_imper run_imper]. eapply simb_context; [exact I|]. cbn [one ptr pbind].
    eapply sim_user; [eapply ctx_snap; apply I|]. intro u. specialize (IH (view fr e) u). specialize (T (view fr e) u).
    destruct (k (view fr e) u) as [p' u']. cbn [fst snd] in *. split; [reflexivity|]. eapply IH; eauto.
  - intros s k IH hb h li lc fr e stack I T. cbn [GoSem.user_imper run_imper]. eapply simb_write_string; [exact I|]. intros. eapply IH; eauto.
  - intros s k IH hb h li lc fr e stack I T. cbn [GoSem.user_imper run_imper]. eapply simb_write_raw; [exact I|]. intros. eapply IH; eauto.
  - intros ns k Hns IH hb h li lc fr e stack I T. destruct T as [T1 T2]. cbn [GoSem.user_imper run_imper].
    apply makes_opts; [apply mode_known, MO|]. intros xs h1 G1 H1. apply (makes_slice M). intros s h2 G2 (H2 & _).
    eapply (simb_write_nodes M hb h2); [|exact H2| |exact Hns|exact T1|].
    + eapply ic_grown; [eapply ic_grown; eauto|exact G2].
    + eapply all2_mono; [|exact H1]. intros x y. apply opt_keeps, grown_keeps, G2.
    + intros. eapply IH; eauto.
  - intros name v attrs k _ IH hb h li lc fr e stack I T. cbn [GoSem.user_imper run_imper].
    apply makes_tight_opts; [apply mode_known, MO|]. intros xs h1 G1 H1. apply (makes_slice M). intros s h2 G2 (H2 & _).
    eapply (simb_start M hb h2); [|exact H2| |].
    + eapply ic_grown; [eapply ic_grown; eauto|exact G2].
    + eapply all2_mono; [|exact H1]. intros x y. apply tight_opt_keeps, grown_keeps, G2.
    + intros. eapply IH; eauto.
  - intros k IH hb h li lc fr e stack I T. cbn [GoSem.user_imper run_imper].
    eapply (simb_end _ _ _ _ _ _ _ stack _ (fun s e => run_imper k fr s e)); [exact I|]. intros. eapply IH; eauto.
  - intros k IH hb h li lc fr e stack I T. cbn [GoSem.user_imper run_imper]. eapply simb_end_all; [exact I|]. intros. eapply IH; eauto.
  - intros n inner k Hn IH hb h li lc fr e stack I T. destruct T as [T1 T2]. cbn [GoSem.user_imper run_imper].
    apply makes_node; [apply mode_known, MO|]. intros v h1 G1 H1. pose proof (ic_grown _ _ _ _ _ _ _ _ I G1) as I1. destruct inner as [fr'|].
    + apply sim_assoc.
      assert (MP : makes M (match f_parent fr' with Some c => reify_ctx c | None => PRet VNil end) h1 (fun v h' => forall b, length h' <= b -> parent_rep h' b v (f_parent fr'))).
      { destruct (f_parent fr') as [c|].
        + eapply makes_conseq; [apply makes_ctx|]. intros w hh GG (l & -> & Hl & Hp) b Hb. inversion Hp; subst. econstructor; [lia|eassumption|eassumption].
        + apply makes_ret. intros. constructor. }
      apply MP. clear MP. intros pv h2 G2 H2. apply simb_alloc. set (h3 := h2 ++ _).
      assert (G3 : grown h2 h3) by apply grown_app.
      assert (HC3 : ctx_at h3 (length h2) fr' None).
      { exists pv. split; [apply nth_app_new|]. split; [eapply parent_grown; [exact G3|]; apply H2; auto|].
        destruct (ic_grown _ _ _ _ _ _ _ _ I1 G2) as (_ & X & _). floored. }
      eapply simb_rendered; eauto.
      * eapply node_keeps; [|exact H1]. apply grown_keeps. eapply grown_trans; eauto.
      * intros h4 r e4 K4 HC4. eapply IH; [|apply T2]. eapply ic_other; [|exact K4| |].
        { eapply ic_grown; [eapply ic_grown; [exact I1|exact G2]|exact G3]. }
        { assert (I2 := ic_grown _ _ _ _ _ _ _ _ I1 G2). destruct I2 as (_ & (pv2 & X & _) & _). eapply nth_lt; eauto. }
        { assert (I2 := ic_grown _ _ _ _ _ _ _ _ I1 G2). destruct I2 as (K2 & _). eapply kept_length; eauto. }
    + apply sim_assoc. eapply simb_context; [exact I1|]. cbn [one ptr pbind]. pose proof I1 as (_ & HC1 & _).
      eapply simb_rendered; eauto. intros h2 r e2 K2 HC2. eapply IH; [|apply T2]. eapply ic_kept; eauto.
  - intros d k IH hb h li lc fr e stack I T. cbn [GoSem.user_imper run_imper]. apply sim_write. intros m x. eapply IH; [exact I|apply T].
  - intros x k IH hb h li lc fr e stack I T. cbn [GoSem.user_imper run_imper]. eapply simb_context; [exact I|]. cbn [one pbind].
    pose proof I as (_ & HC & _). eapply simb_set_error; [exact HC|]. intros h1 K1 HC1. eapply IH; [|exact T]. eapply ic_kept; eauto.
Qed.

End All.

Section Whole.
Context {W : UserWorld}.
Variable M : go_mode.
Notation C := (go_config M).
Notation sim := (sim C).
(** ** A whole rendering

    The program: make the node, make the context (with the parents it is to
    have), call Render; the result is what Render returned and what the field
    Error of the context holds afterwards. *)
Definition render_source (n : node U) (fr : frame U) (e : option error) : prog (option error * option error) :=
  v <-- reify C n ;;
  parent <-- (match f_parent fr with Some c => reify_ctx c | None => PRet VNil end) ;;
  l <-- alloc (ctx_obj e (f_data fr) (f_cargo fr) parent) ;;
  rs <-- invoke v "Render" [VPtr l] false ;;
  r <-- one rs ;;
  x <-- lift (err_of r) ;;
  e' <-- get_error l ;;
  PRet (x, e').

(** It ends, and with what the model says: the same calls of the writer, the same
    state of user code, the same errors. *)
Theorem source_renders n fr e E w :
  mode_ok M -> SpecOut.tables_ok n -> ord_ok (e_ord E) ->
  exists fuel h', go_run C fuel E (render_source n fr e) [] w = Some (ROk (fst (run E (render n fr e) w)) h' (snd (run E (render n fr e) w))).
Proof.
  intros MO T O.
  assert (X : sim (render_source n fr e) [] (render n fr e) (fun a _ b => a = b)).
  { unfold render_source. apply makes_node; [apply mode_known, MO|]. intros v h1 G1 H1.
    assert (MP : makes M (match f_parent fr with Some c => reify_ctx c | None => PRet VNil end) h1 (fun v h' => forall b, length h' <= b -> parent_rep h' b v (f_parent fr))).
    { destruct (f_parent fr) as [c|].
      + eapply makes_conseq; [apply makes_ctx|]. intros x hh GG (l & -> & Hl & Hp) b Hb. inversion Hp; subst. econstructor; [lia|eassumption|eassumption].
      + apply makes_ret. intros. constructor. }
    apply MP. clear MP. intros pv h2 G2 H2. apply simb_alloc. set (h3 := h2 ++ _).
    assert (G3 : grown h2 h3) by apply grown_app.
    assert (HC3 : ctx_at h3 (length h2) fr e).
    { exists pv. split; [apply nth_app_new|]. split; [eapply parent_grown; [exact G3|]; apply H2; auto|apply Nat.le_0_l]. }
    apply sim_eta_model. eapply simb_rendered; [apply (proj1 (every_node M MO))|exact T| |exact HC3|].
    - eapply node_keeps; [|exact H1]. apply grown_keeps. eapply grown_trans; eauto.
    - intros h4 r e4 K4 HC4. apply sim_ret. reflexivity. }
  destruct (sim_never _ _ _ _ _ X E w O) as (fuel & a & h' & R & ->). eauto.
Qed.

(** However long it is run, nothing else comes out. *)
Corollary source_renders_only n fr e E w fuel r :
  mode_ok M -> SpecOut.tables_ok n -> ord_ok (e_ord E) ->
  go_run C fuel E (render_source n fr e) [] w = Some r ->
  exists h', r = ROk (fst (run E (render n fr e) w)) h' (snd (run E (render n fr e) w)).
Proof.
  intros MO T O R. destruct (source_renders n fr e E w MO T O) as (n' & h' & R'). exists h'.
  apply (run_mono C E fuel (fuel + n')) in R; [|lia]. apply (run_mono C E n' (fuel + n')) in R'; [|lia]. congruence.
Qed.
End Whole.
