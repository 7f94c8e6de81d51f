(** The translated source of the constructors of values, attributes and the nodes
    that hold values builds what the model builds. *)
From Coq Require Import ZArith Lia.
From Verif Require Import Bytes IO IOFacts Nodes NodeInd Values Build Escape SpecOut Slices GoSyntax Source GoSem GoRun GoRep GoStep GoOwn RefineValue RefineEscape RefineNode RefineUser RefineIter RefineStart RefineNew.
Local Open Scope nat_scope.

(** Leaving blocks when only the top of the variables is known. *)
Ltac leaves := repeat (progress (unfold leave; cbn [length]; rewrite ?Nat.sub_succ, ?Nat.sub_diag, ?sub_one, ?sub_two, ?sub_three; cbn [skipn])).

(** Go into the body of a function whose result is used. *)
Ltac enter_fn :=
  apply simb_call; eapply simb_body; [reflexivity|];
  lazymatch goal with
  | |- @GoRun.sim _ ?C ?FL0 ?P _ _ (pbind (call_fun ?C' ?fd ?cap ?args ?sp) ?f) ?h ?m ?Q =>
      let fd' := eval unfold fd in fd in
      let X' := head_red (call_fun C' fd' cap args sp) in
      change (@GoRun.sim _ C FL0 P _ _ (pbind X' f) h m Q)
  end.

Section Refine.
Context {W : UserWorld}.
Variable M : go_mode.
Hypothesis MO : mode_ok M.
Notation C := (go_config M).
Notation sim := (sim C).

(** A function that returns one node and changes nothing. *)
Definition returns (h : heap) (vs : list gv) (h' : heap) (n : node U) : Prop :=
  exists v, vs = [v] /\ node_rep M h' v n /\ grown h h'.
Definition arg_list (h : heap) (cv : gv) (args : list (arg U)) : Prop :=
  exists xs, slice_is h cv xs /\ all2 (arg_rep M h) xs args.

(** A function that returns one node that is represented as [R] says. *)
Definition returns_of {Z} (R : heap -> gv -> Z -> Prop) (h : heap) (vs : list gv) (h' : heap) (n : Z) : Prop :=
  exists v, vs = [v] /\ R h' v n /\ grown h h'.
(** An attribute that was made after [h]; the values of a delimited attribute
    are in an array that was made after [h], too. *)
Definition tidy (lo : nat) (h : heap) (l : loc) : Prop :=
  forall fs sv, nth_error h l = Some (OStruct "delimitedAttribute" fs) -> assoc "values" fs = Some sv -> own lo sv /\ spare h sv.
Definition new_attr (h h' : heap) (v : gv) (n : node U) : Prop :=
  exists l a, v = VPtr l /\ n = NAttr a /\ length h <= l /\ attr_rep M h' v a /\ tidy (length h) h' l.

Lemma sim_cb_map {A D D'} (p : prog A) h (fn : U -> D * U) (g : D -> D') Q :
  sim p h (bind (cb fn) (fun d => Ret (g d))) Q -> sim p h (cb (fun u => let '(d, u') := fn u in (g d, u'))) Q.
Proof.
  apply sim_model_eq. intros E w. unfold cb. cbn [bind run]. destruct (fn (w_u w)); reflexivity.
Qed.
Lemma made_vals h0 hb s h vs : grown h0 hb -> made M h0 hb s h vs -> vals_rep M h s vs.
Proof.
  intros G0 (ys & H1 & H2 & H3 & G). exists ys. split; [exact H1|]. eapply all2_mono; [|exact H3].
  intros x y. apply val_keeps, grown_keeps. eapply grown_trans; eauto.
Qed.
Lemma simb_new_values {A A' B} cv args h k (f : A -> prog A') (k' : list (value U) -> io U B) Q :
  arg_list h cv args ->
  (forall s h' vs, vals_rep M h' s vs -> grown h h' -> sim (pbind (k [s]) f) h' (k' vs) Q) ->
  sim (pbind (PCall (CFun "aitch.newValues") [cv] true k) f) h (bind (cb (new_values args)) k') Q.
Proof.
  intros (xs & H1 & H2) K. eapply simb_pcall; [eapply sim_new_values with (h0 := h); eauto using grown_refl|].
  intros vs h' ws (s & -> & Hm). apply K; [eapply made_vals; [apply grown_refl|exact Hm]|]. destruct Hm as (_ & _ & _ & _ & G). exact G.
Qed.
Lemma vals_alloc h o s vs : vals_rep M h s vs -> vals_rep M (h ++ [o]) s vs.
Proof. apply vals_keeps, grown_keeps, grown_app. Qed.

(** ** Nodes that hold values *)

Ltac values_node HA :=
  apply sim_cb_map; enter; steps; (eapply simb_new_values; [exact HA|]);
  let s := fresh "s" in let h1 := fresh "h1" in let vs := fresh "vs" in let HV := fresh "HV" in let G := fresh "G" in
  intros s h1 vs HV G; steps; apply sim_ret; eexists; (split; [reflexivity|]); (split; [|eapply grown_trans; [exact G|apply grown_app]]);
  cbn [node_rep attr_rep].
Lemma Text_spec cv args h : arg_list h cv args ->
  sim (PCall (CFun "aitch.Text") [cv] true PRet) h (cb (Text args)) (returns h).
Proof.
  intro HA. values_node HA. eexists. split; [reflexivity|]. eexists. split; [apply nth_app_new|apply vals_alloc, HV].
Qed.
Lemma Comment_spec cv args h : arg_list h cv args ->
  sim (PCall (CFun "aitch.Comment") [cv] true PRet) h (cb (Comment args)) (returns h).
Proof.
  intro HA. values_node HA. eexists. split; [reflexivity|]. eexists. split; [apply nth_app_new|apply vals_alloc, HV].
Qed.
Lemma Fragment_spec cv args h : arg_list h cv args ->
  sim (PCall (CFun "aitch.Fragment") [cv] true PRet) h (cb (Fragment args)) (returns h).
Proof.
  intro HA. values_node HA. eexists. split; [reflexivity|]. eexists. split; [apply nth_app_new|apply vals_alloc, HV].
Qed.
Lemma PI_spec name cv args h : arg_list h cv args ->
  sim (PCall (CFun "aitch.PI") [VStr name; cv] true PRet) h (cb (PI name args)) (returns h).
Proof.
  intro HA. values_node HA. eexists. split; [reflexivity|]. eexists _, _. split; [apply nth_app_new|].
  split; [reflexivity|apply vals_alloc, HV].
Qed.
Lemma NewAttribute_spec nv name cv args h : bytes_of nv = Some name -> arg_list h cv args ->
  sim (PCall (CFun "aitch.NewAttribute") [nv; cv] true PRet) h (cb (NewAttribute name args)) (returns_of (new_attr h) h).
Proof.
  intros Hn HA. values_node HA. eexists _, _. split; [reflexivity|]. split; [reflexivity|]. split; [apply grown_length, G|]. split.
  - eexists _, _, _. split; [reflexivity|]. split; [apply nth_app_new|]. split; [exact Hn|apply vals_alloc, HV].
  - intros fs sv Hs. rewrite nth_app_new in Hs. discriminate.
Qed.
Lemma NewBooleanAttribute_spec nv name h : bytes_of nv = Some name ->
  sim (PCall (CFun "aitch.NewBooleanAttribute") [nv] false PRet) h (Ret (NewBooleanAttribute name)) (returns_of (new_attr h) h).
Proof.
  intros Hn. enter. steps. apply sim_ret. eexists. split; [reflexivity|]. split; [|apply grown_app].
  eexists _, _. split; [reflexivity|]. split; [reflexivity|]. split; [auto|]. split.
  - eexists _, _. split; [reflexivity|]. split; [apply nth_app_new|exact Hn].
  - intros fs sv Hs. rewrite nth_app_new in Hs. discriminate.
Qed.

(** ** Calls with separate arguments *)

Lemma simb_new_slice {A' B} xs (f : gv -> prog A') h (m : io U B) Q :
  sim (f (VSlice (length h) (length xs))) (h ++ [OArr xs]) m Q -> sim (pbind (new_slice xs) f) h m Q.
Proof. intro K. unfold new_slice. apply sim_assoc. apply simb_alloc. exact K. Qed.
Lemma slice_new h xs : slice_is (h ++ [OArr xs]) (VSlice (length h) (length xs)) xs.
Proof. cbn [slice_is]. exists xs. split; [apply nth_app_new|]. rewrite firstn_all. auto. Qed.
Lemma arg_grown h h' v a : grown h h' -> arg_rep M h v a -> arg_rep M h' v a.
Proof. intro G. destruct a; cbn [arg_rep]; auto; [apply node_keeps|apply val_keeps]; apply grown_keeps, G. Qed.
Lemma arg_list_new h xs args : all2 (arg_rep M h) xs args -> arg_list (h ++ [OArr xs]) (VSlice (length h) (length xs)) args.
Proof.
  intro H. exists xs. split; [apply slice_new|]. eapply all2_mono; [|exact H]. intros x y. apply arg_grown, grown_app.
Qed.
Lemma arg_list_grown h h' v args : grown h h' -> arg_list h v args -> arg_list h' v args.
Proof.
  intros G (xs & H1 & H2). exists xs. split; [eapply slice_grown; eauto|]. eapply all2_mono; [|exact H2]. intros x y. apply arg_grown, G.
Qed.
Lemma returns_grown h h1 vs h' n : grown h h1 -> returns h1 vs h' n -> returns h vs h' n.
Proof. intros G (v & H1 & H2 & H3). exists v. split; [auto|]. split; [auto|]. eapply grown_trans; eauto. Qed.

Lemma DocType_spec h : sim (PCall (CFun "aitch.DocType") [] false PRet) h (cb DocType) (returns h).
Proof.
  enter. steps. enter_fn. steps. apply simb_new_slice. steps. apply sim_cb_map. cbn [length].
  eapply simb_new_values; [apply (arg_list_new h [VStr (B "html")] [AData (GString (B "html"))]); cbn [all2 arg_rep]; eexists _, []; split; [reflexivity|]; split; [right; reflexivity|reflexivity]|].
  intros s h1 vs HV G. steps. apply sim_ret. eexists. split; [reflexivity|]. split.
  - cbn [node_rep]. eexists. split; [reflexivity|]. eexists _, _. split; [apply nth_app_new|]. split; [reflexivity|apply vals_alloc, HV].
  - eapply grown_trans; [eapply grown_trans; [apply grown_app|exact G]|apply grown_app].
Qed.
Lemma NewConcatValue_spec cv args h : arg_list h cv args ->
  sim (PCall (CFun "aitch.NewConcatValue") [cv] true PRet) h (cb (NewConcatValue args))
    (fun vs h' x => exists v, vs = [v] /\ val_rep M h' v x /\ grown h h').
Proof.
  intro HA. apply sim_cb_map. enter. steps. eapply simb_new_values; [exact HA|]. intros s h1 vs (xs & X1 & X2) G. steps. apply sim_ret.
  eexists. split; [reflexivity|]. split; [|exact G]. cbn [val_rep]. eexists _, _, _, _. split; [reflexivity|]. cbn [dyn_rep]. eauto.
Qed.
Lemma NewValue_spec v a h : arg_rep M h v a ->
  sim (PCall (CFun "aitch.NewValue") [v] false PRet) h (cb (NewValue a))
    (fun vs h' x => exists v, vs = [v] /\ val_rep M h' v x /\ grown h h').
Proof.
  intro HA. apply sim_model_eq with (bind (cb (new_value a)) (fun vs => Ret (match vs with [v] => v | _ => Val [] None vs end))).
  { intros E w. unfold cb, NewValue. cbn [bind run]. destruct (new_value a (w_u w)) as [[|x []] u]; reflexivity. }
  enter. steps. eapply simb_pcall; [apply sim_new_value with (h0 := h); [exact MO|exact HA|apply grown_refl]|].
  intros r h1 ws (s & ys & -> & Y1 & Y2 & G). steps.
  assert (YR : all2 (val_rep M h1) ys ws) by (eapply all2_mono; [|exact Y2]; intros x y; apply val_keeps, grown_keeps, G).
  destruct ws as [|w1 [|w2 ws]]; cbn [all2] in YR.
  - subst ys. cbn [length Z.of_nat Z.eqb Pos.of_succ_nat]. steps. apply sim_ret. eexists. split; [reflexivity|]. split; [|exact G].
    cbn [val_rep]. eexists _, _, _, _. split; [reflexivity|]. cbn [dyn_rep]. split; [reflexivity|]. split; [reflexivity|]. split; [exact Y1|]. reflexivity.
  - destruct YR as (y & ys' & -> & HR & ->). cbn [length Z.of_nat Z.eqb Pos.of_succ_nat Pos.eqb]. steps.
    eapply simb_index_slice; [exact Y1|lia|reflexivity|]. steps. apply sim_ret. eexists. split; [reflexivity|]. auto.
  - pose proof (all2_length _ _ _ Y2) as L. cbn [length] in L. rewrite (proj2 (Z.eqb_neq _ _)) by lia. steps. apply sim_ret.
    eexists. split; [reflexivity|]. split; [|exact G].
    cbn [val_rep]. eexists _, _, _, _. split; [reflexivity|]. cbn [dyn_rep]. split; [reflexivity|]. split; [reflexivity|]. split; [exact Y1|exact YR].
Qed.
(** ** Names are checked *)

(** What a constructor does that may fail: it returns a node (nil for [None])
    and changes nothing that was there, or it panics. *)
Definition opt_of {Z} (R : gv -> Z -> Prop) (v : gv) (n : option Z) : Prop :=
  match n with Some n => R v n | None => v = VNil end.
Definition opt_rep (h : heap) : gv -> option (node U) -> Prop := opt_of (node_rep M h).
Definition does_of {Z} (R : heap -> gv -> Z -> Prop) (p : prog (list gv)) (h : heap) (r : U -> outcome (option Z * U)) : Prop :=
  forall E w, ord_ok (e_ord E) ->
  match r (w_u w) with
  | Done (n, u') =>
      exists fuel v h', go_run C fuel E p h w = Some (ROk [v] h' (World (w_log w) u' (w_tick w))) /\ opt_of (R h') v n /\ grown h h'
  | Panic => exists fuel w', go_run C fuel E p h w = Some (RPanic w')
  end.
Definition does : prog (list gv) -> heap -> (U -> outcome (option (node U) * U)) -> Prop := does_of (node_rep M).
Definition omap {Z Z'} (g : Z -> Z') (r : outcome (option Z * U)) : outcome (option Z' * U) :=
  match r with Done (n, u) => Done (option_map g n, u) | Panic => Panic end.
Lemma does_of_map {Z Z'} (R : heap -> gv -> Z -> Prop) (R' : heap -> gv -> Z' -> Prop) (g : Z -> Z') p h r r' :
  (forall h' v n, grown h h' -> R h' v n -> R' h' v (g n)) -> (forall u, r' u = omap g (r u)) -> does_of R p h r -> does_of R' p h r'.
Proof.
  intros HR Hr H E w O. specialize (H E w O). rewrite Hr. destruct (r (w_u w)) as [[n u']|]; [|exact H]. cbn [omap].
  destruct H as (fuel & v & h' & H1 & H2 & H3). exists fuel, v, h'. split; [exact H1|]. split; [|exact H3]. destruct n; cbn [opt_of option_map] in *; auto.
Qed.
Lemma does_of_mono {Z} (R R' : heap -> gv -> Z -> Prop) p h r :
  (forall h' v n, grown h h' -> R h' v n -> R' h' v n) -> does_of R p h r -> does_of R' p h r.
Proof.
  intros HR. apply does_of_map with (fun z => z); [exact HR|]. intro u. destruct (r u) as [[[] ?]|]; reflexivity.
Qed.
Lemma does_node {Z} (R : heap -> gv -> Z -> Prop) p h (mk : U -> Z * U) : sim p h (cb mk) (returns_of R h) -> does_of R p h (fun u => let '(n, u') := mk u in Done (Some n, u')).
Proof.
  intros H E w O. destruct (sim_never _ _ _ _ _ H E w O) as (n & a & h' & RR & v & -> & H1 & H2). unfold cb in *. cbn [run] in *.
  destruct (mk (w_u w)) as [nd u']. cbn [run fst snd] in *. exists n, v, h'. auto.
Qed.
Lemma new_does p h r : does_of (new_attr h) p h r -> does p h r.
Proof. apply does_of_mono. intros h' v n G (l & a & _ & -> & _ & H & _). exact H. Qed.
Lemma does_nil {Z} (R : heap -> gv -> Z -> Prop) p h : sim p h (Ret tt) (fun vs h' _ => vs = [VNil] /\ grown h h') -> does_of R p h (fun u => Done (None, u)).
Proof.
  intros H E w O. destruct (sim_never _ _ _ _ _ H E w O) as (n & a & h' & RR & -> & G). cbn [run fst snd] in *. exists n, VNil, h'.
  destruct w. split; [exact RR|]. split; [reflexivity|exact G].
Qed.
Lemma does_panic {Z} (R : heap -> gv -> Z -> Prop) p h : pan C p h -> does_of R p h (fun _ => Panic).
Proof. intros H E w O. apply H, O. Qed.

Lemma glob_regex : global C "aitch.htmlTagRegex" = PRet (VRegex tag_pattern).
Proof. reflexivity. Qed.
Lemma simb_matches {P : panics} {A' B} name (f : list gv -> prog A') h (m : io U B) Q :
  sim (f [VBool (valid_name name)]) h m Q -> sim (pbind (invoke (VRegex tag_pattern) "MatchString" [VStr name] false) f) h m Q.
Proof. intro K. eapply simb_eq with (X' := PRet [VBool (valid_name name)]); [|exact K]. lazy [invoke String.eqb Ascii.eqb Bool.eqb andb]. rewrite beq_refl. reflexivity. Qed.

Ltac check := (eapply simb_eq; [apply glob_regex|]); steps; apply simb_matches; steps.
Lemma simb_panic {P : panics} {A A' B} (f : A -> prog A') h (m : io U B) Q : may_panic -> sim (pbind PPanic f) h m Q.
Proof. apply sim_panic. Qed.
Lemma may : @may_panic True.
Proof. exact I. Qed.
Ltac check_name V MK GOOD :=
  lazymatch goal with |- context [valid_name ?name] => destruct (valid_name name) eqn:V end;
  [ apply (does_node _ _ _ MK); enter; steps; check; rewrite V; steps; (eapply simb_last; [GOOD|]);
    let v := fresh "v" in intros ? ? ? (v & -> & ?); steps; apply sim_ret; exists v; auto
  | let P := fresh "P" in destruct (m_panics M) eqn:P;
    [ apply does_panic; apply sim_pan with (B := unit) (m := Ret tt); enter; steps; check; rewrite V; steps;
      change (c_panics C) with (m_panics M); rewrite P; steps; apply simb_panic, may
    | apply does_nil; enter; steps; check; rewrite V; steps; change (c_panics C) with (m_panics M); rewrite P; steps; apply sim_ret;
      split; [reflexivity|apply grown_refl] ] ].
Lemma Attribute_made name cv args h : arg_list h cv args ->
  does_of (new_attr h) (PCall (CFun "aitch.Attribute") [VStr name; cv] true PRet) h (Attribute (m_panics M) name args).
Proof.
  intro HA. unfold Attribute, checked. check_name V (NewAttribute name args) ltac:(apply NewAttribute_spec; [reflexivity|exact HA]).
Qed.
Lemma Attribute_spec name cv args h : arg_list h cv args ->
  does (PCall (CFun "aitch.Attribute") [VStr name; cv] true PRet) h (Attribute (m_panics M) name args).
Proof. intro HA. apply new_does, Attribute_made, HA. Qed.
Lemma BooleanAttribute_made name h :
  does_of (new_attr h) (PCall (CFun "aitch.BooleanAttribute") [VStr name] false PRet) h (BooleanAttribute (m_panics M) name).
Proof.
  unfold BooleanAttribute, checked. check_name V (fun u : U => (NewBooleanAttribute name, u)) ltac:(eapply sim_cb_pure; [reflexivity|]; apply NewBooleanAttribute_spec; reflexivity).
Qed.
Lemma BooleanAttribute_spec name h :
  does (PCall (CFun "aitch.BooleanAttribute") [VStr name] false PRet) h (BooleanAttribute (m_panics M) name).
Proof. apply new_does, BooleanAttribute_made. Qed.

(** A new slice without elements. *)
Lemma simb_make_new {P : panics} {A' B} h n t (f : gv -> prog A') (m : io U B) Q :
  String.eqb (substring 0 4 t) "map[" = false ->
  (forall s h', slice_is h' s [] -> own (length h) s -> spare h' s -> grown h h' -> sim (f s) h' m Q) ->
  sim (pbind (make t [VInt 0; VInt (Z.of_nat n)]) f) h m Q.
Proof.
  intros Ht K. unfold make. rewrite Ht. cbn [Z.ltb Z.compare orb]. rewrite (proj2 (Z.ltb_ge _ _)) by lia.
  apply sim_assoc. apply simb_alloc. rewrite Nat2Z.id. cbn [pbind]. apply K.
  - cbn [slice_is]. eexists. split; [apply nth_app_new|]. split; [apply Nat.le_0_l|reflexivity].
  - cbn [own]. auto.
  - cbn [spare]. eexists. split; [apply nth_app_new|]. intros i v _. apply nth_repeat_nil.
  - apply grown_app.
Qed.

(** ** Constructors that fill a field of a new object *)

Definition apart (s t : gv) : Prop := match s, t with VSlice l _, VSlice l' _ => l <> l' | _, _ => True end.
Definition building (h0 : heap) (l : loc) (tag : string) (fs : list (string * gv)) (h : heap) : Prop :=
  nth_error h l = Some (OStruct tag fs) /\ length h0 <= l /\ grown h0 h.
Lemma building_start h0 h tag fs : grown h0 h -> building h0 (length h) tag fs (h ++ [OStruct tag fs]).
Proof.
  intro G. split; [apply nth_app_new|]. split; [apply grown_length, G|]. eapply grown_trans; [exact G|apply grown_app].
Qed.
Lemma building_grown h0 l tag fs h h' : building h0 l tag fs h -> grown h h' -> building h0 l tag fs h'.
Proof. intros (H1 & H2 & H3) G. split; [eapply grown_nth; eauto|]. split; [auto|]. eapply grown_trans; eauto. Qed.
Lemma slice_not_at h s xs l tag fs : slice_is h s xs -> nth_error h l = Some (OStruct tag fs) -> not_at l s.
Proof. destruct s; cbn [slice_is not_at]; auto. intros (cs & H & _) H' ->. congruence. Qed.
Lemma slice_lt h l n xs : slice_is h (VSlice l n) xs -> l < length h.
Proof. cbn [slice_is]. intros (cs & H & _). eapply nth_lt; eauto. Qed.
Lemma building_append h0 l tag fs h s xs h' s' ys x :
  building h0 l tag fs h -> slice_is h s xs -> own (length h0) s -> appended s h s' h' -> slice_is h' s' ys ->
  nth_error h' l = Some (OStruct tag fs) /\
  building h0 l tag (set_assoc x s' fs) (set_nth h' l (OStruct tag (set_assoc x s' fs))) /\
  slice_is (set_nth h' l (OStruct tag (set_assoc x s' fs))) s' ys /\
  (forall t zs, slice_is h t zs -> apart s t -> slice_is (set_nth h' l (OStruct tag (set_assoc x s' fs))) t zs /\ apart s' t).
Proof.
  intros (B1 & B2 & B3) Hs Ho Ha Hs'. pose proof (slice_not_at _ _ _ _ _ _ Hs B1) as N. pose proof Ha as (A1 & A2 & A3 & _).
  assert (H1 : nth_error h' l = Some (OStruct tag fs)) by (apply A2; auto).
  assert (G' : grown h0 h') by (eapply grown_same; [exact B3|eapply appended_same; eauto]).
  split; [exact H1|]. split.
  - split; [apply nth_set_same; eapply nth_lt; eauto|]. split; [exact B2|].
    eapply grown_same; [exact G'|]. apply same_update, B2.
  - split; [apply slice_update; [exact Hs'|eapply slice_not_at; eauto]|]. intros t zs Ht Hp.
    assert (Ht' : slice_is h' t zs).
    { eapply slice_same; [exact Ht|]. intros lt o (n & ->) Hn. apply A2; [|exact Hn]. destruct s; cbn [not_at apart] in *; auto. }
    split; [apply slice_update; [exact Ht'|eapply slice_not_at; eauto]|].
    destruct s'; cbn [apart]; auto. destruct t; auto.
    destruct (A3 _ _ eq_refl) as [(n' & ->)|Hl]; [exact Hp|]. apply slice_lt in Ht. lia.
Qed.

Lemma spare_update h l o s : spare h s -> not_at l s -> spare (set_nth h l o) s.
Proof. destruct s; cbn [spare not_at]; auto. intros (cs & H1 & H2) Hn. exists cs. split; [rewrite nth_set_other; auto|auto]. Qed.
Lemma spare_grown h h' s : spare h s -> grown h h' -> spare h' s.
Proof. destruct s; cbn [spare]; auto. intros (cs & H1 & H2) G. exists cs. split; [eapply grown_nth; eauto|auto]. Qed.
(** attribute.go 153-165 *)
Definition da_body : stmt :=
  SBlock [SIf None (EBin ONe (ELoc "v") ENil)
    (SBlock [SAssign [LField (ELoc "result") "values"]
      [ECall (EExt "append") [EField (ELoc "result") "values"; ECall (EFun "aitch.newValue") [ELoc "v"] false] true]])
    SSkip].
Definition da_fields (nv dv s : gv) : list (string * gv) := [("name"%string, nv); ("delimiter"%string, dv); ("values"%string, s)].
Lemma da_loop l nv dv cv h0 : forall args h s ys vs pre xs en, assoc "result" en = Some (VPtr l) ->
  slice_is h0 cv (pre ++ xs) -> all2 (arg_rep M h0) xs args ->
  building h0 l "delimitedAttribute" (da_fields nv dv s) h -> slice_is h s ys -> own (length h0) s -> spare h s -> all2 (val_rep M h0) ys vs ->
  sim (range_with (exec C da_body) "_" "v" (slice_items cv (length pre) (length xs)) en) h
    (bind (cb (new_values args)) (fun ws => Ret (vs ++ ws)))
    (fun r h' vs' => exists s' ys', r = (FNext, en) /\ building h0 l "delimitedAttribute" (da_fields nv dv s') h' /\ slice_is h' s' ys' /\ own (length h0) s' /\ spare h' s' /\ all2 (val_rep M h0) ys' vs').
Proof.
  induction args as [|a args IH]; intros h s ys vs pre xs en Hr Hs Hx HB Hy Ho Hsp Hv; cbn [all2] in Hx.
  - subst xs. apply sim_model_eq with (Ret (vs ++ [])).
    { intros E w. unfold cb. cbn [bind run new_values]. destruct w; reflexivity. }
    rewrite app_nil_r. apply sim_ret. exists s, ys. repeat (split; [solve [auto]|]). auto.
  - destruct Hx as (x & xs' & -> & Hx & Hxs). pose proof HB as (B1 & B2 & G).
    apply sim_model_eq with (bind (cb (new_value a)) (fun ws => bind (cb (new_values args)) (fun ws' => Ret ((vs ++ ws) ++ ws')))).
    { intros E w. unfold cb. cbn [bind run new_values]. destruct (new_value a (w_u w)) as [v1 u1]. cbn [bind run w_u w_log w_tick].
      destruct (new_values args u1) as [v2 u2]. cbn [bind run]. rewrite app_assoc. reflexivity. }
    cbn [length]. eapply sim_range_cons; [eapply slice_grown; [exact G|exact Hs]|]. unfold da_body at 1. steps.
    assert (Nx : x = VNil \/ x <> VNil) by (destruct x; auto; right; discriminate). destruct Nx as [Nx|Nx].
    + pose proof (arg_nil _ _ _ _ Hx Nx) as ->. subst x. steps. leaves. steps.
      apply sim_model_eq with (bind (cb (new_values args)) (fun ws' => Ret (vs ++ ws'))).
      { intros E w. unfold cb. cbn [bind run new_value]. rewrite app_nil_r. destruct w; reflexivity. }
      replace (pre ++ VNil :: xs') with ((pre ++ [VNil]) ++ xs') in Hs by (rewrite <- app_assoc; reflexivity).
      eapply IH; [exact Hr|exact Hs|exact Hxs|exact HB|exact Hy|exact Ho|exact Hsp|exact Hv].
    + eapply simb_eq; [rewrite (equal_nil _ Nx); reflexivity|]. steps. unfold da_fields in *. steps.
      eapply simb_pcall; [apply sim_new_value with (h0 := h0); [exact MO|exact Hx|exact G]|].
      intros r h1 ws (t & ts & -> & T1 & T2 & G1). steps.
      pose proof (building_grown _ _ _ _ _ _ HB G1) as HB1. apply (slice_grown _ _ _ _ G1) in Hy.
      eapply simb_append_spread; [exact Hy|exact Ho|apply grown_length; eapply grown_trans; eauto|exact T1|].
      intros h2 s2 X1 X2 X3. steps.
      destruct (building_append _ _ _ _ _ _ _ _ _ _ "values" HB1 Hy Ho X3 X1) as (Y1 & Y2 & Y3 & _).
      eapply simb_set_field; [exact Y1|reflexivity|]. cbn [set_assoc String.eqb Ascii.eqb Bool.eqb] in *. steps. leaves. steps.
      replace (pre ++ x :: xs') with ((pre ++ [x]) ++ xs') in Hs by (rewrite <- app_assoc; reflexivity).
      eapply IH; [exact Hr|exact Hs|exact Hxs|exact Y2|exact Y3|exact X2| |apply all2_app; eauto].
      apply spare_update; [apply X3; eapply spare_grown; [exact Hsp|exact G1]|exact (slice_not_at _ _ _ _ _ _ X1 Y1)].
Qed.
Lemma NewDelimitedAttribute_spec nv name dv delim cv args h : bytes_of nv = Some name -> bytes_of dv = Some delim -> arg_list h cv args ->
  sim (PCall (CFun "aitch.NewDelimitedAttribute") [nv; dv; cv] true PRet) h (cb (NewDelimitedAttribute name delim args)) (returns_of (new_attr h) h).
Proof.
  intros Hn Hd (xs & X1 & X2). apply sim_cb_map. enter. steps.
  eapply simb_make_new; [reflexivity|]. intros s1 h1 Y1 Y2 Y3 G1. steps.
  pose proof (building_start h h1 "delimitedAttribute" (da_fields nv dv s1) G1) as HB. unfold da_fields in HB.
  pose proof (slice_grown _ _ _ _ (proj2 (proj2 HB)) X1) as X1'. steps.
  eapply sim_bind with (m := cb (new_values args)).
  - apply sim_model_eq with (bind (cb (new_values args)) (fun ws => Ret ([] ++ ws))).
    { intros E w. unfold cb. cbn [bind run app]. destruct (new_values args (w_u w)); reflexivity. }
    apply (da_loop (length h1) nv dv cv h args _ s1 [] [] [] xs); auto; [apply slice_alloc, Y1|eapply spare_grown; [exact Y3|apply grown_app]|reflexivity].
  - intros r h2 vs (s2 & ys2 & -> & (Z1 & Z2 & Z3) & Z4 & Z5 & Z6 & Z7). steps. apply sim_ret. eexists. split; [reflexivity|]. split; [|exact Z3].
    eexists _, _. split; [reflexivity|]. split; [reflexivity|]. split; [exact Z2|]. split.
    + eexists _, _, _, _. split; [reflexivity|]. split; [exact Z1|]. split; [exact Hn|]. split; [exact Hd|].
      exists ys2. split; [exact Z4|]. eapply all2_mono; [|exact Z7]. intros x y. apply val_keeps, grown_keeps, Z3.
    + intros fs sv Hs Hv. rewrite Z1 in Hs. injection Hs as <-. injection Hv as <-. auto.
Qed.
Lemma DelimitedAttribute_made name delim cv args h : arg_list h cv args ->
  does_of (new_attr h) (PCall (CFun "aitch.DelimitedAttribute") [VStr name; VStr delim; cv] true PRet) h (DelimitedAttribute (m_panics M) name delim args).
Proof.
  intro HA. unfold DelimitedAttribute, checked.
  check_name V (NewDelimitedAttribute name delim args) ltac:(apply NewDelimitedAttribute_spec; [reflexivity|reflexivity|exact HA]).
Qed.
Lemma DelimitedAttribute_spec name delim cv args h : arg_list h cv args ->
  does (PCall (CFun "aitch.DelimitedAttribute") [VStr name; VStr delim; cv] true PRet) h (DelimitedAttribute (m_panics M) name delim args).
Proof. intro HA. apply new_does, DelimitedAttribute_made, HA. Qed.

(** ** Lists of nodes *)

Definition list_of {Y} (R : gv -> Y -> Prop) (h : heap) (cv : gv) (ns : list (option Y)) : Prop :=
  exists xs, slice_is h cv xs /\ all2 (opt_of R) xs ns.
Definition node_list (h : heap) : gv -> list (option (node U)) -> Prop := list_of (node_rep M h) h.
Lemma node_not_nil h v n : node_rep M h v n -> v <> VNil.
Proof. intros H ->. destruct n as [[]| | | | | | | | | | | | |]; cbn [node_rep attr_rep] in H; split_all; discriminate. Qed.

(** The nodes that group others; the members are of any type [Y] whose elements
    stand for nodes ([rd]): nodes, or shared nodes (Sharing.v). *)
Inductive group (Y : Type) :=
| GColl (ys : list Y)
| GCond (f : condfn U) (ats ys : list Y)
| GIter (f : ctx U -> U -> list (gval U) * U) (ys : list Y)
| GYield (p : yprog U) (ys : list Y).
Arguments GColl {Y}. Arguments GCond {Y}. Arguments GIter {Y}. Arguments GYield {Y}.
Definition g_attrs {Y} (rd : Y -> node U) (l : list Y) : list Y := filter (fun y => is_attr (rd y)) l.
Definition g_others {Y} (rd : Y -> node U) (l : list Y) : list Y := filter (fun y => negb (is_attr (rd y))) l.
Definition g_all {Y} (ys : list (option Y)) (mk : list Y -> group Y) : outcome (group Y) :=
  match all_some ys with None => Panic | Some l => Done (mk l) end.
(** What the constructors of Build.v do, for such members. *)
Definition gCollection {Y} (ys : list (option Y)) : group Y := GColl (somes ys).
Definition gConditional {Y} (rd : Y -> node U) (fn : option (condfn U)) (ys : list (option Y)) : outcome (group Y) :=
  match fn with None => Done (gCollection ys) | Some f => g_all ys (fun l => GCond f (g_attrs rd l) (g_others rd l)) end.
Definition gWhen {Y} (rd : Y -> node U) (key : bytes) (ys : list (option Y)) : outcome (group Y) :=
  if has_prefix (B "!") key then gConditional rd (Some (unkeyed (skipn 1 key))) ys else gConditional rd (Some (keyed key)) ys.
Definition gIterate {Y} (rd : Y -> node U) (fn : option (ctx U -> U -> list (gval U) * U)) (ys : list (option Y)) : outcome (group Y) :=
  match fn with None => Panic | Some f => g_all ys (fun l => GIter f (g_others rd l)) end.
Definition gIterateKey {Y} (rd : Y -> node U) (key : bytes) (ys : list (option Y)) : outcome (group Y) :=
  g_all ys (fun l => GIter (key_items key) (g_others rd l)).
Definition gIterateYield {Y} (rd : Y -> node U) (fn : option (yprog U)) (ys : list (option Y)) : outcome (group Y) :=
  match fn with None => Panic | Some p => g_all ys (fun l => GYield p (g_others rd l)) end.
Definition made_of {Y} (rd : Y -> node U) (R : gv -> Y -> Prop) (h : heap) (v : gv) (n : group Y) : Prop :=
  match n with
  | GColl ys =>
      exists l sv xs, v = VPtr l /\ nth_error h l = Some (OStruct "collection" [("nodes"%string, sv)]) /\
        slice_is h sv xs /\ all2 R xs ys
  | GCond f ats ys =>
      exists l sv av fv xs zs, v = VPtr l /\
        nth_error h l = Some (OStruct "conditional"
          [("nodes"%string, sv); ("attributes"%string, av); ("fn"%string, fv)]) /\
        slice_is h sv xs /\ all2 R xs ys /\ slice_is h av zs /\ all2 (fun v y => R v y /\ is_attr (rd y) = true) zs ats /\ cond_fun M fv f
  | GIter f ys =>
      exists l sv fv xs, v = VPtr l /\
        nth_error h l = Some (OStruct "iterator" [("nodes"%string, sv); ("fn"%string, fv)]) /\
        slice_is h sv xs /\ all2 R xs ys /\ items_fun M fv f
  | GYield p ys =>
      exists l sv xs, v = VPtr l /\
        nth_error h l = Some (OStruct "yieldIterator" [("fn"%string, VYield p); ("nodes"%string, sv)]) /\
        slice_is h sv xs /\ all2 R xs ys
  end.
(** The members are nodes. *)
Definition group_node (g : group (node U)) : node U :=
  match g with
  | GColl ns => NCollection ns
  | GCond f ats ns => NConditional f (node_attrs ats) ns
  | GIter f ns => NIter f ns
  | GYield p ns => NYield p ns
  end.
Definition same_node (n : node U) : node U := n.
Lemma g_attrs_nodes l : node_attrs (g_attrs same_node l) = node_attrs l.
Proof. induction l as [|[] l IH]; cbn; try rewrite IH; auto; f_equal; exact IH. Qed.
Lemma made_rep (R : gv -> node U -> Prop) h v n : (forall v n, R v n -> node_rep M h v n) -> made_of same_node R h v n -> node_rep M h v (group_node n).
Proof.
  intros HR. destruct n; cbn [made_of node_rep group_node].
  - intros (l & sv & xs & -> & H1 & H2 & H3). exists l. split; [auto|]. exists sv, xs. split; [auto|]. split; [auto|]. eapply all2_mono; eauto.
  - intros (l & sv & av & fv & xs & zs & -> & H1 & H2 & H3 & H4 & H5 & H6). exists l. split; [auto|]. exists sv, av, fv, xs.
    split; [auto|]. split; [auto|]. split; [eapply all2_mono; eauto|]. split; [|auto]. exists zs. split; [auto|]. clear H4 H1.
    revert zs H5. induction ats as [|a ats IH]; intros zs H5; cbn [all2] in H5; [subst; reflexivity|].
    destruct H5 as (z & zs' & -> & (Hz & Ha) & Hr). destruct a; try discriminate Ha. cbn [node_attrs flat_map app all2]. exists z, zs'.
    split; [reflexivity|]. split; [apply (HR _ _ Hz)|]. apply IH, Hr.
  - intros (l & sv & fv & xs & -> & H1 & H2 & H3 & H4). exists l. split; [auto|]. exists sv, fv, xs. split; [auto|]. split; [auto|]. split; [eapply all2_mono; eauto|auto].
  - intros (l & sv & xs & -> & H1 & H2 & H3). exists l. split; [auto|]. exists sv, xs. split; [auto|]. split; [auto|]. eapply all2_mono; eauto.
Qed.
Definition just {Z} (r : outcome Z) (u : U) : outcome (option Z * U) :=
  match r with Done n => Done (Some n, u) | Panic => Panic end.
Definition gmap {Z Z'} (g : Z -> Z') (r : outcome Z) : outcome Z' := match r with Done n => Done (g n) | Panic => Panic end.
Lemma made_does p h r n : does_of (made_of same_node (node_rep M h)) p h (just r) -> n = gmap group_node r -> does p h (just n).
Proof.
  intros H ->. revert H. apply does_of_map with group_node.
  - intros h' v n G. apply made_rep. intros v' n'. apply node_keeps, grown_keeps, G.
  - intro u. destruct r; reflexivity.
Qed.
Lemma g_conditional fn ns : Conditional fn ns = gmap group_node (gConditional same_node fn ns).
Proof. unfold Conditional, gConditional, g_all. destruct fn; [|reflexivity]. destruct (all_some ns); [|reflexivity]. cbn [gmap group_node]. rewrite g_attrs_nodes. reflexivity. Qed.
Lemma g_when k ns : When k ns = gmap group_node (gWhen same_node k ns).
Proof. unfold When, gWhen. destruct (has_prefix _ _); apply g_conditional. Qed.
Lemma g_iterate fn ns : Iterate fn ns = gmap group_node (gIterate same_node fn ns).
Proof. unfold Iterate, gIterate, g_all. destruct fn; [|reflexivity]. destruct (all_some ns); reflexivity. Qed.
Lemma g_iterate_key k ns : IterateKey k ns = gmap group_node (gIterateKey same_node k ns).
Proof. unfold IterateKey, gIterateKey, g_all. destruct (all_some ns); reflexivity. Qed.
Lemma g_iterate_yield fn ns : IterateYield fn ns = gmap group_node (gIterateYield same_node fn ns).
Proof. unfold IterateYield, gIterateYield, g_all. destruct fn; [|reflexivity]. destruct (all_some ns); reflexivity. Qed.

Section Lists.
Variable Y : Type.
Variable rd : Y -> node U.
Variable R : gv -> Y -> Prop.
Variable h0 : heap.
Hypothesis HR : forall v y, R v y -> node_rep M h0 v (rd y).
Definition adding (h0 : heap) (l : loc) (tag : string) (fs : gv -> list (string * gv)) (h : heap) (ns : list Y) : Prop :=
  exists s ys, building h0 l tag (fs s) h /\ slice_is h s ys /\ own (length h0) s /\ all2 R ys ns.
(** Adding a node to the field [x]. *)
Definition one_field (x : string) (fs : gv -> list (string * gv)) : Prop :=
  forall s, assoc x (fs s) = Some s /\ forall s', set_assoc x s' (fs s) = fs s'.
Ltac add_node HF x HB Hy Ho Hn Hv :=
  let F1 := fresh "F1" in let F2 := fresh "F2" in
  lazymatch type of HB with building ?h0 ?l ?tag (?fs ?s) ?h =>
    destruct (HF s) as [F1 F2]; (eapply simb_field; [exact (proj1 HB)|exact F1|]); steps;
    (eapply simb_append; [exact Hy|exact Ho|apply grown_length; exact (proj2 (proj2 HB))|]);
    let h2 := fresh "h2" in let s2 := fresh "s2" in let X1 := fresh "X1" in let X2 := fresh "X2" in let X3 := fresh "X3" in
    intros h2 s2 X1 X2 X3 _; steps;
    let Y1 := fresh "Y1" in let Y2 := fresh "Y2" in let Y3 := fresh "Y3" in let Y4 := fresh "Y4" in
    destruct (building_append _ _ _ _ _ _ _ _ _ _ x HB Hy Ho X3 X1) as (Y1 & Y2 & Y3 & Y4); rewrite F2 in Y2, Y3, Y4;
    (eapply simb_set_field; [exact Y1|exact F1|]); rewrite F2;
    let A := fresh "A" in
    lazymatch type of Hn with all2 _ ?ys ?ns =>
      lazymatch type of Hv with R ?v ?n =>
        assert (A : adding h0 l tag fs (set_nth h2 l (OStruct tag (fs s2))) (ns ++ [n]))
          by (exists s2, (ys ++ [v]); repeat (split; [assumption|]); apply all2_app; [exact Hn|cbn [all2]; eauto])
      end end
  end.
(** iterate.go 24-28, 62-66, 130-134 *)
Definition it_body : stmt :=
  SBlock [SIf None (EBin ONe (EMethod (ELoc "n") "Type" [] false) (EInt 1))
    (SBlock [SAssign [LField (ELoc "result") "nodes"] [ECall (EExt "append") [EField (ELoc "result") "nodes"; ELoc "n"] false]])
    SSkip].
Lemma it_loop {P : panics} l tag fs cv : one_field "nodes" fs ->
  forall ns h os pre xs en, assoc "result" en = Some (VPtr l) -> (all_some ns = None -> may_panic) ->
  slice_is h0 cv (pre ++ xs) -> all2 (opt_of R) xs ns -> adding h0 l tag fs h os ->
  sim (range_with (exec C it_body) "_" "n" (slice_items cv (length pre) (length xs)) en) h (Ret tt)
    (fun r h' _ => exists ns', all_some ns = Some ns' /\ r = (FNext, en) /\ adding h0 l tag fs h' (os ++ g_others rd ns')).
Proof.
  intro HF. induction ns as [|n ns IH]; intros h os pre xs en Hr Hp Hs Hx HA; cbn [all2] in Hx.
  - subst xs. apply sim_ret. exists []. rewrite app_nil_r. auto.
  - destruct Hx as (x & xs' & -> & Hx & Hxs). pose proof HA as (s & ys & HB & Hy & Ho & Hn). pose proof HB as (B1 & B2 & G).
    cbn [length]. eapply sim_range_cons; [eapply slice_grown; [exact G|exact Hs]|]. unfold it_body at 1. steps.
    replace (pre ++ x :: xs') with ((pre ++ [x]) ++ xs') in Hs by (rewrite <- app_assoc; reflexivity).
    destruct n as [n|]; cbn [opt_of] in Hx.
    + assert (Hp' : all_some ns = None -> may_panic) by (intro E; apply Hp; cbn [all_some]; rewrite E; reflexivity).
      eapply simb_type; [eapply node_keeps; [apply grown_keeps, G|apply HR, Hx]|]. intros z Ez. steps. rewrite Ez.
      destruct (is_attr (rd n)) eqn:N; cbn [negb]; steps; leaves; steps.
      * eapply sim_conseq; [apply (IH h os (pre ++ [x]) xs' en); auto|]. intros r h' _ (ns' & E & -> & A').
        exists (n :: ns'). cbn [all_some]. rewrite E. unfold g_others. cbn [filter]. rewrite N. auto.
      * add_node HF "nodes"%string HB Hy Ho Hn Hx. steps; leaves; steps.
        eapply sim_conseq; [apply (IH _ (os ++ [n]) (pre ++ [x]) xs' en); auto|]. intros r h' _ (ns' & E & -> & A').
        exists (n :: ns'). cbn [all_some]. rewrite E. unfold g_others. cbn [filter]. rewrite N. cbn [negb]. rewrite <- app_assoc in A'. auto.
    + subst x. apply simb_panic. apply Hp. reflexivity.
Qed.

Definition fn_rep {F} (R : gv -> F -> Prop) (v : gv) (f : option F) : Prop :=
  match f with Some f => v <> VNil /\ R v f | None => v = VNil end.
Lemma does_list {T Z} (Q : heap -> gv -> Z -> Prop) p h (ns : list (option T)) (mk : list T -> Z) :
  GoRun.sim C (P := all_some ns = None) p h (Ret tt) (fun vs h' _ => exists l, all_some ns = Some l /\ returns_of Q h vs h' (mk l)) ->
  does_of Q p h (just (match all_some ns with None => Panic | Some l => Done (mk l) end)).
Proof.
  intros H E w O. unfold just. destruct (sim_cases _ _ _ _ _ H E w O) as [(n & a & h' & RR & l & El & v & -> & H1 & H2)|(F & X)].
  - rewrite El. cbn [run fst snd] in RR. destruct w. exists n, v, h'. auto.
  - rewrite F. exact X.
Qed.
Lemma adding_start h h1 s ys tag fs : grown h h1 -> made M h h s h1 ys -> ys = [] ->
  adding h (length h1) tag fs (h1 ++ [OStruct tag (fs s)]) [].
Proof.
  intros G (zs & Z1 & Z2 & Z3 & _) ->. cbn [all2] in Z3. subst zs. exists s, []. split; [apply building_start, G|]. split; [apply slice_alloc, Z1|]. split; [exact Z2|reflexivity].
Qed.
Definition iter_fields (fv s : gv) : list (string * gv) := [("nodes"%string, s); ("fn"%string, fv)].
Lemma iter_one fv : one_field "nodes" (iter_fields fv).
Proof. intro s. split; reflexivity. Qed.
Definition yield_fields (fv s : gv) : list (string * gv) := [("fn"%string, fv); ("nodes"%string, s)].
Lemma yield_one fv : one_field "nodes" (yield_fields fv).
Proof. intro s. split; reflexivity. Qed.
Definition may' (P : Prop) : P -> @may_panic P := fun x => x.
(** The loop, from the new object to the end. *)
Ltac node_loop X1 X2 tag fs one :=
  (eapply (simb_make_start M); [reflexivity|apply grown_refl|]);
  let s1 := fresh "s1" in let h1 := fresh "h1" in let M1 := fresh "M1" in intros s1 h1 M1; steps;
  let G1 := fresh "G1" in pose proof M1 as (_ & _ & _ & _ & G1);
  let A := fresh "A" in
  lazymatch type of M1 with made _ ?h _ _ _ _ =>
    pose proof (adding_start h h1 s1 [] tag fs G1 M1 eq_refl) as A;
    let X1' := fresh "X1'" in pose proof (slice_grown _ _ _ _ (grown_trans _ _ _ G1 (grown_app h1 [OStruct tag (fs s1)])) X1) as X1';
    unfold iter_fields, yield_fields in X1', A; steps
  end.
Lemma Iterate_made fv fn cv ns : fn_rep (items_fun M) fv fn -> list_of R h0 cv ns ->
  does_of (made_of rd R) (PCall (CFun "aitch.Iterate") [fv; cv] true PRet) h0 (just (gIterate rd fn ns)).
Proof.
  intros Hf (xs & X1 & X2). unfold gIterate, g_all. destruct fn as [fn|]; cbn [fn_rep] in Hf.
  - destruct Hf as [Hnil Hf]. apply (does_list (made_of rd R) _ _ _ (fun l => GIter fn (g_others rd l))). enter. steps.
    eapply simb_eq; [rewrite (equal_nil _ Hnil); reflexivity|]. steps.
    node_loop X1 X2 "iterator"%string (iter_fields fv) (iter_one fv).
    change (Ret tt) with (bind (@Ret U unit tt) (fun _ => Ret tt)).
    eapply sim_bind; [apply (it_loop (length h1) "iterator" (iter_fields fv) cv (iter_one fv) ns _ [] [] xs); auto|].
    intros r h2 _ (ns' & E & -> & s2 & ys & (B1 & B2 & G2) & Y1 & Y2 & Y3). steps. apply sim_ret. exists ns'. split; [exact E|].
    eexists. split; [reflexivity|]. split; [|exact G2]. cbn [made_of].
    eexists _, _, _, _. split; [reflexivity|]. split; [exact B1|]. split; [exact Y1|]. split; [exact Y3|exact Hf].
  - subst fv. apply does_panic. apply sim_pan with (B := unit) (m := Ret tt). enter. steps. apply simb_panic, may.
Qed.
Lemma IterateYield_made fv fn cv ns : fn_rep (fun v f => v = VYield f) fv fn -> list_of R h0 cv ns ->
  does_of (made_of rd R) (PCall (CFun "aitch.IterateYield") [fv; cv] true PRet) h0 (just (gIterateYield rd fn ns)).
Proof.
  intros Hf (xs & X1 & X2). unfold gIterateYield, g_all. destruct fn as [fn|]; cbn [fn_rep] in Hf.
  - destruct Hf as [Hnil ->]. apply (does_list (made_of rd R) _ _ _ (fun l => GYield fn (g_others rd l))). enter. steps.
    node_loop X1 X2 "yieldIterator"%string (yield_fields (VYield fn)) (yield_one (VYield fn)).
    change (Ret tt) with (bind (@Ret U unit tt) (fun _ => Ret tt)).
    eapply sim_bind; [apply (it_loop (length h1) "yieldIterator" (yield_fields (VYield fn)) cv (yield_one (VYield fn)) ns _ [] [] xs); auto|].
    intros r h2 _ (ns' & E & -> & s2 & ys & (B1 & B2 & G2) & Y1 & Y2 & Y3). steps. apply sim_ret. exists ns'. split; [exact E|].
    eexists. split; [reflexivity|]. split; [|exact G2]. cbn [made_of].
    eexists _, _, _. split; [reflexivity|]. split; [exact B1|]. split; [exact Y1|exact Y3].
  - subst fv. apply does_panic. apply sim_pan with (B := unit) (m := Ret tt). enter. steps. apply simb_panic, may.
Qed.
End Lists.
Lemma Iterate_spec fv fn cv ns h : fn_rep (items_fun M) fv fn -> node_list h cv ns ->
  does (PCall (CFun "aitch.Iterate") [fv; cv] true PRet) h (just (Iterate fn ns)).
Proof. intros Hf HL. eapply made_does; [apply Iterate_made; eauto|apply g_iterate]. Qed.
Lemma IterateYield_spec fv fn cv ns h : fn_rep (fun v f => v = VYield f) fv fn -> node_list h cv ns ->
  does (PCall (CFun "aitch.IterateYield") [fv; cv] true PRet) h (just (IterateYield fn ns)).
Proof. intros Hf HL. eapply made_does; [apply IterateYield_made; eauto|apply g_iterate_yield]. Qed.
End Refine.
Arguments GColl {W Y}. Arguments GCond {W Y}. Arguments GIter {W Y}. Arguments GYield {W Y}.
