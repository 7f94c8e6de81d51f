(** The translated source of collection.go (ContentCollect) and iterate.go does
    what the model says, provided its child nodes do. *)
From Coq Require Import ZArith Lia.
From Verif Require Import Bytes IO IOFacts Nodes NodeInd Values Render Build SpecOut Slices GoSyntax Source GoSem GoRun GoRep GoStep GoOwn RefineValue RefineNode RefineUser.
Local Open Scope nat_scope.

(** The numbers of the data model have number types of Go, and what user code
    takes for a node is that node. *)
Definition int_types : list string := ["int"; "int8"; "int16"; "int32"; "int64"]%string.
Definition uint_types : list string := ["uint"; "uint8"; "uint16"; "uint32"; "uint64"]%string.
Definition float_types : list string := ["float32"; "float64"]%string.
Definition number_types : list string := int_types ++ uint_types ++ float_types.
Definition mode_ok {W : UserWorld} (M : go_mode) : Prop :=
  In (m_int M) int_types /\ In (m_uint M) uint_types /\ In (m_float M) float_types /\ known_ok M.
Lemma mode_known {W : UserWorld} M : mode_ok M -> known_ok M.
Proof. intros (_ & _ & _ & H). exact H. Qed.
Lemma mode_numbers {W : UserWorld} M : mode_ok M -> In (m_int M) number_types /\ In (m_uint M) number_types /\ In (m_float M) number_types.
Proof. intros (H1 & H2 & H3 & _). unfold number_types. rewrite !in_app_iff. auto. Qed.
Lemma number_not t s : In t number_types -> existsb (String.eqb s) number_types = false -> String.eqb s t = false.
Proof.
  intros H E. destruct (String.eqb s t) eqn:X; [|reflexivity].
  rewrite <- E. symmetry. apply existsb_exists. eauto.
Qed.

Section Refine.
Context {W : UserWorld}.
Context {FL : floor}.
Variable M : go_mode.
Hypothesis MO : mode_ok M.
Notation C := (go_config M).
Notation sim := (sim C).
Notation node_spec := (node_spec M).

(** ** collection.go: ContentCollect *)

Lemma sim_collector {A' B} fn h lc fr e (f : list gv -> prog A') (k' : list (option (node U)) -> io U B) Q :
  ctx_at h lc fr e ->
  (forall u s xs h', let ns := fst (fn (view fr e) u) in grown h h' -> slice_is h' s xs -> all2 (opt_rep M h') xs ns -> sim (f [s]) h' (k' ns) Q) ->
  sim (pbind (PCall (CVal (VNodes fn)) [VPtr lc] false PRet) f) h
    (Cb (fun u => let '(ns, u') := fn (view fr e) u in (k' ns, u'))) Q.
Proof.
  intros HC K. apply simb_call. cbn [body_of]. cbn [pbind]. eapply sim_user; [eapply ctx_snap; eauto|].
  intro u. specialize (K u). destruct (fn (view fr e) u) as [ns u'] eqn:F. cbn [fst snd] in *. split; [reflexivity|]. apply sim_assoc.
  apply makes_opts; [apply mode_known, MO|]. intros xs h1 G1 H1. apply sim_assoc. apply (makes_slice M). intros s h2 G2 (H2 & _). cbn [pbind].
  apply (K s xs); [eapply grown_trans; eauto|exact H2|]. eapply all2_mono; [|exact H1]. intros x y. apply opt_keeps, grown_keeps, G2.
Qed.
Lemma collect_spec fn : (forall c u, Forall (SpecOut.opt node_spec) (fst (fn c u))) -> node_spec (NCollect fn).
Proof.
  intros IH h lc fr e v HC (l & -> & Ho) T. apply sim_eta.
  eapply simb_method; [exact Ho|reflexivity|reflexivity|]. enter. steps. cbn [render].
  eapply simb_funfield; [exact Ho|reflexivity|].
  eapply (sim_collector fn h lc fr e _ (fun ns => e <- each_content_ignore (fun c e => render c fr e) ns e ;; Ret (e, e))); [exact HC|].
  cbv zeta. intros u s xs h1 G1 Hs Hx. pose proof (ctx_grown _ _ _ _ _ G1 HC) as HC1. pose proof (grown_kept _ _ _ _ _ G1 HC) as K1.
  steps. eapply sim_bind; [eapply (fun H => content_loop M lc fr s _ H (fst (fn (view fr e) u)) (IH _ _) (T _ _) h1 e [] xs); eauto|].
  intros r h2 e2 (-> & K2 & HC2). steps. apply sim_ret. split; [reflexivity|]. split; [kept_chain|auto].
Qed.

(** ** iterate.go *)

(** The context of an iteration at [li] and the one around it. *)
Definition inner (h : heap) (li lc : loc) (fr : frame U) (oe : option error) (d : option mref) (g : gval U) (ie : option error) : Prop :=
  lc < li /\ ctx_at h lc fr oe /\ nth_error h li = Some (ctx_obj ie d g (VPtr lc)).
Lemma inner_ctx h li lc fr oe d g ie : inner h li lc fr oe d g ie -> ctx_at h li (Frame d g (Some (view fr oe))) ie.
Proof.
  intros (L & (pv & H1 & H2 & HB) & H3). exists (VPtr lc). split; [exact H3|]. split; [|lia]. cbn [f_parent]. unfold view. econstructor; eauto.
Qed.
Lemma ctx_obj_eq e d g p e' d' g' p' : @ctx_obj W e d g p = ctx_obj e' d' g' p' -> p = p'.
Proof. unfold ctx_obj. intro H. inversion H. reflexivity. Qed.
Lemma inner_kept h h' li lc fr oe d g ie ie' :
  inner h li lc fr oe d g ie -> kept li h h' -> ctx_at h' li (Frame d g (Some (view fr oe))) ie' -> inner h' li lc fr oe d g ie'.
Proof.
  intros (L & HC & H3) K (pv & H4 & _). split; [exact L|]. split; [eapply ctx_kept_other; eauto|]. cbn [f_data f_cargo] in H4.
  destruct K as (_ & (fs & fs' & E1 & E2 & E3) & _). rewrite H3 in E1. rewrite H4 in E2. unfold ctx_obj in E1, E2.
  inversion E1; inversion E2; subst. cbn in E3. inversion E3. subst. exact H4.
Qed.
Lemma inner_outer h h' li lc fr oe oe' d g ie :
  inner h li lc fr oe d g ie -> kept lc h h' -> ctx_at h' lc fr oe' -> inner h' li lc fr oe' d g ie.
Proof. intros (L & HC & H3) (_ & _ & K) HC'. split; [exact L|]. split; [exact HC'|]. apply K; [lia|exact H3]. Qed.

(** The two contexts may have changed, but not the parent of the outer one. *)
Definition both (lc li : loc) (h h' : heap) : Prop :=
  length h <= length h' /\
  (exists fs fs', nth_error h lc = Some (OStruct "Context" fs) /\ nth_error h' lc = Some (OStruct "Context" fs') /\
                  assoc "Parent" fs' = assoc "Parent" fs) /\
  forall l o, l <> lc -> l <> li -> nth_error h l = Some o -> nth_error h' l = Some o.
Lemma both_trans lc li h h1 h2 : both lc li h h1 -> both lc li h1 h2 -> both lc li h h2.
Proof.
  intros (L1 & (f1 & f2 & A1 & A2 & A3) & H3) (L2 & (f3 & f4 & A4 & A5 & A6) & H6). split; [lia|]. split; auto.
  exists f1, f4. split; [auto|]. split; [auto|]. congruence.
Qed.
Lemma inner_refl h li lc fr oe d g ie : inner h li lc fr oe d g ie -> both lc li h h.
Proof. intros (L & (pv & H1 & _) & H3). split; [auto|]. split; [|auto]. eexists _, _. split; [exact H1|]. split; [exact H1|reflexivity]. Qed.
Lemma both_outer lc li h h' : kept lc h h' -> both lc li h h'.
Proof. intro K. split; [eapply kept_length; eauto|]. destruct K as (_ & K1 & K2). split; auto. Qed.
Lemma both_inner h h' li lc fr oe d g ie : inner h li lc fr oe d g ie -> kept li h h' -> both lc li h h'.
Proof.
  intros (L & (pv & H1 & _) & H3) K. split; [eapply kept_length; eauto|]. destruct K as (_ & _ & K). split; [|auto].
  eexists _, _. split; [exact H1|]. split; [apply K; [lia|exact H1]|reflexivity].
Qed.
Lemma both_keeps h0 h h' li lc fr oe d g ie : inner h li lc fr oe d g ie -> keeps h0 h -> both lc li h h' -> keeps h0 h'.
Proof.
  intros (_ & (pv & X & _) & Y) K (_ & _ & B) l o Hn Ho. pose proof (K _ _ Hn Ho) as Ho'. apply B; [| |exact Ho'].
  - intros ->. rewrite Ho' in X. inversion X. eapply Hn; eauto.
  - intros ->. rewrite Ho' in Y. inversion Y. eapply Hn; eauto.
Qed.
(** What is left of the inner context when the iteration is over. *)
Lemma both_went h o h' lc fr e : both lc (length h) (h ++ [o]) h' -> lc < length h -> ctx_at h' lc fr e -> went lc fr h h' e.
Proof.
  intros (_ & (f1 & f2 & A1 & A2 & A3) & K) L HC. split; [|exact HC]. rewrite nth_error_app1 in A1 by exact L.
  split; [eauto|]. split; [eauto|]. intros l o' N Ho. apply K; [exact N| |apply nth_app_old, Ho]. apply nth_lt in Ho. lia.
Qed.

(** The nodes for one item. *)
Definition item_body (rets : list expr) : stmt :=
  SBlock [SIf (Some (SDefine ["err"%string] [EMethod (ELoc "n") "Render" [ELoc "ictx"] false])) (EBin ONe (ELoc "err") ENil)
     (SBlock [SAssign [LField (ELoc "ctx") "Error"] [ELoc "err"]; SReturn rets]) SSkip].
Lemma item_loop lc li fr sv en rets d g : assoc "ctx" en = Some (VPtr lc) -> assoc "ictx" en = Some (VPtr li) ->
  rets = [] \/ rets = [ELoc "err"] ->
  forall ns, Forall node_spec ns -> SpecOut.all SpecOut.tables_ok ns ->
  forall h oe ie pre xs, inner h li lc fr oe d g ie -> slice_is h sv (pre ++ xs) -> all2 (node_rep M h) xs ns ->
  sim (range_with (exec C (item_body rets)) "_" "n" (slice_items sv (length pre) (length xs)) en)
    h (each_item (fun c e => render c (Frame d g (Some (view fr oe))) e) ns ie)
    (fun r h' b => exists oe',
       r = (match fst b with None => FNext | Some x => FReturn (match rets with [] => [] | _ => [verr (Some x)] end) end, en) /\
       oe' = (match fst b with None => oe | Some x => Some x end) /\
       inner h' li lc fr oe' d g (snd b) /\ both lc li h h').
Proof.
  intros Hc Hi Hr ns. induction 1 as [|c cs Hc' _ IH]; intros T h oe ie pre xs I Hs Hcs; cbn [all2] in Hcs.
  - subst xs. cbn [length slice_items seq map range_with each_item]. apply sim_ret. exists oe. cbn [fst snd].
    split; [reflexivity|]. split; [reflexivity|]. split; [exact I|]. eapply inner_refl; eauto.
  - destruct T as [T1 T2]. destruct Hcs as (x & xs' & -> & Hx & Hcs). cbn [length]. eapply sim_range_cons; [exact Hs|].
    steps. cbn [each_item]. pose proof (inner_ctx _ _ _ _ _ _ _ _ I) as HI.
    eapply simb_node; eauto. intros h1 x1 e1 K1 HC1. carry K1.
    pose proof (inner_kept _ _ _ _ _ _ _ _ _ _ I K1 HC1) as I1. pose proof (both_inner _ _ _ _ _ _ _ _ _ I K1) as B1. steps. destruct x1 as [x1|].
    + pose proof I1 as (_ & HO & _). steps. eapply simb_set_error with (e' := Some x1); [exact HO|]. intros h2 K2 HC2.
      pose proof (both_outer _ li _ _ K2) as B2. pose proof (inner_outer _ _ _ _ _ _ _ _ _ _ I1 K2 HC2) as I2.
      steps. destruct Hr as [-> | ->]; steps; apply sim_ret; exists (Some x1); cbn [fst snd];
        (split; [reflexivity|split; [reflexivity|split; [exact I2|eapply both_trans; eauto]]]).
    + steps. next_turn Hs IH; auto. intros r h' b (oe' & H1 & H2 & H3 & H4). exists oe'. split; [exact H1|]. split; [exact H2|]. split; [exact H3|]. eapply both_trans; eauto.
Qed.


(** Setting the fields of the inner context. *)
Definition data_of (d : option mref) : gv := match d with Some m => VAny (GMap m) | None => VNil end.
Lemma inner_set h li lc fr oe d g ie d' g' :
  inner h li lc fr oe d g ie ->
  let h' := set_nth h li (ctx_obj ie d' g' (VPtr lc)) in inner h' li lc fr oe d' g' ie /\ kept li h h'.
Proof.
  intros (L & HC & H3). pose proof (nth_lt _ _ _ H3) as Hl.
  assert (K : kept li h (set_nth h li (ctx_obj ie d' g' (VPtr lc)))).
  { split; [eexists; exact H3|]. split.
    - eexists _, _. split; [exact H3|]. split; [apply nth_set_same, Hl|reflexivity].
    - intros l o Hn Ho. rewrite nth_set_other; auto. }
  split; [|exact K]. split; [exact L|]. split; [eapply ctx_kept_other; eauto|]. apply nth_set_same, Hl.
Qed.
Section Fields.
Context {A' B : Type}.
Implicit Types (h : heap) (m : io U B) (Q : A' -> heap -> B -> Prop) (f : @venv W -> prog A').
Lemma simb_set_cargo h li lc fr oe d g ie g' en f m Q :
  inner h li lc fr oe d g ie ->
  (forall h', inner h' li lc fr oe d g' ie -> kept li h h' -> sim (f en) h' m Q) ->
  sim (pbind (store (RField (VPtr li) "Cargo") (any_of g') en) f) h m Q.
Proof.
  intros I K. eapply simb_set_field_f; [destruct I as (? & ? & _); floored|apply I|reflexivity|]. destruct (inner_set _ _ _ _ _ _ _ _ d g' I) as [I' K']. exact (K _ I' K').
Qed.
Lemma simb_set_data h li lc fr oe d g ie d' en f m Q :
  inner h li lc fr oe d g ie ->
  (forall h', inner h' li lc fr oe d' g ie -> kept li h h' -> sim (f en) h' m Q) ->
  sim (pbind (store (RField (VPtr li) "Data") (data_of d') en) f) h m Q.
Proof.
  intros I K. eapply simb_set_field_f; [destruct I as (? & ? & _); floored|apply I|reflexivity|]. destruct (inner_set _ _ _ _ _ _ _ _ d' g I) as [I' K']. exact (K _ I' K').
Qed.
End Fields.
Lemma item_type h item : has_type C h (any_of item) "map[string]any" =
  match item with GMap _ => Some (VAny item) | _ => None end.
Proof.
  destruct (mode_numbers M MO) as (M1 & M2 & M3).
  pose proof (number_not _ "map[string]any" M1 eq_refl) as E1. pose proof (number_not _ "map[string]any" M2 eq_refl) as E2.
  pose proof (number_not _ "map[string]any" M3 eq_refl) as E3.
  unfold has_type. replace (assoc "map[string]any" (p_ifaces (c_prog C))) with (@None (list string)) by reflexivity.
  destruct item; cbn [any_of]; try reflexivity; cbn [c_int c_uint c_float go_config]; rewrite ?E1, ?E2, ?E3; reflexivity.
Qed.

(** The items of an iteration. *)
Definition gives (h : heap) (p : prog (gv * gv)) (x : gval U) : Prop :=
  forall h' A B (f : gv * gv -> prog A) (m : io U B) Q, keeps h h' ->
  (forall k, sim (f (k, any_of x)) h' m Q) -> sim (pbind p f) h' m Q.
Lemma items_range h r xs : items_are h r xs -> exists ps, range_items r = PRet ps /\ all2 (gives h) ps xs.
Proof.
  intros [(b & ->)|Hs].
  - cbn [range_items]. eexists. split; [reflexivity|]. generalize 0.
    induction xs as [|x xs IH]; intro i; cbn [length seq combine map all2]; [reflexivity|].
    eexists _, _. split; [reflexivity|]. split; [|apply IH]. intros h' A B f m Q K H. cbn [pbind]. apply H.
  - rewrite (range_items_slice _ _ _ Hs). eexists. split; [reflexivity|]. rewrite map_length.
    assert (G : forall ys i, (forall j y, nth_error ys j = Some y -> nth_error (map any_of xs) (i + j) = Some (any_of y)) ->
      all2 (gives h) (slice_items r i (length ys)) ys).
    { induction ys as [|y ys IH]; intros i E; cbn [length all2]; [reflexivity|]. unfold slice_items. cbn [seq map].
      eexists _, _. split; [reflexivity|]. split.
      - intros h' A B f m Q K H. eapply simb_slice_item; [eapply slice_keeps; eauto| |apply H].
        specialize (E 0 y eq_refl). rewrite Nat.add_0_r in E. exact E.
      - apply IH. intros j z Hj. specialize (E (S j) z Hj). rewrite <- Nat.add_succ_comm in E. exact E. }
    apply G. intros j y Hj. cbn [Nat.add]. rewrite nth_error_map, Hj. reflexivity.
Qed.
Lemma simb_len_items {A' B} h r xs (f : list gv -> prog A') (m : io U B) Q :
  items_are h r xs -> sim (f [VInt (Z.of_nat (length xs))]) h m Q -> sim (pbind (external C "len" [r] false) f) h m Q.
Proof.
  intros [(b & ->)|Hs] K; [exact K|]. eapply simb_len; [exact Hs|]. rewrite map_length. exact K.
Qed.

Definition iter_body : stmt :=
  SBlock [SAssign [LField (ELoc "ictx") "Cargo"] [ELoc "item"];
     SIf (Some (SDefine ["mi"; "ok"]%string [EAssert (ELoc "item") "map[string]any"])) (ELoc "ok")
     (SBlock [SAssign [LField (ELoc "ictx") "Data"] [ELoc "mi"]])
     (SBlock [SAssign [LField (ELoc "ictx") "Data"] [EField (ELoc "ctx") "Data"]]);
     SRange "_" "n" (EField (ELoc "i") "nodes") (item_body [ELoc "err"])].

Ltac finish IH B2 I2 :=
  lazymatch goal with
  | K0 : keeps ?h0 ?h, Ho : nth_error ?h0 ?l = Some ?o, Hs : slice_is ?h0 ?sv ?nxs, Hn : all2 (node_rep ?M ?h0) ?nxs ?ns,
    HN : Forall _ ?ns, T : SpecOut.all _ ?ns, Hps : all2 (gives _) _ _, I : inner ?h _ _ _ _ _ _ _, I2' : inner ?h2 ?li ?lc ?fr ?oe ?d ?g ?ie |- _ =>
      constr_eq I2 I2';
      let K02 := fresh "K02" in
      assert (K02 : keeps h0 h2) by (eapply (both_keeps h0 h h2); eauto);
      let Ho2 := fresh in
      assert (Ho2 : nth_error h2 l = Some o) by (apply K02; [discriminate|exact Ho]);
      let Hs2 := fresh in pose proof (slice_keeps _ _ _ _ K02 Hs) as Hs2;
      let Hn2 := fresh in pose proof (all2_mono _ _ _ _ (fun x y => node_keeps M _ _ K02 y x) Hn) as Hn2; steps;
      eapply sim_bind; [eapply (fun H H' => item_loop lc li fr sv _ [ELoc "err"] _ _ H H' (or_intror eq_refl) ns HN T h2 oe ie [] nxs I2 Hs2 Hn2); assumption|];
      let h3 := fresh "h3" in let x3 := fresh "x3" in let e3 := fresh "e3" in let oe3 := fresh in
      let I3 := fresh "I3" in let B3 := fresh "B3" in let r := fresh in
      intros r h3 [x3 e3] (oe3 & -> & -> & I3 & B3); cbn [fst snd] in *; destruct x3 as [x3|];
      [ steps; apply sim_ret; cbn [fst snd]; split; [reflexivity|]; split; [apply I3|]; eapply both_trans; eauto
      | steps; eapply sim_conseq; [eapply IH; [exact Hps|eapply (both_keeps h0 h2 h3); eauto|exact I3]|];
        intros r' h' b' (R1 & R2 & R3); split; [exact R1|]; split; [exact R2|];
        eapply both_trans; [exact B2|]; eapply both_trans; eauto ]
  end.
Lemma iter_turns lc li l fr sv fv ns nxs en h0 :
  assoc "ctx" en = Some (VPtr lc) -> assoc "ictx" en = Some (VPtr li) -> assoc "i" en = Some (VPtr l) ->
  Forall node_spec ns -> SpecOut.all SpecOut.tables_ok ns ->
  nth_error h0 l = Some (OStruct "iterator" [("nodes"%string, sv); ("fn"%string, fv)]) ->
  slice_is h0 sv nxs -> all2 (node_rep M h0) nxs ns ->
  forall items ps, all2 (gives h0) ps items ->
  forall h oe d g ie, keeps h0 h -> inner h li lc fr oe d g ie ->
  sim (range_with (exec C iter_body) "_" "item" ps en)
    h (iter_loop (fun ifr => each_item (fun c e => render c ifr e) ns) (f_data fr) (view fr oe) oe items ie)
    (fun r h' b => r = (match fst b with None => FNext | Some x => FReturn [verr (Some x)] end, en) /\
       ctx_at h' lc fr (snd b) /\ both lc li h h').
Proof.
  intros E1 E2 E3 HN T Ho Hs Hn items. induction items as [|item items IH]; intros ps Hp h oe d g ie K0 I; cbn [all2] in Hp.
  - subst ps. cbn [range_with iter_loop]. apply sim_ret. cbn [fst snd]. split; [auto|]. split; [apply I|]. eapply inner_refl; eauto.
  - destruct Hp as (p & ps' & -> & Hp & Hps). cbn [range_with iter_loop]. apply Hp; [exact K0|]. intro k.
    cbn [String.eqb Ascii.eqb Bool.eqb push pbind]. steps.
    eapply simb_set_cargo; [exact I|]. intros h1 I1 K1. steps.
    eapply simb_assert_ok; [apply item_type|].
    assert (D : (exists m, item = GMap m) \/ (match item with GMap _ => Some (VAny item) | _ => None end = @None gv /\ item_data item (f_data fr) = f_data fr))
      by (destruct item; eauto).
    destruct D as [(m & ->)|(-> & D)]; [cbn [any_of item_data]|rewrite D]; steps.
    + change (VAny (GMap m)) with (data_of (Some m)). eapply simb_set_data; [exact I1|]. intros h2 I2 K2.
      pose proof (both_trans _ _ _ _ _ (both_inner _ _ _ _ _ _ _ _ _ I K1) (both_inner _ _ _ _ _ _ _ _ _ I1 K2)) as B2. finish IH B2 I2.
    + pose proof I1 as (_ & (pv & HO & _) & _). eapply simb_field; [exact HO|reflexivity|]. steps.
      change (match f_data fr with Some m => VAny (GMap m) | None => VNil end) with (data_of (f_data fr)).
      eapply simb_set_data; [exact I1|]. intros h2 I2 K2.
      pose proof (both_trans _ _ _ _ _ (both_inner _ _ _ _ _ _ _ _ _ I K1) (both_inner _ _ _ _ _ _ _ _ _ I1 K2)) as B2. finish IH B2 I2.
Qed.

(** A new inner context. *)
Lemma inner_new h lc fr oe : ctx_at h lc fr oe ->
  inner (h ++ [ctx_obj oe None GNil (VPtr lc)]) (length h) lc fr oe None GNil oe.
Proof.
  intros HC. split; [destruct HC as (pv & H & _); eapply nth_lt; eauto|].
  split; [eapply ctx_grown; [apply grown_app|exact HC]|apply nth_app_new].
Qed.
Lemma iterator_spec fn ns : Forall node_spec ns -> node_spec (NIter fn ns).
Proof.
  intros IH h lc fr e v HC (l & -> & sv & fv & xs & Ho & Hs & Hn & Hf) T. apply sim_eta.
  eapply simb_method; [exact Ho|reflexivity|reflexivity|]. enter. steps. cbn [render]. destruct e as [e|].
  - steps. apply sim_ret. split; [reflexivity|]. split; [kept_chain|exact HC].
  - steps. eapply simb_funfield; [exact Ho|reflexivity|].
    eapply simb_items; [exact Hf|exact HC|]. intros items r h1 Hi G1 HC1. pose proof (grown_kept _ _ _ _ _ G1 HC) as K1. carry K1. steps.
    eapply simb_len_items; [exact Hi|]. steps. rewrite pos_of_nat. destruct items as [|i0 items]; cbn [length Nat.ltb Nat.leb].
    + steps. cbn [iter_loop]. apply sim_ret. split; [reflexivity|]. split; [kept_chain|exact HC1].
    + steps. destruct (items_range _ _ _ Hi) as (ps & -> & Hps). cbn [pbind].
      pose proof (inner_new _ _ _ _ HC1) as I1. unfold ctx_obj at 1 in I1. cbn [verr any_of] in I1.
      set (h2 := h1 ++ _) in *. assert (G2 : grown h1 h2) by apply grown_app.
      apply sim_eta_model. eapply sim_bind.
      { eapply (iter_turns lc (length h1) l fr sv fv ns xs _ h1); try reflexivity; eauto.
        - apply grown_keeps, G2. }
      intros r2 h3 [x3 e3] (-> & HC3 & B3). cbn [fst snd] in *.
      pose proof (both_went _ _ _ _ _ _ B3 (kept_lt _ _ _ (kept_refl _ _ _ _ HC1)) HC3) as (K3 & _).
      destruct x3 as [x3|]; steps; apply sim_ret; (split; [reflexivity|]; split; [kept_chain|exact HC3]).
Qed.

(** ** iterate.go: IterateYield *)

Definition yield_fun : fundecl :=
  Fun ["item"%string] false []
    (SBlock [SAssign [LField (ELoc "ictx") "Cargo"] [ELoc "item"];
     SIf (Some (SDefine ["mi"; "ok"]%string [EAssert (ELoc "item") "map[string]any"])) (ELoc "ok")
     (SBlock [SAssign [LField (ELoc "ictx") "Data"] [ELoc "mi"]])
     SSkip;
     SRange "_" "n" (EField (ELoc "i") "nodes") (item_body [])]).

Lemma yield_item lc li l fr sv p0 ns nxs en h0 :
  assoc "ctx" en = Some (VPtr lc) -> assoc "ictx" en = Some (VPtr li) -> assoc "i" en = Some (VPtr l) ->
  Forall node_spec ns -> SpecOut.all SpecOut.tables_ok ns ->
  nth_error h0 l = Some (OStruct "yieldIterator" [("fn"%string, VYield p0); ("nodes"%string, sv)]) ->
  slice_is h0 sv nxs -> all2 (node_rep M h0) nxs ns ->
  forall h oe d g ie item, keeps h0 h -> inner h li lc fr oe d g ie ->
  sim (PCall (CVal (VClo yield_fun en)) [any_of item] false PRet) h
    (each_item (fun c e => render c (Frame (item_data item d) item (Some (view fr oe))) e) ns ie)
    (fun r h' b => inner h' li lc fr (match fst b with None => oe | Some x => Some x end) (item_data item d) item (snd b) /\ both lc li h h').
Proof.
  intros E1 E2 E3 HN T Ho Hs Hn h oe d g ie item K0 I. apply sim_call. cbn [body_of].
  lazymatch goal with
  | |- @GoRun.sim _ ?C ?FL0 ?P _ _ (pbind (call_fun ?C' ?fd ?cap ?args ?sp) ?f) ?h ?m ?Q =>
      let fd' := eval unfold fd in fd in
      let X' := head_red (call_fun C' fd' cap args sp) in
      change (@GoRun.sim _ C FL0 P _ _ (pbind X' f) h m Q)
  end. steps.
  eapply simb_set_cargo; [exact I|]. intros h1 I1 K1. steps.
  eapply simb_assert_ok; [apply item_type|].
  assert (D : (exists m, item = GMap m) \/ (match item with GMap _ => Some (VAny item) | _ => None end = @None gv /\ item_data item d = d))
    by (destruct item; eauto).
  assert (F : forall h2 d2, inner h2 li lc fr oe d2 item ie -> both lc li h h2 ->
     nth_error h2 l = Some (OStruct "yieldIterator" [("fn"%string, VYield p0); ("nodes"%string, sv)]) /\
     slice_is h2 sv nxs /\ all2 (node_rep M h2) nxs ns).
  { intros h2 d2 I2 B2. assert (K02 : keeps h0 h2) by (eapply (both_keeps h0 h h2); eauto).
    split; [apply K02; [discriminate|exact Ho]|]. split; [eapply slice_keeps; eauto|].
    exact (all2_mono _ _ _ _ (fun x y => node_keeps M _ _ K02 y x) Hn). }
  pose proof (both_inner _ _ _ _ _ _ _ _ _ I K1) as B1.
  destruct D as [(m & ->)|(-> & D)]; [cbn [any_of item_data]|rewrite D]; steps.
  - change (VAny (GMap m)) with (data_of (Some m)). eapply simb_set_data; [exact I1|]. intros h2 I2 K2.
    pose proof (both_trans _ _ _ _ _ B1 (both_inner _ _ _ _ _ _ _ _ _ I1 K2)) as B2.
    destruct (F h2 _ I2 B2) as (Ho2 & Hs2 & Hn2). steps. apply sim_eta_model.
    eapply sim_bind; [eapply (fun H H' => item_loop lc li fr sv _ [] _ _ H H' (or_introl eq_refl) ns HN T h2 oe ie [] nxs I2 Hs2 Hn2); assumption|].
    intros r h3 [x3 e3] (oe3 & -> & -> & I3 & B3). cbn [fst snd] in *.
    destruct x3 as [x3|]; steps; apply sim_ret; (split; [exact I3|eapply both_trans; eauto]).
  - destruct (F h1 _ I1 B1) as (Ho2 & Hs2 & Hn2). steps. apply sim_eta_model.
    eapply sim_bind; [eapply (fun H H' => item_loop lc li fr sv _ [] _ _ H H' (or_introl eq_refl) ns HN T h1 oe ie [] nxs I1 Hs2 Hn2); assumption|].
    intros r h3 [x3 e3] (oe3 & -> & -> & I3 & B3). cbn [fst snd] in *.
    destruct x3 as [x3|]; steps; apply sim_ret; (split; [exact I3|eapply both_trans; eauto]).
Qed.
Fixpoint yprog_ind' {V : Type} (P : yprog V -> Prop) (H1 : P YRet) (H2 : forall item k, P k -> P (YYield item k))
  (H3 : forall k, (forall c u, P (fst (k c u))) -> P (YRead k)) (p : yprog V) : P p :=
  match p with
  | YRet => H1
  | YYield item k => H2 item k (yprog_ind' P H1 H2 H3 k)
  | YRead k => H3 k (fun c u => yprog_ind' P H1 H2 H3 (fst (k c u)))
  end.
Lemma yield_turns lc li l fr sv p0 ns nxs en h0 :
  assoc "ctx" en = Some (VPtr lc) -> assoc "ictx" en = Some (VPtr li) -> assoc "i" en = Some (VPtr l) ->
  Forall node_spec ns -> SpecOut.all SpecOut.tables_ok ns ->
  nth_error h0 l = Some (OStruct "yieldIterator" [("fn"%string, VYield p0); ("nodes"%string, sv)]) ->
  slice_is h0 sv nxs -> all2 (node_rep M h0) nxs ns ->
  forall p h oe d g ie, keeps h0 h -> inner h li lc fr oe d g ie ->
  sim (user_yield p lc (VClo yield_fun en)) h
    (yield_loop (fun ifr => each_item (fun c e => render c ifr e) ns) fr d p oe ie)
    (fun r h' b => fst b = snd b /\ ctx_at h' lc fr (snd b) /\ both lc li h h').
Proof.
  intros E1 E2 E3 HN T Ho Hs Hn p. induction p as [|item k IH|k IH] using yprog_ind'; intros h oe d g ie K0 I; cbn [user_yield yield_loop].
  - apply sim_ret. cbn [fst snd]. split; [reflexivity|]. split; [apply I|]. eapply inner_refl; eauto.
  - change (PCall (CVal (VClo yield_fun en)) [any_of item] false (fun _ => user_yield k lc (VClo yield_fun en)))
      with (pbind (PCall (CVal (VClo yield_fun en)) [any_of item] false PRet) (fun _ => user_yield k lc (VClo yield_fun en))).
    eapply sim_bind; [eapply yield_item; eauto|]. intros r h1 [x1 e1] (I1 & B1). cbn [fst snd] in *.
    eapply sim_conseq; [eapply IH; [eapply (both_keeps h0 h h1); eauto|exact I1]|].
    intros r2 h2 b (R1 & R2 & R3). split; [exact R1|]. split; [exact R2|]. eapply both_trans; eauto.
  - eapply sim_user; [eapply ctx_snap; apply I|]. intro u. specialize (IH (view fr oe) u). destruct (k (view fr oe) u) as [p' u']. cbn [fst snd] in *.
    split; [reflexivity|]. eapply IH; eauto.
Qed.
Lemma yield_spec p ns : Forall node_spec ns -> node_spec (NYield p ns).
Proof.
  intros IH h lc fr e v HC (l & -> & sv & xs & Ho & Hs & Hn) T. apply sim_eta.
  eapply simb_method; [exact Ho|reflexivity|reflexivity|]. enter. steps. cbn [render]. destruct e as [e|].
  - steps. apply sim_ret. split; [reflexivity|]. split; [kept_chain|exact HC].
  - steps. pose proof (inner_new _ _ _ _ HC) as I1. unfold ctx_obj at 1 in I1. cbn [verr any_of] in I1.
    set (h2 := h ++ _) in *. assert (G2 : grown h h2) by apply grown_app.
    pose proof (grown_nth _ _ _ _ G2 Ho) as Ho2.
    eapply simb_funfield; [exact Ho2|reflexivity|]. apply simb_call. cbn [body_of].
    apply sim_eta_model. eapply sim_bind.
    { eapply (yield_turns lc (length h) l fr sv p ns xs _ h); try reflexivity; eauto. apply grown_keeps, G2. }
    intros r2 h3 [x3 e3] (X & HC3 & B3). cbn [fst snd] in *. subst x3.
    pose proof (both_went _ _ _ _ _ _ B3 (kept_lt _ _ _ (kept_refl _ _ _ _ HC)) HC3) as (K3 & _).
    steps. apply sim_ret. split; [reflexivity|]. split; [kept_chain|exact HC3].
Qed.
End Refine.
