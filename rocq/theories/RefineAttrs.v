(** The translated source of conditional.go (conditional attributes) and
    element.go does what the model says. *)
From Coq Require Import ZArith Lia Permutation.
From Verif Require Import Bytes IO IOFacts Nodes NodeInd Values Render Build SpecOut AttrFacts RenderFacts Slices GoSyntax Source GoSem GoRun GoRep GoStep GoOwn RefineValue RefineNode.
Local Open Scope nat_scope.

Section Refine.
Context {W : UserWorld}.
Context {FL : floor}.
Variable M : go_mode.
Notation C := (go_config M).
Notation sim := (sim C).
Notation node_spec := (node_spec M).

(** ** conditionalAttribute.evaluate *)

Definition conds_body : stmt :=
  SBlock [SIf None (ENot (ECall (ELoc "condition") [ELoc "ctx"] false)) (SBlock [SReturn [EBool false]]) SSkip].
Lemma conds_loop lc fr e sv en : assoc "ctx" en = Some (VPtr lc) ->
  forall cs h pre xs, ctx_at h lc fr e -> slice_is h sv (pre ++ xs) -> all2 (cond_fun M) xs cs ->
  sim (range_with (exec C conds_body) "_" "condition" (slice_items sv (length pre) (length xs)) en)
    h (conds_eval fr e cs)
    (fun r h' b => r = (if b then FNext else FReturn [VBool false], en) /\ grown h h').
Proof.
  intro He. induction cs as [|c cs IH]; intros h pre xs HC Hs Hcs; cbn [all2] in Hcs.
  - subst xs. cbn [length slice_items seq map range_with conds_eval]. apply sim_ret.
    split; [reflexivity|apply grown_refl].
  - destruct Hcs as (x & xs' & -> & Hx & Hcs). cbn [length]. eapply sim_range_cons; [exact Hs|].
    steps. cbn [conds_eval].
    eapply simb_cond; [exact Hx|exact HC|]. intros b h1 G1 HC1. carry G1. steps. destruct b; steps.
    + next_turn Hs IH. intros r h' b (-> & G2). split; [reflexivity|]. eapply grown_trans; eauto.
    + apply sim_ret. split; [reflexivity|exact G1].
Qed.
Lemma conds_spec av sv xs cs h lc fr e :
  ctx_at h lc fr e -> slice_is h sv xs -> all2 (cond_fun M) xs cs ->
  sim (PCall (CFun "conditionalAttribute.evaluate")
         [VStruct "conditionalAttribute" [("attribute"%string, av); ("conditions"%string, sv)]; VPtr lc] false PRet)
    h (conds_eval fr e cs) (fun vs h' b => vs = [VBool b] /\ grown h h').
Proof.
  intros HC Hs Hcs. enter. steps. apply sim_eta_model.
  eapply sim_bind; [eapply (fun H => conds_loop lc fr e sv _ H cs h [] xs); eauto|].
  intros r h1 b (-> & G). destruct b; steps; apply sim_ret; auto.
Qed.

(** ** conditionalAttributes.evaluate *)

Lemma ev_get_snoc (l : list (attr U)) a k :
  ev_get (l ++ [a]) k = ev_get l k ++ (if beq (attr_name a) k then [a] else []).
Proof. unfold ev_get. rewrite filter_app. cbn [filter]. destruct (beq (attr_name a) k); reflexivity. Qed.
Lemma ev_names_snoc (l : list (attr U)) a :
  ev_names (l ++ [a]) = ev_names l ++ (if bmem (attr_name a) (ev_names l) then [] else [attr_name a]).
Proof.
  induction l as [|x l IH]; [reflexivity|]. cbn [app ev_names]. rewrite IH, filter_app.
  change (bmem (attr_name a) (attr_name x :: filter (fun n => negb (beq n (attr_name x))) (ev_names l)))
    with (beq (attr_name a) (attr_name x) || bmem (attr_name a) (filter (fun n => negb (beq n (attr_name x))) (ev_names l))).
  f_equal. f_equal.
  destruct (beq (attr_name a) (attr_name x)) eqn:E; cbn [orb].
  - apply beq_eq in E. rewrite <- E. destruct (bmem (attr_name a) (ev_names l)); cbn [filter]; [reflexivity|].
    rewrite beq_refl. reflexivity.
  - assert (F : bmem (attr_name a) (filter (fun n => negb (beq n (attr_name x))) (ev_names l)) = bmem (attr_name a) (ev_names l)).
    { destruct (bmem (attr_name a) (ev_names l)) eqn:G.
      - apply bmem_In. apply filter_In. split; [apply bmem_In; auto|]. rewrite E. reflexivity.
      - apply Bool.not_true_is_false. intro F. apply bmem_In in F. apply filter_In in F as [F _]. apply bmem_In in F. congruence. }
    rewrite F. destruct (bmem (attr_name a) (ev_names l)); cbn [filter]; [reflexivity|]. rewrite E. reflexivity.
Qed.

Definition sloc (v : gv) : loc := match v with VSlice l _ => l | _ => 0 end.

(** An entry of the map [evaluated] while it is being filled: [b] is the first
    location of a private array. *)
Definition entry_ok (h0 h : heap) (b : loc) (ev : list (attr U)) (x : bytes * gv) : Prop :=
  exists l n ys, snd x = VSlice l n /\ b <= l /\ slice_is h (snd x) ys /\ all2 (attr_rep M h0) ys (ev_get ev (fst x)).
Definition entries_ok (h0 h : heap) (b : loc) (ev : list (attr U)) (es : list (bytes * gv)) : Prop :=
  map fst es = ev_names ev /\ Forall (entry_ok h0 h b ev) es /\ NoDup (map (fun x => sloc (snd x)) es).

Lemma all2_app {X Y} (R : X -> Y -> Prop) : forall ys ys' xs xs', all2 R xs ys -> all2 R xs' ys' -> all2 R (xs ++ xs') (ys ++ ys').
Proof.
  induction ys as [|y ys IH]; intros ys' xs xs' H H'; cbn [all2 app] in *; [subst; exact H'|].
  destruct H as (x & xs1 & -> & H1 & H2). exists x, (xs1 ++ xs'). auto.
Qed.

Lemma bassoc_In {A} k (es : list (bytes * A)) : bassoc k es = None <-> ~ In k (map fst es).
Proof.
  induction es as [|[k' v] es IH]; cbn [bassoc map fst In]; [tauto|]. destruct (beq_spec k' k) as [->|N].
  - split; [discriminate|tauto].
  - rewrite IH. tauto.
Qed.
Lemma bassoc_pair {A} k (es : list (bytes * A)) v : bassoc k es = Some v -> In (k, v) es.
Proof.
  induction es as [|[k' v'] es IH]; cbn [bassoc In]; [discriminate|]. destruct (beq_spec k' k) as [->|N].
  - intro H. inversion H. auto.
  - auto.
Qed.
Lemma bstore_new {A} k v (es : list (bytes * A)) : bassoc k es = None -> bstore k v es = es ++ [(k, v)].
Proof.
  induction es as [|[k' v'] es IH]; cbn [bassoc bstore app]; [reflexivity|]. destruct (beq k' k); [discriminate|]. intro H. rewrite IH by auto. reflexivity.
Qed.
Lemma bstore_old {A} k v w (es : list (bytes * A)) : bassoc k es = Some w ->
  exists e1 e2, es = e1 ++ (k, w) :: e2 /\ bstore k v es = e1 ++ (k, v) :: e2.
Proof.
  induction es as [|[k' v'] es IH]; cbn [bassoc bstore]; [discriminate|]. destruct (beq_spec k' k) as [->|N].
  - intro H. inversion H. subst. exists [], es. auto.
  - intro H. destruct (IH H) as (e1 & e2 & -> & ->). exists ((k', v') :: e1), e2. auto.
Qed.

Lemma entry_other h0 h h' b lm ev a s x :
  entry_ok h0 h b ev x -> lm < b ->
  (forall l o, not_at l s -> l <> lm -> nth_error h l = Some o -> nth_error h' l = Some o) ->
  (forall l n, s = VSlice l n -> l <> sloc (snd x)) -> fst x <> attr_name a ->
  entry_ok h0 h' b (ev ++ [a]) x.
Proof.
  intros (l & n & ys & E & Hl & Hs & Ha) Hm K Hd Hk. exists l, n, ys. split; [auto|]. split; [auto|]. split.
  - eapply slice_same; [exact Hs|]. intros l' o (n' & E'). rewrite E in E'. inversion E'; subst. apply K; [|lia].
    rewrite E in Hd. cbn [sloc] in Hd. destruct s; cbn [not_at]; auto. eapply Hd. reflexivity.
  - rewrite ev_get_snoc. destruct (beq_spec (attr_name a) (fst x)); [congruence|]. rewrite app_nil_r. exact Ha.
Qed.

(** Appending [a] to the slice at its name. *)
Lemma entries_add h0 h h' b lm ev es a av s s' :
  entries_ok h0 h b ev es -> attr_rep M h0 av a -> lm < b -> b <= length h ->
  s = match bassoc (attr_name a) es with Some x => x | None => VNil end ->
  (forall ys, slice_is h s ys -> slice_is h' s' (ys ++ [av])) -> own b s' -> s' <> VNil ->
  (forall l o, not_at l s -> l <> lm -> nth_error h l = Some o -> nth_error h' l = Some o) ->
  (forall l n, s' = VSlice l n -> (exists n', s = VSlice l n') \/ length h <= l) ->
  entries_ok h0 h' b (ev ++ [a]) (bstore (attr_name a) s' es).
Proof.
  intros (N & F & D) Ha Hm Hb Es Hs Ho Hn K Hl.
  assert (P : exists l n, s' = VSlice l n /\ b <= l).
  { destruct s'; try contradiction. cbn [own] in Ho. eauto. }
  destruct P as (l' & n' & E' & Hl'). rewrite Forall_forall in F.
  destruct (bassoc (attr_name a) es) as [w|] eqn:Q.
  - destruct (bstore_old _ s' _ _ Q) as (e1 & e2 & -> & ->). subst w.
    assert (NK : forall x, In x e1 \/ In x e2 -> fst x <> attr_name a).
    { pose proof (proj1 (ev_names_spec ev)) as ND. rewrite <- N, map_app in ND. cbn [map fst] in ND.
      intros x Hx E. apply NoDup_remove_2 in ND. apply ND. apply in_or_app. rewrite <- E.
      destruct Hx as [Hx|Hx]; [left|right]; apply in_map; auto. }
    assert (NL : forall x, In x e1 \/ In x e2 -> sloc (snd x) <> sloc s).
    { rewrite map_app in D. cbn [map snd] in D. intros x Hx E. apply NoDup_remove_2 in D. apply D. apply in_or_app. rewrite <- E.
      destruct Hx as [Hx|Hx]; [left|right]; apply (in_map (fun x => sloc (snd x))); auto. }
    assert (Fo : forall x, In x e1 \/ In x e2 -> entry_ok h0 h' b (ev ++ [a]) x).
    { intros x Hx. eapply (entry_other h0 h h' b lm); eauto.
      - apply F. apply in_or_app. cbn [In]. tauto.
      - intros l n -> E. apply (NL x Hx). cbn [sloc]. auto. }
    split; [|split].
    + rewrite ev_names_snoc, <- N. replace (bmem (attr_name a) _) with true; [rewrite app_nil_r, !map_app; reflexivity|].
      symmetry. apply bmem_In. rewrite map_app. apply in_or_app. right. left. reflexivity.
    + apply Forall_app. split; [apply Forall_forall; intros; apply Fo; auto|].
      constructor; [|apply Forall_forall; intros; apply Fo; auto].
      destruct (F (attr_name a, s)) as (l & n & ys & E1 & E2 & E3 & E4); [apply in_or_app; right; left; reflexivity|].
      cbn [fst snd] in *. exists l', n', (ys ++ [av]). split; [exact E'|]. split; [auto|]. split; [apply Hs; auto|].
      cbn [fst]. rewrite ev_get_snoc, beq_refl. apply all2_app; [exact E4|]. exists av, []. cbn [all2]. auto.
    + rewrite map_app in *. cbn [map snd] in *. rewrite E' at 1. cbn [sloc].
      destruct (Hl l' n' E') as [(n0 & E0)|G].
      * rewrite E0 in D. exact D.
      * apply NoDup_remove_1 in D as D1. apply NoDup_Add with (a := l') (l := map (fun x => sloc (snd x)) e1 ++ map (fun x => sloc (snd x)) e2).
        { apply Add_app. }
        split; [exact D1|]. intro I. apply in_app_or in I.
        assert (J : exists x, (In x e1 \/ In x e2) /\ sloc (snd x) = l').
        { destruct I as [I|I]; apply in_map_iff in I as (x & X1 & X2); eauto. }
        destruct J as (x & Hx & Ex). destruct (F x) as (l & n & ys & E1 & E2 & E3 & E4); [apply in_or_app; cbn [In]; tauto|].
        rewrite E1 in E3, Ex. cbn [sloc] in Ex. subst l. destruct E3 as (cs & E3 & _). apply nth_lt in E3. lia.
  - rewrite (bstore_new _ _ _ Q). pose proof (proj1 (bassoc_In _ _) Q) as Nk. split; [|split].
    + rewrite map_app, ev_names_snoc, <- N. cbn [map fst]. replace (bmem (attr_name a) _) with false; [reflexivity|].
      symmetry. apply Bool.not_true_is_false. rewrite bmem_In. exact Nk.
    + apply Forall_app. split.
      * apply Forall_forall. intros x Hx. eapply (entry_other h0 h h' b lm); eauto.
        { intros l n E. rewrite Es in E. discriminate. }
        { intro E. apply Nk. rewrite <- E. apply in_map, Hx. }
      * constructor; [|constructor]. exists l', n', [av]. cbn [fst snd]. split; [exact E'|]. split; [auto|]. split.
        { apply (Hs []). rewrite Es. reflexivity. }
        rewrite ev_get_snoc, beq_refl. assert (G : ev_get ev (attr_name a) = []).
        { destruct (ev_get ev (attr_name a)) eqn:G; [reflexivity|]. exfalso. apply Nk. rewrite N.
          apply (proj2 (ev_names_spec ev)). apply ev_get_nonempty. rewrite G. discriminate. }
        rewrite G. exists av, []. cbn [all2]. auto.
    + rewrite map_app. cbn [map snd]. rewrite E'. cbn [sloc]. destruct (Hl l' n' E') as [(n0 & E0)|G]; [rewrite Es in E0; discriminate|].
      apply NoDup_Add with (a := l') (l := map (fun x => sloc (snd x)) es); [|split; [exact D|]].
      { rewrite <- (app_nil_r (map (fun x => sloc (snd x)) es)) at 1. apply Add_app. }
      intro I. apply in_map_iff in I as (x & Ex & Hx). destruct (F x Hx) as (l & n & ys & E1 & E2 & E3 & E4).
      rewrite E1 in E3, Ex. cbn [sloc] in Ex. subst l. destruct E3 as (cs & E3 & _). apply nth_lt in E3. lia.
Qed.

Lemma entries_grown h0 h h1 b ev es : entries_ok h0 h b ev es -> grown h h1 -> entries_ok h0 h1 b ev es.
Proof.
  intros (N & F & D) G. split; [auto|]. split; [|auto]. eapply Forall_impl; [|exact F].
  intros x (l & n & ys & E1 & E2 & E3 & E4). exists l, n, ys. repeat split; auto. eapply slice_grown; eauto.
Qed.

Definition eval_body : stmt :=
  SBlock [SIf None (EMethod (ELoc "a") "evaluate" [ELoc "ctx"] false)
     (SBlock [SDefine ["name"%string] [EMethod (EField (ELoc "a") "attribute") "Name" [] false];
              SAssign [LIndex (ELoc "result") (ELoc "name")]
                [ECall (EExt "append") [EIndex (ELoc "result") (ELoc "name"); EField (ELoc "a") "attribute"] false]])
     SSkip].
Lemma eval_loop lc fr e cv h0 : forall cas h ev es pre xs,
  kept lc h0 h -> ctx_at h lc fr e -> slice_is h0 cv (pre ++ xs) -> all2 (cattr_rep M h0) xs cas ->
  nth_error h (length h0) = Some (OMap es) -> entries_ok h0 h (S (length h0)) ev es ->
  sim (range_with (exec C eval_body) "_" "a" (slice_items cv (length pre) (length xs))
         [("result"%string, VMap (length h0)); ("ctx"%string, VPtr lc); ("c"%string, cv)])
    h (active_attrs fr e cas)
    (fun r h' l => r = (FNext, [("result"%string, VMap (length h0)); ("ctx"%string, VPtr lc); ("c"%string, cv)]) /\
       kept lc h0 h' /\ ctx_at h' lc fr e /\
       exists es', nth_error h' (length h0) = Some (OMap es') /\ entries_ok h0 h' (S (length h0)) (ev ++ l) es').
Proof.
  induction cas as [|[a cs] cas IH]; intros h ev es pre xs K0 HC Hs Hcs Hm He; cbn [all2] in Hcs.
  - subst xs. cbn [length slice_items seq map range_with active_attrs]. apply sim_ret.
    split; [reflexivity|]. split; [auto|]. split; [auto|]. exists es. rewrite app_nil_r. auto.
  - destruct Hcs as (x & xs' & -> & Hx & Hcs). cbn [length].
    pose proof (slice_kept _ _ _ _ _ K0 Hs) as Hs1. eapply sim_range_cons; [exact Hs1|].
    destruct Hx as (av & sv & ys & -> & Ha & Hy & Hf). cbn [fst snd] in *. steps. cbn [active_attrs].
    eapply simb_pcall; [eapply conds_spec; [exact HC|eapply slice_kept; eauto|exact Hf]|].
    intros vs h1 b (-> & G1). pose proof (grown_kept _ _ _ _ _ G1 HC) as K1. pose proof (ctx_grown _ _ _ _ _ G1 HC) as HC1.
    pose proof (kept_trans _ _ _ _ K0 K1) as K01. steps. destruct b; steps.
    + pose proof (kept_length _ _ _ K01) as L01. apply (grown_nth _ _ _ _ G1) in Hm. apply (entries_grown _ _ _ _ _ _ He) in G1 as He1.
      eapply simb_attr_name; [eapply attr_keeps; [eapply kept_keeps; exact K01|exact Ha]|]. steps.
      eapply simb_index_map; [exact Hm|]. steps.
      set (s := fst match bassoc (attr_name a) es with Some x => (x, true) | None => (VNil, false) end).
      assert (Es : s = match bassoc (attr_name a) es with Some x => x | None => VNil end)
        by (unfold s; destruct (bassoc (attr_name a) es); reflexivity). clearbody s.
      assert (Hy' : exists ys, slice_is h1 s ys /\ own (S (length h0)) s).
      { destruct (bassoc (attr_name a) es) as [w|] eqn:Q; [|subst s; exists []; split; [reflexivity|exact I]].
        destruct He1 as (_ & F & _). rewrite Forall_forall in F. subst s.
        destruct (F _ (bassoc_pair _ _ _ Q)) as (l & n & zs & E1 & E2 & E3 & E4). cbn [fst snd] in *.
        exists zs. split; [auto|]. rewrite E1. exact E2. }
      destruct Hy' as (zs & Hz & Oz).
      eapply simb_append_f; [exact Hz|exact Oz|floored|exact (nth_lt _ _ _ Hm)|]. intros h2 s' Hz' Oz' A2 Nz. steps.
      pose proof (appended_same _ _ _ _ _ Oz A2) as B2.
      eapply simb_store_map_f; [floored|destruct A2 as (_ & A2 & _); apply A2; [eapply own_not_at; [exact Oz|lia]|exact Hm]|]. steps.
      assert (B3 : same_below (length h0) h1 (set_nth h2 (length h0) (OMap (bstore (attr_name a) s' es)))).
      { eapply same_trans; [|apply same_update; lia]. destruct B2 as [B2 B2']. split; [auto|]. intros l o Hl. apply B2'. lia. }
      pose proof (kept_lt _ _ _ K01) as Llc.
      apply sim_eta. eapply sim_bind.
      * replace (pre ++ VStruct "conditionalAttribute" [("attribute"%string, av); ("conditions"%string, sv)] :: xs') with
          ((pre ++ [VStruct "conditionalAttribute" [("attribute"%string, av); ("conditions"%string, sv)]]) ++ xs') in Hs
          by (rewrite <- app_assoc; reflexivity).
        eapply IH; [eapply kept_same; eauto|eapply ctx_same; eauto|exact Hs|exact Hcs| |].
        { apply nth_set_same. destruct B2 as [B2 _]. apply nth_lt in Hm. lia. }
        { eapply (entries_add h0 h1 _ (S (length h0)) (length h0) ev es a av s s'); eauto.
          - apply nth_lt in Hm. lia.
          - intros ws Hw. apply slice_update; [|eapply own_not_at; [exact Oz'|lia]].
            rewrite (slice_unique _ _ _ _ Hw Hz). exact Hz'.
          - intros l o N1 N2 Ho. rewrite nth_set_other by auto. destruct A2 as (_ & A2 & _). apply A2; auto.
          - destruct A2 as (_ & _ & A2 & _). exact A2. }
      * intros r h4 l (-> & K4 & HC4 & es' & Hm4 & He4). apply sim_ret. split; [reflexivity|]. split; [auto|]. split; [auto|].
        exists es'. split; [auto|]. rewrite <- app_assoc in He4. exact He4.
    + apply sim_eta. eapply sim_bind.
      * replace (pre ++ VStruct "conditionalAttribute" [("attribute"%string, av); ("conditions"%string, sv)] :: xs') with
          ((pre ++ [VStruct "conditionalAttribute" [("attribute"%string, av); ("conditions"%string, sv)]]) ++ xs') in Hs
          by (rewrite <- app_assoc; reflexivity).
        eapply IH; [exact K01|exact HC1|exact Hs|exact Hcs|eapply grown_nth; eauto|eapply entries_grown; eauto].
      * intros r h4 l (-> & K4 & HC4 & Hm4). apply sim_ret. split; [reflexivity|]. split; [auto|]. split; auto.
Qed.

(** The map [evaluated] when it is complete. *)
Definition evals_rep (h : heap) (v : gv) (ev : list (attr U)) : Prop :=
  exists l es, v = VMap l /\ nth_error h l = Some (OMap es) /\ map fst es = ev_names ev /\
    Forall (fun x => attrs_rep M h (snd x) (ev_get ev (fst x))) es.
Lemma evals_keeps h h' v ev : keeps h h' -> evals_rep h v ev -> evals_rep h' v ev.
Proof.
  intros K (l & es & -> & H1 & H2 & H3). exists l, es. split; [auto|]. split; [apply K; [discriminate|auto]|]. split; [auto|].
  eapply Forall_impl; [|exact H3]. intros x. apply attrs_keeps, K.
Qed.
Lemma evaluate_spec cv xs cas h lc fr e :
  ctx_at h lc fr e -> slice_is h cv xs -> all2 (cattr_rep M h) xs cas ->
  sim (PCall (CFun "conditionalAttributes.evaluate") [cv; VPtr lc] false PRet) h (active_attrs fr e cas)
    (fun vs h' ev => exists v, vs = [v] /\ evals_rep h' v ev /\ went lc fr h h' e).
Proof.
  intros HC Hs Hcs. enter. steps. eapply simb_make_map; [reflexivity|]. steps.
  eapply simb_range; [apply slice_alloc; exact Hs|]. steps.
  apply sim_eta_model. eapply sim_bind.
  - eapply (eval_loop lc fr e cv h cas _ [] [] [] xs); auto.
    + eapply grown_kept; [apply grown_app|exact HC].
    + eapply ctx_grown; [apply grown_app|exact HC].
    + apply nth_app_new.
    + split; [reflexivity|]. split; constructor.
  - intros r h1 ev (-> & K1 & HC1 & es & Hm & N & F & D). steps. apply sim_ret. eexists. split; [reflexivity|]. split; [|split; auto].
    exists (length h), es. split; [auto|]. split; [auto|]. split; [auto|]. eapply Forall_impl; [|exact F].
    intros x (l & n & ys & E1 & E2 & E3 & E4). exists ys. split; [auto|]. eapply all2_mono; [|exact E4].
    intros y z. apply attr_keeps. eapply kept_keeps; eauto.
Qed.

(** ** renderAttributes *)

Definition values_of (a : attr U) : list (value U) := match attr_values a with Some vs => vs | None => [] end.

Lemma is_values_node h v a : attr_rep M h v a ->
  has_type C h v "valuesNode" = match attr_values a with Some _ => Some v | None => None end.
Proof.
  destruct a; cbn [attr_rep]; intro H; split_all; 
    match goal with H : nth_error _ _ = Some _ |- _ => rewrite (has_iface_ptr M _ _ _ _ "valuesNode" _ H eq_refl); reflexivity end.
Qed.
Lemma is_delimited h v a : attr_rep M h v a ->
  has_type C h v "*delimitedAttribute" = match a with ADelim _ _ _ => Some v | _ => None end.
Proof.
  destruct a; cbn [attr_rep]; intro H; split_all; 
    match goal with H : nth_error _ _ = Some _ |- _ => rewrite (has_type_ptr M _ _ _ _ "*delimitedAttribute" H eq_refl); reflexivity end.
Qed.
Lemma simb_getValues {A' B} v a vs h0 h (f : list gv -> prog A') (m : io U B) Q :
  attr_rep M h0 v a -> keeps h0 h -> attr_values a = Some vs ->
  (forall sv xs, slice_is h0 sv xs -> all2 (val_rep M h0) xs vs -> sim (f [sv]) h m Q) ->
  sim (pbind (invoke v "getValues" [] false) f) h m Q.
Proof.
  intros Ha Kp Hv K. destruct a; try discriminate; cbn [attr_rep attr_values] in *; inversion Hv; subst;
    unfold vals_rep in *; split_all;
    match goal with H : nth_error _ _ = Some (OStruct _ _) |- _ => apply Kp in H; [|discriminate] end;
    (eapply simb_method; [eassumption|reflexivity|reflexivity|]; enter; steps; eapply K; eassumption).
Qed.

Lemma kept_nth lc h h' l o : kept lc h h' -> nth_error h l = Some o -> (forall fs, o <> OStruct "Context" fs) -> nth_error h' l = Some o.
Proof. intros K H N. exact (kept_keeps _ _ _ K _ _ N H). Qed.
Section Use.
Variables (lc : loc) (fr : frame U) (h0 : heap).
Notation lu := (length h0).

(** The local struct [use] and its private array of values. *)
Definition use_at (h : heap) (nv dv : gv) (vs : list (value U)) : Prop :=
  exists sv xs, nth_error h lu = Some (OStruct "delimitedAttribute" [("name"%string, nv); ("delimiter"%string, dv); ("values"%string, sv)]) /\
    slice_is h sv xs /\ own (S lu) sv /\ all2 (val_rep M h0) xs vs.
Definition use_inv (h : heap) (e : option error) (nv dv : gv) (vs : list (value U)) : Prop :=
  kept lc h0 h /\ ctx_at h lc fr e /\ use_at h nv dv vs.

Ltac use_floored :=
  repeat match goal with H : use_inv _ _ _ _ _ |- _ => destruct H as (? & ? & _) end; floored.

(** [use.values = append(use.values, t...)]. *)
Lemma add_values {A' B} h e nv dv vs t ts vs' (f : list gv -> prog A') (m : io U B) Q :
  use_inv h e nv dv vs -> slice_is h t ts -> all2 (val_rep M h0) ts vs' ->
  forall sv, nth_error h lu = Some (OStruct "delimitedAttribute" [("name"%string, nv); ("delimiter"%string, dv); ("values"%string, sv)]) ->
  (forall h1 s', nth_error h1 lu = Some (OStruct "delimitedAttribute" [("name"%string, nv); ("delimiter"%string, dv); ("values"%string, sv)]) ->
     use_inv (set_nth h1 lu (OStruct "delimitedAttribute" [("name"%string, nv); ("delimiter"%string, dv); ("values"%string, s')])) e nv dv (vs ++ vs') ->
     sim (f [s']) h1 m Q) ->
  sim (pbind (external C "append" [sv; t] true) f) h m Q.
Proof.
  intros (K0 & HC & sv0 & xs & Ho & Hs & Os & Hv) Ht Hts sv Ho' K. rewrite Ho in Ho'. inversion Ho'; subst sv0.
  pose proof (kept_lt _ _ _ K0) as L.
  eapply simb_append_spread_f; [exact Hs|exact Os|floored|exact (nth_lt _ _ _ Ho)|exact Ht|]. intros h1 s' Hs1 O1 A1.
  pose proof (appended_same _ _ _ _ _ Os A1) as B1. assert (Ho1 := proj1 (proj2 A1) lu _ (own_not_at _ _ _ Os (Nat.lt_succ_diag_r _)) Ho).
  apply K; [exact Ho1|]. assert (B2 : same_below lu h (set_nth h1 lu (OStruct "delimitedAttribute" [("name"%string, nv); ("delimiter"%string, dv); ("values"%string, s')]))).
  { eapply same_trans; [|apply same_update; lia]. destruct B1 as [B1 B1']. split; [auto|]. intros l o Hl. apply B1'. lia. }
  split; [eapply kept_same; eauto|]. split; [eapply ctx_same; eauto|]. exists s', (xs ++ ts).
  split; [apply nth_set_same; eapply nth_lt; eauto|]. split; [|split; [auto|]].
  - apply slice_update; [auto|]. eapply own_not_at; [exact O1|lia].
  - apply all2_app; auto.
Qed.

Definition add_body : stmt :=
  SBlock [SIf (Some (SDefine ["et"%string; "ok"%string] [EAssert (ELoc "e") "valuesNode"])) (ELoc "ok")
     (SBlock [SAssign [LField (ELoc "use") "values"]
        [ECall (EExt "append") [EField (ELoc "use") "values"; EMethod (ELoc "et") "getValues" [] false] true]]) SSkip].
Lemma add_loop {A' B} sv en e nv dv (f : flow * venv -> prog A') (m : io U B) Q :
  assoc "use" en = Some (VPtr lu) -> forall es h vs pre xs,
  use_inv h e nv dv vs -> slice_is h0 sv (pre ++ xs) -> all2 (attr_rep M h0) xs es ->
  (forall h', use_inv h' e nv dv (vs ++ all_values es) -> sim (f (FNext, en)) h' m Q) ->
  sim (pbind (range_with (exec C add_body) "_" "e" (slice_items sv (length pre) (length xs)) en) f) h m Q.
Proof.
  intro He. induction es as [|a es IH]; intros h vs pre xs I Hs Ha K; cbn [all2] in Ha.
  - subst xs. cbn [length slice_items seq map range_with]. apply K. cbn [all_values flat_map]. rewrite app_nil_r. exact I.
  - destruct Ha as (x & xs' & -> & Hx & Ha). cbn [length]. pose proof I as (K0 & HC & _). eapply simb_range_cons; [eapply slice_kept; eauto|]. steps.
    pose proof (attr_keeps _ _ _ _ _ (kept_keeps _ _ _ K0) Hx) as Hx1.
    eapply simb_assert_ok; [apply is_values_node; exact Hx1|].
    replace (pre ++ x :: xs') with ((pre ++ [x]) ++ xs') in Hs by (rewrite <- app_assoc; reflexivity).
    destruct (attr_values a) as [vs'|] eqn:V.
    + pose proof I as (_ & _ & sv0 & ys & Ho & _). steps.
      eapply simb_getValues; [exact Hx|eapply kept_keeps; eauto|exact V|]. intros t ts Ht Hts. steps.
      eapply (add_values h e nv dv vs t ts vs'); [exact I|eapply slice_kept; eauto|exact Hts|exact Ho|].
      intros h1 s' Ho1 I1. steps. eapply simb_set_field_f; [use_floored|exact Ho1|reflexivity|].
      lazy [set_assoc String.eqb Ascii.eqb Bool.eqb]. steps.
      eapply IH; [exact I1|exact Hs|exact Ha|]. intros h2 I2. apply K. unfold all_values in *. cbn [flat_map].
      rewrite V. rewrite app_assoc. exact I2.
    + steps. eapply IH; [exact I|exact Hs|exact Ha|]. intros h2 I2. apply K. unfold all_values in *. cbn [flat_map].
      rewrite V. exact I2.
Qed.

(** Filling [use] from the delimited attribute [at]. *)
Definition fill : list stmt :=
  [SAssign [LField (ELoc "use") "name"] [EField (ELoc "at") "name"];
   SAssign [LField (ELoc "use") "delimiter"] [EField (ELoc "at") "delimiter"];
   SAssign [LField (ELoc "use") "values"] [ESub (EField (ELoc "use") "values") None (Some (EInt 0))];
   SAssign [LField (ELoc "use") "values"] [ECall (EExt "append") [EField (ELoc "use") "values"; EField (ELoc "at") "values"] true]].
Lemma fill_spec {A' B} rest en v n d vs h e nv0 dv0 vs0 (f : flow * venv -> prog A') (m : io U B) Q :
  assoc "use" en = Some (VPtr lu) -> assoc "at" en = Some v -> attr_rep M h0 v (ADelim n d vs) ->
  use_inv h e nv0 dv0 vs0 ->
  (forall h' nv dv, bytes_of nv = Some n -> bytes_of dv = Some d -> use_inv h' e nv dv vs ->
     sim (pbind (block_with (exec C) rest en) f) h' m Q) ->
  sim (pbind (block_with (exec C) (fill ++ rest) en) f) h m Q.
Proof.
  intros Hu Ha (l & nv & dv & sv & -> & Ho & Hn & Hd & xs & Hs & Hv) (K0 & HC & sv0 & xs0 & Ho0 & Hs0 & Os0 & _) K.
  pose proof (kept_lt _ _ _ K0) as L.
  assert (Hlu : l <> lu) by (intros ->; apply nth_lt in Ho; lia).
  assert (U0 : forall h o, kept lc h0 h -> kept lc h0 (set_nth h lu o)).
  { intros h2 o K2. eapply kept_same; [exact K2|apply same_update; lia]. }
  assert (U1 : forall h o, ctx_at h lc fr e -> ctx_at (set_nth h lu o) lc fr e).
  { intros h2 o C2. eapply ctx_same; [exact C2|exact L|apply same_update; lia]. }
  assert (N0 : not_at lu sv0) by (eapply own_not_at; [exact Os0|lia]).
  pose proof (kept_nth _ _ _ _ _ K0 Ho ltac:(discriminate)) as Ho1.
  unfold fill. cbn [app]. steps. eapply simb_set_field_f; [use_floored|exact Ho0|reflexivity|]. lazy [set_assoc String.eqb Ascii.eqb Bool.eqb].
  pose proof (nth_lt _ _ _ Ho0) as L0.
  match goal with |- @GoRun.sim _ _ _ _ _ _ _ (set_nth h lu ?o) _ _ => set (o1 := o) end.
  assert (Ho2 : nth_error (set_nth h lu o1) l = Some (OStruct "delimitedAttribute" [("name"%string, nv); ("delimiter"%string, dv); ("values"%string, sv)]))
    by (rewrite nth_set_other by auto; exact Ho1).
  assert (Hu2 := nth_set_same h lu o1 L0).
  pose proof (U0 _ o1 K0) as K2. pose proof (U1 _ o1 HC) as HC2. pose proof (slice_update h lu o1 _ _ Hs0 N0) as Hs2.
  set (h2 := set_nth h lu o1) in *. subst o1.
  steps. eapply simb_set_field_f; [use_floored|exact Hu2|reflexivity|]. lazy [set_assoc String.eqb Ascii.eqb Bool.eqb].
  pose proof (nth_lt _ _ _ Hu2) as L2.
  match goal with |- @GoRun.sim _ _ _ _ _ _ _ (set_nth h2 lu ?o) _ _ => set (o3 := o) end.
  assert (Ho3 : nth_error (set_nth h2 lu o3) l = Some (OStruct "delimitedAttribute" [("name"%string, nv); ("delimiter"%string, dv); ("values"%string, sv)]))
    by (rewrite nth_set_other by auto; exact Ho2).
  assert (Hu3 := nth_set_same h2 lu o3 L2).
  pose proof (U0 _ o3 K2) as K3. pose proof (U1 _ o3 HC2) as HC3. pose proof (slice_update h2 lu o3 _ _ Hs2 N0) as Hs3.
  set (h3 := set_nth h2 lu o3) in *. subst o3.
  steps. eapply simb_sub0; [exact Hs3|exact Os0|]. intros sv3 Hs3' Os3. steps.
  eapply simb_set_field_f; [use_floored|exact Hu3|reflexivity|]. lazy [set_assoc String.eqb Ascii.eqb Bool.eqb].
  pose proof (nth_lt _ _ _ Hu3) as L3. assert (N3 : not_at lu sv3) by (eapply own_not_at; [exact Os3|lia]).
  match goal with |- @GoRun.sim _ _ _ _ _ _ _ (set_nth h3 lu ?o) _ _ => set (o4 := o) end.
  assert (Ho4 : nth_error (set_nth h3 lu o4) l = Some (OStruct "delimitedAttribute" [("name"%string, nv); ("delimiter"%string, dv); ("values"%string, sv)]))
    by (rewrite nth_set_other by auto; exact Ho3).
  assert (Hu4 := nth_set_same h3 lu o4 L3).
  pose proof (U0 _ o4 K3) as K4. pose proof (U1 _ o4 HC3) as HC4. pose proof (slice_update h3 lu o4 _ _ Hs3' N3) as Hs4.
  set (h4 := set_nth h3 lu o4) in *. subst o4.
  steps. eapply (add_values h4 e nv dv [] sv xs vs); [|eapply slice_kept; [exact K4|exact Hs]|exact Hv|exact Hu4|].
  { split; [exact K4|]. split; [exact HC4|]. exists sv3, []. split; [exact Hu4|]. split; [exact Hs4|]. split; [exact Os3|reflexivity]. }
  intros h5 s' Hu5 I5. steps. eapply simb_set_field_f; [use_floored|exact Hu5|reflexivity|]. lazy [set_assoc String.eqb Ascii.eqb Bool.eqb].
  steps. eapply K; eauto.
Qed.

(** [use] as an attribute, and after rendering it. *)
Lemma use_rep h e nv dv n d vs : bytes_of nv = Some n -> bytes_of dv = Some d -> use_inv h e nv dv vs ->
  attr_rep M h (VPtr lu) (ADelim n d vs).
Proof.
  intros Hn Hd (K0 & HC & sv & xs & Ho & Hs & Os & Hv). exists lu, nv, dv, sv. split; [auto|]. split; [exact Ho|].
  split; [auto|]. split; [auto|]. exists xs. split; [exact Hs|]. carry K0. exact Hv.
Qed.
Lemma use_went h h' e e' nv dv vs : use_inv h e nv dv vs -> kept lc h h' -> ctx_at h' lc fr e' -> use_inv h' e' nv dv vs.
Proof.
  intros (K0 & HC & sv & xs & Ho & Hs & Os & Hv) K1 HC1. split; [eapply kept_trans; eauto|]. split; [exact HC1|].
  exists sv, xs. carry K1. auto.
Qed.

Definition render_of (x : expr) : stmt := SAssign [LBlank] [EMethod x "Render" [ELoc "ctx"] false].
Definition static_body : stmt :=
  SBlock [SDefine ["attr"%string] [EIndex (ELoc "attributes") (ELoc "index")];
    SIf (Some (SDefine ["eAttr"%string; "ok"%string] [EIndex (ELoc "evaluated") (ELoc "name")])) (ELoc "ok")
     (SBlock [STypeSwitch "at" (ELoc "attr") [("*delimitedAttribute"%string,
         SBlock (fill ++ [SRange "_" "e" (ELoc "eAttr") add_body; render_of (ELoc "use")]))]
       (SBlock [render_of (EIndex (ELoc "eAttr") (EBin OSub (ECall (EExt "len") [ELoc "eAttr"] false) (EInt 1)))])])
     (SBlock [render_of (ELoc "attr")])].

Lemma bassoc_idx idx name :
  bassoc name (map (fun '(n, i) => (n, VInt (Z.of_nat i))) idx) = option_map (fun i => @VInt W (Z.of_nat i)) (idx_get idx name).
Proof. induction idx as [|[n i] idx IH]; cbn [map bassoc idx_get]; [auto|]. destruct (beq n name); auto. Qed.
Lemma all2_nth {X Y} (R : X -> Y -> Prop) ys : forall xs i y, all2 R xs ys -> nth_error ys i = Some y ->
  exists x, nth_error xs i = Some x /\ R x y.
Proof.
  induction ys as [|y0 ys IH]; intros xs [|i] y H E; try discriminate; cbn [all2] in H; destruct H as (x & xs' & -> & Hx & H);
    cbn [nth_error] in *.
  - inversion E; subst. eauto.
  - eauto.
Qed.
Lemma last_nth {X} (l : list X) d x : nth_error (x :: l) (length l) = Some (last (x :: l) d).
Proof.
  revert x. induction l as [|y l IH]; intro x; [reflexivity|]. cbn [length nth_error]. rewrite IH. reflexivity.
Qed.
Lemma incl_rest {X} (x : X) l m : incl (x :: l) m -> incl l m.
Proof. intros H y Hy. apply H. right. exact Hy. Qed.
Lemma last_first {X} (l : list X) x : last (x :: l) x = last l x.
Proof. destruct l; reflexivity. Qed.
Lemma last_item {X Y} (R : X -> Y -> Prop) xs y ys d : all2 R xs (y :: ys) ->
  exists x, nth_error xs (Z.to_nat (Z.of_nat (length xs) - 1)) = Some x /\ R x (last (y :: ys) d) /\ (0 <= Z.of_nat (length xs) - 1)%Z.
Proof.
  intro H. pose proof (all2_length _ _ _ H) as L. destruct (all2_nth _ _ _ _ _ H (last_nth ys d y)) as (x & E & Hx).
  exists x. rewrite L. cbn [length]. replace (Z.to_nat (Z.of_nat (S (length ys)) - 1)) with (length ys) by lia.
  repeat split; auto. lia.
Qed.

Lemma static_turns attrs idx ev av xs li vv lev es en :
  table_ok attrs idx ->
  slice_is h0 av xs -> all2 (attr_rep M h0) xs attrs ->
  nth_error h0 li = Some (idx_obj idx) ->
  vv = VMap lev -> nth_error h0 lev = Some (OMap es) -> map fst es = ev_names ev ->
  Forall (fun x => attrs_rep M h0 (snd x) (ev_get ev (fst x))) es ->
  assoc "attributes" en = Some av -> assoc "evaluated" en = Some vv -> assoc "use" en = Some (VPtr lu) ->
  assoc "ctx" en = Some (VPtr lc) ->
  forall names h e, incl names (map fst idx) ->
  (exists nv dv vs, use_inv h e nv dv vs) ->
  sim (range_with (exec C static_body) "name" "index" (map (map_item li) names) en) h
    (static_loop fr attrs idx ev names e)
    (fun r h' e' => r = (FNext, en) /\ exists nv dv vs, use_inv h' e' nv dv vs).
Proof.
  intros T Hs Hx Hli -> Hlev Hes Hev E1 E2 E3 E4. induction names as [|name names IH]; intros h e Hn (nv & dv & vs & I).
  - cbn [map range_with static_loop]. apply sim_ret. eauto 6.
  - destruct (idx_get_In attrs idx name T) as (a & Ha); [apply Hn; left; auto|].
    pose proof (table_get attrs idx name T) as G. cbn [static_loop]. destruct (idx_get idx name) as [i|] eqn:Ei; [|congruence].
    rewrite Ha in G. rewrite G. pose proof I as (K0 & HC & _).
    eapply sim_range_map_cons; [apply (kept_nth _ _ _ _ _ K0 Hli ltac:(discriminate))|rewrite bassoc_idx, Ei; reflexivity|reflexivity|reflexivity|].
    destruct (all2_nth _ _ _ _ _ Hx G) as (x & Ex & Hxa). steps.
    eapply simb_index_slice; [eapply slice_kept; [exact K0|exact Hs]|lia|rewrite Nat2Z.id; exact Ex|]. cbn [fst]. steps.
    eapply simb_index_map; [apply (kept_nth _ _ _ _ _ K0 Hlev ltac:(discriminate))|].
    destruct (bassoc name es) as [ea|] eqn:Eb.
    + pose proof (proj1 (Forall_forall _ _) Hev _ (bassoc_pair _ _ _ Eb)) as (ys & Hys & Hya). cbn [fst snd] in *.
      assert (Hne : ev_get ev name <> []).
      { apply ev_get_nonempty, ev_names_spec. rewrite <- Hes. apply in_map_iff. eexists (_, _). split; [|eapply bassoc_pair; eauto]. reflexivity. }
      destruct (ev_get ev name) as [|a0 l0] eqn:Eg; [contradiction|]. clear Hne.
      steps. eapply simb_heap; [reflexivity|apply stays_same|]. steps. cbn [tswitch_with]. pose proof (attr_keeps _ _ _ _ _ (kept_keeps _ _ _ K0) Hxa) as Hx1.
      rewrite (is_delimited _ _ _ Hx1). destruct a as [an avs|an|an ad avs]; cbn [resolve_static].
      * cbn [named String.eqb]. destruct (last_item _ _ _ _ (APlain an avs) Hya) as (y & Hy1 & Hy2 & Hy3). carry K0. steps.
        eapply simb_index_slice; [exact Hys|exact Hy3|exact Hy1|]. steps. eapply simb_attr; [exact HC|exact Hy2|].
        intros h1 e1 K1 HC1. steps. apply IH; [eauto using incl_rest|]; eauto 6 using use_went.
      * cbn [named String.eqb]. destruct (last_item _ _ _ _ (ABool an) Hya) as (y & Hy1 & Hy2 & Hy3). carry K0. steps.
        eapply simb_index_slice; [exact Hys|exact Hy3|exact Hy1|]. steps. eapply simb_attr; [exact HC|exact Hy2|].
        intros h1 e1 K1 HC1. steps. apply IH; [eauto using incl_rest|]; eauto 6 using use_went.
      * cbn [named String.eqb]. steps. eapply (fill_spec _ _ x an ad avs); [exact E3|reflexivity|exact Hxa|exact I|].
        intros h1 nv1 dv1 B1 B2 I1. pose proof I1 as (K1 & _). steps. eapply simb_range; [eapply slice_kept; [exact K1|exact Hys]|]. steps.
        eapply (fun H => add_loop ea _ e nv1 dv1 _ _ _ H (a0 :: l0) h1 avs [] ys); [exact E3|exact I1|exact Hys|exact Hya|].
        intros h2 I2. steps. eapply simb_attr; [exact (proj1 (proj2 I2))|eapply use_rep; eauto|].
        intros h3 e3 K3 HC3. steps. apply IH; [eauto using incl_rest|]; eauto 6 using use_went.
    + assert (Eg : ev_get ev name = []).
      { destruct (ev_get ev name) eqn:Eg; [auto|]. exfalso. apply bassoc_In in Eb. apply Eb. rewrite Hes. apply ev_names_spec.
        apply ev_get_nonempty. congruence. }
      rewrite Eg. steps. carry K0. eapply simb_attr; [exact HC|exact Hxa|]. intros h1 e1 K1 HC1. steps. apply IH; [eauto using incl_rest|]; eauto 6 using use_went.
Qed.

(** [for i := 1; i < len(ca); i++]. *)
Definition add_for : stmt :=
  SFor (Some (SDefine ["i"%string] [EInt 1])) (EBin OLt (ELoc "i") (ECall (EExt "len") [ELoc "ca"] false))
    (SAssign [LLoc "i"] [EBin OAdd (ELoc "i") (EInt 1)])
    (SBlock [SIf (Some (SDefine ["et"%string; "ok"%string] [EAssert (EIndex (ELoc "ca") (ELoc "i")) "valuesNode"])) (ELoc "ok")
     (SBlock [SAssign [LField (ELoc "use") "values"]
        [ECall (EExt "append") [EField (ELoc "use") "values"; EMethod (ELoc "et") "getValues" [] false] true]]) SSkip]).
Lemma add_for_spec {A' B} ea en h e nv dv vs a l ys (f : flow * venv -> prog A') (m : io U B) Q :
  assoc "use" en = Some (VPtr lu) -> assoc "ca" en = Some ea ->
  use_inv h e nv dv vs -> slice_is h0 ea ys -> all2 (attr_rep M h0) ys (a :: l) ->
  (forall h', use_inv h' e nv dv (vs ++ all_values l) -> sim (f (FNext, en)) h' m Q) ->
  sim (pbind (exec C add_for en) f) h m Q.
Proof.
  intros E1 E2 I Hs Ha K. steps.
  match goal with |- @GoRun.sim _ _ _ _ _ _ (pbind (PLoop ?b _ ?k) _) _ _ _ => remember b as bd eqn:Ebd; set (kk := k) end.
  assert (G : forall es xs pre h vs, ys = pre ++ xs -> all2 (attr_rep M h0) xs es -> use_inv h e nv dv vs ->
    (forall h', use_inv h' e nv dv (vs ++ all_values es) -> sim (f (FNext, en)) h' m Q) ->
    sim (pbind (PLoop bd (("i"%string, VInt (Z.of_nat (length pre))) :: en) kk) f) h m Q).
  2:{ cbn [all2] in Ha. destruct Ha as (y & ys' & -> & Hy & Ha). apply (G l ys' [y] h vs); auto. }
  clear vs I K h Ha a l. induction es as [|a es IH]; intros xs pre h vs Hy Ha I K; pose proof I as (K0 & HC & sv0 & zs & Ho & _);
    pose proof (slice_kept _ _ _ _ _ K0 Hs) as Hs1; cbn [all2] in Ha; apply simb_loop.
  - subst xs. rewrite app_nil_r in Hy. subst pre. eapply simb_eq; [rewrite Ebd; reflexivity|]. steps.
    rewrite Z.ltb_irrefl. steps. subst kk. steps. apply K. cbn [all_values flat_map]. rewrite app_nil_r. exact I.
  - destruct Ha as (x & xs' & -> & Hx & Ha). eapply simb_eq; [rewrite Ebd; reflexivity|]. steps.
    rewrite (proj2 (Z.ltb_lt _ _)) by (rewrite Hy, app_length; cbn [length]; lia). steps.
    eapply simb_index_slice; [exact Hs1|lia|rewrite Nat2Z.id, Hy, nth_error_app2, Nat.sub_diag by lia; reflexivity|]. cbn [fst]. steps.
    pose proof (attr_keeps _ _ _ _ _ (kept_keeps _ _ _ K0) Hx) as Hx1.
    eapply simb_assert_ok; [apply is_values_node; exact Hx1|].
    assert (Ep : (Z.of_nat (length pre) + 1)%Z = Z.of_nat (length (pre ++ [x]))) by (rewrite app_length; cbn [length]; lia).
    replace (pre ++ x :: xs') with ((pre ++ [x]) ++ xs') in Hy by (rewrite <- app_assoc; reflexivity).
    destruct (attr_values a) as [vs'|] eqn:V.
    + steps. eapply simb_getValues; [exact Hx|eapply kept_keeps; eauto|exact V|]. intros t ts Ht Hts. steps.
      eapply (add_values h e nv dv vs t ts vs'); [exact I|eapply slice_kept; eauto|exact Hts|exact Ho|].
      intros h1 s' Ho1 I1. steps. eapply simb_set_field_f; [use_floored|exact Ho1|reflexivity|].
      lazy [set_assoc String.eqb Ascii.eqb Bool.eqb]. steps. rewrite Ep.
      eapply IH; [exact Hy|exact Ha|exact I1|]. intros h2 I2. apply K. unfold all_values in *. cbn [flat_map].
      rewrite V. rewrite app_assoc. exact I2.
    + steps. rewrite Ep. eapply IH; [exact Hy|exact Ha|exact I|]. intros h2 I2. apply K. unfold all_values in *. cbn [flat_map].
      rewrite V. exact I2.
Qed.
Definition dynamic_body : stmt :=
  SBlock [SIf (Some (SDefine ["_"%string; "ok"%string] [EIndex (ELoc "attIndices") (ELoc "name")]))
      (EAnd (ENot (ELoc "ok")) (EBin OGt (ECall (EExt "len") [ELoc "ca"] false) (EInt 0)))
     (SBlock [SDefine ["first"%string] [EIndex (ELoc "ca") (EInt 0)];
       STypeSwitch "at" (ELoc "first") [("*delimitedAttribute"%string,
         SBlock (fill ++ [add_for; render_of (ELoc "use")]))]
       (SBlock [render_of (EIndex (ELoc "ca") (EBin OSub (ECall (EExt "len") [ELoc "ca"] false) (EInt 1)))])])
     SSkip].
Lemma dynamic_turns attrs idx ev li lev es en :
  table_ok attrs idx ->
  nth_error h0 li = Some (idx_obj idx) ->
  nth_error h0 lev = Some (OMap es) -> map fst es = ev_names ev ->
  Forall (fun x => attrs_rep M h0 (snd x) (ev_get ev (fst x))) es ->
  assoc "attIndices" en = Some (VMap li) -> assoc "use" en = Some (VPtr lu) ->
  assoc "ctx" en = Some (VPtr lc) ->
  forall names h e, incl names (map fst es) ->
  (exists nv dv vs, use_inv h e nv dv vs) ->
  sim (range_with (exec C dynamic_body) "name" "ca" (map (map_item lev) names) en) h
    (dynamic_loop fr idx ev names e)
    (fun r h' e' => r = (FNext, en) /\ exists nv dv vs, use_inv h' e' nv dv vs).
Proof.
  intros T Hli Hlev Hes Hev E1 E3 E4. induction names as [|name names IH]; intros h e Hn (nv & dv & vs & I).
  - cbn [map range_with dynamic_loop]. apply sim_ret. eauto 6.
  - pose proof I as (K0 & HC & _). destruct (bassoc name es) as [ea|] eqn:Eb; [|exfalso; apply bassoc_In in Eb; apply Eb, Hn; left; auto].
    pose proof (proj1 (Forall_forall _ _) Hev _ (bassoc_pair _ _ _ Eb)) as (ys & Hys & Hya). cbn [fst snd] in *.
    assert (Hne : ev_get ev name <> []).
    { apply ev_get_nonempty, ev_names_spec. rewrite <- Hes. apply in_map_iff. eexists (_, _). split; [|eapply bassoc_pair; eauto]. reflexivity. }
    cbn [dynamic_loop]. destruct (ev_get ev name) as [|a l] eqn:Eg; [contradiction|]. clear Hne.
    eapply sim_range_map_cons; [apply (kept_nth _ _ _ _ _ K0 Hlev ltac:(discriminate))|exact Eb|reflexivity|reflexivity|]. steps.
    eapply simb_index_map; [apply (kept_nth _ _ _ _ _ K0 Hli ltac:(discriminate))|]. rewrite bassoc_idx.
    destruct (idx_get idx name) as [i|] eqn:Ei; cbn [option_map].
    + steps. apply IH; eauto using incl_rest.
    + pose proof (slice_kept _ _ _ _ _ K0 Hys) as Hys1. assert (L : length ys = S (length l)) by exact (all2_length _ _ _ Hya).
      steps. rewrite L. steps. rewrite (proj2 (Z.ltb_lt _ _)) by lia. steps.
      pose proof Hya as (y0 & ys' & Ey & Hy0 & _). eapply simb_index_slice; [exact Hys1|lia|rewrite Ey; reflexivity|]. cbn [fst]. steps.
      eapply simb_heap; [reflexivity|apply stays_same|]. steps. cbn [tswitch_with]. pose proof (attr_keeps _ _ _ _ _ (kept_keeps _ _ _ K0) Hy0) as Hy1.
      rewrite (is_delimited _ _ _ Hy1). destruct a as [an avs|an|an ad avs]; cbn [resolve_dynamic].
      * cbn [named String.eqb]. rewrite <- (last_first l (APlain an avs)). destruct (last_item _ _ _ _ (APlain an avs) Hya) as (y & Hl1 & Hl2 & Hl3). carry K0. steps.
        eapply simb_index_slice; [exact Hys|exact Hl3|exact Hl1|]. steps. eapply simb_attr; [exact HC|exact Hl2|].
        intros h1 e1 K1 HC1. steps. apply IH; [eauto using incl_rest|]; eauto 6 using use_went.
      * cbn [named String.eqb]. rewrite <- (last_first l (ABool an)). destruct (last_item _ _ _ _ (ABool an) Hya) as (y & Hl1 & Hl2 & Hl3). carry K0. steps.
        eapply simb_index_slice; [exact Hys|exact Hl3|exact Hl1|]. steps. eapply simb_attr; [exact HC|exact Hl2|].
        intros h1 e1 K1 HC1. steps. apply IH; [eauto using incl_rest|]; eauto 6 using use_went.
      * cbn [named String.eqb]. steps. eapply (fill_spec _ _ y0 an ad avs); [exact E3|reflexivity|exact Hy0|exact I|].
        intros h1 nv1 dv1 B1 B2 I1. red_head. apply sim_assoc. eapply (fun H H' => add_for_spec ea _ h1 e nv1 dv1 avs _ l ys _ _ _ H H' I1 Hys Hya); [exact E3|reflexivity|].
        intros h2 I2. steps. eapply simb_attr; [exact (proj1 (proj2 I2))|eapply use_rep; eauto|].
        intros h3 e3 K3 HC3. steps. apply IH; [eauto using incl_rest|]; eauto 6 using use_went.
Qed.
End Use.

(** The loop without active conditional attributes. *)
Definition plain_body : stmt := SBlock [render_of (ELoc "attr")].
Lemma plain_turns lc fr av en : assoc "ctx" en = Some (VPtr lc) -> forall attrs h e pre xs,
  ctx_at h lc fr e -> slice_is h av (pre ++ xs) -> all2 (attr_rep M h) xs attrs ->
  sim (range_with (exec C plain_body) "_" "attr" (slice_items av (length pre) (length xs)) en) h (attrs_render fr attrs e)
    (fun r h' e' => r = (FNext, en) /\ went lc fr h h' e').
Proof.
  intro E. induction attrs as [|a attrs IH]; intros h e pre xs HC Hs Ha; cbn [all2] in Ha.
  - subst xs. apply sim_ret. split; [auto|]. split; [eapply kept_refl; eauto|auto].
  - destruct Ha as (x & xs' & -> & Hx & Ha). cbn [attrs_render]. eapply sim_range_cons; [exact Hs|]. steps.
    eapply simb_attr; [exact HC|exact Hx|]. intros h1 e1 K1 HC1. carry K1. steps. next_turn Hs IH.
    intros r h2 e2 (-> & K2 & HC2). split; [auto|]. split; [kept_chain|auto].
Qed.

Lemma render_attributes_spec h lc fr e av iv cv attrs idx conds :
  ctx_at h lc fr e -> attrs_rep M h av attrs -> idx_rep h iv idx -> cattrs_rep M h cv conds -> table_ok attrs idx ->
  sim (PCall (CFun "aitch.renderAttributes") [VPtr lc; av; iv; cv] false PRet) h (render_attributes fr attrs idx conds e)
    (fun vs h' e' => vs = [] /\ went lc fr h h' e').
Proof.
  intros HC (xs & Hs & Hx) (li & -> & Hli) (cs & Hcs & Hc) T. enter. steps. unfold render_attributes.
  rewrite (all2_length _ _ _ Hc). destruct conds as [|c conds].
  - cbn [length active_attrs bind]. change (0 <? Z.of_nat 0)%Z with false. steps. apply sim_eta_model. eapply sim_bind.
    + eapply (fun H => plain_turns lc fr av _ H attrs h e [] xs); eauto.
    + intros r h1 e1 (-> & K1 & HC1). steps. apply sim_ret. split; [auto|]. split; auto.
  - cbn [length]. rewrite (proj2 (Z.ltb_lt _ _)) by lia. steps.
    eapply simb_pcall; [eapply evaluate_spec; eauto|]. intros r h1 ev (v & -> & (lev & es & -> & Hlev & Hes & Hev) & K1 & HC1).
    carry K1. steps. eapply simb_len_map; [exact Hlev|]. steps.
    rewrite <- (map_length fst es), Hes. destruct ev as [|a ev].
    + cbn [ev_names length]. change (0 <? Z.of_nat 0)%Z with false. steps. apply sim_eta_model. eapply sim_bind.
      * eapply (fun H => plain_turns lc fr av _ H attrs h1 e [] xs); eauto.
      * intros r h2 e2 (-> & K2 & HC2). steps. apply sim_ret. split; [auto|]. split; [kept_chain|auto].
    + remember (a :: ev) as ev' eqn:Eev. rewrite (proj2 (Z.ltb_lt _ _)) by (rewrite Eev; cbn [ev_names length]; lia). steps.
      match goal with |- @GoRun.sim _ _ _ _ _ _ _ (h1 ++ [?o]) _ _ => set (ou := o) end.
      pose proof (grown_app h1 [ou]) as G1. pose proof (grown_kept _ _ _ _ _ G1 HC1) as K2. pose proof (ctx_grown _ _ _ _ _ G1 HC1) as HC2.
      assert (I2 : use_inv lc fr h1 (h1 ++ [ou]) e VNil VNil []).
      { split; [exact K2|]. split; [exact HC2|]. exists VNil, []. split; [apply nth_app_new|]. repeat split. }
      replace (map fst idx) with (map fst (map (fun '(n, i) => (n, @VInt W (Z.of_nat i))) idx))
        by (rewrite map_map; apply map_ext; intros [? ?]; reflexivity).
      eapply simb_map_range; [apply (kept_nth _ _ _ _ _ K2 Hli ltac:(discriminate))|]. intros names P. steps.
      eapply sim_bind.
      * eapply (static_turns lc fr h1 attrs idx ev' av xs li (VMap lev) lev es); eauto.
        { intros n Hn. eapply Permutation_in in Hn; [|apply Permutation_sym; exact P]. rewrite map_map in Hn.
          erewrite map_ext in Hn; [exact Hn|]. intros [? ?]; reflexivity. }
      * intros r h3 e3 (-> & nv & dv & vs & I3). steps. pose proof I3 as (K3 & HC3 & _). rewrite <- Hes.
        eapply simb_map_range; [apply (kept_nth _ _ _ _ _ K3 Hlev ltac:(discriminate))|]. intros names' P'. steps.
        apply sim_eta_model. eapply sim_bind.
        { eapply (dynamic_turns lc fr h1 attrs idx ev' li lev es); eauto.
          intros n Hn. eapply Permutation_in; [apply Permutation_sym; exact P'|exact Hn]. }
        intros r h4 e4 (-> & nv4 & dv4 & vs4 & K4 & HC4 & _). steps. apply sim_ret. split; [auto|]. split; [kept_chain|auto].
Qed.

End Refine.
