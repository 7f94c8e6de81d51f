(** The translated source of the constructors that group nodes (Collection,
    Conditional, When, ContentCollect, Imperative, IterateKey) builds what the model
    builds, or panics when it does. *)
From Coq Require Import ZArith Lia.
From Verif Require Import Bytes IO IOFacts Nodes NodeInd Values Build Escape SpecOut Slices GoSyntax Source GoSem GoRun GoRep GoStep GoOwn RefineValue RefineEscape RefineNode RefineUser RefineIter RefineStart RefineNew RefineMake.
Local Open Scope nat_scope.

Lemma set_nth_mid {X} (pre : list X) x y post : set_nth (pre ++ x :: post) (length pre) y = pre ++ y :: post.
Proof. induction pre as [|p pre IH]; cbn [app length set_nth]; [reflexivity|]. rewrite IH. reflexivity. Qed.

Section Refine.
Context {W : UserWorld}.
Variable M : go_mode.
Hypothesis MO : mode_ok M.
Notation C := (go_config M).
Notation sim := (sim C).

Lemma does_just {Z} (Q : heap -> gv -> Z -> Prop) p h n : sim p h (Ret n) (returns_of Q h) -> does_of M Q p h (just (Done n)).
Proof. intro H. apply (does_node M Q p h (fun u => (n, u))). eapply sim_model_eq; [|exact H]. intros E w. destruct w. reflexivity. Qed.

Section Lists.
Variable Y : Type.
Variable rd : Y -> node U.
Variable R : gv -> Y -> Prop.
Variable h0 : heap.
Hypothesis HR : forall v y, R v y -> node_rep M h0 v (rd y).

Ltac add_node HF x HB Hy Ho Hn Hv :=
  let F1 := fresh "F1" in let F2 := fresh "F2" in
  lazymatch type of HB with building ?h0 ?l ?tag (?fs ?s) ?h =>
    destruct (HF s) as [F1 F2]; (eapply simb_field; [exact (proj1 HB)|exact F1|]); steps;
    (eapply simb_append; [exact Hy|exact Ho|apply grown_length; exact (proj2 (proj2 HB))|]);
    let h2 := fresh "h2" in let s2 := fresh "s2" in let X1 := fresh "X1" in let X2 := fresh "X2" in let X3 := fresh "X3" in
    intros h2 s2 X1 X2 X3 _; steps;
    let Y1 := fresh "Y1" in let Y2 := fresh "Y2" in let Y3 := fresh "Y3" in let Y4 := fresh "Y4" in
    destruct (building_append _ _ _ _ _ _ _ _ _ _ x HB Hy Ho X3 X1) as (Y1 & Y2 & Y3 & Y4); rewrite F2 in Y2, Y3, Y4;
    (eapply simb_set_field; [exact Y1|exact F1|]); rewrite F2;
    let A := fresh "A" in
    lazymatch type of Hn with all2 _ ?ys ?ns =>
      lazymatch type of Hv with R ?v ?n =>
        assert (A : adding Y R h0 l tag fs (set_nth h2 l (OStruct tag (fs s2))) (ns ++ [n]))
          by (exists s2, (ys ++ [v]); repeat (split; [assumption|]); apply all2_app; [exact Hn|cbn [all2]; eauto])
      end end
  end.
(** The loop, from the new object to the end. *)
Definition col_fields (s : gv) : list (string * gv) := [("nodes"%string, s)].
Ltac node_loop X1 X2 tag fs one :=
  (eapply (simb_make_start M); [reflexivity|apply grown_refl|]);
  let s1 := fresh "s1" in let h1 := fresh "h1" in let M1 := fresh "M1" in intros s1 h1 M1; steps;
  let G1 := fresh "G1" in pose proof M1 as (_ & _ & _ & _ & G1);
  let A := fresh "A" in
  lazymatch type of M1 with made _ ?h _ _ _ _ =>
    pose proof (adding_start M Y R h h1 s1 [] tag fs G1 M1 eq_refl) as A;
    let X1' := fresh "X1'" in pose proof (slice_grown _ _ _ _ (grown_trans _ _ _ G1 (grown_app h1 [OStruct tag (fs s1)])) X1) as X1';
    unfold iter_fields, col_fields in X1', A; steps
  end.

(** ** Collection (collection.go 31-41) *)
Definition col_body : stmt :=
  (SBlock [(SIf None (EBin ONe (ELoc "n") ENil)
     (SBlock [(SAssign [(LField (ELoc "result") "nodes")] [(ECall (EExt "append") [(EField (ELoc "result") "nodes"); (ELoc "n")] false)])])
     SSkip)]).
Lemma col_one : one_field "nodes" col_fields.
Proof. intro s. split; reflexivity. Qed.
Lemma col_loop {P : panics} l tag fs cv : one_field "nodes" fs ->
  forall ns h os pre xs en, assoc "result" en = Some (VPtr l) ->
  slice_is h0 cv (pre ++ xs) -> all2 (opt_of R) xs ns -> adding Y R h0 l tag fs h os ->
  sim (range_with (exec C col_body) "_" "n" (slice_items cv (length pre) (length xs)) en) h (Ret tt)
    (fun r h' _ => r = (FNext, en) /\ adding Y R h0 l tag fs h' (os ++ somes ns)).
Proof.
  intro HF. induction ns as [|n ns IH]; intros h os pre xs en Hr Hs Hx HA; cbn [all2] in Hx.
  - subst xs. apply sim_ret. cbn [somes]. rewrite app_nil_r. auto.
  - destruct Hx as (x & xs' & -> & Hx & Hxs). pose proof HA as (s & ys & HB & Hy & Ho & Hn). pose proof HB as (B1 & B2 & G).
    cbn [length]. eapply sim_range_cons; [eapply slice_grown; [exact G|exact Hs]|]. unfold col_body at 1. steps.
    replace (pre ++ x :: xs') with ((pre ++ [x]) ++ xs') in Hs by (rewrite <- app_assoc; reflexivity).
    destruct n as [n|]; cbn [opt_of] in Hx.
    + eapply simb_eq; [rewrite (equal_nil _ (node_not_nil _ _ _ _ (HR _ _ Hx))); reflexivity|]. steps.
      add_node HF "nodes"%string HB Hy Ho Hn Hx. steps; leaves; steps.
      eapply sim_conseq; [apply (IH _ (os ++ [n]) (pre ++ [x]) xs' en); auto|]. intros r h' _ (-> & A').
      cbn [somes]. rewrite <- app_assoc in A'. auto.
    + subst x. steps. leaves. steps. apply (IH h os (pre ++ [VNil]) xs' en); auto.
Qed.
Lemma Collection_body cv ns : list_of R h0 cv ns ->
  sim (PCall (CFun "aitch.Collection") [cv] true PRet) h0 (Ret (gCollection ns)) (returns_of (made_of M rd R) h0).
Proof.
  intros (xs & X1 & X2). enter. steps.
  node_loop X1 X2 "collection"%string col_fields col_one.
  change (Ret (gCollection ns)) with (bind (@Ret U unit tt) (fun _ => Ret (gCollection ns))).
  eapply sim_bind; [apply (col_loop (length h1) "collection" col_fields cv col_one ns _ [] [] xs); auto|].
  intros r h2 _ (-> & s2 & ys & (B1 & B2 & G2) & Y1 & Y2 & Y3). steps. apply sim_ret.
  eexists. split; [reflexivity|]. split; [|exact G2]. cbn [made_of gCollection]. eexists _, _, _. split; [reflexivity|].
  split; [exact B1|]. split; [exact Y1|exact Y3].
Qed.
Lemma Collection_made cv ns : list_of R h0 cv ns ->
  does_of M (made_of M rd R) (PCall (CFun "aitch.Collection") [cv] true PRet) h0 (just (Done (gCollection ns))).
Proof. intro H. apply does_just, Collection_body, H. Qed.

(** ** Conditional (conditional.go 65-82) *)
Definition cond_fields (fv s t : gv) : list (string * gv) := [("nodes"%string, s); ("attributes"%string, t); ("fn"%string, fv)].
Definition adding2 (l : loc) (fv : gv) (h : heap) (ns ats : list Y) : Prop :=
  exists s ys t zs, building h0 l "conditional" (cond_fields fv s t) h /\
    slice_is h s ys /\ own (length h0) s /\ all2 R ys ns /\
    slice_is h t zs /\ own (length h0) t /\ all2 (fun v y => R v y /\ is_attr (rd y) = true) zs ats /\ apart s t /\ apart t s.
Definition cond_body : stmt :=
  (SBlock [(SIf None (EBin OEq (EMethod (ELoc "n") "Type" [] false) (EInt 1))
     (SBlock [(SAssign [(LField (ELoc "result") "attributes")] [(ECall (EExt "append") [(EField (ELoc "result") "attributes"); (ELoc "n")] false)])])
     (SBlock [(SAssign [(LField (ELoc "result") "nodes")] [(ECall (EExt "append") [(EField (ELoc "result") "nodes"); (ELoc "n")] false)])]))]).
Lemma apart_sym s t : apart s t -> apart t s.
Proof. destruct s, t; cbn [apart]; auto. Qed.
Lemma cond_loop {P : panics} l fv cv :
  forall ns h os ats pre xs en, assoc "result" en = Some (VPtr l) -> (all_some ns = None -> may_panic) ->
  slice_is h0 cv (pre ++ xs) -> all2 (opt_of R) xs ns -> adding2 l fv h os ats ->
  sim (range_with (exec C cond_body) "_" "n" (slice_items cv (length pre) (length xs)) en) h (Ret tt)
    (fun r h' _ => exists ns', all_some ns = Some ns' /\ r = (FNext, en) /\ adding2 l fv h' (os ++ g_others rd ns') (ats ++ g_attrs rd ns')).
Proof.
  induction ns as [|n ns IH]; intros h os ats pre xs en Hr Hp Hs Hx HA; cbn [all2] in Hx.
  - subst xs. apply sim_ret. exists []. cbn [g_others g_attrs filter]. rewrite !app_nil_r. auto.
  - destruct Hx as (x & xs' & -> & Hx & Hxs). pose proof HA as (s & ys & t & zs & HB & Hy & Ho & Hn & Hz & Hoz & Hzn & Hap & Hap'). pose proof HB as (B1 & B2 & G).
    cbn [length]. eapply sim_range_cons; [eapply slice_grown; [exact G|exact Hs]|]. unfold cond_body at 1. steps.
    replace (pre ++ x :: xs') with ((pre ++ [x]) ++ xs') in Hs by (rewrite <- app_assoc; reflexivity).
    destruct n as [n|]; cbn [opt_of] in Hx.
    + assert (Hp' : all_some ns = None -> may_panic) by (intro E; apply Hp; cbn [all_some]; rewrite E; reflexivity).
      eapply simb_type; [eapply node_keeps; [apply grown_keeps, G|apply HR, Hx]|]. intros z Ez. steps. rewrite Ez.
      destruct (is_attr (rd n)) eqn:N; cbn [negb]; steps.
      * eapply simb_append; [exact Hz|exact Hoz|apply grown_length, G|]. intros h2 t2 X1 X2 X3 _. steps.
        destruct (building_append _ _ _ _ _ _ _ _ _ _ "attributes" HB Hz Hoz X3 X1) as (Y1 & Y2 & Y3 & Y4).
        change (set_assoc "attributes" t2 (cond_fields fv s t)) with (cond_fields fv s t2) in *. destruct (Y4 _ _ Hy Hap') as [Y5 Y6]. eapply simb_set_field; [exact Y1|reflexivity|]. steps. leaves. steps.
        eapply sim_conseq; [apply (IH _ os (ats ++ [n]) (pre ++ [x]) xs' en); auto|].
        -- exists s, ys, t2, (zs ++ [x]). repeat (split; [assumption|]).
           split; [apply all2_app; [exact Hzn|cbn [all2]; exists x, []; auto]|]. split; [apply apart_sym|]; assumption.
        -- intros r h' _ (ns' & E & -> & A'). exists (n :: ns'). cbn [all_some]. unfold g_others, g_attrs in *. cbn [filter]. rewrite E, N. cbn [negb].
           rewrite <- app_assoc in A'. auto.
      * eapply simb_append; [exact Hy|exact Ho|apply grown_length, G|]. intros h2 s2 X1 X2 X3 _. steps.
        destruct (building_append _ _ _ _ _ _ _ _ _ _ "nodes" HB Hy Ho X3 X1) as (Y1 & Y2 & Y3 & Y4).
        change (set_assoc "nodes" s2 (cond_fields fv s t)) with (cond_fields fv s2 t) in *. destruct (Y4 _ _ Hz Hap) as [Y5 Y6]. eapply simb_set_field; [exact Y1|reflexivity|]. steps. leaves. steps.
        eapply sim_conseq; [apply (IH _ (os ++ [n]) ats (pre ++ [x]) xs' en); auto|].
        -- exists s2, (ys ++ [x]), t, zs. split; [assumption|]. split; [assumption|]. split; [assumption|].
           split; [apply all2_app; [exact Hn|cbn [all2]; eauto]|]. repeat (split; [assumption|]). apply apart_sym. assumption.
        -- intros r h' _ (ns' & E & -> & A'). exists (n :: ns'). cbn [all_some].
           rewrite E. unfold g_others, g_attrs in *. cbn [filter]. rewrite N. cbn [negb].
           rewrite <- app_assoc in A'. auto.
    + subst x. apply simb_panic. apply Hp. reflexivity.
Qed.
Lemma Conditional_body fv fn cv ns : fv <> VNil -> cond_fun M fv fn -> list_of R h0 cv ns ->
  GoRun.sim C (P := all_some ns = None) (PCall (CFun "aitch.Conditional") [fv; cv] true PRet) h0 (Ret tt)
    (fun vs h' _ => exists l, all_some ns = Some l /\ returns_of (made_of M rd R) h0 vs h' (GCond fn (g_attrs rd l) (g_others rd l))).
Proof.
  intros Hnil Hf (xs & X1 & X2).
    enter. steps.
    eapply simb_eq; [rewrite (equal_nil _ Hnil); reflexivity|]. steps.
    eapply (simb_make_start M h0 h0 h0); [reflexivity|apply grown_refl|]. intros s1 h1 (y1 & S1 & O1 & E1 & G1). cbn [all2] in E1. subst y1.
    steps. pose proof (slice_grown _ _ _ _ G1 X1) as X1'. steps.
    eapply (simb_make_start M h1 h1 h1); [reflexivity|apply grown_refl|]. intros s2 h2 (y2 & S2 & O2 & E2 & G2). cbn [all2] in E2. subst y2.
    steps. pose proof (grown_trans _ _ _ G1 G2) as G12. pose proof (building_start h0 h2 "conditional" (cond_fields fv s1 s2) G12) as HB.
    pose proof (slice_grown _ _ _ _ (proj2 (proj2 HB)) X1) as X1''.
    assert (A : adding2 (length h2) fv (h2 ++ [OStruct "conditional" (cond_fields fv s1 s2)]) [] []).
    { exists s1, [], s2, []. split; [exact HB|]. split; [apply slice_alloc; eapply slice_grown; [exact G2|exact S1]|]. split; [exact O1|]. split; [reflexivity|].
      split; [apply slice_alloc; assumption|]. apply grown_length in G1. split; [destruct s2; cbn [own] in *; auto; lia|]. split; [reflexivity|].
      assert (AP : apart s1 s2) by (destruct s1, s2; cbn [apart own] in *; auto; apply slice_lt in S1; lia).
      split; [exact AP|apply apart_sym, AP]. }
    unfold cond_fields in X1'', A. steps.
    change (Ret tt) with (bind (@Ret U unit tt) (fun _ => Ret tt)).
    eapply sim_bind; [apply (cond_loop (length h2) fv cv ns _ [] [] [] xs); auto|].
    intros r h3 _ (ns' & E & -> & s & ys & t & zs & (B1 & B2 & G3) & Hy & Ho & Hn & Hz & Hoz & Hzn & Hap & Hap').
    unfold cond_fields in B1. steps. apply sim_ret. exists ns'. split; [exact E|].
    eexists. split; [reflexivity|]. split; [|exact G3]. cbn [made_of].
    eexists _, _, _, _, _, _. split; [reflexivity|]. split; [exact B1|]. split; [exact Hy|]. split; [exact Hn|].
    split; [exact Hz|]. split; [exact Hzn|exact Hf].
Qed.
Lemma Conditional_made fv fn cv ns : fn_rep (cond_fun M) fv fn -> list_of R h0 cv ns ->
  does_of M (made_of M rd R) (PCall (CFun "aitch.Conditional") [fv; cv] true PRet) h0 (just (gConditional rd fn ns)).
Proof.
  intros Hf HL. unfold gConditional, g_all. destruct fn as [fn|]; cbn [fn_rep] in Hf.
  - destruct Hf as [Hnil Hf].
    apply (does_list M _ _ _ _ (fun l => GCond fn (g_attrs rd l) (g_others rd l))), Conditional_body; assumption.
  - subst fv. apply does_just. enter. steps. eapply simb_last; [apply Collection_body, HL|]. intros vs h' n (v & -> & RR & G). steps. apply sim_ret. exists v. auto.
Qed.

(** ** When (conditional.go 89-111) *)
Definition unkeyed_closure (k : bytes) (cv : gv) : gv :=
  VClo (Fun ["ctx"] false []
    (SBlock [(SIf (Some (SDefine ["v"; "ok"] [(EIndex (EField (ELoc "ctx") "Data") (EConv "string" (ELoc "key")))])) (ELoc "ok")
     (SBlock [(SIf (Some (SDefine ["b"; "ok"] [(EAssert (ELoc "v") "bool")])) (ELoc "ok")
     (SBlock [(SReturn [(ENot (ELoc "b"))])])
     SSkip);
     (SReturn [(EBool false)])])
     SSkip);
     (SReturn [(EBool true)])]))%string [("nodes"%string, cv); ("key"%string, VStr k)].
Definition keyed_closure (k : bytes) (cv : gv) : gv :=
  VClo (Fun ["ctx"] false []
    (SBlock [(SIf (Some (SDefine ["v"; "ok"] [(EIndex (EField (ELoc "ctx") "Data") (EConv "string" (ELoc "key")))])) (ELoc "ok")
     (SBlock [(SIf (Some (SDefine ["b"; "ok"] [(EAssert (ELoc "v") "bool")])) (ELoc "ok")
     (SBlock [(SReturn [(ELoc "b")])])
     SSkip);
     (SReturn [(EBool true)])])
     SSkip);
     (SReturn [(EBool false)])]))%string [("nodes"%string, cv); ("key"%string, VStr k)].
Lemma bool_type h g : has_type C h (any_of g) "bool" = match g with GBool b => Some (VBool b) | _ => None end.
Proof.
  destruct (mode_numbers M MO) as (M1 & M2 & M3).
  pose proof (number_not _ "bool" M1 eq_refl) as E1. pose proof (number_not _ "bool" M2 eq_refl) as E2.
  pose proof (number_not _ "bool" M3 eq_refl) as E3.
  unfold has_type. replace (assoc "bool" (p_ifaces (c_prog C))) with (@None (list string)) by reflexivity.
  destruct g; cbn [any_of]; try reflexivity; cbn [c_int c_uint c_float go_config]; rewrite ?E1, ?E2, ?E3; reflexivity.
Qed.
Ltac cond_closure :=
  (split; [discriminate|]); intros FL h lc fr e HC; pose proof HC as (pv & Ho & Hp & _); unfold keyed_closure, unkeyed_closure; enter_closure; steps;
  unfold cb, keyed, unkeyed, data_get, view; cbn [c_data]; destruct (f_data fr) as [m|];
  [ cbn [index pbind]; steps; cbn [pbind]; apply sim_state; intro u; cbn [fst snd]; (split; [reflexivity|]);
    lazymatch goal with |- context [mget ?u ?m ?k] => destruct (mget u m k) as [[]|] end; steps; try (eapply simb_assert_ok; [apply bool_type|]); steps; apply sim_ret; (split; [reflexivity|apply grown_refl])
  | cbn [index pbind]; steps;
    lazymatch goal with |- @GoRun.sim _ _ _ _ _ _ _ _ (Cb (fun u => (?r, u))) _ => apply sim_model_eq with r end;
    [intros E w; destruct w; reflexivity|apply sim_ret; (split; [reflexivity|apply grown_refl])] ].
Lemma keyed_closure_spec k cv : cond_fun M (keyed_closure k cv) (keyed k).
Proof. cond_closure. Qed.
Lemma unkeyed_closure_spec k cv : cond_fun M (unkeyed_closure k cv) (unkeyed k).
Proof. cond_closure. Qed.
Lemma When_made k cv ns : list_of R h0 cv ns ->
  does_of M (made_of M rd R) (PCall (CFun "aitch.When") [VStr k; cv] true PRet) h0 (just (gWhen rd k ns)).
Proof.
  intros HL. unfold gWhen. destruct (has_prefix (B "!") k) eqn:E; unfold gConditional, g_all.
  - apply (does_list M _ _ _ _ (fun l => GCond _ (g_attrs rd l) (g_others rd l))). enter. steps.
    unfold external at 1. cbn [String.eqb Ascii.eqb Bool.eqb]. steps. rewrite E. steps.
    destruct k as [|c k]; [discriminate E|].
    assert (ES : sub_slice (VStr (c :: k)) (Some (VInt 1)) None = PRet (VStr k)).
    { unfold sub_slice. cbn [Z.leb Z.compare length]. change (Z.to_nat 1) with 1. cbn [Nat.leb andb]. rewrite Nat.leb_refl.
      unfold subslice. cbn [skipn]. rewrite Nat.sub_succ, Nat.sub_0_r, firstn_all. reflexivity. }
    rewrite ES. steps. cbn [store]. steps.
    change (skipn 1 (c :: k)) with k.
    eapply simb_last; [apply (Conditional_body (unkeyed_closure k cv) (unkeyed k) cv ns); [discriminate|apply unkeyed_closure_spec|exact HL]|].
    intros vs h' [] (l & El & v & -> & RR & G). steps. apply sim_ret. exists l. split; [exact El|]. exists v. auto.
  - apply (does_list M _ _ _ _ (fun l => GCond _ (g_attrs rd l) (g_others rd l))). enter. steps.
    unfold external at 1. cbn [String.eqb Ascii.eqb Bool.eqb]. steps. rewrite E. steps.
    eapply simb_last; [apply (Conditional_body (keyed_closure k cv) (keyed k) cv ns); [discriminate|apply keyed_closure_spec|exact HL]|].
    intros vs h' [] (l & El & v & -> & RR & G). steps. apply sim_ret. exists l. split; [exact El|]. exists v. auto.
Qed.

(** ** IterateKey (iterate.go 42-67) *)
Definition items_closure (k : bytes) (cv : gv) : gv :=
  VClo (Fun ["ctx"] false []
    (SBlock [(SIf (Some (SDefine ["rv"; "ok"] [(EIndex (EField (ELoc "ctx") "Data") (ELoc "key"))])) (ELoc "ok")
     (SBlock [(SIf (Some (SDefine ["sv"; "ok"] [(EAssert (ELoc "rv") "[]any")])) (ELoc "ok")
     (SBlock [(SReturn [(ELoc "sv")])])
     (SIf (Some (SDefine ["rrv"] [(ECall (EExt "reflect.ValueOf") [(ELoc "rv")] false)])) (EAnd (EBin OEq (EMethod (ELoc "rrv") "Kind" [] false) (EExt "reflect.Slice")) (EBin OGt (EMethod (ELoc "rrv") "Len" [] false) (EInt 0)))
     (SBlock [(SDefine ["l"] [(EMethod (ELoc "rrv") "Len" [] false)]);
     (SDefine ["r"] [(EMake "[]any" [(ELoc "l")])]);
     (SFor (Some (SDefine ["i"] [(EInt 0)])) (EBin OLt (ELoc "i") (ELoc "l")) (SAssign [(LLoc "i")] [(EBin OAdd (ELoc "i") (EInt 1))])
     (SBlock [(SAssign [(LIndex (ELoc "r") (ELoc "i"))] [(EMethod (EMethod (ELoc "rrv") "Index" [(ELoc "i")] false) "Interface" [] false)])]));
     (SReturn [(ELoc "r")])])
     SSkip))])
     SSkip);
     (SReturn [ENil])]))%string [("nodes"%string, cv); ("key"%string, VStr k)].
Lemma list_type h g : has_type C h (any_of g) "[]any" = match g with GSlice false _ => Some (VAny g) | _ => None end.
Proof.
  destruct (mode_numbers M MO) as (M1 & M2 & M3).
  pose proof (number_not _ "[]any" M1 eq_refl) as E1. pose proof (number_not _ "[]any" M2 eq_refl) as E2.
  pose proof (number_not _ "[]any" M3 eq_refl) as E3.
  unfold has_type. replace (assoc "[]any" (p_ifaces (c_prog C))) with (@None (list string)) by reflexivity.
  destruct g as [| | | | | | | | | |[] ?|]; cbn [any_of]; try reflexivity; cbn [c_int c_uint c_float go_config]; rewrite ?E1, ?E2, ?E3; reflexivity.
Qed.
Lemma reflect_of g : external C "reflect.ValueOf" [any_of g] false = PRet [VRefl g].
Proof. destruct g; reflexivity. Qed.
Lemma simb_invoke_reflect {FL : floor} {A' B} g m args r h (f : list gv -> prog A') (mm : io U B) Q :
  reflect_method g m args = PRet r -> sim (f r) h mm Q -> sim (pbind (invoke (VRefl g) m args false) f) h mm Q.
Proof. intros E H. cbn [invoke]. rewrite E. exact H. Qed.
Lemma items_closure_spec k cv : items_fun M (items_closure k cv) (key_items k).
Proof.
  intros FL h lc fr e HC; pose proof HC as (pv & Ho & Hp & _); apply ctx_bounds in HC; unfold items_closure; enter_closure; steps;
  unfold cb, key_items, data_get, view; cbn [c_data]; destruct (f_data fr) as [m|].
  - cbn [index pbind]; steps; cbn [pbind]; apply sim_state; intro u; cbn [fst snd]; (split; [reflexivity|]).
    destruct (mget u m k) as [g|]; steps.
    + eapply simb_assert_ok; [apply list_type|].
      assert (D : (exists ys, g = GSlice false ys) \/ match g with GSlice false _ => Some (VAny g) | _ => None end = @None gv)
        by (destruct g as [| | | | | | | | | |[] ?|]; auto; left; eauto).
      destruct D as [(ys & ->)|D].
      * steps. apply sim_ret. eexists. split; [reflexivity|]. split; [left; eauto|apply grown_refl].
      * replace (match g with GBytes b => map (fun a => GUint (N_of_ascii a)) b | GSlice _ xs => xs | _ => [] end)
          with (match items_of g with Some xs => xs | None => [] end) by (destruct g; reflexivity).
        rewrite D. steps. rewrite reflect_of. steps.
eapply simb_invoke_reflect; [reflexivity|]. destruct (items_of g) as [xs|] eqn:EI; steps.
        -- replace (beq (B "slice") (B "slice")) with true by reflexivity. steps. eapply simb_invoke_reflect; [cbn [reflect_method String.eqb Ascii.eqb Bool.eqb]; rewrite EI; reflexivity|]. steps.
           destruct xs as [|x0 xs0].
           { cbn [length Z.of_nat Z.ltb Z.compare]. steps. apply sim_ret. exists VNil. split; [reflexivity|]. split; [right; reflexivity|apply grown_refl]. }
           remember (x0 :: xs0) as xs eqn:Exs. rewrite (proj2 (Z.ltb_lt 0 (Z.of_nat (length xs)))) by (subst xs; cbn [length]; lia). steps.
           eapply simb_invoke_reflect; [cbn [reflect_method String.eqb Ascii.eqb Bool.eqb]; rewrite EI; reflexivity|]. steps.
           unfold make. cbn [String.eqb Ascii.eqb Bool.eqb substring]. rewrite (proj2 (Z.ltb_ge (Z.of_nat (length xs)) 0)) by lia. rewrite Nat2Z.id. steps.
lazymatch goal with |- @GoRun.sim _ _ _ _ _ _ (pbind (PLoop ?b _ ?k) ?F) _ _ _ => remember b as bd eqn:Ebd; set (kk := k); set (FF := F) end.
           assert (G : forall rest pre, xs = pre ++ rest ->
             sim (pbind (PLoop bd [("i"%string, VInt (Z.of_nat (length pre))); ("r"%string, VSlice (length h) (length xs)); ("l"%string, VInt (Z.of_nat (length xs)));
               ("rrv"%string, VRefl g); ("ok"%string, VBool false); ("sv"%string, VNil); ("ok"%string, VBool true); ("rv"%string, any_of g); ("ctx"%string, VPtr lc); ("nodes"%string, cv); ("key"%string, VStr k)] kk) FF)
               (h ++ [OArr (map any_of pre ++ repeat VNil (length rest))]) (Ret xs)
               (fun vs h' xs => exists r, vs = [r] /\ items_are h' r xs /\ grown h h')).
           2:{ exact (G xs [] eq_refl). }
           induction rest as [|x rest IH]; intros pre EX.
           ++ apply simb_loop. eapply simb_eq; [rewrite Ebd; reflexivity|]. steps. rewrite app_nil_r in EX. subst pre. rewrite Z.ltb_irrefl. steps.
              subst kk FF. steps. apply sim_ret. eexists. split; [reflexivity|]. split; [right|apply grown_app].
              cbn [slice_is length repeat]. rewrite app_nil_r. eexists. split; [apply nth_app_new|]. rewrite map_length. split; [lia|].
              rewrite <- (map_length any_of xs), firstn_all. reflexivity.
           ++ apply simb_loop. eapply simb_eq; [rewrite Ebd; reflexivity|]. steps.
              assert (L : length pre < length xs) by (rewrite EX, app_length; cbn [length]; lia).
              rewrite (proj2 (Z.ltb_lt _ _)) by lia. steps.
              eapply simb_invoke_reflect; [cbn [reflect_method String.eqb Ascii.eqb Bool.eqb]; rewrite EI, (proj2 (Z.ltb_ge _ _)) by lia;
                rewrite Nat2Z.id, EX, nth_error_app2, Nat.sub_diag by lia; reflexivity|]. steps.
              eapply simb_invoke_reflect; [reflexivity|]. steps.
              eapply simb_store_slice_f; [lia|apply nth_app_new|exact L|]. steps.
              rewrite set_nth_mid. cbn [length repeat].
              replace (set_nth (map any_of pre ++ VNil :: repeat VNil (length rest)) (length pre) (any_of x))
                with (map any_of (pre ++ [x]) ++ repeat VNil (length rest)).
              2:{ rewrite <- (map_length any_of pre), set_nth_mid, map_app, <- app_assoc. reflexivity. }
              replace (Z.of_nat (length pre) + 1)%Z with (Z.of_nat (length (pre ++ [x]))) by (rewrite app_length; cbn [length]; lia).
              apply IH. rewrite <- app_assoc. exact EX.
        -- apply sim_ret. exists VNil. split; [reflexivity|]. split; [right; reflexivity|apply grown_refl].
    + apply sim_ret. exists VNil. split; [reflexivity|]. split; [right; reflexivity|apply grown_refl].
  - cbn [index pbind]; steps. apply sim_model_eq with (Ret []); [intros E w; destruct w; reflexivity|].
    apply sim_ret. exists VNil. split; [reflexivity|]. split; [right; reflexivity|apply grown_refl].
Qed.
Lemma IterateKey_made k cv ns : list_of R h0 cv ns ->
  does_of M (made_of M rd R) (PCall (CFun "aitch.IterateKey") [VStr k; cv] true PRet) h0 (just (gIterateKey rd k ns)).
Proof.
  intros (xs & X1 & X2). unfold gIterateKey, g_all. apply (does_list M _ _ _ _ (fun l => GIter (key_items k) (g_others rd l))). enter. steps.
  node_loop X1 X2 "iterator"%string (iter_fields (items_closure k cv)) (iter_one (items_closure k cv)).
  change (Ret tt) with (bind (@Ret U unit tt) (fun _ => Ret tt)).
  eapply sim_bind; [apply (it_loop M Y rd R h0 HR (length h1) "iterator" (iter_fields (items_closure k cv)) cv (iter_one (items_closure k cv)) ns _ [] [] xs); auto|].
  intros r h2 _ (ns' & E & -> & s2 & ys & (B1 & B2 & G2) & Y1 & Y2 & Y3). steps. apply sim_ret. exists ns'. split; [exact E|].
  eexists. split; [reflexivity|]. split; [|exact G2]. cbn [made_of].
  eexists _, _, _, _. split; [reflexivity|]. split; [exact B1|]. split; [exact Y1|]. split; [exact Y3|apply items_closure_spec].
Qed.
End Lists.

Lemma Collection_spec cv ns h : node_list M h cv ns ->
  does M (PCall (CFun "aitch.Collection") [cv] true PRet) h (just (Done (Collection ns))).
Proof. intro H. eapply made_does; [apply Collection_made; eauto|reflexivity]. Qed.
Lemma Conditional_spec fv fn cv ns h : fn_rep (cond_fun M) fv fn -> node_list M h cv ns ->
  does M (PCall (CFun "aitch.Conditional") [fv; cv] true PRet) h (just (Conditional fn ns)).
Proof. intros Hf H. eapply made_does; [apply Conditional_made; eauto|apply g_conditional]. Qed.
Lemma When_spec k cv ns h : node_list M h cv ns ->
  does M (PCall (CFun "aitch.When") [VStr k; cv] true PRet) h (just (When k ns)).
Proof. intro H. eapply made_does; [apply When_made; eauto|apply g_when]. Qed.
Lemma IterateKey_spec k cv ns h : node_list M h cv ns ->
  does M (PCall (CFun "aitch.IterateKey") [VStr k; cv] true PRet) h (just (IterateKey k ns)).
Proof. intro H. eapply made_does; [apply IterateKey_made; eauto|apply g_iterate_key]. Qed.

(** ** ContentCollect, Imperative *)
Lemma ContentCollect_spec v f h : fn_rep (fun v f => v = VNodes f) v f ->
  does M (PCall (CFun "aitch.ContentCollect") [v] false PRet) h (just (Done (ContentCollect f))).
Proof.
  intro H. apply does_just. destruct f as [f|]; cbn [fn_rep] in H.
  - destruct H as [Hn ->]. enter. steps. apply sim_ret. eexists. split; [reflexivity|]. split; [|apply grown_app].
    cbn [node_rep ContentCollect]. eexists. split; [reflexivity|]. apply nth_app_new.
  - subst v. enter. steps. apply sim_ret. eexists. split; [reflexivity|]. split; [|apply grown_app].
    cbn [node_rep ContentCollect]. eexists. split; [reflexivity|]. eexists _, []. split; [apply nth_app_new|]. split; reflexivity.
Qed.
Lemma Imperative_spec p h :
  does M (PCall (CFun "aitch.Imperative") [match p with Some p => VImper p | None => VNil end] false PRet) h (just (Done (Imperative p))).
Proof.
  apply does_just. enter. steps. apply sim_ret. eexists. split; [reflexivity|]. split; [|apply grown_app].
  cbn [node_rep Imperative]. eexists. split; [reflexivity|]. apply nth_app_new.
Qed.

End Refine.
