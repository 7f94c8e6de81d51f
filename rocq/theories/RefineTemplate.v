(** template.go of the Go source makes and executes the templates of the model. *)
From Coq Require Import ZArith Permutation Lia.
From Verif Require Import Bytes IO IOFacts Nodes Values Render Build SpecOut Slices Template
  GoSyntax SourceLib Source GoSem GoRun GoRep GoStep GoOwn RefineNode RefineIter RefineAll RefineNew RefineProgram.
Local Open Scope nat_scope.
Local Notation "x <-- p ;; q" := (pbind p (fun x => q))
  (at level 100, p at next level, right associativity).

(** Into the body of a closure. *)
Ltac enter_func :=
  apply sim_call; cbn [body_of];
  lazymatch goal with
  | |- @GoRun.sim _ ?C ?FL0 ?P _ _ (pbind (call_fun ?C' ?fd ?cap ?args ?sp) ?f) ?h ?m ?Q =>
      let fd' := eval unfold fd in fd in
      let X' := head_red (call_fun C' fd' cap args sp) in
      change (@GoRun.sim _ C FL0 P _ _ (pbind X' f) h m Q)
  end.

Section Refine.
Context {W : UserWorld}.
Variable M : go_mode.
Hypothesis MO : mode_ok M.
Notation C := (go_config M).
Notation sim := (sim C).

Lemma simb_pcall_l {P : panics} {A A' B'} c a sp (k : list gv -> prog A) (f : A -> prog A') h (m : io U B') (R : list gv -> heap -> Prop) Q :
  sim (PCall c a sp PRet) h (Ret tt) (fun vs h' _ => R vs h') -> (forall vs h', R vs h' -> sim (pbind (k vs) f) h' m Q) ->
  sim (pbind (PCall c a sp k) f) h m Q.
Proof.
  intros H K. change (pbind (PCall c a sp k) f) with (pbind (PCall c a sp PRet) (fun vs => pbind (k vs) f)). eapply sim_bind_l; eauto.
Qed.

(** ** Maps of nodes and of functions in the heap *)
Definition node_entry (h : heap) (e : bytes * gv) (x : bytes * option (node U)) : Prop :=
  fst e = fst x /\ match snd x with None => snd e = VNil | Some n => node_rep M h (snd e) n end.
Definition nodes_rep (h : heap) (v : gv) (nm : node_map) : Prop :=
  exists l es, v = VMap l /\ nth_error h l = Some (OMap es) /\ all2 (node_entry h) es nm.

Definition d_html : fundecl :=
  Fun ["ctx"] false []
    (SBlock [SDefine ["err"] [EMethod (ELoc "node") "Render" [ELoc "ctx"] false];
             SReturn [ECall (EExt "html/template.HTML") [EStr (B "")] false; ELoc "err"]]).
Definition d_attr : fundecl :=
  Fun ["ctx"] false []
    (SBlock [SDefine ["err"] [EMethod (ELoc "node") "Render" [ELoc "ctx"] false];
             SReturn [ECall (EExt "html/template.HTMLAttr") [EStr (B "")] false; ELoc "err"]]).
Definition d_func (n : node U) : fundecl := if is_attr n then d_attr else d_html.
Definition result_type (n : node U) : string := if is_attr n then "html/template.HTMLAttr" else "html/template.HTML".
Definition func_rep (h : heap) (f : gv) (n : node U) : Prop :=
  exists v, f = VClo (d_func n) [("node"%string, v)] /\ node_rep M h v n.
Definition funcs_rep (h : heap) (es : list (bytes * gv)) (fm : list (bytes * node U)) : Prop :=
  all2 (fun e x => fst e = fst x /\ func_rep h (snd e) (snd x)) es fm.

Lemma func_keeps h h' f n : keeps h h' -> func_rep h f n -> func_rep h' f n.
Proof. intros K (v & -> & H). exists v. split; [reflexivity|]. eapply node_keeps; eauto. Qed.
Lemma funcs_keeps h h' es fm : keeps h h' -> funcs_rep h es fm -> funcs_rep h' es fm.
Proof. intro K. apply all2_mono. intros x y [H1 H2]. split; [exact H1|]. eapply func_keeps; eauto. Qed.
Lemma funcs_get h es fm k : funcs_rep h es fm ->
  match func_of fm k with Some n => exists f, bassoc k es = Some f /\ func_rep h f n | None => bassoc k es = None end.
Proof.
  revert es. induction fm as [|[k' n] fm IH]; intros es H; cbn [funcs_rep all2 func_of] in *; [subst; reflexivity|].
  destruct H as ([k0 f] & es' & -> & [H1 H2] & H). cbn [fst snd] in *. subst k0. cbn [bassoc]. destruct (beq k' k); [eauto|]. apply IH, H.
Qed.
Lemma funcs_good h es fm : funcs_rep h es fm -> forallb (good_func C) es = forallb (fun kn => func_name (m_letters M) (fst kn)) fm.
Proof.
  revert es. induction fm as [|[k' n] fm IH]; intros es H; cbn [funcs_rep all2] in *; [subst; reflexivity|].
  destruct H as ([k0 f] & es' & -> & [H1 (v & H2 & _)] & H). cbn [fst snd] in *. subst k0 f. cbn [forallb]. rewrite (IH _ H). unfold good_func. cbn [fst snd is_closure].
  rewrite andb_true_r. reflexivity.
Qed.
Lemma funcs_known h es fm ps : funcs_rep h es fm -> forallb (known_token es) ps = match parse ps fm with Some _ => true | None => false end.
Proof.
  intro H. induction ps as [|p ps IH]; [reflexivity|]. cbn [forallb]. rewrite IH. destruct p as [t|i k]; cbn [known_token parse].
  - destruct (parse ps fm); reflexivity.
  - pose proof (funcs_get h es fm k H) as G. destruct (func_of fm k) as [n|].
    + destruct G as (f & -> & _). destruct (parse ps fm); reflexivity.
    + rewrite G. reflexivity.
Qed.

(** ** contextFunc *)
Lemma contextFunc_spec {P : panics} v n h : node_rep M h v n ->
  sim (PCall (CFun "aitch.contextFunc") [v] false PRet) h (Ret tt) (fun vs h' _ => vs = [VClo (d_func n) [("node"%string, v)]] /\ h' = h).
Proof.
  intro Hn. enter. steps. eapply simb_type; [exact Hn|]. intros z Hz. steps. unfold d_func. rewrite <- Hz. destruct (z =? 1)%Z; steps; apply sim_ret; auto.
Qed.
Lemma func_call {FL : floor} f n h lc fr e : func_rep h f n -> ctx_at h lc fr e -> SpecOut.tables_ok n ->
  sim (PCall (CVal f) [VPtr lc] false PRet) h (render n fr e) (fun vs h' r => vs = [VStruct (result_type n) [("s"%string, VStr [])]; verr (fst r)] /\ kept lc h h' /\ ctx_at h' lc fr (snd r)).
Proof.
  intros (v & -> & Hn) HC T. apply sim_eta_model. unfold d_func, result_type. destruct (is_attr n); enter_func; steps;
    (eapply simb_node; [apply (proj1 (every_node M MO))|exact T|exact HC|exact Hn|]; intros h' x e' K HC'; steps; apply sim_ret; auto).
Qed.

(** ** Executing *)
Definition piece_ok (t : tpiece) : Prop := match t with TText _ => True | TNode _ n => SpecOut.tables_ok n end.
Lemma sim_write_to {FL : floor} {B'} d k h (m : nat -> option error -> io U B') Q :
  (forall n e, sim (match e with Some _ => PRet [verr e] | None => k end) h (m n e) Q) ->
  sim (write_to VWriter d k) h (Wr d m) Q.
Proof. intro K. cbn [write_to]. apply sim_write. exact K. Qed.
Lemma pieces_spec {FL : floor} lc fr es fm : forall ps t h0 h e, parse ps fm = Some t -> Forall piece_ok t ->
  funcs_rep h es fm -> kept lc h0 h -> ctx_at h lc fr e ->
  sim (execute_pieces es ps VWriter (VPtr lc)) h (Template.exec t fr e) (fun vs h' r => vs = [verr (fst r)] /\ kept lc h0 h').
Proof.
  induction ps as [|[x|i k] ps IH]; intros t h0 h e HP T HF HK HC; cbn [parse] in HP.
  - injection HP as <-. cbn [execute_pieces Template.exec]. apply sim_ret. auto.
  - destruct (parse ps fm) as [t'|] eqn:Hp; [|discriminate]. injection HP as <-. inversion T; subst. cbn [execute_pieces Template.exec].
    apply sim_write_to. intros n [e1|].
    + apply sim_ret. auto.
    + eapply IH; eauto.
  - pose proof (funcs_get h es fm k HF) as G. destruct (func_of fm k) as [n|]; [|discriminate]. destruct G as (f & Hf & Fr).
    destruct (parse ps fm) as [t'|] eqn:Hp; [|discriminate]. injection HP as <-. inversion T as [|? ? T1 T2]; subst. cbn [execute_pieces Template.exec]. rewrite Hf.
    match goal with |- @GoRun.sim _ _ _ _ _ _ (PCall ?c ?a ?s ?k) _ _ _ => change (PCall c a s k) with (pbind (PCall c a s PRet) k) end.
    eapply sim_bind; [eapply func_call; eauto|]. intros vs h1 [r e1] (-> & K1 & C1). cbn [fst snd] in *.
    destruct r as [r|]; cbn [verr].
    + apply sim_ret. split; [reflexivity|]. eapply kept_trans; eauto.
    + replace (filtered_result i (result_type n)) with (filtered i n) by (unfold filtered, filtered_result, result_type; destruct (is_attr n); reflexivity).
      apply sim_write_to. intros n1 [e2|].
      * apply sim_ret. split; [reflexivity|]. eapply kept_trans; eauto.
      * eapply IH; eauto; [eapply funcs_keeps; [eapply kept_keeps; eauto|exact HF]|eapply kept_trans; eauto].
Qed.

(** A template in the heap. *)
Definition template_rep (h : heap) (v : gv) (t : template) : Prop :=
  exists lt l lf text es ps fm, v = VPtr lt /\ nth_error h lt = Some (OStruct "Template" [("template"%string, VPtr l)]) /\
    nth_error h l = Some (template_obj (VMap lf) (VStr text)) /\ nth_error h lf = Some (OMap es) /\
    funcs_rep h es fm /\ m_parse M text = Some ps /\ parse ps fm = Some t.
Lemma template_grown h h' v t : grown h h' -> template_rep h v t -> template_rep h' v t.
Proof.
  intros G (lt & l & lf & text & es & ps & fm & H1 & H2 & H3 & H4 & H5 & H6 & H7). exists lt, l, lf, text, es, ps, fm.
  repeat split; auto; try (eapply grown_nth; eauto). eapply funcs_keeps; [apply grown_keeps, G|exact H5].
Qed.
Definition data_value (d : option mref) : gv := match d with Some m => VAny (GMap m) | None => VNil end.
Ltac lib :=
  eapply simb_call; cbn [body_of];
  lazymatch goal with
  | |- context [match lookup_fun ?C ?x with Some fd => _ | None => library_method _ _ ?args end] =>
      replace (lookup_fun C x) with (@None fundecl) by reflexivity; cbv iota;
      let r := eval lazy [library_method String.eqb Ascii.eqb Bool.eqb] in (library_method C x args) in
      change (library_method C x args) with r
  end.
Theorem Execute_spec_f {FL : floor} v t d g h : base <= length h -> template_rep h v t -> Forall piece_ok t ->
  sim (PCall (CFun "Template.Execute") [v; VWriter; data_value d; any_of g] false PRet) h (execute t d g)
    (fun vs h' r => vs = [verr r] /\ grown h h').
Proof.
  intros HB (lt & l & lf & text & es & ps & fm & -> & H2 & H3 & H4 & H5 & H6 & H7) T. enter. steps.
  set (h1 := h ++ _). assert (G1 : grown h h1) by apply grown_app.
  pose proof (grown_nth _ _ _ _ G1 H2) as H2'. pose proof (grown_nth _ _ _ _ G1 H3) as H3'. pose proof (grown_nth _ _ _ _ G1 H4) as H4'.
  assert (HC : ctx_at h1 (length h) (Frame d g None) None) by (exists VNil; split; [apply nth_app_new|split; [constructor|exact HB]]).
  steps. eapply simb_method; [exact H3'|reflexivity|reflexivity|]. cbn [dot append]. lib.
  unfold template_execute. apply sim_assoc. eapply simb_field; [exact H3'|reflexivity|]. cbn beta. apply sim_assoc. eapply simb_field; [exact H3'|reflexivity|]. cbn beta iota.
  apply sim_assoc. eapply simb_load; [exact H4'|]. cbn [c_parse go_config]. rewrite H6. cbv iota.
  unfold execute. eapply sim_bind.
  { eapply (pieces_spec (length h) (Frame d g None) es fm ps t h1 h1 None H7 T); [eapply funcs_keeps; [apply grown_keeps, G1|exact H5]|eapply kept_refl; exact HC|exact HC]. }
  intros vs h2 [r e2] (-> & K2). cbn [fst]. steps. apply sim_ret. split; [reflexivity|].
  apply grown_same.
  - pose proof (grown_length _ _ G1). pose proof (kept_length _ _ _ K2). lia.
  - intros x o Ho. pose proof (nth_lt _ _ _ Ho). destruct K2 as (_ & _ & K2). apply K2; [lia|eapply grown_nth; eauto].
Qed.
Theorem Execute_spec v t d g h : template_rep h v t -> Forall piece_ok t ->
  sim (PCall (CFun "Template.Execute") [v; VWriter; data_value d; any_of g] false PRet) h (execute t d g)
    (fun vs h' r => vs = [verr r] /\ grown h h').
Proof. apply Execute_spec_f, Nat.le_0_l. Qed.

(** ** contextFuncMap: the map is ranged over in an order that Go picks *)
Definition picked (nm : node_map) (ks : list bytes) : list (bytes * node U) :=
  flat_map (fun k => match bassoc k nm with Some (Some n) => [(k, n)] | _ => [] end) ks.
Lemma nodes_get h k nm : forall es x, all2 (node_entry h) es nm -> bassoc k nm = Some x ->
  exists v, bassoc k es = Some v /\ match x with None => v = VNil | Some n => node_rep M h v n end.
Proof.
  induction nm as [|[k' x'] nm IH]; intros es x H G; [discriminate|]. destruct H as ([k0 v0] & es' & -> & [H1 H2] & H). cbn [fst snd] in *. subst k0.
  cbn [bassoc] in *. destruct (beq k' k); [|eauto]. injection G as ->. eauto.
Qed.
Lemma nodes_keys h nm : forall es, all2 (node_entry h) es nm -> map fst es = map fst nm.
Proof. induction nm as [|x nm IH]; intros es H; cbn in H; [subst; reflexivity|]. destruct H as (e & es' & -> & [H1 _] & H). cbn [map]. f_equal; auto. Qed.
Lemma bassoc_in {X} k (l : list (bytes * X)) : In k (map fst l) -> exists x, bassoc k l = Some x.
Proof.
  induction l as [|[k' x] l IH]; intros H; [contradiction|]. cbn [bassoc map fst In] in *. destruct (beq_spec k' k) as [->|N]; [eauto|]. destruct H as [->|H]; [congruence|auto].
Qed.
Lemma bstore_new {X} k (x : X) l : ~ In k (map fst l) -> bstore k x l = l ++ [(k, x)].
Proof.
  induction l as [|[k' x'] l IH]; intros H; [reflexivity|]. cbn [bstore app map fst In] in *. destruct (beq_spec k' k) as [->|N]; [tauto|]. rewrite IH by tauto. reflexivity.
Qed.
Lemma funcs_keys h fm : forall es, funcs_rep h es fm -> map fst es = map fst fm.
Proof. induction fm as [|x fm IH]; intros es H; cbn in H; [subst; reflexivity|]. destruct H as (e & es' & -> & [H1 _] & H). cbn [map]. f_equal; auto. Qed.
Lemma node_ptr h v n : node_rep M h v n -> exists l, v = VPtr l.
Proof.
  intro H. destruct n; cbn [node_rep] in H; try (destruct H as (l & -> & _); eauto).
  destruct a; cbn [attr_rep] in H; destruct H as (l & H); repeat match goal with H : exists _, _ |- _ => destruct H end; intuition; subst; eauto.
Qed.
Definition func_body : stmt :=
  SBlock [SIf None (EBin ONe (ELoc "v") ENil)
    (SBlock [SAssign [LIndex (ELoc "result") (ELoc "k")] [ECall (EFun "aitch.contextFunc") [ELoc "v"] false]]) SSkip].
Lemma func_turns {P : panics} hr h0 l lm es nm nv : grown hr h0 -> nth_error h0 l = Some (OMap es) -> all2 (node_entry hr) es nm -> length h0 <= lm ->
  forall ks, (forall k, In k ks -> In k (map fst nm)) -> NoDup ks -> forall h ms fm, grown h0 h -> nth_error h lm = Some (OMap ms) -> funcs_rep hr ms fm ->
  (forall k, In k ks -> ~ In k (map fst fm)) ->
  sim (range_with (GoSem.exec C func_body) "k" "v" (map (map_item l) ks) [("result"%string, VMap lm); ("nodeMap"%string, nv)]) h (Ret tt)
    (fun r h' _ => r = (FNext, [("result"%string, VMap lm); ("nodeMap"%string, nv)]) /\ grown h0 h' /\ exists ms', nth_error h' lm = Some (OMap ms') /\ funcs_rep hr ms' (fm ++ picked nm ks)).
Proof.
  intros GR Hl He Hlm. induction ks as [|k ks IH]; intros HK ND h ms fm G Hm Hr HN.
  - cbn [map range_with picked flat_map]. apply sim_ret. rewrite app_nil_r. eauto.
  - destruct (bassoc_in k nm (HK k (or_introl eq_refl))) as (x & Hx). destruct (nodes_get _ _ _ _ _ He Hx) as (v & Hv & Rv). inversion ND as [|? ? ND1 ND2]; subst.
    cbn [picked flat_map]. rewrite Hx. fold (picked nm ks). pose proof (nth_lt _ _ _ Hm) as L.
    eapply sim_range_map_cons; [eapply grown_nth; eauto|exact Hv|reflexivity|reflexivity|]. unfold func_body. steps.
    destruct x as [n|].
    + destruct (node_ptr _ _ _ Rv) as (lv & ->). steps. 
      eapply simb_pcall_l; [apply contextFunc_spec with (n := n); eapply node_keeps; [apply grown_keeps; eapply grown_trans; [exact GR|exact G]|exact Rv]|]. intros vs h1 (-> & ->). steps.
      eapply simb_store_map; [exact Hm|]. steps. rewrite app_assoc.
      rewrite bstore_new by (rewrite (funcs_keys _ _ _ Hr); apply HN; left; reflexivity).
      eapply IH; [|exact ND2| | | |].
      * intros k' Hk'. apply HK. right. exact Hk'.
      * eapply RefineNew.grown_same; [exact G|apply same_update; exact Hlm].
      * apply nth_set_same, L.
      * apply RefineNew.all2_app; [exact Hr|]. cbn [all2]. eexists _, _. split; [reflexivity|]. split; [split; [reflexivity|eexists; split; [reflexivity|exact Rv]]|reflexivity].
      * intros k' Hk'. rewrite map_app, in_app_iff. cbn [map fst In]. intros [X|[X|[]]]; [apply (HN k'); [right; exact Hk'|exact X]|]. subst k'. contradiction.
    + subst v. steps. cbn [app]. eapply IH; [|exact ND2|exact G|exact Hm|exact Hr|].
      * intros k' Hk'. apply HK. right. exact Hk'.
      * intros k' Hk'. apply HN. right. exact Hk'.
Qed.
Lemma contextFuncMap_spec {P : panics} v nm hr h : nodes_rep hr v nm -> grown hr h -> NoDup (map fst nm) ->
  sim (PCall (CFun "aitch.contextFuncMap") [v] false PRet) h (Pick (map fst nm) (fun ks => Ret ks))
    (fun vs h' ks => exists lm ms, vs = [VMap lm] /\ grown h h' /\ nth_error h' lm = Some (OMap ms) /\ funcs_rep hr ms (picked nm ks) /\ Permutation (map fst nm) ks).
Proof.
  intros (l & es & -> & Hl' & He) GR ND. pose proof (grown_nth _ _ _ _ GR Hl') as Hl. enter. steps. eapply simb_len_map; [exact Hl|]. steps. eapply simb_make_map; [reflexivity|]. set (h1 := h ++ [OMap []]).
  assert (G1 : grown h h1) by apply grown_app. steps. pose proof (nodes_keys _ _ _ He) as HK. rewrite <- HK. eapply simb_map_range; [eapply grown_nth; eauto|]. intros ks PK. steps.
  eapply sim_bind_l.
  { change (GoSem.exec C _) with (GoSem.exec C func_body). eapply (func_turns hr h l (length h) es nm (VMap l) GR Hl He (le_n _) ks) with (ms := []) (fm := []).
    - intros k Ik. rewrite <- HK. eapply Permutation_in; [apply Permutation_sym, PK|exact Ik].
    - eapply Permutation_NoDup; [exact PK|]. rewrite HK. exact ND.
    - exact G1.
    - apply nth_app_new.
    - reflexivity.
    - intros k _ []. }
  intros r h2 (-> & G2 & ms & Hm & Hr). cbn [app] in *. steps. apply sim_ret. exists (length h), ms. auto.
Qed.

(** ** NewTemplate *)
Lemma bassoc_nodup {X} (l : list (bytes * X)) k x : NoDup (map fst l) -> In (k, x) l -> bassoc k l = Some x.
Proof.
  induction l as [|[k' x'] l IH]; intros ND H; [contradiction|]. cbn [map fst bassoc] in *. inversion ND as [|? ? N1 N2]; subst. destruct H as [H|H].
  - injection H as -> ->. rewrite beq_refl. reflexivity.
  - destruct (beq_spec k' k) as [->|]; [|auto]. exfalso. apply N1. change k with (fst (k, x)). apply in_map, H.
Qed.
Lemma picked_all nm : NoDup (map fst nm) -> picked nm (map fst nm) = func_map nm.
Proof.
  intro ND. unfold picked, func_map.
  assert (H : forall l, (forall kn, In kn l -> In kn nm) ->
    flat_map (fun k => match bassoc k nm with Some (Some n) => [(k, n)] | _ => [] end) (map fst l) =
    flat_map (fun kn => match snd kn with Some n => [(fst kn, n)] | None => [] end) l).
  { induction l as [|[k x] l IH]; intro I; [reflexivity|]. cbn [map fst flat_map snd]. rewrite (bassoc_nodup nm k x ND (I _ (or_introl eq_refl))). rewrite IH by (intros; apply I; right; auto).
    destruct x; reflexivity. }
  apply H. auto.
Qed.
Lemma picked_perm nm ks : NoDup (map fst nm) -> Permutation (map fst nm) ks -> Permutation (func_map nm) (picked nm ks).
Proof. intros ND PK. rewrite <- picked_all by exact ND. apply Permutation_flat_map, PK. Qed.
Lemma func_map_keys nm k : In k (map fst (func_map nm)) -> In k (map fst nm).
Proof.
  unfold func_map. induction nm as [|[k' [n|]] nm IH]; cbn [flat_map snd fst app map In]; [auto| |]; tauto.
Qed.
Lemma func_map_nodup nm : NoDup (map fst nm) -> NoDup (map fst (func_map nm)).
Proof.
  unfold func_map. induction nm as [|[k' [n|]] nm IH]; cbn [flat_map snd fst app map]; intro H; [constructor| |]; inversion H as [|? ? N1 N2]; subst.
  - constructor; [|auto]. intro X. apply N1, func_map_keys, X.
  - auto.
Qed.
Lemma func_of_In fm k n : NoDup (map fst fm) -> (func_of fm k = Some n <-> In (k, n) fm).
Proof.
  induction fm as [|[k' n'] fm IH]; intro ND; cbn [func_of In map fst] in *; [split; [discriminate|tauto]|]. inversion ND as [|? ? N1 N2]; subst.
  destruct (beq_spec k' k) as [->|N].
  - split; [intro X; injection X as ->; auto|]. intros [X|X]; [congruence|]. exfalso. apply N1. change k with (fst (k, n)). apply in_map, X.
  - rewrite (IH N2). split; [auto|]. intros [X|X]; [congruence|exact X].
Qed.
Lemma func_of_perm fm fm' k : NoDup (map fst fm) -> Permutation fm fm' -> func_of fm' k = func_of fm k.
Proof.
  intros ND PM. assert (ND' : NoDup (map fst fm')) by (eapply Permutation_NoDup; [apply Permutation_map, PM|exact ND]).
  destruct (func_of fm k) as [n|] eqn:X.
  - apply func_of_In in X; [|exact ND]. apply func_of_In; [exact ND'|]. eapply Permutation_in; eauto.
  - destruct (func_of fm' k) as [n|] eqn:Y; [|reflexivity]. apply func_of_In in Y; [|exact ND']. apply (Permutation_in _ (Permutation_sym PM)) in Y. apply func_of_In in Y; [|exact ND]. congruence.
Qed.
Lemma parse_same fm fm' ps : (forall k, func_of fm' k = func_of fm k) -> parse ps fm' = parse ps fm.
Proof. intro H. induction ps as [|[t|k] ps IH]; cbn [parse]; [reflexivity|rewrite IH; reflexivity|]. rewrite H, IH. reflexivity. Qed.
Lemma parse_picked nm ks ps : NoDup (map fst nm) -> Permutation (map fst nm) ks -> parse ps (picked nm ks) = new_template ps nm.
Proof. intros ND PK. apply parse_same. intro k. apply func_of_perm; [apply func_map_nodup, ND|apply picked_perm; auto]. Qed.
Lemma forallb_perm {X} (f : X -> bool) l l' : Permutation l l' -> forallb f l = forallb f l'.
Proof. induction 1; cbn [forallb]; [reflexivity|congruence|destruct (f x), (f y); reflexivity|congruence]. Qed.
Lemma names_picked nm ks : NoDup (map fst nm) -> Permutation (map fst nm) ks ->
  forallb (fun kn => func_name (m_letters M) (fst kn)) (picked nm ks) = forallb (fun kn => func_name (m_letters M) (fst kn)) (func_map nm).
Proof. intros ND PK. apply forallb_perm, Permutation_sym, picked_perm; auto. Qed.

Definition new_io (nm : node_map) : io U unit := Pick (map fst nm) (fun _ => Ret tt).
Definition names_good (nm : node_map) : bool := forallb (fun kn => func_name (m_letters M) (fst kn)) (func_map nm).
Definition made (text : bytes) (nm : node_map) : option template :=
  match m_parse M text with Some ps => new_template ps nm | None => None end.
Ltac ext :=
  lazymatch goal with
  | |- @GoRun.sim _ ?C ?FL0 ?P _ _ (pbind (external ?C' ?x ?args ?sp) ?f) ?h ?m ?Q =>
      let r := eval lazy [external String.eqb Ascii.eqb Bool.eqb] in (external C' x args sp) in
      change (@GoRun.sim _ C FL0 P _ _ (pbind r f) h m Q)
  end; steps.
Theorem NewTemplate_spec {P : panics} name text v nm h : nodes_rep h v nm -> NoDup (map fst nm) -> (names_good nm = false -> P) ->
  sim (PCall (CFun "aitch.NewTemplate") [VStr name; VStr text; v] false PRet) h (new_io nm)
    (fun vs h' _ => names_good nm = true /\ grown h h' /\
       match made text nm with
       | Some t => exists tv, vs = [tv; VNil] /\ template_rep h' tv t
       | None => vs = [VNil; VErr template_error]
       end).
Proof.
  intros Hv ND HP. enter. steps. ext.
  set (h1 := h ++ _). assert (G1 : grown h h1) by apply grown_app.
  change (new_io nm) with (bind (Pick (map fst nm) (fun ks => Ret ks)) (fun _ : list bytes => @Ret U unit tt)).
  match goal with |- GoRun.sim _ (pbind (PCall ?c ?a ?s ?k) ?f) _ _ _ => change (pbind (PCall c a s k) f) with (pbind (PCall c a s PRet) (fun vs => pbind (k vs) f)) end.
  eapply sim_bind; [eapply contextFuncMap_spec; eauto|]. intros vs h2 ks (lm & ms & -> & G2 & Hm & Hr & PK). cbn [one pbind].
  assert (HL : nth_error h2 (length h) = Some (template_obj VNil VNil)) by (eapply grown_nth; [exact G2|apply nth_app_new]).
  steps. eapply simb_method; [exact HL|reflexivity|reflexivity|]. cbn [dot append]. lib.
  unfold template_funcs. apply sim_assoc. eapply simb_field; [exact HL|reflexivity|]. cbn beta. apply sim_assoc. eapply simb_field; [exact HL|reflexivity|]. cbn beta iota.
  apply sim_assoc. eapply simb_load; [exact Hm|]. cbv iota.
  rewrite (funcs_good _ _ _ Hr), (names_picked nm ks ND PK). fold (names_good nm). destruct (names_good nm) eqn:NG; cbv iota; [|apply sim_panic; apply HP; reflexivity].
  apply sim_assoc. apply simb_alloc. apply sim_assoc. apply simb_update; [apply Nat.le_0_l|]. set (h3 := set_nth _ _ _).
  assert (SB2 : same_below (length h) (h2 ++ [OMap ms]) h3) by (apply same_update; lia).
  assert (L1 : length h < length h2) by (pose proof (nth_lt _ _ _ HL); exact H).
  assert (HL3 : nth_error h3 (length h) = Some (template_obj (VMap (length h2)) VNil)) by (apply nth_set_same; rewrite app_length; cbn [length]; lia).
  assert (HF3 : nth_error h3 (length h2) = Some (OMap ms)) by (unfold h3; rewrite nth_set_other by lia; apply nth_app_new).
  assert (G3 : grown h h3).
  { eapply RefineNew.grown_same; [eapply grown_trans; [eapply grown_trans; [exact G1|exact G2]|apply grown_app]|exact SB2]. }
  steps. eapply simb_method; [exact HL3|reflexivity|reflexivity|]. cbn [dot append]. lib.
  unfold template_parse. apply sim_assoc. eapply simb_field; [exact HL3|reflexivity|]. cbn beta iota.
  apply sim_assoc. eapply simb_load; [exact HF3|]. cbv iota. cbn [c_parse go_config]. unfold made.
  destruct (m_parse M text) as [ps|] eqn:EP; cbv iota.
  2: { steps. apply sim_ret. auto. }
  rewrite (funcs_known _ _ _ ps Hr), (parse_picked nm ks ps ND PK). destruct (new_template ps nm) as [t|] eqn:ET; cbv iota.
  2: { steps. apply sim_ret. auto. }
  apply sim_assoc. apply simb_update; [apply Nat.le_0_l|]. set (h4 := set_nth h3 _ _).
  assert (L3 : length h < length h3) by (eapply nth_lt; exact HL3).
  assert (HL4 : nth_error h4 (length h) = Some (template_obj (VMap (length h2)) (VStr text))) by (apply nth_set_same; exact L3).
  assert (HF4 : nth_error h4 (length h2) = Some (OMap ms)) by (unfold h4; rewrite nth_set_other by lia; exact HF3).
  assert (G4 : grown h h4) by (eapply RefineNew.grown_same; [exact G3|apply same_update; lia]).
  steps. apply sim_ret. split; [reflexivity|]. set (h5 := h4 ++ _). assert (G5 : grown h4 h5) by apply grown_app.
  split; [eapply grown_trans; eauto|]. eexists. split; [reflexivity|].
  exists (length h4), (length h), (length h2), text, ms, ps, (picked nm ks). split; [reflexivity|]. split; [apply nth_app_new|].
  split; [eapply grown_nth; [exact G5|exact HL4]|]. split; [eapply grown_nth; [exact G5|exact HF4]|]. split; [|split; [exact EP|rewrite parse_picked; auto]].
  eapply funcs_keeps; [apply grown_keeps; eapply grown_trans; [exact G4|exact G5]|exact Hr].
Qed.

Theorem MustNewTemplate_spec {P : panics} name text v nm h : nodes_rep h v nm -> NoDup (map fst nm) -> (names_good nm = false \/ made text nm = None -> P) ->
  sim (PCall (CFun "aitch.MustNewTemplate") [VStr name; VStr text; v] false PRet) h (new_io nm)
    (fun vs h' _ => names_good nm = true /\ grown h h' /\ exists t tv, made text nm = Some t /\ vs = [tv] /\ template_rep h' tv t).
Proof.
  intros Hv ND HP. enter. steps.
  match goal with |- GoRun.sim _ (pbind (PCall ?c ?a ?s ?k) ?f) _ _ _ => change (pbind (PCall c a s k) f) with (pbind (PCall c a s PRet) (fun vs => pbind (k vs) f)) end.
  apply sim_eta_model. eapply sim_bind; [eapply (NewTemplate_spec name text v nm h Hv ND); auto|]. intros vs h1 u (NG & G & H). destruct u.
  destruct (made text nm) as [t|].
  - destruct H as (tv & -> & Ht). destruct Ht as (lt & X). assert (tv = VPtr lt) as -> by (destruct X as (? & ? & ? & ? & ? & ? & X & _); exact X).
    steps. apply sim_ret. split; [exact NG|]. split; [exact G|]. exists t, (VPtr lt). split; [reflexivity|]. split; [reflexivity|]. exists lt. exact X.
  - subst vs. steps. apply sim_panic. apply HP. auto.
Qed.
End Refine.
