(** Whole programs: constructor calls and Render calls, run as Go programs, do what
    Programs.v says. *)
From Coq Require Import ZArith Lia.
From Verif Require Import Bytes IO IOFacts Nodes NodeInd Values Render Build SpecOut AttrFacts Slices Sharing SharingFacts Programs ProgramFacts
  GoSyntax Source GoSem GoRun GoRep GoStep GoOwn RefineNode RefineUser RefineIter RefineAttrs RefineStart RefineNew RefineMake RefineGroup GoShare RefineCollect RefineBuild RefineAdd RefineNewElement RefineAll RefineVariadic RefineCalls.
Local Open Scope nat_scope.
Local Notation "x <-- p ;; q" := (pbind p (fun x => q))
  (at level 100, p at next level, right associativity).

Section Program.
Context {W : UserWorld}.
Variable M : go_mode.
Hypothesis MO : mode_ok M.
Notation C := (go_config M).
Notation sim := (sim C).

(** Render of the node [v] with a new context: what it returned, and what the
    field Error of the context holds afterwards. *)
Definition new_ctx (fr : Nodes.frame U) (e : option error) : prog loc :=
  parent <-- (match f_parent fr with Some c => reify_ctx c | None => PRet VNil end) ;;
  alloc (ctx_obj e (f_data fr) (f_cargo fr) parent).
Definition render_value (v : gv) (fr : Nodes.frame U) (e : option error) : prog (option error * option error) :=
  l <-- new_ctx fr e ;;
  rs <-- invoke v "Render" [VPtr l] false ;;
  r <-- one rs ;;
  x <-- lift (err_of r) ;;
  e' <-- get_error l ;;
  PRet (x, e').

(** The results so far: nodes, values, results of Render. *)
Definition gstate : Type := list gv * list gv * list (option error * option error).
Definition go_cmd (c : cmd) (s : gstate) : prog gstate :=
  let '(vs, ys, rs) := s in
  match c with
  | Make k => r <-- go_make k vs ys ;; v <-- one r ;; PRet (vs ++ [v], ys, rs)
  | MakeValue x => r <-- PCall (CFun "aitch.NewValue") [item_gv vs ys x] false PRet ;; v <-- one r ;; PRet (vs, ys ++ [v], rs)
  | MakeConcat xs => r <-- PCall (CFun "aitch.NewConcatValue") (map (item_gv vs ys) xs) false PRet ;; v <-- one r ;; PRet (vs, ys ++ [v], rs)
  | RenderNode i fr e => r <-- render_value (nth i vs VNil) fr e ;; PRet (vs, ys, rs ++ [r])
  end.
Fixpoint go_prog (cs : list cmd) (s : gstate) : prog gstate :=
  match cs with
  | [] => PRet s
  | c :: cs' => s' <-- go_cmd c s ;; go_prog cs' s'
  end.

(** ** Rendering changes nothing that was there *)
Lemma grown_same h h' : length h <= length h' -> (forall l o, nth_error h l = Some o -> nth_error h' l = Some o) -> grown h h'.
Proof.
  intros L H. exists (skipn (length h) h'). rewrite <- (firstn_all h) at 1. rewrite <- (firstn_same h h' (length h)); auto. symmetry. apply firstn_skipn.
Qed.
Lemma makes_parent (fr : Nodes.frame U) h : makes M (match f_parent fr with Some c => reify_ctx c | None => PRet VNil end) h (fun v h' => forall b, length h' <= b -> parent_rep h' b v (f_parent fr)).
Proof.
  destruct (f_parent fr) as [c|].
  - eapply makes_conseq; [apply makes_ctx|]. intros x hh GG (l & -> & Hl & Hp) b Hb. inversion Hp; subst. econstructor; [lia|eassumption|eassumption].
  - apply makes_ret. intros. constructor.
Qed.
Lemma new_ctx_makes fr e h : makes M (new_ctx fr e) h (fun l h' => ctx_at h' l fr e /\ length h <= l).
Proof.
  eapply makes_bind; [apply makes_parent|]. intros pv h2 G2 H2. apply makes_alloc. set (h3 := h2 ++ _).
  assert (G3 : grown h2 h3) by apply grown_app. split; [|apply grown_length, G2].
  exists pv. split; [apply nth_app_new|]. split; [|apply Nat.le_0_l]. eapply parent_grown; [exact G3|]. apply H2. auto.
Qed.
Lemma render_value_spec v n h fr e : node_rep M h v n -> SpecOut.tables_ok n ->
  sim (render_value v fr e) h (render n fr e) (fun a h' b => a = b /\ grown h h').
Proof.
  intros Hv T. unfold render_value. apply new_ctx_makes. intros l h3 G (HC3 & Hl).
  apply sim_eta_model. eapply simb_rendered; [apply (proj1 (every_node M MO))|exact T| |exact HC3|].
  - eapply node_keeps; [|exact Hv]. apply grown_keeps, G.
  - intros h4 r e4 K4 HC4. apply sim_ret. split; [reflexivity|]. apply grown_same.
    + pose proof (grown_length _ _ G). pose proof (kept_length _ _ _ K4). lia.
    + intros x o Ho. pose proof (nth_lt _ _ _ Ho). destruct K4 as (_ & _ & K4). apply K4; [lia|eapply grown_nth; eauto].
Qed.
Lemma render_nil h fr e : pan C (render_value VNil fr e) h.
Proof.
  intros E w O. assert (X : sim (new_ctx fr e) h (Ret tt) (fun _ _ _ => True)).
  { apply sim_eta. apply new_ctx_makes. intros l h' G _. apply sim_ret. exact I. }
  destruct (sim_never _ _ _ _ _ X E w O) as (n & l & h' & R & _). exists (n + 1), (snd (run E (Ret tt) w)).
  eapply run_bind; [exact R|]. reflexivity.
Qed.

(** ** One command *)
Lemma all2_snoc {X Y} (R : X -> Y -> Prop) ys y x : forall xs, all2 R xs ys -> R x y -> all2 R (xs ++ [x]) (ys ++ [y]).
Proof.
  induction ys as [|z ys IH]; intros xs H Hx; cbn [all2 app] in *; [subst; exists x, []; cbn; auto|].
  destruct H as (x1 & xs' & -> & H1 & H2). exists x1, (xs' ++ [x]). split; [reflexivity|]. auto.
Qed.
Lemma krep_changes ls x h h' s vs ys sh' : krep M ls h s vs ys -> sinv M (ls ++ x) h' sh' -> changes ls h h' ->
  all2 (opt_of (srep M (ls ++ x) h')) vs (k_nodes s) /\ all2 (val_rep M h') ys (k_vals s).
Proof.
  intros K I Ch. split.
  - eapply all2_mono; [|apply (kr_nodes _ _ _ _ _ _ K)]. intros v [n|]; cbn [opt_of]; auto. intro H.
    apply srep_more. eapply srep_changes; eauto.
  - eapply all2_mono; [|apply (kr_vals _ _ _ _ _ _ K)]. intros v n. eapply val_changes; eauto.
Qed.
Lemma krep_grown ls h h' s vs ys : krep M ls h s vs ys -> grown h h' -> krep M ls h' s vs ys.
Proof.
  intros K G. pose proof (sinv_grown M _ _ _ _ (kr_inv _ _ _ _ _ _ K) G) as I.
  destruct (krep_changes ls [] h h' s vs ys (k_heap s) K) as [H1 H2]; [rewrite app_nil_r; exact I|apply changes_grown, G|].
  rewrite app_nil_r in H1. constructor; auto.
Qed.

Lemma run_then {A B} (p : prog A) (f : A -> prog B) E h w n a h' w' b : go_run C n E p h w = Some (ROk a h' w') -> f a = PRet b ->
  go_run C (n + 1) E (pbind p f) h w = Some (ROk b h' w').
Proof. intros H K. eapply run_bind; [exact H|]. rewrite K. reflexivity. Qed.

Definition does_cmd (p : prog gstate) (h : heap) (E : env) (w : world U) (r : outcome (kstate * world U)) : Prop :=
  match r with
  | Done (s', w') => exists fuel ls' h' vs' ys', go_run C fuel E p h w = Some (ROk (vs', ys', k_out s') h' w') /\ krep M ls' h' s' vs' ys'
  | Panic => exists fuel w', go_run C fuel E p h w = Some (RPanic w')
  end.
Lemma go_cmd_does c ls h s vs ys E w : krep M ls h s vs ys -> sound_state s -> ord_ok (e_ord E) ->
  does_cmd (go_cmd c (vs, ys, k_out s)) h E w (kcmd (m_panics M) E c s w).
Proof.
  intros K SO O. destruct c as [k|x|xs|i fr e].
  - pose proof (go_make_builds M MO k ls h s vs ys K E w O) as H. pose proof (krep_changes ls) as KC. destruct s as [sh ns vals out]. cbn [go_cmd kcmd k_heap k_nodes k_vals k_out] in *.
    destruct (kmake (m_panics M) k sh ns vals (w_u w)) as [[[sh' n] u']|]; cbn [does_cmd k_out].
    + destruct H as (fuel & v & h' & x & R & H1 & H2 & H3 & H4). destruct (KC x h h' _ vs ys sh' K H1 H3) as [N V]. cbn [k_nodes k_vals] in *.
      exists (fuel + 1), (ls ++ x), h', (vs ++ [v]), ys. split; [eapply run_then; [exact R|reflexivity]|].
      constructor; cbn [k_heap k_nodes k_vals]; auto. apply all2_snoc; auto.
    + destruct H as (fuel & w' & R). exists fuel, w'. apply run_panic, R.
  - pose proof (item_rep M ls h s vs ys x K) as HA. pose proof (krep_grown ls h) as KG. destruct s as [sh ns vals out]. cbn [go_cmd kcmd k_heap k_nodes k_vals k_out] in *.
    destruct (sim_never _ _ _ _ _ (NewValue_spec M MO _ _ h HA) E w O) as (n & a & h' & RR & v & -> & H1 & H2). unfold cb in *. cbn [run] in *.
    destruct (NewValue _ (w_u w)) as [y u']. cbn [run fst snd] in *. cbn [does_cmd k_out].
    pose proof (KG h' _ vs ys K H2) as K'. exists (n + 1), ls, h', vs, (ys ++ [v]). split; [eapply run_then; [exact RR|reflexivity]|].
    constructor; cbn [k_heap k_nodes k_vals]; try apply K'. apply all2_snoc; [apply K'|exact H1].
  - pose proof (items_rep M ls h s vs ys xs K) as HA. pose proof (krep_grown ls h) as KG. destruct s as [sh ns vals out]. cbn [go_cmd kcmd k_heap k_nodes k_vals k_out] in *.
    destruct (sim_never _ _ _ _ _ (NewConcatValue_spec M MO _ _ _ HA) E w O) as (n & a & h' & RR & v & -> & H1 & H2). unfold cb in *. cbn [run] in *.
    destruct (NewConcatValue _ (w_u w)) as [y u']. cbn [run fst snd] in *. cbn [does_cmd k_out].
    pose proof (grown_trans _ _ _ (packed_grown h (map (item_gv vs ys) xs)) H2) as G.
    pose proof (KG h' _ vs ys K G) as K'. exists (S n + 1), ls, h', vs, (ys ++ [v]). split.
    + eapply run_then with (a := [v]); [|reflexivity]. apply (run_variadic M "aitch.NewConcatValue" []); [eexists _, _, _; split; reflexivity|]. exact RR.
    + constructor; cbn [k_heap k_nodes k_vals]; try apply K'. apply all2_snoc; [apply K'|exact H1].
  - pose proof (node_arg M ls h s vs ys i K) as HA. pose proof (krep_grown ls h) as KG. specialize (SO i).
    pose proof (kr_inv _ _ _ _ _ _ K) as I.
    destruct s as [sh ns vals out]. cbn [go_cmd kcmd k_heap k_nodes k_vals k_out] in *.
    destruct (node_at ns i) as [n|]; cbn [opt_of] in HA.
    + destruct (SO n eq_refl) as [T _].
      destruct (sim_never _ _ _ _ _ (render_value_spec _ _ h fr e (srep_read M _ _ _ I _ _ HA) T) E w O) as (f & a & h' & RR & -> & G).
      destruct (run E (render (read sh n) fr e) w) as [r w']. cbn [fst snd] in *. cbn [does_cmd k_out].
      exists (f + 1), ls, h', vs, ys. split; [eapply run_then; [exact RR|reflexivity]|]. pose proof (KG h' _ vs ys K G) as K'. constructor; apply K'.
    + rewrite HA. destruct (render_nil h fr e E w O) as (f & w' & R). exists f, w'. apply run_panic, R.
Qed.

(** ** Programs *)
Theorem go_prog_does cs : Forall cmd_ok cs -> forall ls h s vs ys E w, krep M ls h s vs ys -> sound_state s -> ord_ok (e_ord E) ->
  does_cmd (go_prog cs (vs, ys, k_out s)) h E w (kprog (m_panics M) E cs s w).
Proof.
  induction 1 as [|c cs OK _ IH]; intros ls h s vs ys E w K SO O; cbn [go_prog kprog].
  - exists 1, ls, h, vs, ys. split; [reflexivity|exact K].
  - pose proof (go_cmd_does c ls h s vs ys E w K SO O) as H. pose proof (kcmd_sound (m_panics M) E c s w) as SS.
    destruct (kcmd (m_panics M) E c s w) as [[s1 w1]|]; cbn [does_cmd] in H.
    + destruct H as (f1 & ls1 & h1 & vs1 & ys1 & R1 & K1). specialize (IH ls1 h1 s1 vs1 ys1 E w1 K1 (SS _ _ OK SO eq_refl) O).
      destruct (kprog (m_panics M) E cs s1 w1) as [[s2 w2]|]; cbn [does_cmd] in *.
      * destruct IH as (f2 & ls2 & h2 & vs2 & ys2 & R2 & K2). exists (f1 + f2), ls2, h2, vs2, ys2. split; [eapply run_bind; eauto|exact K2].
      * destruct IH as (f2 & w' & R2). exists (f1 + f2), w'. eapply run_bind; eauto.
    + destruct H as (f & w' & R). exists f, w'. apply run_panic, R.
Qed.
Lemma krep_start : krep M [] [] kstart [] [].
Proof.
  constructor; cbn [kstart k_heap k_nodes k_vals all2]; auto. constructor; auto.
  - constructor.
  - intros j. destruct j; discriminate.
  - intros ? ? [].
  - intros ? ? ? ? [].
Qed.
End Program.
