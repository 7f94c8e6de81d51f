(** C76: template.go, against the Go source. *)
From Coq Require Import ZArith Permutation Lia.
From Verif Require Import Bytes IO IOFacts Nodes Values Render Build SpecRun SpecOut Template SpecTemplate PropTemplate
  GoSyntax SourceLib Source GoSem GoRun GoRep GoStep GoOwn RefineNode RefineUser RefineIter RefineTemplate GoExamples Demo.
Local Open Scope nat_scope.

Section Claims.
Context {W : UserWorld}.
Variable M : go_mode.
Hypothesis MO : mode_ok M.
Notation C := (go_config M).
Definition call_new (name text : bytes) (nm : gv) : prog (list gv) := PCall (CFun "aitch.NewTemplate") [VStr name; VStr text; nm] false PRet.
Definition call_must (name text : bytes) (nm : gv) : prog (list gv) := PCall (CFun "aitch.MustNewTemplate") [VStr name; VStr text; nm] false PRet.
Definition call_execute (t : gv) (d : option mref) (g : gval U) : prog (list gv) :=
  PCall (CFun "Template.Execute") [t; VWriter; data_value d; any_of g] false PRet.

Lemma names_outcome ps nm : NewTemplate (m_letters M) ps nm = if names_good M nm then Done (new_template ps nm) else Panic.
Proof. reflexivity. Qed.
Lemma new_io_run E nm w : run E (new_io nm) w = (tt, World (w_log w) (w_u w) (S (w_tick w))).
Proof. reflexivity. Qed.

(** NewTemplate makes the template of the model, gives an error, or panics, as
    the model says, whatever order the map is ranged over in; it writes nothing,
    calls no user code and changes nothing that was there. *)
Theorem C76_new E w h name text v nm ps :
  ord_ok (e_ord E) -> nodes_rep M h v nm -> NoDup (map fst nm) -> m_parse M text = Some ps ->
  match NewTemplate (m_letters M) ps nm with
  | Panic => exists k w', go_run C k E (call_new name text v) h w = Some (RPanic w')
  | Done None => exists k e h' w', go_run C k E (call_new name text v) h w = Some (ROk [VNil; VErr e] h' w') /\
      grown h h' /\ w_log w' = w_log w /\ w_u w' = w_u w
  | Done (Some t) => exists k tv h' w', go_run C k E (call_new name text v) h w = Some (ROk [tv; VNil] h' w') /\
      template_rep M h' tv t /\ grown h h' /\ w_log w' = w_log w /\ w_u w' = w_u w
  end.
Proof.
  intros O Hv ND HP. rewrite names_outcome.
  pose proof (NewTemplate_spec (P := names_good M nm = false) M name text v nm h Hv ND (fun H => H)) as S.
  destruct (sim_cases (P := names_good M nm = false) _ _ _ _ _ S E w O) as [(k & vs & h' & R & NG & G & H)|(NG & k & w' & R)].
  - rewrite NG. unfold made in H. rewrite HP in H. rewrite new_io_run in R. cbn [snd] in R. destruct (new_template ps nm) as [t|].
    + destruct H as (tv & -> & Ht). exists k, tv, h'. eexists. split; [exact R|]. auto.
    + subst vs. exists k, template_error, h'. eexists. split; [exact R|]. auto.
  - rewrite NG. eauto.
Qed.
(** A text that does not parse is an error. *)
Theorem C76_syntax E w h name text v nm :
  ord_ok (e_ord E) -> nodes_rep M h v nm -> NoDup (map fst nm) -> m_parse M text = None -> names_good M nm = true ->
  exists k e h' w', go_run C k E (call_new name text v) h w = Some (ROk [VNil; VErr e] h' w').
Proof.
  intros O Hv ND HP NG. pose proof (NewTemplate_spec (P := names_good M nm = false) M name text v nm h Hv ND (fun H => H)) as S.
  destruct (sim_cases (P := names_good M nm = false) _ _ _ _ _ S E w O) as [(k & vs & h' & R & _ & G & H)|(NG' & _)]; [|congruence].
  unfold made in H. rewrite HP in H. subst vs. eauto 8.
Qed.
Theorem C76_must E w h name text v nm ps :
  ord_ok (e_ord E) -> nodes_rep M h v nm -> NoDup (map fst nm) -> m_parse M text = Some ps ->
  match MustNewTemplate (m_letters M) ps nm with
  | Panic => exists k w', go_run C k E (call_must name text v) h w = Some (RPanic w')
  | Done t => exists k tv h' w', go_run C k E (call_must name text v) h w = Some (ROk [tv] h' w') /\
      template_rep M h' tv t /\ grown h h' /\ w_log w' = w_log w /\ w_u w' = w_u w
  end.
Proof.
  intros O Hv ND HP. unfold MustNewTemplate. rewrite names_outcome.
  pose proof (MustNewTemplate_spec (P := names_good M nm = false \/ made M text nm = None) M name text v nm h Hv ND (fun H => H)) as S.
  destruct (sim_cases (P := names_good M nm = false \/ made M text nm = None) _ _ _ _ _ S E w O) as [(k & vs & h' & R & NG & G & t & tv & H1 & -> & H2)|(X & k & w' & R)]; unfold made in *; rewrite HP in *.
  - rewrite NG, H1. rewrite new_io_run in R. cbn [snd] in R. exists k, tv, h'. eexists. split; [exact R|]. auto.
  - destruct (names_good M nm); [|eauto]. destruct X as [X|X]; [discriminate|]. rewrite X. eauto.
Qed.

(** Execute writes, calls and returns what the model does, and leaves the
    template as it was. *)
Theorem C76_execute E w h tv t d g :
  ord_ok (e_ord E) -> template_rep M h tv t -> Forall piece_ok t ->
  exists k h', go_run C k E (call_execute tv d g) h w = Some (ROk [verr (fst (run E (execute t d g) w))] h' (snd (run E (execute t d g) w))) /\
    grown h h' /\ template_rep M h' tv t.
Proof.
  intros O Ht T. destruct (sim_never _ _ _ _ _ (Execute_spec M MO tv t d g h Ht T) E w O) as (k & vs & h' & R & -> & G). exists k, h'.
  split; [exact R|]. split; [exact G|]. eapply template_grown; eauto.
Qed.

(** Any number of executions, one after the other. *)
Fixpoint call_executes (tv : gv) (calls : list (option mref * gval U)) : prog (list gv) :=
  match calls with
  | [] => PRet []
  | (d, g) :: calls' => pbind (call_execute tv d g) (fun vs => pbind (call_executes tv calls') (fun rs => PRet (vs ++ rs)))
  end.
Fixpoint executes (t : template) (calls : list (option mref * gval U)) : io U (list (option error)) :=
  match calls with
  | [] => Ret []
  | (d, g) :: calls' => bind (execute t d g) (fun r => bind (executes t calls') (fun rs => Ret (r :: rs)))
  end.
Theorem C76_executions E tv t calls : ord_ok (e_ord E) -> Forall piece_ok t -> forall h w, template_rep M h tv t ->
  exists k h', go_run C k E (call_executes tv calls) h w =
    Some (ROk (map verr (fst (run E (executes t calls) w))) h' (snd (run E (executes t calls) w))).
Proof.
  intros O T. induction calls as [|[d g] calls IH]; intros h w Ht; [exists 1, h; reflexivity|].
  destruct (C76_execute E w h tv t d g O Ht T) as (k1 & h1 & R1 & G1 & Ht1). cbn [call_executes executes]. rewrite IOFacts.run_bind.
  destruct (run E (execute t d g) w) as [r w1]. cbn [fst snd] in R1.
  destruct (IH h1 w1 Ht1) as (k2 & h2 & R2). rewrite IOFacts.run_bind. destruct (run E (executes t calls) w1) as [rs w2]. cbn [fst snd run map] in *.
  exists (k1 + (k2 + 1)), h2. eapply run_bind; [exact R1|]. eapply run_bind; [exact R2|]. reflexivity.
Qed.

(** A program that makes the nodes and the map, makes the template and executes
    it. *)
Definition build_map (nm : node_map) : prog gv :=
  pbind (mapP (fun kx => pbind (reify_opt C (snd kx)) (fun v => PRet (fst kx, v))) nm) (fun es =>
  pbind (alloc (OMap es)) (fun l => PRet (VMap l))).
Definition page_program (name text : bytes) (nm : node_map) (d : option mref) (g : gval U) : prog (list gv) :=
  pbind (build_map nm) (fun v => pbind (call_new name text v) (fun vs =>
  match vs with [tv; VNil] => call_execute tv d g | _ => PRet vs end)).

Lemma makes_nodes nm h : makes M (build_map nm) h (fun v h' => nodes_rep M h' v nm).
Proof.
  unfold build_map. eapply makes_bind.
  - apply (makes_map M (fun kx => pbind (reify_opt C (snd kx)) (fun v => PRet (fst kx, v))) (node_entry M)).
    + intros h1 h2 e x G [H1 H2]. split; [exact H1|]. exact (opt_keeps M _ _ _ _ (grown_keeps _ _ G) H2).
    + apply Forall_forall. intros x _ h0. eapply makes_bind; [apply makes_opt, mode_known, MO|]. intros v h1 G1 H1. apply makes_ret. split; [reflexivity|exact H1].
  - intros es h1 G1 H1. cbv beta in H1.
    eapply makes_bind with (R := fun l h' => l = length h1 /\ h' = h1 ++ [OMap es]); [apply makes_alloc; split; reflexivity|].
    intros l h2 _ [-> ->]. apply makes_ret. exists (length h1), es. split; [reflexivity|]. split; [apply nth_app_new|].
    eapply all2_mono; [|exact H1]. intros e x [H2 H3]. split; [exact H2|]. exact (opt_keeps M _ _ _ _ (grown_keeps _ _ (grown_app _ _)) H3).
Qed.
Lemma func_of_nodes nm k n : func_of (func_map nm) k = Some n -> In (k, Some n) nm.
Proof.
  induction nm as [|[k' [n'|]] nm IH]; cbn [func_map flat_map snd fst app func_of]; [discriminate| |right; auto].
  destruct (beq_spec k' k) as [->|D]; [intros [= ->]; left; reflexivity|right; auto].
Qed.
Lemma pieces_ok nm : (forall k n, In (k, Some n) nm -> SpecOut.tables_ok n) -> forall ps t, new_template ps nm = Some t -> Forall piece_ok t.
Proof.
  intros T. unfold new_template. induction ps as [|[x|i k] ps IH]; cbn [parse]; intros t H.
  - injection H as <-. constructor.
  - destruct (parse ps _) as [t'|]; [|discriminate]. injection H as <-. constructor; [exact I|auto].
  - destruct (func_of _ k) as [n|] eqn:F; [|discriminate]. destruct (parse ps _) as [t'|]; [|discriminate]. injection H as <-.
    constructor; [exact (T k n (func_of_nodes _ _ _ F))|auto].
Qed.
Lemma identifiers_good nm : (forall k n, In (k, Some n) nm -> identifier k) -> names_good M nm = true.
Proof.
  intro I. pose proof (new_template_option (m_letters M) [] nm I) as H. rewrite names_outcome in H.
  destruct (names_good M nm); [reflexivity|discriminate].
Qed.
Lemma page_run E u tick name text nm d g ps t :
  ord_ok (e_ord E) -> NoDup (map fst nm) -> (forall k n, In (k, Some n) nm -> identifier k /\ SpecOut.tables_ok n) ->
  m_parse M text = Some ps -> new_template ps nm = Some t ->
  exists k h', go_run C k E (page_program name text nm d g) [] (World [] u tick) =
    Some (ROk [verr (fst (executed E t d g (u, S tick)))] h' (snd (executed E t d g (u, S tick)))).
Proof.
  intros O ND I HP Ht.
  assert (S : sim C (page_program name text nm d g) [] (bind (new_io nm) (fun _ => execute t d g)) (fun vs _ r => vs = [verr r])).
  { unfold page_program. apply makes_nodes. intros v h1 G1 Hv. eapply sim_bind.
    - apply (NewTemplate_spec M name text v nm h1 Hv ND). rewrite identifiers_good; [discriminate|]. intros k n H. apply (I k n H).
    - intros vs h2 [] (_ & G2 & H). unfold made in H. rewrite HP, Ht in H. destruct H as (tv & -> & H).
      eapply sim_conseq; [apply (Execute_spec M MO tv t d g h2 H)|].
      + eapply pieces_ok; [|exact Ht]. intros k n X. apply (I k n X).
      + intros vs h3 r [X _]. exact X. }
  destruct (sim_never _ _ _ _ _ S E (World [] u tick) O) as (k & vs & h' & R & ->). rewrite IOFacts.run_bind, new_io_run in R. cbn [w_log w_u w_tick] in R.
  exists k, h'. exact R.
Qed.

(** A page: each node in the place of its token.  The map is ranged over once
    before the execution starts. *)
Theorem C76_page o u tick name text nm d g ps b s' :
  ord_ok o -> NoDup (map fst nm) -> (forall k n, In (k, Some n) nm -> identifier k /\ SpecOut.tables_ok n) ->
  m_parse M text = Some ps -> spliced o nm (Frame d g None) ps (u, S tick) b s' ->
  exists k h' w', go_run C k (Env healthy o) (page_program name text nm d g) [] (World [] u tick) = Some (ROk [VNil] h' w') /\
    accepted (w_log w') = b /\ (w_u w', w_tick w') = s'.
Proof.
  intros O ND I HP S. destruct (C44_splices o nm ps d g (u, Datatypes.S tick) b s' ND S) as (t & w & Ht & X & Y).
  destruct (page_run (Env healthy o) u tick name text nm d g ps t O ND I HP Ht) as (k & h' & R). rewrite X in R. exists k, h', w. auto.
Qed.
(** If the nodes whose tokens stand inside a tag are attributes, the page has
    nothing but the texts and what the nodes write. *)
Theorem C76_in_place o u tick name text nm d g ps b s' :
  ord_ok o -> NoDup (map fst nm) -> (forall k n, In (k, Some n) nm -> identifier k /\ SpecOut.tables_ok n) ->
  m_parse M text = Some ps -> in_place o nm (Frame d g None) ps (u, S tick) b s' ->
  exists k h' w', go_run C k (Env healthy o) (page_program name text nm d g) [] (World [] u tick) = Some (ROk [VNil] h' w') /\
    accepted (w_log w') = b /\ (w_u w', w_tick w') = s'.
Proof. intros O ND I HP P. apply (C76_page o u tick name text nm d g ps b s' O ND I HP). apply in_place_spliced, P. Qed.

(** The first node that fails ends it, with its error. *)
Theorem C76_stops o u tick name text nm d g ps1 i key n e ps2 b s1 :
  ord_ok o -> NoDup (map fst nm) -> (forall k n, In (k, Some n) nm -> identifier k /\ SpecOut.tables_ok n) ->
  m_parse M text = Some (ps1 ++ PToken i key :: ps2) -> (forall j k, In (PToken j k) ps2 -> exists n, In (k, Some n) nm) ->
  spliced o nm (Frame d g None) ps1 (u, S tick) b s1 ->
  In (key, Some n) nm -> fst (SpecRun.result o n (Frame d g None) s1) = Some e ->
  exists k h' w', go_run C k (Env healthy o) (page_program name text nm d g) [] (World [] u tick) = Some (ROk [VErr e] h' w') /\
    accepted (w_log w') = b ++ fst (page o n (Frame d g None) s1).
Proof.
  intros O ND I HP Hk S Hn He.
  assert (exists t, new_template (ps1 ++ PToken i key :: ps2) nm = Some t) as [t Ht].
  { apply C44_new_template; [exact ND|]. intros j k H. apply in_app_iff in H as [H|[[= <- <-]|H]]; [|eauto|eauto].
    clear - S H. induction S; [destruct H| |]; (destruct H as [H|H]; [try discriminate|auto]). injection H as <- <-. eauto. }
  destruct (C44_stops o nm ps1 i key n e ps2 t d g (u, Datatypes.S tick) b s1 ND S Hn He Ht) as (w & X & Y).
  destruct (page_run (Env healthy o) u tick name text nm d g _ t O ND I HP Ht) as (k & h' & R). rewrite X in R. exists k, h', w. auto.
Qed.
(** With a writer that dies at any point, nil is returned only if every write
    succeeded, and the output is a prefix of the full one. *)
Theorem C76_write_errors E u tick name text nm d g ps :
  ord_ok (e_ord E) -> dying (e_wr E) -> NoDup (map fst nm) -> (forall k n, In (k, Some n) nm -> identifier k /\ SpecOut.tables_ok n) ->
  m_parse M text = Some ps -> (forall j k, In (PToken j k) ps -> exists n, In (k, Some n) nm) ->
  exists k r h' w' k0 r0 h0 w0,
    go_run C k E (page_program name text nm d g) [] (World [] u tick) = Some (ROk [verr r] h' w') /\
    go_run C k0 (Env healthy (e_ord E)) (page_program name text nm d g) [] (World [] u tick) = Some (ROk [verr r0] h0 w0) /\
    (r = None -> failed (w_log w') = false) /\ exists more, accepted (w_log w0) = accepted (w_log w') ++ more.
Proof.
  intros O Dy ND I HP Hk. destruct (proj2 (C44_new_template ps nm ND) Hk) as [t Ht].
  destruct (page_run E u tick name text nm d g ps t O ND I HP Ht) as (k & h' & R).
  destruct (page_run (Env healthy (e_ord E)) u tick name text nm d g ps t O ND I HP Ht) as (k0 & h0 & R0).
  destruct (C44_write_errors E t d g (u, Datatypes.S tick) Dy) as [X Y].
  exists k, (fst (executed E t d g (u, Datatypes.S tick))), h', (snd (executed E t d g (u, Datatypes.S tick))), k0, (fst (executed (Env healthy (e_ord E)) t d g (u, Datatypes.S tick))), h0. eexists.
  split; [exact R|]. split; [exact R0|]. auto.
Qed.
End Claims.

(** ** Cases *)
Definition page_text : bytes := B "<html{{lang}}>{{body}}</html>".
Definition tmode : go_mode := Mode false "int" "uint" "float64" (fun _ => false) (fun text => if beq text page_text then Some tmpl else None) no_types (fun _ _ => None).
Example tmode_ok : mode_ok tmode.
Proof. repeat split; cbn; try tauto. discriminate. Qed.
(** The text is read as in the model's case, and the result of running the
    source is the page. *)
Example page_runs :
  match go_run (go_config tmode) 3000 E0 (page_program tmode (B "t") page_text nmap (Some 0) GNil) [] (World [] (st 1) 0) with
  | Some (ROk r _ w) => Some (r, accepted (w_log w))
  | _ => None
  end = Some ([VNil], B "<html lang=""en""><p>hi</p></html>").
Proof. vm_compute. reflexivity. Qed.
(** Inside a tag: after an attribute nothing is added, after any other node
    html/template's mark is. *)
Definition swapped_text : bytes := B "<html{{body}}>{{lang}}</html>".
Definition swapped : list piece :=
  [PText (B "<html"); PToken true (B "body"); PText (B ">"); PToken false (B "lang"); PText (B "</html>")].
Definition swapped_mode : go_mode := Mode false "int" "uint" "float64" (fun _ => false) (fun _ => Some swapped) no_types (fun _ _ => None).
Example swapped_runs :
  match go_run (go_config swapped_mode) 3000 E0
    (page_program swapped_mode (B "t") swapped_text nmap (Some 0) GNil) [] (World [] (st 1) 0) with
  | Some (ROk r _ w) => Some (r, accepted (w_log w))
  | _ => None
  end = Some ([VNil], B "<html<p>hi</p>ZgotmplZ> lang=""en""</html>").
Proof. vm_compute. reflexivity. Qed.
Example bad_text_runs :
  match go_run (go_config tmode) 3000 E0 (page_program tmode (B "t") (B "{{") nmap (Some 0) GNil) [] (World [] (st 1) 0) with
  | Some (ROk r _ w) => Some (r, accepted (w_log w))
  | _ => None
  end = Some ([VNil; VErr template_error], []).
Proof. vm_compute. reflexivity. Qed.
(** A key that is not an identifier. *)
Example bad_key_runs : exists w,
  go_run (go_config tmode) 3000 E0 (page_program tmode (B "t") page_text ((B "a-b", Some (NText [])) :: nmap) (Some 0) GNil) [] (World [] (st 1) 0) = Some (RPanic w).
Proof. eexists. vm_compute. reflexivity. Qed.
(** The hypotheses of [C76_page] for this page. *)
Example page_case : exists b s',
  ord_ok listed /\ NoDup (map fst nmap) /\ (forall k n, In (k, Some n) nmap -> identifier k /\ SpecOut.tables_ok n) /\
  m_parse tmode page_text = Some tmpl /\ spliced listed nmap fr0 tmpl (st 1, 1) b s' /\ b = B "<html lang=""en""><p>hi</p></html>".
Proof.
  exists (B "<html" ++ B " lang=""en""" ++ mark true lang_node ++ B ">" ++ B "<p>hi</p>" ++ mark false body_node ++ B "</html>" ++ []), (st 1, 1).
  split; [exact listed_ok|]. split; [destruct tmpl_splices as (? & ? & _ & H & _); exact H|]. split.
  { intros k n H. split; [destruct C61_example as (? & K & _); exact (K k n H)|]. cbn in H. destruct H as [[= <- <-]|[[=]|[[= <- <-]|[]]]]; cbn; repeat split; repeat constructor; cbn; tauto. }
  split; [reflexivity|]. split; [|reflexivity].
  apply spliced_text. eapply spliced_node; [left; reflexivity|vm_compute; reflexivity|vm_compute; reflexivity|].
  apply spliced_text. eapply spliced_node; [right; right; left; reflexivity|vm_compute; reflexivity|vm_compute; reflexivity|].
  apply spliced_text. apply spliced_end.
Qed.
Example page_in_place : exists b s', in_place listed nmap fr0 tmpl (st 1, 1) b s' /\ b = B "<html lang=""en""><p>hi</p></html>".
Proof.
  exists (B "<html" ++ B " lang=""en""" ++ B ">" ++ B "<p>hi</p>" ++ B "</html>" ++ []), (st 1, 1). split; [|reflexivity].
  apply place_text. eapply place_node; [left; reflexivity|intros _; eexists; reflexivity|vm_compute; reflexivity|vm_compute; reflexivity|].
  apply place_text. eapply place_node; [right; right; left; reflexivity|discriminate|vm_compute; reflexivity|vm_compute; reflexivity|].
  apply place_text. apply place_end.
Qed.
(** The template that NewTemplate makes meets the hypotheses of [C76_execute]. *)
Example template_case : exists k tv h w t, new_template tmpl nmap = Some t /\
  template_rep (W := demo) tmode h tv t /\ Forall piece_ok t /\
  go_run (go_config tmode) k E0 (pbind (build_map tmode nmap) (fun v => call_new (B "t") page_text v)) [] (World [] (st 1) 0) = Some (ROk [tv; VNil] h w).
Proof.
  assert (S : sim (go_config tmode) (pbind (build_map tmode nmap) (fun v => call_new (B "t") page_text v)) [] (new_io nmap)
    (fun vs h' _ => names_good tmode nmap = true /\ match made tmode page_text nmap with Some t => exists tv, vs = [tv; VNil] /\ template_rep (W := demo) tmode h' tv t | None => False end)).
  { apply (makes_nodes tmode tmode_ok nmap []). intros v h1 G1 Hv. eapply sim_conseq.
    - apply (NewTemplate_spec tmode (B "t") page_text v nmap h1 Hv); [destruct tmpl_splices as (? & ? & _ & H & _); exact H|]. discriminate.
    - intros vs h' [] (A & _ & X). split; [exact A|exact X]. }
  destruct (sim_never _ _ _ _ _ S E0 (World [] (st 1) 0) listed_ok) as (k & vs & h & R & _ & tv & -> & Ht). eexists k, tv, h, _, _.
  split; [reflexivity|]. split; [exact Ht|]. split; [|exact R]. repeat constructor; cbn; tauto.
Qed.
