(** C72: programs against the Go source.

    A program is a list of calls of the constructors, of NewValue,
    NewConcatValue and of Render, on results of earlier calls; [go_prog] makes
    these calls on the translated source (RefineProgram.v), starting with an
    empty heap. *)
From Coq Require Import ZArith Lia.
From Verif Require Import Bytes IO IOFacts Nodes Values Render Build Packages SpecOut SpecRun SpecErr Api ApiFacts PropErrors Programs ProgramValues ProgramFacts ProgramPure
  GoSyntax Source GoSem GoRun GoRep GoStep RefineNode RefineUser RefineIter RefineCalls RefineProgram GoExamples Demo.
Local Open Scope nat_scope.

Section Claims.
Context {W : UserWorld}.
Variable M : go_mode.
Hypothesis MO : mode_ok M.
Notation C := (go_config M).
Notation PN := (m_panics M).

(** ** What user code is asked for *)
(** Nodes that callbacks give to the package come from its constructors. *)
Definition call_api (c : kcall) : Prop :=
  match c with
  | KContentCollect (Some f) => forall c u n, In (Some n) (fst (f c u)) -> api n
  | KImperative (Some q) => api_prog q
  | _ => True
  end.
Definition cmd_api (c : cmd) : Prop := match c with Make c => call_api c | _ => True end.
Lemma cmd_api_ok cs : Forall cmd_api cs -> Forall cmd_ok cs.
Proof.
  apply Forall_impl. intros [c| | |]; try (intros; exact I). cbn [cmd_api cmd_ok]. destruct c; try (intros; exact I); cbn [call_api call_ok].
  - destruct f as [f|]; [|auto]. intro H. exact (proj1 api_tables _ (api_collect f H)).
  - destruct p as [q|]; [|auto]. intro H. exact (proj1 api_tables _ (api_imperative q H)).
Qed.

(** ** C72 *)
(** The source does what the model with shared nodes does: the same calls of the
    writer and of user code, the same results of Render, and a Go panic exactly
    when the model has one. *)
Definition does (cs : list cmd) (E : env) (w : world U) (r : outcome (list (option error * option error) * world U)) : Prop :=
  match r with
  | Done (out, w') => exists fuel vs ys h, go_run C fuel E (go_prog cs ([], [], [])) [] w = Some (ROk (vs, ys, out) h w')
  | Panic => exists fuel w', go_run C fuel E (go_prog cs ([], [], [])) [] w = Some (RPanic w')
  end.
Definition kresult (cs : list cmd) (E : env) (w : world U) : outcome (list (option error * option error) * world U) :=
  match kprog PN E cs kstart w with Done (s, w') => Done (k_out s, w') | Panic => Panic end.
Definition vresult (cs : list cmd) (E : env) (w : world U) : outcome (list (option error * option error) * world U) :=
  match vprog PN E cs vstart w with Done (s, w') => Done (v_out s, w') | Panic => Panic end.

Theorem C72_shared cs E w : Forall cmd_ok cs -> ord_ok (e_ord E) -> does cs E w (kresult cs E w).
Proof.
  intros OK O. pose proof (go_prog_does M MO cs OK [] [] kstart [] [] E w (krep_start M) sound_start O) as H.
  unfold kresult. destruct (kprog PN E cs kstart w) as [[s w']|]; [|exact H].
  destruct H as (fuel & ls & h & vs & ys & R & _). exists fuel, vs, ys, h. exact R.
Qed.
(** And that of the model with values, on which all other claims rest, if no
    attribute is passed on twice. *)
Lemma results_agree cs E w : lone PN E cs [] vstart w -> kresult cs E w = vresult cs E w.
Proof.
  intro L. pose proof (prog_both PN E cs [] kstart vstart w state_rep_start L) as B. unfold kresult, vresult.
  destruct (kprog PN E cs kstart w) as [[s w1]|], (vprog PN E cs vstart w) as [[t w2]|]; try contradiction; [|reflexivity].
  destruct B as (<- & pus & _ & _ & <-). reflexivity.
Qed.
Theorem C72_values cs E w : Forall cmd_ok cs -> ord_ok (e_ord E) -> lone PN E cs [] vstart w -> does cs E w (vresult cs E w).
Proof. intros OK O L. rewrite <- results_agree by exact L. apply C72_shared; auto. Qed.
(** There is no other way for such a run to end. *)
Theorem C72_only cs E w fuel r : Forall cmd_ok cs -> ord_ok (e_ord E) ->
  go_run C fuel E (go_prog cs ([], [], [])) [] w = Some r ->
  match kresult cs E w with
  | Done (out, w') => exists vs ys h, r = ROk (vs, ys, out) h w'
  | Panic => exists w', r = RPanic w'
  end.
Proof.
  intros OK O R. pose proof (C72_shared cs E w OK O) as H. unfold does in H. destruct (kresult cs E w) as [[out w']|].
  - destruct H as (n & vs & ys & h & H). exists vs, ys, h. exact (run_unique _ _ _ _ _ _ _ _ _ _ R H).
  - destruct H as (n & w' & H). exists w'. exact (run_unique _ _ _ _ _ _ _ _ _ _ R H).
Qed.

(** ** No panic *)
(** Names that are checked are good, functions of iterations are not nil, and
    members of groups and rendered nodes are results of earlier calls ([n] so
    far). *)
Definition call_tidy (n : nat) (c : kcall) : Prop :=
  match c with
  | KAttribute name _ | KBoolean name | KDelimited name _ _ | KElement name _ | KVoidElement name _ => valid_name name = true
  | KConditional _ is | KWhen _ is | KIterate (Some _) is | KIterateKey _ is | KIterateYield (Some _) is => forall i, In i is -> i < n
  | KIterate None _ | KIterateYield None _ => False
  | _ => True
  end.
Fixpoint tidy (n : nat) (cs : list cmd) : Prop :=
  match cs with
  | [] => True
  | Make c :: cs' => call_tidy n c /\ tidy (S n) cs'
  | RenderNode i _ _ :: cs' => i < n /\ tidy n cs'
  | _ :: cs' => tidy n cs'
  end.
Definition full {A} (ns : list (option A)) : Prop := forall i, i < length ns -> nth i ns None <> None.
Lemma full_snoc {A} (ns : list (option A)) x : full ns -> full (ns ++ [Some x]).
Proof.
  intros F i L. rewrite app_length in L. cbn in L. destruct (Nat.lt_ge_cases i (length ns)) as [H|H]; [rewrite app_nth1 by exact H; auto|].
  rewrite app_nth2 by exact H. replace (i - length ns) with 0 by lia. discriminate.
Qed.
Lemma full_all (ns : list (option Sharing.snode)) is : full ns -> (forall i, In i is -> i < length ns) -> exists l, all_some (map (node_at ns) is) = Some l.
Proof.
  intros F. induction is as [|i is IH]; intro H; cbn [map all_some]; [eauto|]. unfold node_at at 1.
  pose proof (F i (H i (or_introl eq_refl))). destruct (nth i ns None); [|congruence].
  destruct IH as [l ->]; [|eauto]. intros j Hj. apply H. right. exact Hj.
Qed.
Lemma tidy_make c h ns vals u : call_tidy (length ns) c -> full ns -> exists h' n u', kmake PN c h ns vals u = Done ((h', Some n), u').
Proof.
  intros T F.
  assert (A : forall mk, exists h' n u', kalways mk u = Done ((h', Some n), u')).
  { intro mk. unfold kalways. destruct (mk u) as [[h' n] u']. eauto. }
  assert (K : forall name mk, valid_name name = true -> exists h' n u', kchecked PN name h mk u = Done ((h', Some n), u')).
  { intros name mk V. unfold kchecked. rewrite V. destruct (mk u) as [[h' n] u']. eauto. }
  assert (G : forall is mk, (forall i, In i is -> i < length ns) -> exists h' n u', kgroup h (kall (map (node_at ns) is) mk) u = Done ((h', Some n), u')).
  { intros is mk H. unfold kall. destruct (full_all ns is F H) as [l ->]. cbn. eauto. }
  destruct c; cbn [kmake call_tidy kgroup] in *; eauto.
  - destruct f; cbn [kgroup]; eauto.
  - destruct (has_prefix _ _); apply G, T.
  - destruct f; [apply G, T|contradiction].
  - destruct p; [apply G, T|contradiction].
  - destruct f; cbn [kgroup]; eauto.
Qed.
Lemma tidy_done E cs : forall s w, tidy (length (k_nodes s)) cs -> full (k_nodes s) -> exists s' w', kprog PN E cs s w = Done (s', w').
Proof.
  induction cs as [|c cs IH]; intros [h ns vals out] w T F; cbn [kprog tidy k_nodes] in *; [eauto|].
  destruct c as [c|x|xs|i fr e]; cbn [kcmd].
  - destruct T as [T1 T2]. destruct (tidy_make c h ns vals (w_u w) T1 F) as (h' & n & u' & ->). apply IH; cbn [k_nodes].
    + rewrite app_length, Nat.add_1_r. exact T2.
    + apply full_snoc, F.
  - destruct (NewValue _ _). apply IH; auto.
  - destruct (NewConcatValue _ _). apply IH; auto.
  - destruct T as [T1 T2]. unfold node_at. pose proof (F i T1). destruct (nth i ns None); [|congruence]. destruct (run _ _ _). apply IH; auto.
Qed.
Theorem C72_no_panic cs E w : Forall cmd_ok cs -> ord_ok (e_ord E) -> tidy 0 cs ->
  (exists fuel r h w', go_run C fuel E (go_prog cs ([], [], [])) [] w = Some (ROk r h w')) /\
  forall fuel w', go_run C fuel E (go_prog cs ([], [], [])) [] w <> Some (RPanic w').
Proof.
  intros OK O T. destruct (tidy_done E cs kstart w T) as (s & w1 & K); [intros i Hi; inversion Hi|].
  pose proof (C72_shared cs E w OK O) as H. unfold kresult in H. rewrite K in H. destruct H as (n & vs & ys & h & H). split; [eauto|].
  intros fuel w' R. pose proof (C72_only cs E w fuel _ OK O R) as X. unfold kresult in X. rewrite K in X. destruct X as (? & ? & ? & X). discriminate.
Qed.

(** ** Pages *)
Lemma vprog_app E c1 c2 s w : vprog PN E (c1 ++ c2) s w = match vprog PN E c1 s w with Done (s', w') => vprog PN E c2 s' w' | Panic => Panic end.
Proof. revert s w; induction c1 as [|c c1 IH]; intros s w; cbn [app vprog]; [reflexivity|]. destruct (vcmd PN E c s w) as [[s' w']|]; auto. Qed.
Lemma lone_app E c1 c2 : forall us s w, lone PN E c1 us s w ->
  (forall us' s' w', vprog PN E c1 s w = Done (s', w') -> lone PN E c2 us' s' w') -> lone PN E (c1 ++ c2) us s w.
Proof.
  induction c1 as [|c c1 IH]; intros us s w L K; cbn [app lone vprog] in *; [apply K; reflexivity|].
  destruct L as (L1 & L2 & L3). split; [exact L1|]. split; [exact L2|]. destruct (vcmd PN E c s w) as [[s' w']|]; [|exact I]. eapply IH; eauto.
Qed.
Definition render_free (c : cmd) : Prop := match c with RenderNode _ _ _ => False | _ => True end.
Lemma built_world E cs : Forall render_free cs -> forall s w s' w', vprog PN E cs s w = Done (s', w') ->
  w' = World (w_log w) (w_u w') (w_tick w) /\ v_out s' = v_out s.
Proof.
  induction 1 as [|c cs F _ IH]; intros [ns vals out] w s' w'; cbn [vprog].
  - intro X. injection X as <- <-. destruct w; auto.
  - destruct c as [c|x|xs|i fr e]; cbn [vcmd]; [| | |contradiction].
    + destruct (vmake PN c ns vals (w_u w)) as [[n u1]|]; [|discriminate]. intro X. destruct (IH _ _ _ _ X) as [X1 X2]. split; [exact X1|exact X2].
    + destruct (NewValue _ _) as [v u1]. intro X. destruct (IH _ _ _ _ X) as [X1 X2]. split; [exact X1|exact X2].
    + destruct (NewConcatValue _ _) as [v u1]. intro X. destruct (IH _ _ _ _ X) as [X1 X2]. split; [exact X1|exact X2].
Qed.
Lemma vitem_api ns vals xs : (forall i n, vnode ns i = Some n -> api n) -> forall n, In (ANode n) (map (vitem ns vals) xs) -> api n.
Proof.
  intros H n Hn. apply in_map_iff in Hn. destruct Hn as (x & E & _). destruct x as [i|i| | |]; cbn [vitem] in E; try discriminate.
  - destruct (vnode ns i) as [m|] eqn:Em; [|discriminate]. injection E as <-. eauto.
  - destruct (nth_error vals i); discriminate.
Qed.
Lemma vmems_api ns is : (forall i n, vnode ns i = Some n -> api n) -> forall n, In (Some n) (map (vnode ns) is) -> api n.
Proof. intros H n Hn. apply in_map_iff in Hn. destruct Hn as (i & E & _). eauto. Qed.
Lemma vmake_api c ns vals u n u' : call_api c -> (forall i n, vnode ns i = Some n -> api n) -> vmake PN c ns vals u = Done (Some n, u') -> api n.
Proof.
  intros OK H.
  assert (S : forall r, api (fst r) -> some1 r = Done (Some n, u') -> api n).
  { intros [m v] A X. injection X as <- _. exact A. }
  assert (K : forall name mk, api (fst (mk u)) -> checked PN name mk u = Done (Some n, u') -> api n).
  { intros name mk A X. unfold checked in X. destruct (valid_name name); [|destruct PN; discriminate]. destruct (mk u) as [m v]. injection X as <- _. exact A. }
  assert (G : forall r, (forall m, r = Done m -> api m) -> group1 r u = Done (Some n, u') -> api n).
  { intros [m|] A X; [|discriminate]. injection X as <- _. auto. }
  pose proof (fun xs => vitem_api ns vals xs H) as HI. pose proof (fun is => vmems_api ns is H) as HM.
  destruct c; cbn [vmake].
  - apply S. constructor.
  - apply S. constructor.
  - apply S. constructor.
  - apply S. constructor.
  - apply S. apply api_pi.
  - apply K. constructor.
  - apply S. constructor.
  - apply K. constructor.
  - intro X. injection X as <- _. constructor.
  - apply K. constructor.
  - apply S. constructor.
  - unfold Element. destruct (bmem _ _); apply K; constructor; apply HI.
  - apply K. constructor. apply HI.
  - apply S. constructor. apply HI.
  - apply S. constructor. apply HI.
  - intro X. injection X as <- _. constructor. apply HM.
  - apply G. intros m Hm. eapply api_conditional; eauto.
  - apply G. intros m Hm. eapply api_when; eauto.
  - apply G. intros m Hm. eapply api_iterate; eauto.
  - apply G. intros m Hm. eapply api_iterate_key; eauto.
  - apply G. intros m Hm. eapply api_iterate_yield; eauto.
  - intro X. injection X as <- _. destruct f; constructor. exact OK.
  - intro X. injection X as <- _. destruct p; constructor. exact OK.
  - apply S. constructor; apply HI.
  - apply S. unfold style_attribute. destruct (NewConcatValue _ u). constructor.
Qed.
Lemma vprog_api E cs : Forall cmd_api cs -> forall s w s' w', (forall i n, vnode (v_nodes s) i = Some n -> api n) -> vprog PN E cs s w = Done (s', w') ->
  forall i n, vnode (v_nodes s') i = Some n -> api n.
Proof.
  induction 1 as [|c cs OK _ IH]; intros [ns vals out] w s' w' H; cbn [vprog v_nodes] in *.
  - intro X. injection X as <- _. exact H.
  - destruct c as [c|x|xs|i fr e]; cbn [vcmd].
    + destruct (vmake PN c ns vals (w_u w)) as [[n u1]|] eqn:V; [|discriminate]. apply IH. cbn [v_nodes]. intros i m Hi. unfold vnode in *.
      destruct (Nat.lt_ge_cases i (length ns)) as [L|L]; [rewrite app_nth1 in Hi by exact L; eauto|].
      rewrite app_nth2 in Hi by exact L. destruct (i - length ns) as [|[|k]]; cbn in Hi; try discriminate. subst n. eapply vmake_api; eauto.
    + destruct (NewValue _ _) as [v u1]. apply IH. exact H.
    + destruct (NewConcatValue _ _) as [v u1]. apply IH. exact H.
    + destruct (vnode ns i) as [n|]; [|discriminate]. destruct (run _ _ _) as [r w1]. apply IH. exact H.
Qed.

(** What the model with values says of a program that builds a node and renders it
    on a writer that accepts everything. *)
Lemma page_result o cs i n fr u t s w1 :
  ord_ok o -> Forall cmd_api cs -> Forall render_free cs ->
  lone PN (Env healthy o) cs [] vstart (World [] u t) ->
  vprog PN (Env healthy o) cs vstart (World [] u t) = Done (s, w1) ->
  vnode (v_nodes s) i = Some n -> is_attr n = false -> quiet n ->
  lone PN (Env healthy o) (cs ++ [RenderNode i fr None]) [] vstart (World [] u t) /\
  exists w', vresult (cs ++ [RenderNode i fr None]) (Env healthy o) (World [] u t) = Done ([(None, None)], w') /\
    accepted (w_log w') = fst (snode o n fr (w_u w1, t)).
Proof.
  intros O A F L V Hn At Q. set (E := Env healthy o) in *. set (w := World [] u t) in *.
  assert (An : api n).
  { eapply (vprog_api E cs A vstart w s w1); eauto. intros j m Hj. destruct j; discriminate. }
  destruct (built_world E cs F vstart w s w1 V) as [Ew Eo]. cbn [w_log w_tick w v_out vstart] in *. split.
  { apply lone_app; [exact L|]. intros us' s' w' V'. rewrite V in V'. injection V' as <- <-. cbn [lone uses]. split; [intros j m []|]. split.
    - intros m Hm. rewrite Hn in Hm. injection Hm as <-. exact At.
    - destruct (vcmd _ _ _ _ _) as [[? ?]|]; exact I. }
  unfold vresult. rewrite vprog_app, V. destruct s as [ns vals out]. cbn [v_nodes v_out vprog vcmd] in *. rewrite Hn, Ew. subst out. cbn [app].
  pose proof (C19_healthy o n fr (w_u w1, t) O An Q) as H. unfold outcome_of in H. cbn [fst snd] in H. fold E in H.
  destruct (run E (render n fr None) (World [] (w_u w1) t)) as [[r e] w']. destruct H as (-> & -> & _ & H & _). eauto.
Qed.
Lemma api_render cs i fr e : Forall cmd_api cs -> Forall cmd_ok (cs ++ [RenderNode i fr e]).
Proof. intro A. apply cmd_api_ok, Forall_app. split; [exact A|repeat constructor]. Qed.
(** The source writes the reference rendering and returns no error. *)
Theorem C72_page o cs i n fr u t s w1 :
  ord_ok o -> Forall cmd_api cs -> Forall render_free cs ->
  lone PN (Env healthy o) cs [] vstart (World [] u t) ->
  vprog PN (Env healthy o) cs vstart (World [] u t) = Done (s, w1) ->
  vnode (v_nodes s) i = Some n -> is_attr n = false -> quiet n ->
  exists fuel vs ys h w', go_run C fuel (Env healthy o) (go_prog (cs ++ [RenderNode i fr None]) ([], [], [])) [] (World [] u t) =
      Some (ROk (vs, ys, [(None, None)]) h w') /\
    accepted (w_log w') = fst (snode o n fr (w_u w1, t)).
Proof.
  intros O A F L V Hn At Q. destruct (page_result o cs i n fr u t s w1 O A F L V Hn At Q) as (L' & w' & Rr & Hw).
  pose proof (C72_values (cs ++ [RenderNode i fr None]) (Env healthy o) (World [] u t) (api_render cs i fr None A) O L') as X. rewrite Rr in X.
  destruct X as (fuel & vs & ys & h & X). exists fuel, vs, ys, h, w'. auto.
Qed.

(** [lone], decided. *)
Fixpoint loneb (E : env) (cs : list cmd) (us : list nat) (s : vstate) (w : world U) : bool :=
  match cs with
  | [] => true
  | c :: cs' =>
      forallb (fun i => match vnode (v_nodes s) i with
                        | Some n => negb (bears n) || (negb (existsb (Nat.eqb i) us) && (count_occ Nat.eq_dec (uses c) i <=? 1))
                        | None => true
                        end) (uses c) &&
      match c with RenderNode i _ _ => match vnode (v_nodes s) i with Some n => negb (is_attr n) | None => true end | _ => true end &&
      match vcmd PN E c s w with Done (s', w') => loneb E cs' (us ++ uses c) s' w' | Panic => true end
  end.
Lemma loneb_lone E cs : forall us s w, loneb E cs us s w = true -> lone PN E cs us s w.
Proof.
  induction cs as [|c cs IH]; intros us s w H; cbn [loneb lone] in *; [exact I|].
  apply Bool.andb_true_iff in H. destruct H as [H H3]. apply Bool.andb_true_iff in H. destruct H as [H1 H2]. split; [|split].
  - intros i n Hi Hn Hb. rewrite forallb_forall in H1. specialize (H1 i Hi). cbn beta in H1. rewrite Hn, Hb in H1. cbn [negb orb] in H1.
    apply Bool.andb_true_iff in H1. destruct H1 as [A1 A2]. split; [|apply Nat.leb_le, A2].
    intro K. apply Bool.negb_true_iff in A1. assert (existsb (Nat.eqb i) us = true) by (apply existsb_exists; exists i; split; [exact K|apply Nat.eqb_refl]). congruence.
  - destruct c as [| | |i fr e]; auto. intros n Hn. rewrite Hn in H2. apply Bool.negb_true_iff, H2.
  - destruct (vcmd PN E c s w) as [[s' w']|]; [|exact I]. apply IH, H3.
Qed.
End Claims.

(** ** Concrete programs *)
Definition txt (s : string) : item := IData (GString (B s)).
(** An element with a text, two class attributes, one of them under a condition,
    and a list; a page that contains it; and a shared footer. *)
Definition small_site : list (@cmd demo) :=
  [Make (KDelimited (B "class") (B " ") [txt "a"]);                       (* 0 *)
   Make (KDelimited (B "class") (B " ") [txt "b"]);                       (* 1 *)
   Make (KAttribute (B "id") [IKey (B "name")]);                          (* 2 *)
   Make (KWhen (B "on") [2]);                                             (* 3 *)
   Make (KElement (B "footer") [txt "x<y"]);                              (* 4 *)
   Make (KElement (B "div") [INode 0; INode 3; txt "hi"; INode 1; INode 4]);  (* 5 *)
   Make (KIterate (Some (fun _ u => ([GInt 1; GInt 2], S u))) [4]);       (* 6 *)
   MakeValue (txt "v");
   Make (KText [IVal 0; IDyn (fun c u => (B "d", u))]);                   (* 7 *)
   Make (KCollection [5; 6; 7]);                                          (* 8 *)
   Make (KDelimited (B "class") (B " ") [txt "c"]);                       (* 9 *)
   Make (KDocument (txt "en") [] [INode 9; INode 8; INode 4])].           (* 10 *)
Example C72_example :
  lone false E0 (small_site ++ [RenderNode 10 fr0 None]) [] vstart (World [] (st 0) 0) /\
  Forall cmd_api small_site /\ Forall render_free small_site /\ tidy 0 (small_site ++ [RenderNode 10 fr0 None]) /\
  match go_run (go_config the_mode) 3000 E0 (go_prog (small_site ++ [RenderNode 10 fr0 None]) ([], [], [])) [] (World [] (st 0) 0) with
  | Some (ROk (_, _, out) _ w) => Some (out, accepted (w_log w))
  | _ => None
  end = Some ([(None, None)], B "<!DOCTYPE html>
<html lang=""en""><body class=""c""><div class=""a b"" id=""a&lt;b"">hi<footer>x&lt;y</footer></div><footer>x&lt;y</footer><footer>x&lt;y</footer>vd<footer>x&lt;y</footer></body></html>").
Proof.
  split; [|split; [repeat constructor|split; [repeat constructor|split; [|vm_compute; reflexivity]]]].
  - apply (loneb_lone the_mode). vm_compute. reflexivity.
  - cbn. repeat split; auto; intros i; intuition lia.
Qed.

(** A shared attribute: the source does not do what one expects of values.  The
    second div changes the first one. *)
Definition shared_site : list (@cmd demo) :=
  [Make (KDelimited (B "class") (B " ") [txt "a"]); Make (KElement (B "div") [INode 0]);
   Make (KDelimited (B "class") (B " ") [txt "b"]); Make (KElement (B "div") [INode 0; INode 2]);
   RenderNode 1 fr0 None].
Definition shown_by (r : outcome (list (option error * option error) * world (@U demo))) : bytes :=
  match r with Done (_, w) => accepted (w_log w) | Panic => [] end.
Theorem C72_values_refuted : exists cs, Forall cmd_ok cs /\ tidy 0 cs /\
  ~ does the_mode cs E0 (World [] (st 0) 0) (vresult the_mode cs E0 (World [] (st 0) 0)) /\
  shown_by (vresult the_mode cs E0 (World [] (st 0) 0)) = B "<div class=""a""></div>" /\
  shown_by (kresult the_mode cs E0 (World [] (st 0) 0)) = B "<div class=""a b""></div>".
Proof.
  exists shared_site. assert (OK : Forall cmd_ok shared_site) by repeat constructor.
  assert (V : shown_by (vresult the_mode shared_site E0 (World [] (st 0) 0)) = B "<div class=""a""></div>") by (vm_compute; reflexivity).
  assert (K : shown_by (kresult the_mode shared_site E0 (World [] (st 0) 0)) = B "<div class=""a b""></div>") by (vm_compute; reflexivity).
  split; [exact OK|]. split; [cbn; repeat split; lia|]. split; [|split; [exact V|exact K]].
  assert (G : forall rv rk, does the_mode shared_site E0 (World [] (st 0) 0) rv -> shown_by rv = B "<div class=""a""></div>" -> shown_by rk = B "<div class=""a b""></div>" ->
    (forall fuel r, go_run (go_config the_mode) fuel E0 (go_prog shared_site ([], [], [])) [] (World [] (st 0) 0) = Some r ->
      match rk with Done (out, w') => exists vs ys h, r = ROk (vs, ys, out) h w' | Panic => exists w', r = RPanic w' end) -> False).
  { intros rv rk H HV HK X. unfold does in H. destruct rv as [[out w']|]; [|discriminate HV]. destruct rk as [[out2 w2]|]; [|discriminate HK].
    destruct H as (fuel & vs & ys & h & R). destruct (X _ _ R) as (vs' & ys' & h' & Y). injection Y as _ _ _ _ <-. cbn [shown_by] in *. rewrite HV in HK. discriminate. }
  intro H. exact (G _ _ H V K (fun fuel r => C72_only the_mode the_mode_ok shared_site E0 _ fuel r OK listed_ok)).
Qed.
(** Bad names: a panic, or a nil node that a group then trips over. *)
Example C72_panics : kresult (Mode true "int" "uint" "float64" (fun _ => false) (fun _ => None) no_types (fun _ _ => None)) [Make (KElement (B "1x") [])] E0 (World [] (st 0) 0) = Panic /\
  kresult the_mode [Make (KElement (B "1x") []); Make (KWhen (B "on") [0])] E0 (World [] (st 0) 0) = Panic /\
  kresult the_mode [Make (KElement (B "1x") []); Make (KElement (B "p") [INode 0])] E0 (World [] (st 0) 0) <> Panic.
Proof. repeat split; try reflexivity. vm_compute. discriminate. Qed.
