(** C54: the error an Imperative function returns. *)
From Verif Require Import Bytes Slices IO IOFacts Escape Nodes NodeInd Values Render Build SpecOut SpecErr
  RenderFacts Api ApiFacts ErrFacts SpecRun PageFacts PropErrors CondFacts SpecShared SharedFacts SpecReturn Demo.
Import ListNotations.

Section Return.
Context {W : UserWorld}.

Lemma imper_ends E : forall p fr st err w, ends p (fst (fst (run E (run_imper p fr st err) w))).
Proof.
  fix IH 1. intros p fr st err w. destruct p as [e|k|s k|d k|ns k|name v attrs k|k|k|n [fr'|] k|d k|x k]; cbn [run_imper].
  - constructor.
  - cbn [run]. destruct (k (view fr err) (w_u w)) as [p' u'] eqn:Ek.
    apply (ends_read k (view fr err) (w_u w)).
    replace p' with (fst (k (view fr err) (w_u w))) by (rewrite Ek; reflexivity). apply IH.
  - rewrite run_bind. destruct (run E (ctx_write _ _) w). constructor. apply IH.
  - rewrite run_bind. destruct (run E (ctx_write _ _) w). constructor. apply IH.
  - rewrite run_bind. destruct (run E (each_content_ignore _ _ _) w). constructor. apply IH.
  - rewrite run_bind. destruct (run E (start_tag _ _ _ _) w). constructor. apply IH.
  - constructor. destruct st; [apply IH|]. rewrite run_bind. destruct (run E (close_tag _ _) w). apply IH.
  - rewrite run_bind. destruct (run E (close_all _ _) w). constructor. apply IH.
  - rewrite run_bind. destruct (run E (_ n fr' None) w) as [[r x] w1]. apply (ends_render n _ k r x). apply IH.
  - rewrite run_bind. destruct (run E (_ n fr err) w) as [[r x] w1]. apply (ends_render n _ k r x). apply IH.
  - cbn [run]. destruct (e_wr E (w_log w) d) as [m x]. apply (ends_direct d k m x). apply IH.
  - constructor. apply IH.
Qed.

(** Render returns one of the errors the function returns ... *)
Theorem C54_result E p fr err w :
  ends p (fst (fst (run E (render (Imperative (Some p)) fr err) w))).
Proof. apply imper_ends. Qed.
Corollary C54_always E p fr err w e :
  (forall r, ends p r -> r = e) -> fst (fst (run E (render (Imperative (Some p)) fr err) w)) = e.
Proof. intro H. apply H, C54_result. Qed.

(** ... and that error has no other effect: what is written, the user state and
    ctx.Error are as if it had returned anything else. *)
Lemma imper_with_return E r : forall p fr st err w,
  run E (run_imper (with_return r p) fr st err) w =
    (let '((_, e), w') := run E (run_imper p fr st err) w in ((r, e), w')).
Proof.
  fix IH 1. intros p fr st err w. destruct p as [e|k|s k|d k|ns k|name v attrs k|k|k|n [fr'|] k|d k|x k]; cbn [run_imper with_return].
  - reflexivity.
  - cbn [run]. pose proof (IH (fst (k (view fr err) (w_u w))) fr st err) as H.
    destruct (k (view fr err) (w_u w)) as [p' u']. cbn [fst] in H. apply H.
  - rewrite !run_bind. destruct (run E (ctx_write _ _) w). apply IH.
  - rewrite !run_bind. destruct (run E (ctx_write _ _) w). apply IH.
  - rewrite !run_bind. destruct (run E (each_content_ignore _ _ _) w). apply IH.
  - rewrite !run_bind. destruct (run E (start_tag _ _ _ _) w). apply IH.
  - destruct st; [apply IH|]. rewrite !run_bind. destruct (run E (close_tag _ _) w). apply IH.
  - rewrite !run_bind. destruct (run E (close_all _ _) w). apply IH.
  - rewrite !run_bind. destruct (run E (_ n fr' None) w) as [[x y] w1]. apply IH.
  - rewrite !run_bind. destruct (run E (_ n fr err) w) as [[x y] w1]. apply IH.
  - cbn [run]. destruct (e_wr E (w_log w) d) as [m x]. apply IH.
  - apply IH.
Qed.
Theorem C54_return_only E p r fr err w :
  run E (render (Imperative (Some (with_return r p))) fr err) w =
    (let '((_, e), w') := run E (render (Imperative (Some p)) fr err) w in ((r, e), w')).
Proof. apply imper_with_return. Qed.

(** A Collection or a conditional stops at the first node that returns an error,
    for whatever reason, and returns it; what comes after is not rendered. *)
Lemma until_stops E fr l2 : forall l1 w e x w',
  run E (each_until (fun c e => render c fr e) l1 None) w = ((Some e, x), w') ->
  run E (each_until (fun c e => render c fr e) (l1 ++ l2) None) w = ((Some e, x), w').
Proof.
  induction l1 as [|c l1 IH]; intros w e x w' H; [discriminate|].
  change (run E ('(x, _) <- render c fr None ;;
    match x with None => each_until (fun c e => render c fr e) l1 None | Some x => Ret (Some x, Some x) end) w = (Some e, x, w')) in H.
  change (run E ('(x, _) <- render c fr None ;;
    match x with None => each_until (fun c e => render c fr e) (l1 ++ l2) None | Some x => Ret (Some x, Some x) end) w = (Some e, x, w')).
  rewrite run_bind in *. destruct (run E (render c fr None) w) as [[[y|] e1] w1]; auto.
Qed.
Lemma content_until_stops E fr l2 : forall l1 w e x w',
  run E (each_content_until (fun c e => render c fr e) l1 None) w = ((Some e, x), w') ->
  run E (each_content_until (fun c e => render c fr e) (l1 ++ l2) None) w = ((Some e, x), w').
Proof.
  induction l1 as [|c l1 IH]; intros w e x w' H; [discriminate|].
  change (run E (if is_attr c then each_content_until (fun c e => render c fr e) l1 None else '(x, _) <- render c fr None ;;
    match x with None => each_content_until (fun c e => render c fr e) l1 None | Some x => Ret (Some x, Some x) end) w = (Some e, x, w')) in H.
  change (run E (if is_attr c then each_content_until (fun c e => render c fr e) (l1 ++ l2) None else '(x, _) <- render c fr None ;;
    match x with None => each_content_until (fun c e => render c fr e) (l1 ++ l2) None | Some x => Ret (Some x, Some x) end) w = (Some e, x, w')).
  destruct (is_attr c); auto.
  rewrite run_bind in *. destruct (run E (render c fr None) w) as [[[y|] e1] w1]; auto.
Qed.

Theorem C54_collection_stops E l1 l2 fr w e x w' :
  run E (render (Collection l1) fr None) w = ((Some e, x), w') ->
  run E (render (Collection (l1 ++ l2)) fr None) w = ((Some e, x), w').
Proof.
  unfold Collection. cbn [render]. intro H.
  assert (S : somes (l1 ++ l2) = somes l1 ++ somes l2).
  { unfold somes. apply flat_map_app. }
  rewrite S. apply content_until_stops. exact H.
Qed.
Theorem C54_conditional_stops E f l1 l2 n1 n2 fr w e x w' :
  Conditional (Some f) (map Some l1) = Done n1 ->
  Conditional (Some f) (map Some (l1 ++ l2)) = Done n2 ->
  run E (render n1 fr None) w = ((Some e, x), w') ->
  run E (render n2 fr None) w = ((Some e, x), w').
Proof.
  assert (S : forall l : list (node U), all_some (map Some l) = Some l).
  { induction l as [|a l IH]; [reflexivity|]. cbn. rewrite IH. reflexivity. }
  unfold Conditional. rewrite !S. intros H1 H2. injection H1 as <-. injection H2 as <-. cbn [render run].
  assert (N : non_attrs (l1 ++ l2) = non_attrs l1 ++ non_attrs l2) by (unfold non_attrs; apply filter_app).
  rewrite N. destruct (f (view fr None) (w_u w)) as [[] u']; [|auto]. apply until_stops.
Qed.

(** An element returns the error of the last Imperative in it, provided that
    what follows inside the element has no values.  Missing: elements with text
    or attribute values after it, for which it is false ([C54_refuted]). *)
Lemma silent_run E n fr e0 w : tame no_data n ->
  fst (run E (render n fr (Some e0)) w) = (Some e0, Some e0).
Proof.
  intro T.
  assert (R : forall n, tame no_data n -> forall fr e,
             keeps2 E (fun e h => e = Some e0) e (render n fr e)).
  { apply (render_keeps E no_data (fun e h => e = Some e0)).
    - intros h d H. discriminate.
    - intros err h d [].
    - intros x h l _ H. discriminate. }
  pose proof (R n T fr (Some e0) w) as X.
  destruct (run _ _ _) as [[r e] w']. cbn [fst snd] in *. destruct X as [-> ->]; auto.
Qed.
Lemma assign_silent E fr e0 : forall l w, all (tame no_data) l ->
  fst (run E (each_assign (fun c e => render c fr e) l (Some e0)) w) = Some e0.
Proof.
  induction l as [|n l IH]; intros w H; [reflexivity|]. destruct H as [H1 H2].
  change (fst (run E ('(x, _) <- render n fr (Some e0) ;; each_assign (fun c e => render c fr e) l x) w) = Some e0).
  rewrite run_bind. pose proof (silent_run E n fr e0 w H1) as S.
  destruct (run E (render n fr (Some e0)) w) as [[x y] w']. injection S as -> ->. apply IH. auto.
Qed.
Theorem C54_element_partial E name l1 p l2 fr err w e :
  (forall r, ends p r -> r = Some e) -> all (tame no_data) l2 ->
  fst (run E (render (mk_element name (l1 ++ Imperative (Some p) :: l2)) fr err) w) = (Some e, Some e).
Proof.
  intros Hp Hl. unfold mk_element. rewrite attributes_deciding.
  destruct (add_attributes _) as [attrs idx]. cbn [render]. rewrite filter_app.
  assert (A : forall c d w, fst (run E (ctx_write d (Some c)) w) = @Some error c) by reflexivity.
  rewrite run_bind. destruct (run E (ctx_write _ _) w) as [e1 w1].
  rewrite run_bind. destruct (run E (ctx_write _ _) w1) as [e2 w2].
  rewrite run_bind. destruct (run E (render_attributes _ _ _ _ _) w2) as [e3 w3].
  rewrite run_bind. destruct (run E (ctx_write _ _) w3) as [e4 w4].
  set (l1' := filter _ l1). clearbody l1'.
  assert (X : forall l1 e4 w4, fst (run E (each_assign (fun c e => render c fr e)
     (l1 ++ filter (fun n => negb (is_attr n)) (Imperative (Some p) :: l2)) e4) w4) = Some e).
  { clear - Hp Hl. induction l1 as [|c l IH]; intros e4 w4.
    - cbn [app filter is_attr Imperative negb].
      set (l2' := filter _ l2).
      change (fst (run E ('(x, _) <- render (Imperative (Some p)) fr e4 ;; each_assign (fun c e => render c fr e) l2' x) w4) = Some e).
      rewrite run_bind. pose proof (C54_always E p fr e4 w4 (Some e) Hp) as Y.
      destruct (run E (render (Imperative (Some p)) fr e4) w4) as [[x y] w5]. cbn [fst] in Y. subst x.
      apply assign_silent. subst l2'. clear - Hl. induction l2 as [|c l IH]; [exact I|]. destruct Hl as [H1 H2]. cbn [filter].
      destruct (negb (is_attr c)); [split|]; auto.
    - cbn [app].
      match goal with |- fst (run E (each_assign _ (c :: ?t) e4) w4) = _ =>
        change (fst (run E ('(x, _) <- render c fr e4 ;; each_assign (fun c e => render c fr e) t x) w4) = Some e) end.
      rewrite run_bind. destruct (run E (render c fr e4) w4) as [[x y] w5]. apply IH. }
  rewrite run_bind. pose proof (X l1' e4 w4) as Y.
  destruct (run E (each_assign _ _ _) w4) as [e5 w5]. cbn [fst] in Y. subst e5. reflexivity.
Qed.

(** Deeper down. *)
Lemma failing_not_attr before R n : failing before R n -> is_attr n = false.
Proof.
  intro F. destruct F as [p H|name l1 n l2 _ _ _|l1 n l2 _ _|f l1 n l2 m _ _ _ C|f l1 n l2 m _ _ _ C]; try reflexivity.
  - unfold mk_element. destruct (attributes_and_contents _) as [[? ?] ?]. destruct (add_attributes _). reflexivity.
  - unfold Conditional in C. destruct (all_some _); inversion C; reflexivity.
  - unfold Iterate in C. destruct (all_some _); inversion C; reflexivity.
Qed.
Lemma all_some_app (l1 : list (node U)) n l2 l :
  all_some (map Some l1 ++ Some n :: l2) = Some l -> exists l2', l = l1 ++ n :: l2'.
Proof.
  revert l; induction l1 as [|c l1 IH]; intros l H; cbn in H.
  - destruct (all_some l2) as [l2'|]; inversion H. exists l2'. reflexivity.
  - destruct (all_some (map Some l1 ++ Some n :: l2)) as [l'|]; inversion H.
    destruct (IH l' eq_refl) as [l2' ->]. exists l2'. reflexivity.
Qed.
Lemma non_attrs_around l1 n l2 : is_attr n = false ->
  non_attrs (l1 ++ n :: l2) = non_attrs l1 ++ n :: @non_attrs W l2.
Proof. intro H. unfold non_attrs. rewrite filter_app. cbn [filter]. rewrite H. reflexivity. Qed.
Lemma Forall_non_attrs (P : node U -> Prop) l : Forall P l -> Forall P (non_attrs l).
Proof.
  unfold non_attrs. induction 1 as [|c l H _ IH]; [constructor|]. cbn [filter]. destruct (negb _); auto.
Qed.

Section Failing.
Variables (E : @env) (before : node U -> Prop) (R : error -> Prop) (Inv : option error -> Prop).
Hypothesis Hnone : Inv None.
Hypothesis Hsome : forall x, Inv (Some x) -> R x.
Hypothesis Hbefore : forall n fr e w, before n -> Inv e ->
  let '((r, e'), _) := run E (render n fr e) w in
  Inv r /\ Inv e' /\ (forall x, r = Some x -> R x).
Hypothesis Hwrite : forall d e w, Inv e -> Inv (fst (run E (ctx_write d e) w)).
Hypothesis Hattrs : forall fr attrs idx conds e w, Inv e -> Inv (fst (run E (render_attributes fr attrs idx conds e) w)).

Definition fails_here (n : node U) : Prop :=
  forall fr e w, Inv e -> exists x, fst (fst (run E (render n fr e) w)) = Some x /\ R x.

Lemma assign_fails fr n l2 : fails_here n -> all (tame no_data) l2 -> forall l1 e w,
  Forall before l1 -> Inv e ->
  exists x, fst (run E (each_assign (fun c e => render c fr e) (l1 ++ n :: l2) e) w) = Some x /\ R x.
Proof.
  intros F T. induction l1 as [|c l1 IH]; intros e w H I; cbn [app].
  - change (exists x, fst (run E ('(x, _) <- render n fr e ;; each_assign (fun c e => render c fr e) l2 x) w) = Some x /\ R x).
    rewrite run_bind. destruct (F fr e w I) as (x & X & HR). exists x. split; [|exact HR].
    destruct (run E (render n fr e) w) as [[r e'] w']. cbn [fst] in X. subst r. apply assign_silent. exact T.
  - inversion H as [|? ? Hc Hl]; subst.
    change (exists x, fst (run E ('(x, _) <- render c fr e ;; each_assign (fun c e => render c fr e) (l1 ++ n :: l2) x) w) = Some x /\ R x).
    rewrite run_bind. pose proof (Hbefore c fr e w Hc I) as B.
    destruct (run E (render c fr e) w) as [[r e'] w']. apply IH; [exact Hl|tauto].
Qed.
Lemma until_fails fr n l2 : fails_here n -> forall l1 e w,
  Forall before l1 -> Inv e ->
  exists x, fst (fst (run E (each_until (fun c e => render c fr e) (l1 ++ n :: l2) e) w)) = Some x /\ R x.
Proof.
  intros F. induction l1 as [|c l1 IH]; intros e w H I; cbn [app].
  - change (exists x, fst (fst (run E ('(x, _) <- render n fr e ;;
      match x with None => each_until (fun c e => render c fr e) l2 None | Some x => Ret (Some x, Some x) end) w)) = Some x /\ R x).
    rewrite run_bind. destruct (F fr e w I) as (x & X & HR).
    destruct (run E (render n fr e) w) as [[r e'] w']. cbn [fst] in X. subst r. exists x. auto.
  - inversion H as [|? ? Hc Hl]; subst.
    change (exists x, fst (fst (run E ('(x, _) <- render c fr e ;;
      match x with None => each_until (fun c e => render c fr e) (l1 ++ n :: l2) None | Some x => Ret (Some x, Some x) end) w)) = Some x /\ R x).
    rewrite run_bind. pose proof (Hbefore c fr e w Hc I) as B.
    destruct (run E (render c fr e) w) as [[[x|] e'] w']; [|apply IH; auto].
    exists x. split; [reflexivity|]. apply B. reflexivity.
Qed.
Lemma content_until_fails fr n l2 : fails_here n -> is_attr n = false -> forall l1 e w,
  Forall before l1 -> Inv e ->
  exists x, fst (fst (run E (each_content_until (fun c e => render c fr e) (l1 ++ n :: l2) e) w)) = Some x /\ R x.
Proof.
  intros F A. induction l1 as [|c l1 IH]; intros e w H I; cbn [app].
  - change (exists x, fst (fst (run E (if is_attr n then each_content_until (fun c e => render c fr e) l2 e else '(x, _) <- render n fr e ;;
      match x with None => each_content_until (fun c e => render c fr e) l2 None | Some x => Ret (Some x, Some x) end) w)) = Some x /\ R x).
    rewrite A, run_bind. destruct (F fr e w I) as (x & X & HR).
    destruct (run E (render n fr e) w) as [[r e'] w']. cbn [fst] in X. subst r. exists x. auto.
  - inversion H as [|? ? Hc Hl]; subst.
    change (exists x, fst (fst (run E (if is_attr c then each_content_until (fun c e => render c fr e) (l1 ++ n :: l2) e else '(x, _) <- render c fr e ;;
      match x with None => each_content_until (fun c e => render c fr e) (l1 ++ n :: l2) None | Some x => Ret (Some x, Some x) end) w)) = Some x /\ R x).
    destruct (is_attr c); [apply IH; auto|].
    rewrite run_bind. pose proof (Hbefore c fr e w Hc I) as B.
    destruct (run E (render c fr e) w) as [[[x|] e'] w']; [|apply IH; auto].
    exists x. split; [reflexivity|]. apply B. reflexivity.
Qed.
Lemma item_fails fr n l2 : fails_here n -> forall l1 e w,
  Forall before l1 -> Inv e ->
  exists x, fst (fst (run E (each_item (fun c e => render c fr e) (l1 ++ n :: l2) e) w)) = Some x /\ R x.
Proof.
  intros F. induction l1 as [|c l1 IH]; intros e w H I; cbn [app].
  - change (exists x, fst (fst (run E ('(x, e') <- render n fr e ;;
      match x with None => each_item (fun c e => render c fr e) l2 e' | Some x => Ret (Some x, e') end) w)) = Some x /\ R x).
    rewrite run_bind. destruct (F fr e w I) as (x & X & HR).
    destruct (run E (render n fr e) w) as [[r e'] w']. cbn [fst] in X. subst r. exists x. auto.
  - inversion H as [|? ? Hc Hl]; subst.
    change (exists x, fst (fst (run E ('(x, e') <- render c fr e ;;
      match x with None => each_item (fun c e => render c fr e) (l1 ++ n :: l2) e' | Some x => Ret (Some x, e') end) w)) = Some x /\ R x).
    rewrite run_bind. pose proof (Hbefore c fr e w Hc I) as B.
    destruct (run E (render c fr e) w) as [[[x|] e'] w']; [|apply IH; tauto].
    exists x. split; [reflexivity|]. apply B. reflexivity.
Qed.

Lemma failing_fails n : failing before R n -> fails_here n.
Proof.
  induction 1 as [p Hp|name l1 n l2 H1 Hn IH H2|l1 n l2 H1 Hn IH|f l1 n l2 m Hf H1 Hn IH C|f l1 n l2 m Hf H1 Hn IH C];
    intros fr e w I.
  - destruct (Hp _ (C54_result E p fr e w)) as (x & X & HR). exists x. auto.
  - pose proof (failing_not_attr _ _ _ Hn) as A.
    unfold mk_element. rewrite attributes_deciding. destruct (add_attributes _) as [attrs idx]. cbn [render].
    change (filter (fun n => negb (is_attr n))) with (@non_attrs W). rewrite (non_attrs_around _ _ _ A).
    rewrite run_bind. pose proof (Hwrite (B "<") e w I) as I1. destruct (run E (ctx_write _ _) w) as [e1 w1]. cbn [fst] in I1.
    rewrite run_bind. pose proof (Hwrite name e1 w1 I1) as I2. destruct (run E (ctx_write _ _) w1) as [e2 w2]. cbn [fst] in I2.
    rewrite run_bind. pose proof (Hattrs fr attrs idx (deciding spare (l1 ++ n :: l2)) e2 w2 I2) as I3.
    destruct (run E (render_attributes _ _ _ _ _) w2) as [e3 w3]. cbn [fst] in I3.
    rewrite run_bind. pose proof (Hwrite (B ">") e3 w3 I3) as I4. destruct (run E (ctx_write _ _) w3) as [e4 w4]. cbn [fst] in I4.
    rewrite run_bind.
    assert (T : all (tame no_data) (non_attrs l2)).
    { rewrite all_In in *. intros c Hc. apply filter_In in Hc as [Hc _]. auto. }
    destruct (assign_fails fr n (non_attrs l2) IH T (non_attrs l1) e4 w4 (Forall_non_attrs _ _ H1) I4) as (x & X & HR).
    destruct (run E (each_assign _ _ _) w4) as [e5 w5]. cbn [fst] in X. subst e5. exists x. split; [reflexivity|exact HR].
  - unfold Collection. cbn [render].
    assert (S : somes (map Some l1 ++ Some n :: l2) = l1 ++ n :: somes l2).
    { unfold somes. rewrite flat_map_app. f_equal. clear. induction l1; cbn; congruence. }
    rewrite S. apply content_until_fails; auto. apply (failing_not_attr _ _ _ Hn).
  - unfold Conditional in C. destruct (all_some _) as [l|] eqn:S; inversion C; subst m. clear C.
    apply all_some_app in S as [l2' ->]. rewrite (non_attrs_around _ _ _ (failing_not_attr _ _ _ Hn)).
    cbn [render run]. specialize (Hf (view fr e) (w_u w)). destruct (f (view fr e) (w_u w)) as [b u']. cbn [fst] in Hf. subst b.
    apply until_fails; auto. apply Forall_non_attrs. exact H1.
  - unfold Iterate in C. destruct (all_some _) as [l|] eqn:S; inversion C; subst m. clear C.
    apply all_some_app in S as [l2' ->]. rewrite (non_attrs_around _ _ _ (failing_not_attr _ _ _ Hn)).
    cbn [render]. destruct e as [x|]; [exists x; auto|]. cbn [run].
    specialize (Hf (view fr None) (w_u w)). destruct (f (view fr None) (w_u w)) as [items u']. cbn [fst] in Hf.
    destruct items as [|item items]; [exfalso; auto|]. cbn [iter_loop]. rewrite run_bind.
    set (ifr := Frame _ _ _). set (w' := World _ _ _).
    destruct (item_fails ifr n (non_attrs l2') IH (non_attrs l1) None w' (Forall_non_attrs _ _ H1) I) as (x & X & HR).
    destruct (run E (each_item _ _ _) w') as [[r e'] w'']. cbn [fst] in X. subst r. exists x. auto.
Qed.
End Failing.

(** However deep the function is: if it always returns an error and is always
    reached, rendering returns an error, for every writer, context and state.
    Missing: functions with values after them in an element, or whose result is
    ignored ([C54_refuted], [C54_ignored_refuted]). *)
Theorem C54_nested_partial E n fr err w :
  failing (fun _ => True) (fun _ => True) n -> fst (fst (run E (render n fr err) w)) <> None.
Proof.
  intro F. destruct (failing_fails E (fun _ => True) (fun _ => True) (fun _ => True)) with (n := n) (fr := fr) (e := err) (w := w)
    as (x & X & _); auto.
  - intros m fr' e' w' _ _. destruct (run E (render m fr' e') w') as [[r y] w'']. auto.
  - rewrite X. discriminate.
Qed.
(** ... and it is the function's error if the writer accepts everything and the
    functions before it return ctx.Error. *)
Theorem C54_nested_exact_partial o n fr w e :
  failing (tame any_data) (eq e) n -> fst (fst (run (Env healthy o) (render n fr None) w)) = Some e.
Proof.
  intro F.
  assert (HW : forall h d, (fun (e : option error) (h : list wcall) => e = None) None h ->
    (fun (e : option error) (h : list wcall) => e = None) (snd (e_wr (Env healthy o) h d)) (answer (Env healthy o) h d)) by reflexivity.
  assert (TV : forall vs, tame_vals any_data vs) by (intros vs v d _ _; exact I).
  assert (TA : forall a, tame_attr any_data a) by (intros [n0 vs|n0|n0 d vs]; cbn [tame_attr]; auto).
  assert (ALL : forall l, all (tame_attr any_data) l) by (intro l; rewrite all_In; auto).
  destruct (failing_fails (Env healthy o) (tame any_data) (eq e) (fun x => x = None)) with (n := n) (fr := fr) (e := @None error) (w := w)
    as (x & X & HR); auto.
  - intros; discriminate.
  - intros m fr' e' w' T I'.
    pose proof (render_keeps (Env healthy o) any_data (fun e h => e = None) HW (fun err h d _ _ => HW h d eq_refl) (fun x h l H _ => H) m T fr' e' w') as K.
    destruct (run (Env healthy o) (render m fr' e') w') as [[r y] w'']. cbn [fst snd] in K.
    destruct (K I') as [K1 K2]. subst. repeat split. intros; discriminate.
  - intros d e' w' ->. reflexivity.
  - intros fr' attrs idx conds e' w' I'.
    pose proof (keeps_attributes (Env healthy o) any_data (fun e h => e = None) HW (fun err h d _ _ => HW h d eq_refl) fr' attrs idx conds e' (ALL _)) as K.
    assert (T2 : all (fun ca : attr U * list (condfn U) => tame_attr any_data (fst ca)) conds) by (rewrite all_In; auto).
    specialize (K T2 w'). destruct (run _ _ w') as [r w'']. cbn [fst] in *. apply K. exact I'.
  - rewrite X, HR. reflexivity.
Qed.

End Return.

(** ** Examples and refutations *)

Definition oops : iprog (@U demo) := IWriteRaw (B "x") (IRet (Some 7)).
Example oops_ends : forall r, ends oops r -> r = Some 7.
Proof. intros r H. inversion H as [| | |d k e H1| | | | | | |]; subst. inversion H1; subst. reflexivity. Qed.
Example C54_example :
  outcome_of (Env healthy listed) (Imperative (Some oops)) fr0 None (st 0, 0)
    = (Some 7, None, [WCall (B "x") 1 None]) /\
  fst (outcome_of (Env healthy listed) (Collection [Some (Imperative (Some oops)); Some (mk_element (B "p") [])]) fr0 None (st 0, 0))
    = (Some 7, Some 7) /\
  outcome_of (Env healthy listed) (mk_element (B "p") [Imperative (Some oops); mk_element (B "b") []]) fr0 None (st 0, 0)
    = (Some 7, Some 7, [WCall (B "<") 1 None; WCall (B "p") 1 None; WCall (B ">") 1 None; WCall (B "x") 1 None]).
Proof. repeat split; vm_compute; reflexivity. Qed.

(** C54 as stated is false: text after the function, inside an element, makes
    the error disappear (Value.render overwrites ctx.Error). *)
Definition said (s : bytes) : node (@U demo) := NText [Val s None []].
Example C54_nested_example :
  let inner := Collection (map Some [said (B "y")] ++ Some (Imperative (Some oops)) :: [Some (said (B "z"))]) in
  let n := mk_element (B "p") ([said (B "t")] ++ inner :: [mk_element (B "b") []]) in
  failing (tame any_data) (eq 7) n /\
  fst (outcome_of (Env healthy listed) n fr0 None (st 0, 0)) = (Some 7, Some 7) /\
  accepted (snd (outcome_of (Env healthy listed) n fr0 None (st 0, 0))) = B "<p>tyx".
Proof.
  split; [|split; vm_compute; reflexivity].
  assert (T : forall b, tame any_data (said b)) by (intro b; unfold said; cbn [tame]; intros v d _ _; exact I).
  apply failing_element; [repeat constructor; apply T| |vm_compute; tauto].
  apply failing_collection; [repeat constructor; apply T|].
  apply failing_imperative. intros r H. exists 7. split; auto. apply oops_ends. exact H.
Qed.
Theorem C54_refuted : exists p (n : node (@U demo)) l,
  (forall r, ends p r -> r = Some 7) /\
  n = mk_element (B "p") [Imperative (Some p); said (B "y")] /\
  outcome_of (Env healthy listed) n fr0 None (st 0, 0) = (None, None, l) /\ accepted l = B "<p>xy</p>".
Proof.
  exists oops. eexists _, _. split; [exact oops_ends|]. split; [reflexivity|]. split; vm_compute; reflexivity.
Qed.
(** WriteNodes, ContentCollect and Document ignore it altogether. *)
Theorem C54_ignored_refuted : exists p,
  (forall r, @ends demo p r -> r = Some 7) /\
  (fst (outcome_of (Env healthy listed)
     (Imperative (Some (IWriteNodes [Some (Imperative (Some p))] (IRead (fun c u => (IRet (c_error c), u)))))) fr0 None (st 0, 0))
   = (None, None)) /\
  (fst (outcome_of (Env healthy listed) (NCollect (fun _ u => ([Some (Imperative (Some p))], u))) fr0 None (st 0, 0))
   = (None, None)) /\
  (fst (outcome_of (Env healthy listed) (NDocument None [Imperative (Some p)]) fr0 None (st 0, 0)) = (None, None)).
Proof. exists oops. split; [exact oops_ends|]. repeat split; vm_compute; reflexivity. Qed.

(** C50: a nil function forgets the error the context is in.  In an element this
    makes the end tag appear although the start tag did not. *)
Theorem C50_nil_function_refuted : exists l,
  outcome_of (Env healthy listed) (mk_element (B "p") [@Imperative demo None]) fr0 (Some 7) (st 0, 0) = (None, None, l) /\
  accepted l = B "</p>".
Proof. eexists. split; vm_compute; reflexivity. Qed.
Theorem C50_nil_function_alone E fr err w :
  run E (render (@Imperative demo None) fr err) w = ((None, err), w).
Proof. reflexivity. Qed.
