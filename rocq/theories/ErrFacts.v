(** A proof rule for invariants that relate ctx.Error to the writer's history. *)
From Verif Require Import Bytes IO IOFacts Escape Nodes NodeInd Values Render SpecOut SpecErr
  RenderFacts ApiFacts.

Section Rule.
Context {W : UserWorld}.
Variable E : env.
Variable vals : bytes -> Prop.
(** [J err h]: the relation, for ctx.Error and the calls made so far. *)
Variable J : option error -> list wcall -> Prop.

Definition answer (h : list wcall) (d : bytes) : list wcall :=
  h ++ [WCall d (fst (e_wr E h d)) (snd (e_wr E h d))].
(** Kept by Context.Write, by Value.render's direct write, and when an earlier
    error is kept while a nil one is fine too. *)
Hypothesis HW : forall h d, J None h -> J (snd (e_wr E h d)) (answer h d).
Hypothesis HV : forall err h d, vals d -> J err h -> J (snd (e_wr E h d)) (answer h d).
(** ([yields]: may the template contain IterateYield?) *)
Variable yields : bool.
Hypothesis HM : yields = true -> forall x h l, J x h -> J None (h ++ l) -> J x (h ++ l).

Definition keeps (err : option error) (p : io U (option error)) : Prop :=
  forall w, J err (w_log w) -> J (fst (run E p w)) (w_log (snd (run E p w))).
Definition keeps2 (err : option error) (p : io U (option error * option error)) : Prop :=
  forall w, J err (w_log w) ->
    J (fst (fst (run E p w))) (w_log (snd (run E p w))) /\
    J (snd (fst (run E p w))) (w_log (snd (run E p w))).

Lemma keeps_ret e : keeps e (Ret e).
Proof. intros w H. exact H. Qed.
Lemma keeps2_ret e : keeps2 e (Ret (e, e)).
Proof. intros w H. split; exact H. Qed.
Lemma keeps_bind err p f : keeps err p -> (forall e, keeps e (f e)) -> keeps err (bind p f).
Proof.
  intros Hp Hf w H. rewrite run_bind. specialize (Hp w H). destruct (run E p w) as [e w'].
  apply Hf. exact Hp.
Qed.
Lemma keeps_bind2 err p (f : option error -> io U (option error * option error)) :
  keeps err p -> (forall e, keeps2 e (f e)) -> keeps2 err (bind p f).
Proof.
  intros Hp Hf w H. rewrite run_bind. specialize (Hp w H). destruct (run E p w) as [e w'].
  apply Hf. exact Hp.
Qed.
(** Sequencing after a pair: [f] continues from either component. *)
Lemma keeps2_fst err p (f : option error -> io U (option error)) :
  keeps2 err p -> (forall e, keeps e (f e)) -> keeps err (bind p (fun x => f (fst x))).
Proof.
  intros Hp Hf w H. rewrite run_bind. destruct (Hp w H) as [H1 _]. destruct (run E p w) as [[x e] w'].
  apply Hf. exact H1.
Qed.
Lemma keeps2_snd err p (f : option error -> io U (option error)) :
  keeps2 err p -> (forall e, keeps e (f e)) -> keeps err (bind p (fun x => f (snd x))).
Proof.
  intros Hp Hf w H. rewrite run_bind. destruct (Hp w H) as [_ H1]. destruct (run E p w) as [[x e] w'].
  apply Hf. exact H1.
Qed.
Lemma keeps_cb err (k : U -> io U (option error) * U) :
  (forall u, keeps err (fst (k u))) -> keeps err (Cb k).
Proof.
  intros H w Hw. cbn [run]. specialize (H (w_u w)). destruct (k (w_u w)) as [p u']. apply H. exact Hw.
Qed.
Lemma keeps2_cb err (k : U -> io U (option error * option error) * U) :
  (forall u, keeps2 err (fst (k u))) -> keeps2 err (Cb k).
Proof.
  intros H w Hw. cbn [run]. specialize (H (w_u w)). destruct (k (w_u w)) as [p u']. apply H. exact Hw.
Qed.

Lemma keeps_write d err : keeps err (ctx_write d err).
Proof.
  destruct err as [e|]; [apply keeps_ret|]. intros w H. cbn [ctx_write run].
  specialize (HW (w_log w) d H). unfold answer in HW.
  destruct (e_wr E (w_log w) d) as [n x]. cbn [run fst snd w_log] in *. exact HW.
Qed.

(** Values. *)
Definition keepsv (err : option error) (p : io U (bool * option error)) : Prop :=
  forall w, J err (w_log w) -> J (snd (fst (run E p w))) (w_log (snd (run E p w))).
Lemma may_write_in c cs b d : In c cs -> may_write c d -> may_write (Val b None cs) d.
Proof.
  destruct cs as [|x cs]; [intros []|]. cbn [may_write]. revert x; induction cs as [|y cs IH]; intros x [<-|H] M; auto.
Qed.
Lemma keeps_value fr v err : (forall d, may_write v d -> vals d) -> keepsv err (value_render fr v err).
Proof.
  intro V. revert err. induction v as [b dyn cs F] using value_ind'; intro err.
  destruct dyn as [f|].
  - intros w H. cbn [value_render run].
    pose proof (HV err (w_log w) (fst (f (view fr err) (w_u w)))) as X.
    destruct (f (view fr err) (w_u w)) as [d u'] eqn:Ef. cbn [run w_log fst] in *.
    unfold answer in X. destruct (e_wr E (w_log w) d) as [n x]. apply X; auto.
    apply V. exists (view fr err), (w_u w). rewrite Ef. reflexivity.
  - destruct cs as [|c cs].
    + intros w H. cbn [value_render run].
      pose proof (HV err (w_log w) b (V b eq_refl) H) as X. unfold answer in X.
      destruct (e_wr E (w_log w) b) as [n x]. exact X.
    + change (keepsv err (vgo fr (c :: cs) 0 err)).
      assert (V' : forall x, In x (c :: cs) -> forall d, may_write x d -> vals d).
      { intros x Hx d M. apply V. eapply may_write_in; eauto. }
      clear V. generalize 0. revert err.
      induction F as [|x l Hx _ IH]; intros err n w H; cbn [vgo].
      * exact H.
      * rewrite run_bind. specialize (Hx (V' x (or_introl eq_refl)) err w H).
        destruct (run E (value_render fr x err) w) as [[b1 e1] w1]. apply IH; [|exact Hx].
        intros y Hy. apply V'. right. exact Hy.
Qed.

Lemma tame_inv v vs : tame_vals vals (v :: vs) -> (forall d, may_write v d -> vals d) /\ tame_vals vals vs.
Proof. intro H. split; [intros d; apply (H v d); left; reflexivity|intros x d Hx; apply (H x d); right; exact Hx]. Qed.

Lemma keeps_values fr vs err : tame_vals vals vs -> keeps err (values_render fr vs err).
Proof.
  revert err. induction vs as [|v vs IH]; intros err T.
  - apply keeps_ret.
  - apply tame_inv in T as [T1 T2]. intros w H. cbn [values_render]. rewrite run_bind.
    pose proof (keeps_value fr v err T1 w H) as X.
    destruct (run E (value_render fr v err) w) as [[b1 e1] w1]. apply IH; auto.
Qed.

Lemma keeps_delim fr d vs something err : tame_vals vals vs -> keeps err (delim_render fr d vs something err).
Proof.
  revert something err. induction vs as [|v vs IH]; intros something err T.
  - apply keeps_ret.
  - apply tame_inv in T as [T1 T2]. cbn [delim_render]. apply keeps_bind.
    + destruct something; [apply keeps_write|apply keeps_ret].
    + intros e w H. rewrite run_bind. pose proof (keeps_value fr v e T1 w H) as X.
      destruct (run E (value_render fr v e) w) as [[b1 e1] w1]. apply IH; auto.
Qed.

Ltac step := apply keeps_bind; [apply keeps_write|intro].

Lemma keeps_attr fr a err : tame_attr vals a -> keeps err (attr_render fr a err).
Proof.
  intro T. destruct a as [name vs|name|name d vs]; cbn [attr_render].
  - do 3 step. apply keeps_bind; [apply keeps_values; exact T|intro]. apply keeps_write.
  - step. apply keeps_write.
  - do 3 step. apply keeps_bind; [apply keeps_delim; exact T|intro]. apply keeps_write.
Qed.

(** Attributes of a tag. *)
Lemma tame_app vs1 vs2 : tame_vals vals vs1 -> tame_vals vals vs2 -> tame_vals vals (vs1 ++ vs2).
Proof. intros H1 H2 v d Hv. apply in_app_or in Hv as [Hv|Hv]; [apply H1|apply H2]; exact Hv. Qed.
Lemma tame_nil : tame_vals vals [].
Proof. intros v d []. Qed.
Lemma tame_values_of (l : list (attr U)) : all (tame_attr vals) l -> tame_vals vals (all_values l).
Proof.
  induction l as [|a l IH]; intro H; [apply tame_nil|]. destruct H as [H1 H2].
  destruct a as [n vs|n|n d vs]; unfold all_values; cbn [flat_map attr_values].
  - apply tame_app; [exact H1|apply IH; exact H2].
  - apply IH; exact H2.
  - apply tame_app; [exact H1|apply IH; exact H2].
Qed.
Lemma tame_last (l : list (attr U)) d : tame_attr vals d -> all (tame_attr vals) l -> tame_attr vals (last l d).
Proof.
  revert d; induction l as [|a l IH]; intros d H1 H2; [exact H1|]. destruct H2 as [H2 H3].
  cbn [last]. destruct l; [exact H2|]. apply IH; auto.
Qed.
Lemma tame_resolve_static a es :
  tame_attr vals a -> all (tame_attr vals) es -> tame_attr vals (resolve_static a es).
Proof.
  intros H1 H2. destruct a as [n vs|n|n d vs]; cbn [resolve_static];
    try (apply tame_last; auto). apply tame_app; [exact H1|apply tame_values_of; auto].
Qed.
Lemma tame_resolve_dynamic a es :
  tame_attr vals a -> all (tame_attr vals) es -> tame_attr vals (resolve_dynamic a es).
Proof.
  intros H1 H2. destruct a as [n vs|n|n d vs]; cbn [resolve_dynamic];
    try (apply tame_last; auto). apply tame_app; [exact H1|apply tame_values_of; auto].
Qed.

Lemma keeps_attrs fr attrs err : all (tame_attr vals) attrs -> keeps err (attrs_render fr attrs err).
Proof.
  revert err; induction attrs as [|a attrs IH]; intros err H; cbn [attrs_render]; [apply keeps_ret|].
  destruct H as [H1 H2]. apply keeps_bind; [apply keeps_attr; auto|intro; apply IH; auto].
Qed.

Lemma all_ev ev name : all (tame_attr vals) ev -> all (tame_attr vals) (ev_get ev name).
Proof. rewrite !all_In. intros H a Ha. apply filter_In in Ha as [Ha _]. auto. Qed.

Lemma keeps_static fr attrs idx ev names err :
  all (tame_attr vals) attrs -> all (tame_attr vals) ev ->
  keeps err (static_loop fr attrs idx ev names err).
Proof.
  intros Ha He. revert err; induction names as [|n names IH]; intro err; cbn [static_loop]; [apply keeps_ret|].
  apply keeps_bind; [|intro; apply IH].
  destruct (idx_get idx n) as [i|]; [|apply keeps_ret].
  destruct (nth_error attrs i) as [a|] eqn:Ea; [|apply keeps_ret].
  assert (T : tame_attr vals a). { rewrite all_In in Ha. apply Ha. eapply nth_error_In; eauto. }
  pose proof (all_ev ev n He) as Te.
  destruct (ev_get ev n) as [|x l]; apply keeps_attr; auto. apply tame_resolve_static; auto.
Qed.
Lemma keeps_dynamic fr idx ev names err :
  all (tame_attr vals) ev -> keeps err (dynamic_loop fr idx ev names err).
Proof.
  intros He. revert err; induction names as [|n names IH]; intro err; cbn [dynamic_loop]; [apply keeps_ret|].
  apply keeps_bind; [|intro; apply IH].
  destruct (idx_get idx n) as [i|]; [apply keeps_ret|].
  pose proof (all_ev ev n He) as Te.
  destruct (ev_get ev n) as [|x l]; [apply keeps_ret|]. destruct Te. apply keeps_attr, tame_resolve_dynamic; auto.
Qed.

Lemma conds_log fr err cs w : w_log (snd (run E (conds_eval fr err cs) w)) = w_log w.
Proof.
  revert w; induction cs as [|f cs IH]; intro w; cbn [conds_eval run]; [reflexivity|].
  destruct (f (view fr err) (w_u w)) as [b u']. destruct b; [rewrite IH|]; reflexivity.
Qed.
Lemma active_log fr err cas w :
  w_log (snd (run E (active_attrs fr err cas) w)) = w_log w /\
  (all (fun ca => tame_attr vals (fst ca)) cas -> all (tame_attr vals) (fst (run E (active_attrs fr err cas) w))).
Proof.
  revert w; induction cas as [|[a cs] cas IH]; intro w; cbn [active_attrs]; [split; auto|].
  rewrite run_bind. pose proof (conds_log fr err cs w) as C.
  destruct (run E (conds_eval fr err cs) w) as [b w1]. cbn [snd] in C. rewrite run_bind.
  destruct (IH w1) as [I1 I2]. destruct (run E (active_attrs fr err cas) w1) as [l w2].
  cbn [run fst snd] in *. split; [congruence|]. intros [H1 H2]. destruct b; [split|]; auto.
Qed.

Lemma keeps_attributes fr attrs idx conds err :
  all (tame_attr vals) attrs -> all (fun ca => tame_attr vals (fst ca)) conds ->
  keeps err (render_attributes fr attrs idx conds err).
Proof.
  intros Ha Hc w H. unfold render_attributes. rewrite run_bind.
  destruct (active_log fr err conds w) as [A1 A2]. specialize (A2 Hc).
  destruct (run E (active_attrs fr err conds) w) as [ev w1]. cbn [fst snd] in *. rewrite <- A1 in H.
  destruct ev as [|x ev]; [apply keeps_attrs; auto|].
  cbn [run]. rewrite run_bind.
  pose proof (keeps_static fr attrs idx (x :: ev) (e_ord E (w_tick w1) (map fst idx)) err Ha A2
    (World (w_log w1) (w_u w1) (S (w_tick w1))) H) as X.
  destruct (run E (static_loop _ _ _ _ _ _) _) as [e2 w2]. cbn [run].
  apply (keeps_dynamic fr idx (x :: ev) (e_ord E (w_tick w2) (ev_names (x :: ev))) e2 A2
    (World (w_log w2) (w_u w2) (S (w_tick w2)))). exact X.
Qed.

(** Imperative tags. *)
Definition tame_entry (p : bytes * option (list (value U))) : Prop :=
  match snd p with Some vs => tame_vals vals vs | None => True end.
Lemma keeps_start_render fr l err : all tame_entry l -> keeps err (start_render fr l err).
Proof.
  revert err; induction l as [|[n vs] l IH]; intros err H; cbn [start_render]; [apply keeps_ret|].
  destruct H as [H1 H2]. do 2 step. apply keeps_bind; [|intro; apply IH; auto].
  destruct vs as [vs|]; [|apply keeps_ret]. step.
  apply keeps_bind; [apply keeps_values; exact H1|intro; apply keeps_write].
Qed.
Lemma tame_cons v vs : (forall d, may_write v d -> vals d) -> tame_vals vals vs -> tame_vals vals (v :: vs).
Proof. intros H1 H2 x d [<-|Hx]; [apply H1|apply H2; exact Hx]. Qed.
Lemma tame_sep d : vals d -> forall x, may_write (Val d None []) x -> vals x.
Proof. intros H x E'. cbn in E'. subst x. exact H. Qed.
Lemma tame_interpose d vs : vals d -> tame_vals vals vs -> tame_vals vals (interpose d vs).
Proof.
  intro D. induction vs as [|v vs IH]; intro T; [exact T|]. destruct vs as [|v' vs]; [exact T|].
  apply tame_inv in T as [T1 T2]. change (interpose d (v :: v' :: vs)) with (v :: Val d None [] :: interpose d (v' :: vs)).
  apply tame_cons; [exact T1|]. apply tame_cons; [apply tame_sep; exact D|]. apply IH. exact T2.
Qed.
Lemma tame_append d vs : vals d -> forall avs, tame_vals vals avs -> tame_vals vals vs -> tame_vals vals (append_delim d avs vs).
Proof.
  intro D. induction vs as [|v vs IH]; intros avs A T; [exact A|]. apply tame_inv in T as [T1 T2]. cbn [append_delim].
  apply IH; [|exact T2]. apply tame_app; [|apply tame_cons; [exact T1|apply tame_nil]].
  destruct avs as [|x avs]; [exact A|]. apply tame_app; [exact A|].
  apply tame_cons; [apply tame_sep; exact D|apply tame_nil].
Qed.
Lemma tame_start_add acc a : all tame_entry acc -> tame_arg vals (Some (NAttr a)) -> all tame_entry (start_add acc a).
Proof.
  intros H T. unfold start_add. destruct (bmem (attr_name a) (map fst acc)).
  - induction acc as [|[n x] acc IH]; cbn [upd_assoc]; [exact I|]. destruct H as [H1 H2].
    destruct (beq n (attr_name a)); [|split; auto]. split; auto.
    destruct a as [m vs|m|m d vs]; unfold tame_entry in *; cbn [snd] in *; auto.
    destruct T as [T1 T2]. destruct vs as [|v vs]; [exact H1|]. destruct T2 as [T2|T2]; [discriminate|].
    apply tame_append; auto. destruct x; [exact H1|apply tame_nil].
  - rewrite all_In in *. intros p Hp. apply in_app_or in Hp as [Hp|[<-|[]]]; auto.
    destruct a as [m vs|m|m d vs]; unfold tame_entry; cbn [snd]; auto.
    destruct T as [T1 [->|T2]]; [exact T1|]. apply tame_interpose; auto.
Qed.
Lemma tame_start_attrs l acc : all tame_entry acc -> all (tame_arg vals) l -> all tame_entry (start_attrs l acc).
Proof.
  revert acc; induction l as [|x l IH]; intros acc H T; cbn [start_attrs]; [exact H|].
  destruct T as [T1 T2]. destruct x as [n|]; [|auto]. destruct n; auto.
  apply IH; auto. apply tame_start_add; auto.
Qed.
Lemma keeps_start fr name attrs err : all (tame_arg vals) attrs -> keeps err (start_tag fr name attrs err).
Proof.
  intro T. unfold start_tag. do 2 step. apply keeps_bind; [|intro; apply keeps_write].
  apply keeps_start_render. apply tame_start_attrs; auto. exact I.
Qed.
Lemma keeps_close name err : keeps err (close_tag name err).
Proof. unfold close_tag. do 2 step. apply keeps_write. Qed.
Lemma keeps_close_all st err : keeps err (close_all st err).
Proof.
  revert err; induction st as [|n st IH]; intro err; cbn [close_all]; [apply keeps_ret|].
  apply keeps_bind; [apply keeps_close|intro; apply IH].
Qed.

(** Loops over children. *)
Definition good_renderer (r : renderer) (c : node U) : Prop := forall e, keeps2 e (r c e).

Lemma keeps_each_assign r ns e :
  (forall c, In c ns -> good_renderer r c) -> keeps e (each_assign r ns e).
Proof.
  revert e; induction ns as [|c ns IH]; intros e H; [apply keeps_ret|].
  change (each_assign r (c :: ns) e) with ('(x, _) <- r c e ;; each_assign r ns x).
  intros w Hw. rewrite run_bind. destruct (H c ltac:(left; auto) e w Hw) as [H1 _].
  destruct (run E (r c e) w) as [[x e'] w']. apply IH; auto. intros; apply H; right; auto.
Qed.
Lemma keeps_each_ignore r ns e :
  (forall c, In c ns -> good_renderer r c) -> keeps e (each_ignore r ns e).
Proof.
  revert e; induction ns as [|c ns IH]; intros e H; [apply keeps_ret|].
  change (each_ignore r (c :: ns) e) with ('(_, e') <- r c e ;; each_ignore r ns e').
  intros w Hw. rewrite run_bind. destruct (H c ltac:(left; auto) e w Hw) as [_ H1].
  destruct (run E (r c e) w) as [[x e'] w']. apply IH; auto. intros; apply H; right; auto.
Qed.
Lemma keeps_each_until r ns e :
  (forall c, In c ns -> good_renderer r c) -> keeps2 e (each_until r ns e).
Proof.
  revert e; induction ns as [|c ns IH]; intros e H; [apply keeps2_ret|].
  change (each_until r (c :: ns) e) with ('(x, _) <- r c e ;;
      match x with None => each_until r ns None | Some x => Ret (Some x, Some x) end).
  intros w Hw. rewrite run_bind. destruct (H c ltac:(left; auto) e w Hw) as [H1 _].
  destruct (run E (r c e) w) as [[x e'] w']. destruct x as [x|].
  - split; exact H1.
  - apply IH; auto. intros; apply H; right; auto.
Qed.
Lemma keeps_each_content_until r ns e :
  (forall c, In c ns -> good_renderer r c) -> keeps2 e (each_content_until r ns e).
Proof.
  revert e; induction ns as [|c ns IH]; intros e H; [apply keeps2_ret|].
  change (each_content_until r (c :: ns) e) with (if is_attr c then each_content_until r ns e else
      '(x, _) <- r c e ;;
      match x with None => each_content_until r ns None | Some x => Ret (Some x, Some x) end).
  destruct (is_attr c). { apply IH. intros; apply H; right; auto. }
  intros w Hw. rewrite run_bind. destruct (H c ltac:(left; auto) e w Hw) as [H1 _].
  destruct (run E (r c e) w) as [[x e'] w']. destruct x as [x|].
  - split; exact H1.
  - apply IH; auto. intros; apply H; right; auto.
Qed.
Lemma keeps_each_content_ignore r ns e :
  (forall c, In (Some c) ns -> good_renderer r c) -> keeps e (each_content_ignore r ns e).
Proof.
  revert e; induction ns as [|[c|] ns IH]; intros e H; [apply keeps_ret| |].
  - change (each_content_ignore r (Some c :: ns) e) with (if is_attr c then each_content_ignore r ns e else
      '(_, e') <- r c e ;; each_content_ignore r ns e').
    destruct (is_attr c). { apply IH. intros; apply H; right; auto. }
    intros w Hw. rewrite run_bind. destruct (H c ltac:(left; auto) e w Hw) as [_ H1].
    destruct (run E (r c e) w) as [[x e'] w']. apply IH; auto. intros; apply H; right; auto.
  - apply IH. intros; apply H; right; auto.
Qed.

(** One item of an iteration: the inner error is related to the history; if no
    node failed, either nothing was rendered or a nil error is fine. *)
Lemma keeps_each_item r ns e w :
  (forall c, In c ns -> good_renderer r c) -> J e (w_log w) ->
  let '((x, e'), w') := run E (each_item r ns e) w in
  J e' (w_log w') /\ (forall y, x = Some y -> J x (w_log w')) /\
  (x = None -> w' = w \/ J None (w_log w')).
Proof.
  revert e w; induction ns as [|c ns IH]; intros e w H Hw.
  - cbn. split; [exact Hw|]. split; [discriminate|auto].
  - change (each_item r (c :: ns) e) with ('(x, e') <- r c e ;;
      match x with None => each_item r ns e' | Some x => Ret (Some x, e') end).
    rewrite run_bind. destruct (H c ltac:(left; auto) e w Hw) as [H1 H2].
    destruct (run E (r c e) w) as [[x e'] w']. cbn [fst snd] in *. destruct x as [x|].
    + cbn. split; [exact H2|]. split; [|discriminate]. intros y _. exact H1.
    + specialize (IH e' w' ltac:(intros; apply H; right; auto) H2).
      destruct (run E (each_item r ns e') w') as [[x e''] w'']. destruct IH as (I1 & I2 & I3).
      split; [exact I1|]. split; [exact I2|]. intro X. destruct (I3 X) as [->|Y]; auto.
Qed.

Lemma keeps_iter_loop (body : frame U -> option error -> io U (option error * option error)) data parent items ierr w :
  (forall ifr e w, J e (w_log w) ->
     let '((x, e'), w') := run E (body ifr e) w in
     J e' (w_log w') /\ (forall y, x = Some y -> J x (w_log w')) /\
     (x = None -> w' = w \/ J None (w_log w'))) ->
  J None (w_log w) -> J ierr (w_log w) ->
  let '((x, e'), w') := run E (iter_loop body data parent None items ierr) w in
  J x (w_log w') /\ J e' (w_log w').
Proof.
  intro H. revert ierr w; induction items as [|it items IH]; intros ierr w Hn Hi; cbn [iter_loop].
  - cbn. auto.
  - rewrite run_bind. specialize (H (Frame (item_data it data) it (Some parent)) ierr w Hi).
    destruct (run E (body _ ierr) w) as [[x e'] w']. destruct H as (H1 & H2 & H3). destruct x as [x|].
    + cbn. split; apply (H2 x); reflexivity.
    + apply IH; auto. destruct (H3 eq_refl) as [->|Y]; auto.
Qed.

Lemma keeps_yield_loop (body : frame U -> option error -> io U (option error * option error)) ofr data p oerr ierr w :
  (forall ifr e w, J e (w_log w) ->
     let '((x, e'), w') := run E (body ifr e) w in
     J e' (w_log w') /\ (forall y, x = Some y -> J x (w_log w')) /\
     (x = None -> w' = w \/ J None (w_log w'))) ->
  yields = true -> J oerr (w_log w) -> J ierr (w_log w) ->
  let '((x, e'), w') := run E (yield_loop body ofr data p oerr ierr) w in
  J x (w_log w') /\ J e' (w_log w').
Proof.
  intros H Y0. revert data oerr ierr w.
  revert p. fix IH 1. intro p.
  destruct p as [|it p|k]; intros data oerr ierr w Ho Hi; cbn [yield_loop].
  - cbn. auto.
  - rewrite run_bind. pose proof (run_log E (body (Frame (item_data it data) it (Some (view ofr oerr))) ierr) w) as L.
    specialize (H (Frame (item_data it data) it (Some (view ofr oerr))) ierr w Hi).
    destruct (run E (body _ ierr) w) as [[x e'] w']. destruct H as (H1 & H2 & H3).
    destruct L as (l & L & _). cbn [snd] in L.
    apply (IH p); auto. destruct x as [x|]; [apply (H2 x); reflexivity|].
    destruct (H3 eq_refl) as [->|Y]; auto. rewrite L in *. apply (HM Y0); auto.
  - cbn [run]. pose proof (IH (fst (k (view ofr oerr) (w_u w)))) as IHk. clear IH.
    destruct (k (view ofr oerr) (w_u w)) as [p' u'].
    apply (IHk data oerr ierr (World (w_log w) u' (w_tick w))); auto.
Qed.

Lemma all_opt_in {X} (P : X -> Prop) l x : all (opt P) l -> In (Some x) l -> P x.
Proof. rewrite all_In. intros H Hx. apply (H (Some x) Hx). Qed.

(** What [yields] allows. *)
Definition allowed (n : node U) : Prop := yields = true \/ no_yield n.
Lemma allowed_in ns (P : Prop) c : (yields = true \/ P) -> (P -> all no_yield ns) -> In c ns -> allowed c.
Proof.
  intros [Y|N] H I; [left; exact Y|]. right. specialize (H N). rewrite all_In in H. auto.
Qed.
Lemma allowed_opt ns (P : Prop) c : (yields = true \/ P) -> (P -> all (opt no_yield) ns) -> In (Some c) ns -> allowed c.
Proof.
  intros [Y|N] H I; [left; exact Y|]. right. apply (all_opt_in _ _ _ (H N) I).
Qed.

Theorem render_keeps_yields :
  (forall n, tame vals n -> allowed n -> forall fr e, keeps2 e (render n fr e)) /\
  (forall p, tame_prog vals p -> (yields = true \/ no_yield_prog p) -> forall fr st e, keeps2 e (run_imper p fr st e)).
Proof.
  apply node_iprog_ind.
  - intros a T Y fr e. cbn [render]. apply keeps_bind2; [apply keeps_attr; exact T|intro; apply keeps2_ret].
  - intros name attrs idx conds ns F T Y fr e. destruct T as (T1 & T2 & T3). cbn [render].
    do 2 (apply keeps_bind2; [apply keeps_write|intro]).
    apply keeps_bind2; [apply keeps_attributes; auto|intro].
    apply keeps_bind2; [apply keeps_write|intro].
    apply keeps_bind2. { apply keeps_each_assign. intros c Hc x. rewrite Forall_forall in F.
      change (all (tame vals) ns) in T3. rewrite all_In in T3. apply F; auto; apply (allowed_in ns _ c Y (fun x => x)); auto. }
    intro. apply keeps_bind2; [apply keeps_close|intro; apply keeps2_ret].
  - intros name attrs idx conds T Y fr e. destruct T as (T1 & T2). cbn [render].
    do 2 (apply keeps_bind2; [apply keeps_write|intro]).
    apply keeps_bind2; [apply keeps_attributes; auto|intro].
    apply keeps_bind2; [apply keeps_write|intro]. apply keeps2_ret.
  - intros vs T Y fr e. cbn [render]. apply keeps_bind2; [apply keeps_values; exact T|intro; apply keeps2_ret].
  - intros vs T Y fr e. cbn [render]. apply keeps_bind2; [apply keeps_write|intro].
    apply keeps_bind2; [apply keeps_values; exact T|intro].
    apply keeps_bind2; [apply keeps_write|intro; apply keeps2_ret].
  - intros name vs T Y fr e. cbn [render]. do 3 (apply keeps_bind2; [apply keeps_write|intro]).
    apply keeps_bind2; [apply keeps_values; exact T|intro].
    apply keeps_bind2; [apply keeps_write|intro; apply keeps2_ret].
  - intros vs T Y fr e. cbn [render]. apply keeps_bind2; [apply keeps_values; exact T|intro; apply keeps2_ret].
  - intros ns F T Y fr e. cbn [render]. apply keeps_each_content_until. intros c Hc x.
    rewrite Forall_forall in F. change (all (tame vals) ns) in T. rewrite all_In in T. apply F; auto; apply (allowed_in ns _ c Y (fun x => x)); auto.
  - intros f attrs ns F T Y fr e. cbn [render]. apply keeps2_cb. intro u.
    destruct (f (view fr e) u) as [b u']. cbn [fst]. destruct b; [|apply keeps2_ret].
    apply keeps_each_until. intros c Hc x.
    rewrite Forall_forall in F. change (all (tame vals) ns) in T. rewrite all_In in T. apply F; auto; apply (allowed_in ns _ c Y (fun x => x)); auto.
  - intros f F T Y fr e. cbn [render]. apply keeps2_cb. intro u.
    specialize (F (view fr e) u). change (forall c u, all (opt (tame vals)) (fst (f c u))) in T.
    assert (Yc : yields = true \/ all (opt no_yield) (fst (f (view fr e) u))).
    { destruct Y as [Y|Y]; [left; exact Y|right; exact (Y (view fr e) u)]. }
    specialize (T (view fr e) u). destruct (f (view fr e) u) as [ns u']. cbn [fst] in *.
    apply keeps_bind2; [|intro; apply keeps2_ret]. apply keeps_each_content_ignore. intros c Hc x.
    rewrite Forall_forall in F. apply (F (Some c) Hc); [apply (all_opt_in _ _ _ T Hc)|].
    apply (allowed_opt ns _ c Yc (fun x => x)); auto.
  - intros T. destruct T.
  - intros p IH T Y fr e. cbn [render]. apply IH; [exact T|exact Y].
  - intros f ns F T Y fr e. cbn [render]. destruct e as [e|]; [apply keeps2_ret|].
    apply keeps2_cb. intro u. destruct (f (view fr None) u) as [items u']. cbn [fst].
    intros w Hw. pose proof (keeps_iter_loop (fun ifr => each_item (fun c e => render c ifr e) ns)
      (f_data fr) (view fr None) items None w) as X.
    destruct (run E (iter_loop _ _ _ _ _ _) w) as [[x e'] w']. apply X; auto.
    intros ifr e w0 H0. apply keeps_each_item; auto. intros c Hc y.
    rewrite Forall_forall in F. change (all (tame vals) ns) in T. rewrite all_In in T. apply F; auto; apply (allowed_in ns _ c Y (fun x => x)); auto.
  - intros p ns F T Y fr e. cbn [render]. destruct e as [e|]; [apply keeps2_ret|].
    intros w Hw. pose proof (keeps_yield_loop (fun ifr => each_item (fun c e => render c ifr e) ns)
      fr None p None None w) as X.
    destruct (run E (yield_loop _ _ _ _ _ _) w) as [[x e'] w'].
    assert (Yt : yields = true) by (destruct Y as [Y|[]]; exact Y). apply X; auto.
    intros ifr e w0 H0. apply keeps_each_item; auto. intros c Hc y.
    rewrite Forall_forall in F. change (all (tame vals) ns) in T. rewrite all_In in T. apply F; auto. left. auto.
  - intros pr ns Hp F T Y fr e. destruct T as [T1 T2]. cbn [render].
    apply keeps_bind2.
    { destruct pr as [p|]; [|apply keeps_ret]. intros w Hw. rewrite run_bind.
      assert (allowed p) as Yp by (destruct Y as [Y|[Y _]]; [left|right]; exact Y).
      destruct (Hp T1 Yp fr e w Hw) as [_ H1]. destruct (run E (render p fr e) w) as [[x e'] w']. exact H1. }
    intro. apply keeps_bind2; [|intro; apply keeps2_ret].
    apply keeps_each_ignore. intros c Hc y.
    rewrite Forall_forall in F. change (all (tame vals) ns) in T2. rewrite all_In in T2. apply F; auto; apply (allowed_in ns _ c Y (fun x => proj2 x)); auto.
  - intros e T. destruct T.
  - intros k IH T Y fr st e. cbn [run_imper]. apply keeps2_cb. intro u.
    change (forall c u,
      (forall e, fst (k c u) = IRet e -> e = c_error c) /\
      ((forall e, fst (k c u) <> IRet e) -> tame_prog vals (fst (k c u)))) in T.
    destruct (T (view fr e) u) as [T1 T2]. specialize (IH (view fr e) u).
    assert (Yc : yields = true \/ no_yield_prog (fst (k (view fr e) u))).
    { destruct Y as [Y|Y]; [left; exact Y|right; exact (Y (view fr e) u)]. }
    destruct (k (view fr e) u) as [p' u']. cbn [fst] in *.
    destruct p' as [x|k'|s k'|s k'|l k'|nm v l k'|k'|k'|m i k'|d k'|x k'].
    1: { specialize (T1 x eq_refl). cbn [c_error view] in T1. subst x. apply keeps2_ret. }
    all: apply IH; [apply T2; discriminate|exact Yc].
  - intros s k IH T Y fr st e. cbn [run_imper]. apply keeps_bind2; [apply keeps_write|intro; apply IH; [exact T|exact Y]].
  - intros s k IH T Y fr st e. cbn [run_imper]. apply keeps_bind2; [apply keeps_write|intro; apply IH; [exact T|exact Y]].
  - intros ns k F IH T Y fr st e. destruct T as [T1 T2]. cbn [run_imper].
    apply keeps_bind2; [|intro; apply IH; [exact T2|destruct Y as [Y|[_ Y]]; auto]]. apply keeps_each_content_ignore. intros c Hc x.
    rewrite Forall_forall in F. apply (F (Some c) Hc); [apply (all_opt_in _ _ _ T1 Hc)|]. apply (allowed_opt ns _ c Y (fun x => proj1 x)); auto.
  - intros name v attrs k F IH T Y fr st e. destruct T as [T1 T2]. cbn [run_imper].
    apply keeps_bind2; [apply keeps_start; auto|intro; apply IH; [exact T2|exact Y]].
  - intros k IH T Y fr st e. cbn [run_imper]. destruct st as [|n st]; [apply IH; [exact T|exact Y]|].
    apply keeps_bind2; [apply keeps_close|intro; apply IH; [exact T|exact Y]].
  - intros k IH T Y fr st e. cbn [run_imper].
    apply keeps_bind2; [apply keeps_close_all|intro; apply IH; [exact T|exact Y]].
  - intros n [fr'|] k Hn IH T Y fr st e; [destruct T|]. destruct T as [T1 T2].
    change (forall r e, (forall x, k r e = IRet x -> x = r \/ x = e) /\
      ((forall x, k r e <> IRet x) -> tame_prog vals (k r e))) in T2.
    change (run_imper (IRender n None k) fr st e) with ('(r, x) <- render n fr e ;; run_imper (k r x) fr st x).
    assert (Yn : allowed n) by (destruct Y as [Y|[Y _]]; [left|right]; exact Y).
    intros w Hw. rewrite run_bind. pose proof (Hn T1 Yn fr e w Hw) as H.
    destruct (run E (render n fr e) w) as [[r x] w1]. cbn [fst snd] in H. destruct H as [H1 H2].
    specialize (IH r x). specialize (T2 r x). destruct T2 as [T2 T3].
    assert (Yk : yields = true \/ no_yield_prog (k r x)).
    { destruct Y as [Y|[_ Y]]; [left; exact Y|right; exact (Y r x)]. }
    destruct (k r x) as [y|k'|s k'|s k'|l k'|nm v l k'|k'|k'|m i k'|d k'|y k'].
    1: { split; [|exact H2]. destruct (T2 y eq_refl) as [->| ->]; assumption. }
    all: apply IH; [apply T3; discriminate|exact Yk|exact H2].
  - intros d k IH T. destruct T.
  - intros x k IH T. destruct T.
Qed.

End Rule.

(** The rule for templates with IterateYield. *)
Theorem render_keeps {W : UserWorld} E (vals : bytes -> Prop) (J : option error -> list wcall -> Prop) :
  (forall h d, J None h -> J (snd (e_wr E h d)) (answer E h d)) ->
  (forall err h d, vals d -> J err h -> J (snd (e_wr E h d)) (answer E h d)) ->
  (forall x h l, J x h -> J None (h ++ l) -> J x (h ++ l)) ->
  forall n, tame vals n -> forall fr e, keeps2 E J e (render n fr e).
Proof.
  intros HW HV HM n T fr e. apply (render_keeps_yields E vals J HW HV true (fun _ => HM)); [exact T|left; reflexivity].
Qed.
