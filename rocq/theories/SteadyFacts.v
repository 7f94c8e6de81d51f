(** Rendering such a template never changes the user's state. *)
From Verif Require Import Bytes IO Nodes Values Render NodeInd IOFacts SpecOut RenderFacts ApiFacts
  AttrFacts ErrFacts SpecSteady.

Section Facts.
Context {W : UserWorld}.

(** A program none of whose callbacks changes the state, whatever it reads. *)
Fixpoint idle {A} (p : io U A) : Prop :=
  match p with
  | Ret _ => True
  | Wr _ k => forall n e, idle (k n e)
  | Cb k => forall u, snd (k u) = u /\ idle (fst (k u))
  | Pick _ k => forall o, idle (k o)
  end.

Lemma idle_bind {A B} (p : io U A) (f : A -> io U B) :
  idle p -> (forall a, idle (f a)) -> idle (bind p f).
Proof.
  intros H F. induction p as [a|d k IH|k IH|ks k IH] using io_ind'; cbn [bind idle] in *; auto.
  intro u. destruct (H u) as [E I]. specialize (IH u). destruct (k u) as [p' u']. cbn [fst snd] in *. auto.
Qed.
Lemma idle_cb {A} (k : U -> io U A * U) :
  (forall u, snd (k u) = u /\ idle (fst (k u))) -> idle (Cb k).
Proof. auto. Qed.

Lemma idle_write d e : idle (ctx_write d e).
Proof. destruct e; cbn; auto. Qed.

Definition vgo (fr : frame U) := fix go (cs : list (value U)) (l : nat) (err : option error)
  : io U (bool * option error) :=
  match cs with
  | [] => Ret (0 <? l, err)
  | c :: cs' => '(written, e) <- value_render fr c err ;; go cs' (if written then S l else l) e
  end.
Lemma idle_value fr v : steady_value v -> forall e, idle (value_render fr v e).
Proof.
  revert v. fix IH 1. intros [b d cs] H e. destruct H as [Hd Hc]. destruct d as [f|].
  - cbn [value_render idle]. intro u. specialize (Hd (view fr e) u).
    destruct (f (view fr e) u) as [data u']. cbn in *. auto.
  - assert (G : forall l e, idle (vgo fr cs l e)).
    { revert Hc. clear - IH. induction cs as [|c cs IHc]; intros Hc l e; [exact I|].
      destruct Hc as [H1 H2]. change (idle ('(written, e') <- value_render fr c e ;;
        vgo fr cs (if written then S l else l) e')).
      apply idle_bind; [apply IH; exact H1|]. intros [w e']. apply IHc. exact H2. }
    destruct cs as [|c cs]; [cbn; auto|]. exact (G 0 e).
Qed.

Lemma idle_values fr vs : steady_values vs -> forall e, idle (values_render fr vs e).
Proof.
  induction vs as [|v vs IH]; intros H e; [exact I|]. destruct H as [H1 H2].
  cbn [values_render]. apply idle_bind; [apply idle_value; exact H1|]. intros [b e']. apply IH, H2.
Qed.
Lemma idle_delim fr d vs : steady_values vs -> forall s e, idle (delim_render fr d vs s e).
Proof.
  induction vs as [|v vs IH]; intros H s e; [exact I|]. destruct H as [H1 H2].
  cbn [delim_render]. apply idle_bind; [destruct s; [apply idle_write|exact I]|]. intro e0.
  apply idle_bind; [apply idle_value; exact H1|]. intros [b e']. apply IH, H2.
Qed.
Lemma idle_attr fr a : steady_attr a -> forall e, idle (attr_render fr a e).
Proof.
  destruct a as [n vs|n|n d vs]; intros H e; cbn [attr_render];
    repeat (apply idle_bind; [apply idle_write|intro]).
  - apply idle_bind; [apply idle_values; exact H|intro; apply idle_write].
  - apply idle_write.
  - apply idle_bind; [apply idle_delim; exact H|intro; apply idle_write].
Qed.
Lemma idle_attrs fr l : all steady_attr l -> forall e, idle (attrs_render fr l e).
Proof.
  induction l as [|a l IH]; intros H e; [exact I|]. destruct H as [H1 H2]. cbn [attrs_render].
  apply idle_bind; [apply idle_attr; exact H1|]. intro. apply IH, H2.
Qed.
Lemma idle_conds fr cs : all (reads_only (A := bool)) cs -> forall e, idle (conds_eval fr e cs).
Proof.
  induction cs as [|f cs IH]; intros H e; [exact I|]. destruct H as [H1 H2]. cbn [conds_eval].
  apply idle_cb. intro u. specialize (H1 (view fr e) u). destruct (f (view fr e) u) as [[] u']; cbn in *; auto.
Qed.

(** Rendering attributes: what is active comes from the conditionals. *)
Lemma active_bind {B} fr e cas (f : list (attr U) -> io U B) :
  all steady_cond cas -> (forall l, all steady_attr l -> idle (f l)) ->
  idle (bind (active_attrs fr e cas) f).
Proof.
  revert f. induction cas as [|[a cs] cas IH]; intros f H F.
  - apply F. exact I.
  - destruct H as [[H1 H2] H3]. cbn [active_attrs fst snd] in *.
    assert (X : idle (bind (conds_eval fr e cs) (fun b =>
              bind (active_attrs fr e cas) (fun l => f (if b then a :: l else l))))).
    { apply idle_bind; [apply idle_conds; exact H2|]. intro b. apply IH; auto. intros l Hl.
      apply F. destruct b; [split; auto|auto]. }
    revert X. generalize (conds_eval fr e cs). clear - W.
    intro p. induction p as [b|d k IHp|k IHp|ks k IHp] using io_ind'; cbn [bind idle].
    + generalize (active_attrs fr e cas). intro q.
      induction q as [l|d k IHq|k IHq|ks k IHq] using io_ind'; cbn [bind idle]; auto.
      intros X u. destruct (X u) as [E Y]. specialize (IHq u). destruct (k u). cbn in *. auto.
    + intros X n0 e0. apply IHp, X.
    + intros X u. destruct (X u) as [E Y]. specialize (IHp u). destruct (k u). cbn in *. auto.
    + intros X o. apply IHp, X.
Qed.

Lemma all_filter {X} (P : X -> Prop) g l : all P l -> all P (filter g l).
Proof. rewrite !all_In. intros H x Hx. apply filter_In in Hx. apply H, Hx. Qed.
Lemma all_last {X} (P : X -> Prop) (l : list X) d : P d -> all P l -> P (last l d).
Proof.
  intros Hd. induction l as [|x l IH]; intro H; [exact Hd|]. destruct H as [H1 H2].
  destruct l; [exact H1|]. apply IH. exact H2.
Qed.
Lemma all_app {X} (P : X -> Prop) l1 l2 : all P l1 -> all P l2 -> all P (l1 ++ l2).
Proof. rewrite !all_In. intros H1 H2 x Hx. apply in_app_or in Hx. destruct Hx; auto. Qed.
Lemma steady_all_values l : all steady_attr l -> steady_values (all_values l).
Proof.
  induction l as [|a l IH]; intro H; [exact I|]. destruct H as [H1 H2].
  unfold all_values. cbn [flat_map]. apply all_app; [|apply IH, H2].
  destruct a; cbn in *; auto.
Qed.
Lemma steady_resolve_static a es : steady_attr a -> all steady_attr es -> steady_attr (resolve_static a es).
Proof.
  intros H1 H2. destruct a; cbn [resolve_static]; try (apply all_last; assumption).
  apply all_app; [exact H1|apply steady_all_values, H2].
Qed.
Lemma steady_resolve_dynamic a es : steady_attr a -> all steady_attr es -> steady_attr (resolve_dynamic a es).
Proof.
  intros H1 H2. destruct a; cbn [resolve_dynamic]; try (apply all_last; assumption).
  apply all_app; [exact H1|apply steady_all_values, H2].
Qed.

Lemma idle_static fr attrs idx ev names :
  all steady_attr attrs -> all steady_attr ev -> forall e, idle (static_loop fr attrs idx ev names e).
Proof.
  intros Ha He. induction names as [|n names IH]; intro e; [exact I|].
  cbn [static_loop]. apply idle_bind; [|intro; apply IH].
  destruct (idx_get idx n) as [i|]; [|exact I].
  destruct (nth_error attrs i) as [a|] eqn:Ea; [|exact I].
  assert (Sa : steady_attr a) by (rewrite all_In in Ha; apply Ha; eapply nth_error_In; eauto).
  pose proof (all_filter steady_attr (fun a => beq (attr_name a) n) ev He) as Hg. fold (ev_get ev n) in Hg.
  destruct (ev_get ev n) as [|x es]; apply idle_attr; auto. apply steady_resolve_static; auto.
Qed.
Lemma idle_dynamic fr idx ev names :
  all steady_attr ev -> forall e, idle (dynamic_loop fr idx ev names e).
Proof.
  intros He. induction names as [|n names IH]; intro e; [exact I|].
  cbn [dynamic_loop]. apply idle_bind; [|intro; apply IH].
  destruct (idx_get idx n) as [i|]; [exact I|].
  pose proof (all_filter steady_attr (fun a => beq (attr_name a) n) ev He) as Hg. fold (ev_get ev n) in Hg.
  destruct (ev_get ev n) as [|x es]; [exact I|]. destruct Hg. apply idle_attr.
  apply steady_resolve_dynamic; auto.
Qed.
Lemma idle_attributes fr attrs idx conds e :
  all steady_attr attrs -> all steady_cond conds -> idle (render_attributes fr attrs idx conds e).
Proof.
  intros Ha Hc. unfold render_attributes. apply active_bind; auto. intros l Hl.
  destruct l as [|a l]; [apply idle_attrs; auto|].
  intro o. apply idle_bind; [apply idle_static; auto|]. intros e' o'. apply idle_dynamic; auto.
Qed.

(** Start tags. *)
Definition steady_entry (p : bytes * option (list (value U))) : Prop :=
  match snd p with Some vs => steady_values vs | None => True end.
Lemma steady_interpose d vs : steady_values vs -> steady_values (interpose d vs).
Proof.
  induction vs as [|v vs IH]; intro H; [exact I|]. destruct H as [H1 H2]. cbn [interpose].
  destruct vs as [|w vs]; [split; auto|]. split; auto. split; [cbn; auto|]. apply IH. exact H2.
Qed.
Lemma steady_append_delim d vs : forall avs, steady_values avs -> steady_values vs ->
  steady_values (append_delim d avs vs).
Proof.
  induction vs as [|v vs IH]; intros avs Ha H; [exact Ha|]. destruct H as [H1 H2]. cbn [append_delim].
  apply IH; auto. apply all_app; [|split; [exact H1|exact I]].
  destruct avs; auto. apply all_app; auto. split; [cbn; auto|exact I].
Qed.
Lemma steady_start_add acc a : all steady_entry acc -> steady_attr a -> all steady_entry (start_add acc a).
Proof.
  intros Hacc Ha. unfold start_add. destruct (bmem (attr_name a) (map fst acc)).
  - induction acc as [|[n x] acc IH]; [exact I|]. destruct Hacc as [H1 H2]. cbn [upd_assoc].
    destruct (beq n (attr_name a)); (split; [|auto]); auto.
    unfold steady_entry in *. cbn [snd] in *. destruct a as [m vs|m|m d vs]; cbn in *; auto.
    destruct vs as [|v vs]; auto.
    apply (steady_append_delim d (v :: vs)); auto. destruct x; [exact H1|exact I].
  - apply all_app; auto. split; [|exact I]. destruct a; cbn in *; auto. apply steady_interpose; auto.
Qed.
Lemma steady_start_attrs l : forall acc, all steady_entry acc -> all steady_arg l ->
  all steady_entry (start_attrs l acc).
Proof.
  induction l as [|[n|] l IH]; intros acc Ha H; cbn [start_attrs]; [exact Ha| |].
  - destruct H as [H1 H2]. destruct n; auto. apply IH; auto. apply steady_start_add; auto.
  - apply IH; auto. apply H.
Qed.
Lemma idle_start_render fr l : all steady_entry l -> forall e, idle (start_render fr l e).
Proof.
  induction l as [|[n vs] l IH]; intros H e; [exact I|]. destruct H as [H1 H2]. cbn [start_render].
  do 2 (apply idle_bind; [apply idle_write|intro]).
  apply idle_bind; [|intro; apply IH; auto].
  destruct vs as [vs|]; [|exact I]. apply idle_bind; [apply idle_write|intro].
  apply idle_bind; [apply idle_values; exact H1|intro; apply idle_write].
Qed.
Lemma idle_start fr name attrs e : all steady_arg attrs -> idle (start_tag fr name attrs e).
Proof.
  intro H. unfold start_tag. do 2 (apply idle_bind; [apply idle_write|intro]).
  apply idle_bind; [|intro; apply idle_write]. apply idle_start_render.
  apply steady_start_attrs; auto. exact I.
Qed.
Lemma idle_close n e : idle (close_tag n e).
Proof. unfold close_tag. do 2 (apply idle_bind; [apply idle_write|intro]). apply idle_write. Qed.
Lemma idle_close_all l : forall e, idle (close_all l e).
Proof.
  induction l as [|n l IH]; intro e; [exact I|]. cbn [close_all].
  apply idle_bind; [apply idle_close|intro; apply IH].
Qed.

(** Loops. *)
Section Loops.
Variable r : renderer.
Definition fine (c : node U) : Prop := forall e, idle (r c e).
Lemma idle_each_assign ns : (forall c, In c ns -> fine c) -> forall e, idle (each_assign r ns e).
Proof.
  induction ns as [|c ns IH]; intros H e; [exact I|]. cbn [each_assign].
  apply idle_bind; [apply H; left; auto|]. intros [x y]. apply IH. intros; apply H; right; auto.
Qed.
Lemma idle_each_ignore ns : (forall c, In c ns -> fine c) -> forall e, idle (each_ignore r ns e).
Proof.
  induction ns as [|c ns IH]; intros H e; [exact I|]. cbn [each_ignore].
  apply idle_bind; [apply H; left; auto|]. intros [x y]. apply IH. intros; apply H; right; auto.
Qed.
Lemma idle_each_until ns : (forall c, In c ns -> fine c) -> forall e, idle (each_until r ns e).
Proof.
  induction ns as [|c ns IH]; intros H e; [exact I|]. cbn [each_until].
  apply idle_bind; [apply H; left; auto|]. intros [[x|] y]; [exact I|]. apply IH. intros; apply H; right; auto.
Qed.
Lemma idle_each_content_until ns : (forall c, In c ns -> fine c) -> forall e, idle (each_content_until r ns e).
Proof.
  induction ns as [|c ns IH]; intros H e; [exact I|]. cbn [each_content_until].
  assert (G : forall c, In c ns -> fine c) by (intros; apply H; right; auto).
  destruct (is_attr c); [apply IH, G|].
  apply idle_bind; [apply H; left; auto|]. intros [[x|] y]; [exact I|]. apply IH, G.
Qed.
Lemma idle_each_item ns : (forall c, In c ns -> fine c) -> forall e, idle (each_item r ns e).
Proof.
  induction ns as [|c ns IH]; intros H e; [exact I|]. cbn [each_item].
  apply idle_bind; [apply H; left; auto|]. intros [[x|] y]; [exact I|]. apply IH. intros; apply H; right; auto.
Qed.
Lemma idle_each_content_ignore ns :
  (forall c, In (Some c) ns -> fine c) -> forall e, idle (each_content_ignore r ns e).
Proof.
  induction ns as [|[c|] ns IH]; intros H e; [exact I| |]; cbn [each_content_ignore].
  - assert (G : forall c, In (Some c) ns -> fine c) by (intros; apply H; right; auto).
    destruct (is_attr c); [apply IH, G|].
    apply idle_bind; [apply H; left; auto|]. intros [x y]. apply IH, G.
  - apply IH. intros; apply H; right; auto.
Qed.
End Loops.
Lemma idle_iter (body : frame U -> option error -> io U (option error * option error)) data parent oerr items :
  (forall fr e, idle (body fr e)) -> forall ierr, idle (iter_loop body data parent oerr items ierr).
Proof.
  intro H. induction items as [|x items IH]; intro ierr; [exact I|]. cbn [iter_loop].
  apply idle_bind; [apply H|]. intros [[z|] y]; [exact I|apply IH].
Qed.
Lemma idle_yield (body : frame U -> option error -> io U (option error * option error)) ofr :
  (forall fr e, idle (body fr e)) -> forall p, steady_yield p ->
  forall data oerr ierr, idle (yield_loop body ofr data p oerr ierr).
Proof.
  intro H. fix IH 1. intros [|x p|k] S data oerr ierr; cbn [yield_loop].
  - exact I.
  - apply idle_bind; [apply H|]. intros [z y]. apply IH. exact S.
  - apply idle_cb. intro u. cbn [steady_yield] in S. destruct (S (view ofr oerr) u) as [S1 S2].
    pose proof (IH (fst (k (view ofr oerr) u)) S2 data oerr ierr) as X.
    destruct (k (view ofr oerr) u) as [p' u']. split; [exact S1|exact X].
Qed.

Theorem render_idle :
  (forall n, steady n -> forall fr e, idle (render n fr e)) /\
  (forall p, steady_prog p -> forall fr st e, idle (run_imper p fr st e)).
Proof.
  assert (C : forall ns : list (node U), Forall (fun n => steady n -> forall fr e, idle (render n fr e)) ns ->
    all steady ns -> forall fr c, In c ns -> fine (fun c e => render c fr e) c).
  { intros ns F T fr c Hc e. rewrite Forall_forall in F. rewrite all_In in T. apply F; auto. }
  apply node_iprog_ind.
  - intros a T fr e. cbn [render]. apply idle_bind; [apply idle_attr; exact T|intro; exact I].
  - intros name attrs idx conds ns F T fr e. destruct T as (T1 & T2 & T3). cbn [render].
    do 2 (apply idle_bind; [apply idle_write|intro]).
    apply idle_bind; [apply idle_attributes; auto|intro].
    apply idle_bind; [apply idle_write|intro].
    apply idle_bind; [apply idle_each_assign; intros; eapply C; eauto|intro].
    apply idle_bind; [apply idle_close|intro; exact I].
  - intros name attrs idx conds T fr e. destruct T as (T1 & T2). cbn [render].
    do 2 (apply idle_bind; [apply idle_write|intro]).
    apply idle_bind; [apply idle_attributes; auto|intro].
    apply idle_bind; [apply idle_write|intro]. exact I.
  - intros vs T fr e. cbn [render]. apply idle_bind; [apply idle_values; exact T|intro; exact I].
  - intros vs T fr e. cbn [render]. apply idle_bind; [apply idle_write|intro].
    apply idle_bind; [apply idle_values; exact T|intro].
    apply idle_bind; [apply idle_write|intro; exact I].
  - intros name vs T fr e. cbn [render]. do 3 (apply idle_bind; [apply idle_write|intro]).
    apply idle_bind; [apply idle_values; exact T|intro].
    apply idle_bind; [apply idle_write|intro; exact I].
  - intros vs T fr e. cbn [render]. apply idle_bind; [apply idle_values; exact T|intro; exact I].
  - intros ns F T fr e. cbn [render]. apply idle_each_content_until. intros; eapply C; eauto.
  - intros f attrs ns F T fr e. destruct T as [T1 T2]. cbn [render]. apply idle_cb. intro u.
    specialize (T1 (view fr e) u). destruct (f (view fr e) u) as [b u']. split; [exact T1|].
    cbn [fst]. destruct b; [|exact I]. apply idle_each_until. intros; eapply C; eauto.
  - intros f F T fr e. destruct T as [T1 T2]. cbn [render]. apply idle_cb. intro u.
    specialize (F (view fr e) u). specialize (T1 (view fr e) u).
    change (forall c u, all (opt steady) (fst (f c u))) in T2. specialize (T2 (view fr e) u).
    destruct (f (view fr e) u) as [ns u']. split; [exact T1|]. cbn [fst snd] in *.
    apply idle_bind; [|intro; exact I]. apply idle_each_content_ignore. intros c Hc x.
    rewrite Forall_forall in F. apply (F (Some c) Hc). apply (all_opt_in _ _ _ T2 Hc).
  - intros T fr e. exact I.
  - intros p IH T fr e. cbn [render]. apply IH. exact T.
  - intros f ns F T fr e. destruct T as [T1 T2]. cbn [render]. destruct e as [e|]; [exact I|].
    apply idle_cb. intro u. specialize (T1 (view fr None) u).
    destruct (f (view fr None) u) as [items u']. split; [exact T1|]. cbn [fst].
    apply idle_iter. intros ifr e. apply idle_each_item. intros; eapply C; eauto.
  - intros p ns F T fr e. destruct T as [T1 T2]. cbn [render]. destruct e as [e|]; [exact I|].
    apply idle_yield; auto. intros ifr e. apply idle_each_item. intros; eapply C; eauto.
  - intros pr ns Hp F T fr e. destruct T as [T1 T2]. cbn [render].
    apply idle_bind.
    { destruct pr as [p|]; [|exact I]. apply idle_bind; [apply Hp; exact T1|]. intros [x y]. exact I. }
    intro. apply idle_bind; [|intro; exact I].
    apply idle_each_ignore. intros; eapply C; eauto.
  - intros e T fr st err. exact I.
  - intros k IH T fr st e. cbn [run_imper]. apply idle_cb. intro u.
    change (forall c u, snd (k c u) = u /\ steady_prog (fst (k c u))) in T.
    destruct (T (view fr e) u) as [T1 T2]. specialize (IH (view fr e) u T2 fr st e).
    destruct (k (view fr e) u) as [p' u']. split; [exact T1|exact IH].
  - intros s k IH T fr st e. cbn [run_imper]. apply idle_bind; [apply idle_write|intro; apply IH; exact T].
  - intros s k IH T fr st e. cbn [run_imper]. apply idle_bind; [apply idle_write|intro; apply IH; exact T].
  - intros ns k F IH T fr st e. destruct T as [T1 T2]. cbn [run_imper].
    apply idle_bind; [|intro; apply IH; exact T2]. apply idle_each_content_ignore. intros c Hc x.
    rewrite Forall_forall in F. apply (F (Some c) Hc). apply (all_opt_in _ _ _ T1 Hc).
  - intros name v attrs k F IH T fr st e. destruct T as [T1 T2]. cbn [run_imper].
    apply idle_bind; [apply idle_start; auto|intro; apply IH; exact T2].
  - intros k IH T fr st e. cbn [run_imper]. destruct st as [|n st]; [apply IH; exact T|].
    apply idle_bind; [apply idle_close|intro; apply IH; exact T].
  - intros k IH T fr st e. cbn [run_imper].
    apply idle_bind; [apply idle_close_all|intro; apply IH; exact T].
  - intros n inner k Hn IH T fr st e. destruct T as [T1 T2].
    change (forall r x, steady_prog (k r x)) in T2.
    destruct inner as [fr'|].
    + change (run_imper (IRender n (Some fr') k) fr st e) with
        ('(r, x) <- render n fr' None ;; run_imper (k r x) fr st e).
      apply idle_bind; [apply Hn; exact T1|]. intros [r x]. apply IH. apply T2.
    + change (run_imper (IRender n None k) fr st e) with
        ('(r, x) <- render n fr e ;; run_imper (k r x) fr st x).
      apply idle_bind; [apply Hn; exact T1|]. intros [r x]. apply IH. apply T2.
  - intros d k IH T fr st e. change (forall m x, steady_prog (k m x)) in T.
    cbn [run_imper]. intros m x. apply IH. apply T.
  - intros x k IH T fr st e. apply IH. exact T.
Qed.

Lemma idle_run {A} E (p : io U A) : idle p -> forall w, w_u (snd (run E p w)) = w_u w.
Proof.
  induction p as [a|d k IH|k IH|ks k IH] using io_ind'; intros H w; cbn [run].
  - reflexivity.
  - destruct (e_wr E (w_log w) d) as [n e]. rewrite IH; auto.
  - destruct (H (w_u w)) as [H1 H2]. specialize (IH (w_u w) H2). destruct (k (w_u w)) as [p' u'].
    cbn in *. subst u'. rewrite IH. reflexivity.
  - rewrite IH; auto.
Qed.

End Facts.
