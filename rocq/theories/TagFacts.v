(** The attributes the constructors store and the renderer resolves are those
    of the specification. *)
From Coq Require Import Permutation.
From Verif Require Import Bytes IO IOFacts Nodes NodeInd Values Render Slices Build Api SpecOut SpecRun
  SpecElem RenderFacts AttrFacts ApiFacts PageFacts CondFacts.

Section Facts.
Context {W : UserWorld}.
Notation names := (map (@attr_name U)).

Lemma first_names_snoc seen (l : list (attr U)) a :
  first_names seen (l ++ [a]) =
  first_names seen l ++ (if bmem (attr_name a) (seen ++ names l) then [] else [attr_name a]).
Proof.
  revert seen; induction l as [|x l IH]; intro seen; cbn [app first_names map].
  - rewrite app_nil_r. destruct (bmem (attr_name a) seen); reflexivity.
  - destruct (bmem (attr_name x) seen) eqn:E; rewrite IH.
    + f_equal. assert (bmem (attr_name a) (seen ++ names l) =
                       bmem (attr_name a) (seen ++ attr_name x :: names l)) as ->; auto.
      apply eq_true_iff_eq. rewrite !bmem_In, !in_app_iff. simpl.
      apply bmem_In in E. split; [tauto|]. intros [H|[<-|H]]; auto.
    + cbn [app]. rewrite <- app_assoc. reflexivity.
Qed.

Lemma names_of_first (l : list (attr U)) : names_of l = first_names [] l.
Proof.
  induction l as [|a l IH] using rev_ind; [reflexivity|].
  rewrite first_names_snoc, <- IH. unfold names_of.
  rewrite map_app, rev_app_distr. cbn [map rev app nodup].
  destruct (in_dec bytes_dec (attr_name a) (rev (names l))) as [H|H].
  - assert (bmem (attr_name a) (names l) = true) as -> by (apply bmem_In, in_rev; auto).
    rewrite app_nil_r. reflexivity.
  - destruct (bmem (attr_name a) (names l)) eqn:E.
    + exfalso. apply H, in_rev. rewrite rev_involutive. apply bmem_In. auto.
    + reflexivity.
Qed.

Lemma names_of_spec (l : list (attr U)) :
  NoDup (names_of l) /\ forall n, In n (names_of l) <-> In n (names l).
Proof.
  rewrite names_of_first. destruct (first_names_spec [] l) as [A Bb]. split; auto.
  intro n. rewrite Bb. simpl. tauto.
Qed.

Lemma final_delims_snoc (ds : list (attr U)) a :
  final_delims (ds ++ [a]) = if is_delim a then final_delims ds ++ [a] else [].
Proof.
  unfold final_delims. rewrite rev_app_distr. cbn [rev app while_delim].
  destruct (is_delim a); reflexivity.
Qed.

Lemma final_delims_all (ds : list (attr U)) a : In a (final_delims ds) -> is_delim a = true.
Proof.
  unfold final_delims. rewrite <- in_rev. generalize (rev ds). clear ds. intro l.
  induction l as [|x l IH]; [simpl; tauto|]. cbn [while_delim].
  destruct (is_delim x) eqn:E; [|simpl; tauto]. intros [->|H]; auto.
Qed.

Lemma effective_merge (ds : list (attr U)) : fold_left merge_opt ds None = effective ds.
Proof.
  induction ds as [|a ds IH] using rev_ind; [reflexivity|].
  rewrite fold_left_app. cbn [fold_left]. rewrite IH. clear IH.
  unfold effective. rewrite final_delims_snoc.
  pose proof (final_delims_all ds) as D.
  destruct a as [n vs|n|n d vs]; cbn [is_delim].
  - rewrite rev_app_distr. cbn [rev app].
    destruct (final_delims ds) as [|x r].
    + destruct (rev ds) as [|y l]; [reflexivity|]. destruct y; reflexivity.
    + destruct x; reflexivity.
  - rewrite rev_app_distr. cbn [rev app].
    destruct (final_delims ds) as [|x r].
    + destruct (rev ds) as [|y l]; [reflexivity|]. destruct y; reflexivity.
    + destruct x; reflexivity.
  - destruct (final_delims ds) as [|x r] eqn:F.
    + cbn [app flat_map vals]. rewrite app_nil_r.
      destruct (rev ds) as [|y l] eqn:R; [reflexivity|].
      assert (is_delim y = false).
      { unfold final_delims in F. rewrite R in F. cbn [while_delim] in F.
        destruct (is_delim y); auto. simpl in F. destruct (rev (while_delim l)); discriminate. }
      destruct y; [reflexivity|reflexivity|discriminate].
    + assert (X : is_delim x = true) by (apply D; left; auto).
      destruct x as [?|?|n' d' vs']; try discriminate. cbn [merge_opt merge2 app flat_map vals].
      rewrite flat_map_app. cbn [flat_map vals]. rewrite app_nil_r, app_assoc. reflexivity.
Qed.

Lemma effective_some n (ds : list (attr U)) :
  In n (names ds) -> exists a, effective (declared n ds) = Some a /\ attr_name a = n.
Proof.
  intro H. rewrite <- effective_merge.
  pose proof (add_attributes_facts ds) as F. destruct (add_attributes ds) as [attrs idx].
  destruct F as (_ & F2 & F3). change (declared n ds) with (decls n ds). rewrite <- F3.
  destruct (static_of attrs n) as [a|] eqn:E.
  - exists a. split; auto. apply static_of_some in E. tauto.
  - apply static_of_none in E. exfalso. apply E. rewrite F2. apply first_names_spec. auto.
Qed.

Lemma effective_none n (ds : list (attr U)) :
  ~ In n (names ds) -> effective (declared n ds) = None.
Proof.
  intro H. assert (declared n ds = []) as ->; [|reflexivity].
  unfold declared. induction ds as [|a ds IH]; auto. simpl in *.
  destruct (beq_spec (attr_name a) n); [tauto|]. apply IH. tauto.
Qed.

(** What [add_attributes] stores. *)
Lemma stored_attrs (ds : list (attr U)) :
  let '(attrs, idx) := add_attributes ds in
  table_ok attrs idx /\ names attrs = names_of ds /\
  forall n, static_of attrs n = effective (declared n ds).
Proof.
  pose proof (add_attributes_facts ds) as F. destruct (add_attributes ds) as [attrs idx].
  destruct F as (F1 & F2 & F3). split; auto. split.
  - rewrite names_of_first. auto.
  - intro n. rewrite F3. apply effective_merge.
Qed.

Lemma attrs_static (attrs : list (attr U)) :
  NoDup (names attrs) -> attrs = flat_map (fun n => oapp (static_of attrs n)) (names attrs).
Proof.
  intro ND. assert (H : forall l, (forall a, In a l -> In a attrs) ->
    l = flat_map (fun n => oapp (static_of attrs n)) (names l)).
  { induction l as [|a l IH]; intro H; [reflexivity|]. cbn [map flat_map].
    rewrite static_of_in by (auto; apply H; left; auto). cbn [oapp app].
    f_equal. apply IH. intros; apply H; right; auto. }
  apply H. auto.
Qed.

Lemma resolve_none (st : option (attr U)) : resolve st [] = st.
Proof. destruct st as [[n vs|n|n d vs]|]; simpl; auto. rewrite app_nil_r. reflexivity. Qed.

Lemma stored_spec (ds : list (attr U)) : fst (add_attributes ds) = tag_spec ds [].
Proof.
  pose proof (stored_attrs ds) as F. destruct (add_attributes ds) as [attrs idx].
  destruct F as ((_ & ND) & F2 & F3). cbn [fst]. unfold tag_spec. rewrite app_nil_r.
  rewrite (attrs_static attrs ND) at 1. rewrite F2. apply flat_map_ext. intro n.
  cbn [declared filter]. rewrite resolve_none, F3. reflexivity.
Qed.

Lemma last_rev {A} (l : list A) d : last l d = match rev l with a :: _ => a | [] => d end.
Proof.
  induction l as [|x l IH] using rev_ind; [reflexivity|].
  rewrite last_last, rev_app_distr. reflexivity.
Qed.

Lemma all_values_vals (l : list (attr U)) : all_values l = flat_map vals l.
Proof. apply flat_map_ext. intros [?|?|?]; reflexivity. Qed.

Lemma shown_resolve attrs (act : list (attr U)) n :
  shown attrs act n = oapp (resolve (static_of attrs n) (declared n act)).
Proof.
  unfold shown. change (ev_get act n) with (declared n act).
  destruct (static_of attrs n) as [a|]; destruct (declared n act) as [|x r] eqn:E.
  - rewrite resolve_none. reflexivity.
  - destruct a as [m vs|m|m d vs]; unfold resolve_static, resolve.
    + rewrite last_rev. destruct (rev (x :: r)) eqn:R; [|reflexivity].
      apply (f_equal (@length _)) in R. rewrite rev_length in R. discriminate.
    + rewrite last_rev. destruct (rev (x :: r)) eqn:R; [|reflexivity].
      apply (f_equal (@length _)) in R. rewrite rev_length in R. discriminate.
    + rewrite all_values_vals. reflexivity.
  - reflexivity.
  - unfold resolve_dynamic, resolve.
    assert (X : match rev (x :: r) with a :: _ => Some a | [] => None end = Some (last r x)).
    { cbn [rev]. rewrite last_rev. destruct (rev r); reflexivity. }
    destruct x as [m vs|m|m d vs]; [| |rewrite all_values_vals; reflexivity];
      rewrite X; reflexivity.
Qed.

Lemma tag_attrs_spec o fr (ds : list (attr U)) conds s :
  ord_ok o ->
  let '(active, u1) := sactive fr conds (fst s) in
  exists t,
  snd (tag_attrs o fr (fst (add_attributes ds)) conds s) = (u1, t) /\
  Permutation (fst (tag_attrs o fr (fst (add_attributes ds)) conds s)) (tag_spec ds active) /\
  (active = [] -> t = snd s /\ fst (tag_attrs o fr (fst (add_attributes ds)) conds s) = tag_spec ds []).
Proof.
  intro O. pose proof (stored_attrs ds) as F. pose proof (stored_spec ds) as S.
  destruct (add_attributes ds) as [attrs idx]. destruct F as ((_ & ND) & F2 & F3).
  unfold tag_attrs. cbn [fst] in *. destruct (sactive fr conds (fst s)) as [active u1].
  destruct active as [|x act].
  { exists (snd s). split; [reflexivity|]. rewrite S. cbn [fst]. split; [apply Permutation_refl|auto]. }
  exists (Datatypes.S (Datatypes.S (snd s))). split; [reflexivity|]. split; [|discriminate].
  cbn [fst]. remember (x :: act) as active. clear Heqactive x act.
  rewrite <- flat_map_app. unfold tag_spec.
  rewrite (flat_map_ext (fun n => oapp (resolve (effective (declared n ds)) (declared n active)))
             (shown attrs active)) by (intro n; rewrite shown_resolve, F3; reflexivity).
  apply Permutation_flat_map.
  destruct (ev_names_spec active) as [E1 E2].
  assert (P1 : Permutation (names attrs) (o (snd s) (names attrs))) by apply O.
  assert (P2 : Permutation (ev_names active) (o (Datatypes.S (snd s)) (ev_names active))) by apply O.
  destruct (names_of_spec ds) as [N1 N2].
  destruct (names_of_spec (ds ++ active)) as [M1 M2].
  apply NoDup_Permutation; auto.
  - apply NoDup_app_iff_local.
    + eapply Permutation_NoDup; eauto.
    + apply NoDup_filter. eapply Permutation_NoDup; eauto.
    + intros n H1 H2. apply filter_In in H2 as [_ H2].
      apply (Permutation_in _ (Permutation_sym P1)) in H1.
      unfold is_static in H2. destruct (static_of attrs n) eqn:E; [discriminate|].
      apply static_of_none in E. auto.
  - intro n. rewrite M2, map_app, !in_app_iff, filter_In. split.
    + intros [H|[H _]].
      * left. apply N2. rewrite <- F2. eapply Permutation_in; [apply Permutation_sym; eauto|auto].
      * right. apply E2. eapply Permutation_in; [apply Permutation_sym; eauto|auto].
    + intros [H|H].
      * left. eapply Permutation_in; [eauto|]. rewrite F2. apply N2. auto.
      * unfold is_static. destruct (static_of attrs n) eqn:E.
        -- left. eapply Permutation_in; [eauto|].
           apply static_of_some in E as [E <-]. apply in_map. auto.
        -- right. split; auto. eapply Permutation_in; [eauto|]. apply E2. auto.
Qed.

Lemma pages_attrs o (l : list (attr U)) fr s :
  pages o (map NAttr l) fr s = liftU (sattrs fr l) s.
Proof.
  revert s; induction l as [|a l IH]; intros [u t]; [reflexivity|].
  cbn [map pages]. rewrite page_attr. unfold liftU at 1, sattrs. cbn [fst snd].
  unfold liftU at 1. cbn [mapS fst].
  destruct (sattr fr a u) as [b1 u1]. rewrite IH. unfold liftU, sattrs. cbn [fst snd].
  destruct (mapS (sattr fr) l u1) as [bs u2]. reflexivity.
Qed.

(** The opening tag of anything built from [ns]. *)
Lemma stag_spec o fr name ns s :
  ord_ok o ->
  exists conds active u1 l t,
    map fst conds = map fst (flat_map (cond_decls []) ns) /\
    (all (linear 0) ns -> conds = flat_map (cond_decls []) ns) /\
    sactive fr conds (fst s) = (active, u1) /\
    Permutation l (tag_spec (flat_map static_decls ns) active) /\
    (active = [] -> t = snd s /\ l = tag_spec (flat_map static_decls ns) []) /\
    (let '(attrs, conds, _) := attributes_and_contents ns in
     stag o fr name (fst (add_attributes attrs)) conds s =
     (let '(A, s1) := pages o (map NAttr l) fr (u1, t) in
      (B "<" ++ name ++ A ++ B ">", s1))) /\
    mk_void name ns = NVoid name (fst (add_attributes (flat_map static_decls ns)))
      (snd (add_attributes (flat_map static_decls ns))) conds /\
    mk_element name ns = NElement name (fst (add_attributes (flat_map static_decls ns)))
      (snd (add_attributes (flat_map static_decls ns))) conds (filter (fun n => negb (is_attr n)) ns).
Proof.
  intro O. pose proof (attributes_shape ns) as Sh. pose proof (attributes_exact ns) as Ex.
  unfold mk_void, mk_element.
  destruct (attributes_and_contents ns) as [[attrs conds] contents].
  destruct Sh as (-> & S2 & ->).
  pose proof (tag_attrs_spec o fr (flat_map static_decls ns) conds s O) as T.
  destruct (sactive fr conds (fst s)) as [active u1] eqn:A.
  destruct T as (t & T1 & T2 & T3).
  exists conds, active, u1, (fst (tag_attrs o fr (fst (add_attributes (flat_map static_decls ns))) conds s)), t.
  split; [auto|]. split. { intro L. specialize (Ex L). injection Ex as ->. reflexivity. }
  split; [exact A|]. split; [auto|]. split; [auto|].
  split; [|destruct (add_attributes (flat_map static_decls ns)); auto].
  unfold stag. rewrite pages_attrs.
  destruct (tag_attrs o fr (fst (add_attributes (flat_map static_decls ns))) conds s) as [l s1].
  cbn [fst snd] in *. subst s1. reflexivity.
Qed.

End Facts.
