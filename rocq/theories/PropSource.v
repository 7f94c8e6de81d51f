(** C13 C14 C51 in terms of what was written. *)
From Coq Require Import Permutation.
From Verif Require Import Bytes IO IOFacts Escape Nodes NodeInd Values Render
  Slices Build Api SpecOut SpecRun SpecElem RenderFacts AttrFacts ApiFacts PageFacts CondFacts
  TagFacts PropValues PropElements PropGroups PropConditions SpecSource Demo.

Section Source.
Context {W : UserWorld}.
Variables (o : order) (fr : frame U).
Hypothesis O : ord_ok o.

(** The nodes that the constructors make of what was written. *)
Fixpoint part_node (p : part) : node U :=
  match p with
  | PAttr a => NAttr a
  | PGroup l => Collection (map (fun p => Some (part_node p)) l)
  | PCond f l =>
      match Conditional (Some f) (map (fun p => Some (part_node p)) l) with
      | Done n => n
      | Panic => NCollection []
      end
  | POther n => n
  end.

Lemma part_ind' (P : part -> Prop)
  (HA : forall a, P (PAttr a)) (HG : forall l, Forall P l -> P (PGroup l))
  (HC : forall f l, Forall P l -> P (PCond f l)) (HO : forall n, P (POther n)) : forall p, P p.
Proof.
  fix IH 1. intros [a|l|f l|n]; [apply HA|apply HG|apply HC|apply HO].
  - induction l; constructor; [apply IH|auto].
  - induction l; constructor; [apply IH|auto].
Qed.

Lemma somes_nodes (l : list part) : somes (map (fun p => Some (part_node p)) l) = map part_node l.
Proof. induction l as [|p l IH]; [reflexivity|]. unfold somes in *. cbn [map flat_map]. rewrite IH. reflexivity. Qed.
Lemma all_nodes (l : list part) : all_some (map (fun p => Some (part_node p)) l) = Some (map part_node l).
Proof. induction l as [|p l IH]; [reflexivity|]. cbn [map all_some]. rewrite IH. reflexivity. Qed.
Lemma group_node l : part_node (PGroup l) = NCollection (map part_node l).
Proof. cbn [part_node]. unfold Collection. rewrite somes_nodes. reflexivity. Qed.
Lemma cond_node f l : part_node (PCond f l) =
  NConditional f (node_attrs (map part_node l)) (non_attrs (map part_node l)).
Proof. cbn [part_node]. unfold Conditional. rewrite all_nodes. reflexivity. Qed.

(** Conditional itself never panics on what was written. *)
Theorem C14_conditional_made f l :
  Conditional (Some f) (map (fun p => Some (part_node p)) l) = Done (part_node (PCond f l)).
Proof. rewrite cond_node. unfold Conditional. rewrite all_nodes. reflexivity. Qed.

Lemma is_attr_part p : part_ok p -> is_attr (part_node p) = is_pattr p.
Proof.
  destruct p as [a|l|f l|n]; intro H.
  - reflexivity.
  - rewrite group_node. reflexivity.
  - rewrite cond_node. reflexivity.
  - cbn in *. destruct n; try contradiction; reflexivity.
Qed.

Lemma part_statics p : part_ok p -> forall chain,
  map fst (filter unconditional (governed chain p)) =
  match chain with [] => static_decls (part_node p) | _ => [] end.
Proof.
  induction p as [a|l IH|f l IH|n] using part_ind'; intros H chain.
  - destruct chain; reflexivity.
  - rewrite group_node. cbn [governed static_decls]. cbn [part_ok] in H.
    assert (G : map fst (filter unconditional (flat_map (governed chain) l)) =
      match chain with [] => flat_map static_decls (map part_node l) | _ => [] end).
    { induction IH as [|p l Hp F IHl].
      - destruct chain; reflexivity.
      - destruct H as [H1 H2]. cbn [flat_map map]. rewrite filter_app, map_app, (Hp H1 chain), (IHl H2).
        destruct chain; reflexivity. }
    exact G.
  - rewrite cond_node. cbn [governed static_decls].
    assert (G : filter unconditional (flat_map (governed (chain ++ [f])) l) = []).
    { cbn [part_ok] in H. induction IH as [|p l Hp F IHl]; [reflexivity|]. destruct H as [H1 H2].
      cbn [flat_map]. rewrite filter_app, IHl, app_nil_r by auto. specialize (Hp H1 (chain ++ [f])).
      destruct (chain ++ [f]) eqn:E; [destruct chain; discriminate|]. destruct (filter unconditional (governed (c :: l0) p)); [reflexivity|discriminate]. }
    rewrite G. destruct chain; reflexivity.
  - cbn. destruct chain; auto. destruct n; try contradiction; reflexivity.
Qed.

Lemma cond_decls_nodes chain l : chain <> [] -> Forall part_ok l ->
  Forall (fun p => part_ok p -> forall chain, chain <> [] -> cond_decls chain (part_node p) = taken chain p) l ->
  map (fun a => (a, chain)) (node_attrs (map part_node l)) ++ flat_map (cond_decls chain) (non_attrs (map part_node l)) =
  flat_map (fun p => if is_pattr p then taken chain p else []) l ++
  flat_map (fun p => if is_pattr p then [] else taken chain p) l.
Proof.
  intros N K F. f_equal.
  - clear F. induction K as [|p l Hp K IH]; [reflexivity|]. unfold node_attrs in *. cbn [map flat_map]. rewrite map_app, IH. f_equal.
    pose proof (is_attr_part p Hp) as A. destruct p as [a|l'|f l'|n]; cbn [is_pattr taken] in *; try reflexivity.
    + rewrite cond_node. reflexivity.
    + cbn in *. destruct n; try contradiction; reflexivity.
  - induction F as [|p l Hp F IH]; [reflexivity|]. inversion K as [|? ? K1 K2]; subst. unfold non_attrs in *. cbn [map filter flat_map].
    rewrite (is_attr_part p K1). destruct (is_pattr p) eqn:E; cbn [negb].
    + cbn [app]. auto.
    + cbn [flat_map]. rewrite IH, (Hp K1) by auto. reflexivity.
Qed.
Lemma ok_Forall l : fold_right (fun p P => part_ok p /\ P) True l <-> Forall part_ok l.
Proof.
  induction l as [|p l IH]; cbn [fold_right]; split; intro H; auto.
  - destruct H. constructor; auto. apply IH. auto.
  - inversion H; subst. split; auto. apply IH. auto.
Qed.
Lemma part_conds p : part_ok p -> forall chain, chain <> [] -> cond_decls chain (part_node p) = taken chain p.
Proof.
  induction p as [a|l IH|f l IH|n] using part_ind'; intros H chain N.
  - destruct chain; [contradiction|reflexivity].
  - rewrite group_node. cbn [cond_decls taken part_ok] in *. induction IH as [|p l Hp F IHl]; [reflexivity|].
    destruct H as [H1 H2]. cbn [map flat_map]. rewrite Hp, IHl by auto. reflexivity.
  - rewrite cond_node. cbn [cond_decls taken part_ok] in *. apply ok_Forall in H.
    apply cond_decls_nodes; auto. destruct chain; discriminate.
  - cbn in *. destruct n; try contradiction; reflexivity.
Qed.
Lemma part_conds_top p : part_ok p -> cond_decls [] (part_node p) = filter (fun d => negb (unconditional d)) (taken [] p).
Proof.
  assert (T : forall p chain, chain <> [] -> filter (fun d => negb (unconditional d)) (taken chain p) = taken chain p).
  { intro q. induction q as [a|l IH|f l IH|n] using part_ind'; intros chain N; cbn [taken].
    - destruct chain; [contradiction|reflexivity].
    - induction IH as [|p' l Hp F IHl]; [reflexivity|]. cbn [flat_map]. rewrite filter_app, Hp, IHl by auto. reflexivity.
    - assert (N' : chain ++ [f] <> []) by (destruct chain; discriminate). rewrite filter_app. f_equal.
      + induction IH as [|p' l Hp F IHl]; [reflexivity|]. cbn [flat_map]. rewrite filter_app, IHl. destruct (is_pattr p'); [rewrite Hp by auto|]; reflexivity.
      + induction IH as [|p' l Hp F IHl]; [reflexivity|]. cbn [flat_map]. rewrite filter_app, IHl. destruct (is_pattr p'); [|rewrite Hp by auto]; reflexivity.
    - reflexivity. }
  induction p as [a|l IH|f l IH|n] using part_ind'; intros H.
  - reflexivity.
  - rewrite group_node. cbn [cond_decls taken part_ok] in *. induction IH as [|p l Hp F IHl]; [reflexivity|].
    destruct H as [H1 H2]. cbn [map flat_map]. rewrite filter_app, Hp, IHl by auto. reflexivity.
  - cbn [part_ok] in H. apply ok_Forall in H.
    assert (E : filter (fun d => negb (unconditional d)) (taken [] (PCond f l)) = taken [] (PCond f l)).
    { cbn [taken app]. rewrite filter_app. f_equal.
      - clear H IH. induction l as [|p l IHl]; [reflexivity|]. cbn [flat_map]. rewrite filter_app, IHl. destruct (is_pattr p); [rewrite T by discriminate|]; reflexivity.
      - clear H IH. induction l as [|p l IHl]; [reflexivity|]. cbn [flat_map]. rewrite filter_app, IHl. destruct (is_pattr p); [|rewrite T by discriminate]; reflexivity. }
    rewrite E, cond_node. cbn [cond_decls taken app]. apply cond_decls_nodes; auto; [discriminate|].
    apply Forall_forall. intros p _ Hp. apply part_conds. auto.
  - cbn in *. destruct n; try contradiction; reflexivity.
Qed.

(** Taking attributes in another order loses and adds none. *)
Lemma taken_governed p : forall chain, Permutation (taken chain p) (governed chain p).
Proof.
  induction p as [a|l IH|f l IH|n] using part_ind'; intro chain; cbn [taken governed]; auto.
  - induction IH as [|p l Hp F IHl]; [constructor|]. cbn [flat_map]. apply Permutation_app; auto.
  - induction IH as [|p l Hp F IHl]; [constructor|]. cbn [flat_map]. destruct (is_pattr p).
    + cbn [app]. rewrite <- app_assoc. apply Permutation_app; auto.
    + cbn [app]. rewrite app_assoc. transitivity
        ((taken (chain ++ [f]) p ++ flat_map (fun p => if is_pattr p then taken (chain ++ [f]) p else []) l) ++
         flat_map (fun p => if is_pattr p then [] else taken (chain ++ [f]) p) l).
      * apply Permutation_app_tail. apply Permutation_app_comm.
      * rewrite <- app_assoc. apply Permutation_app; auto.
Qed.

Lemma written_statics ps : Forall part_ok ps ->
  flat_map static_decls (map part_node ps) = map fst (filter unconditional (written ps)).
Proof.
  induction 1 as [|p ps H F IH]; [reflexivity|]. unfold written in *. cbn [map flat_map].
  rewrite filter_app, map_app, <- IH, (part_statics p H []). reflexivity.
Qed.
Lemma taken_conds ps : Forall part_ok ps ->
  flat_map (cond_decls []) (map part_node ps) = filter (fun d => negb (unconditional d)) (flat_map (taken []) ps).
Proof.
  induction 1 as [|p ps H F IH]; [reflexivity|]. cbn [map flat_map]. rewrite filter_app, <- IH, (part_conds_top p H). reflexivity.
Qed.
Lemma filter_perm {A} (f : A -> bool) l1 l2 : Permutation l1 l2 -> Permutation (filter f l1) (filter f l2).
Proof.
  induction 1; cbn [filter]; auto.
  - destruct (f x); auto.
  - destruct (f x), (f y); auto. apply perm_swap.
  - etransitivity; eauto.
Qed.
Lemma taken_written ps : Permutation (flat_map (taken []) ps) (written ps).
Proof.
  unfold written. induction ps as [|p ps IH]; [constructor|]. cbn [flat_map]. apply Permutation_app; auto. apply taken_governed.
Qed.
Lemma args_of ps u : contents_to_nodes (map ANode (map part_node ps)) u = (map part_node ps, u).
Proof. induction ps as [|p ps IH]; [reflexivity|]. cbn [map contents_to_nodes content_to_node]. rewrite IH. reflexivity. Qed.
Lemma depth_part p : part_ok p -> cond_depth (part_node p) <= part_depth p.
Proof.
  induction p as [a|l IH|f l IH|n] using part_ind'; intro H.
  - auto.
  - rewrite group_node. cbn [cond_depth part_depth part_ok] in *. induction IH as [|p l Hp F IHl]; [auto|].
    destruct H as [H1 H2]. specialize (Hp H1). specialize (IHl H2). cbn [map list_max fold_right] in *. unfold list_max in *. cbn [fold_right]. lia.
  - rewrite cond_node. cbn [cond_depth part_depth part_ok] in *. apply le_n_S. induction IH as [|p l Hp F IHl]; [auto|].
    destruct H as [H1 H2]. specialize (Hp H1). specialize (IHl H2). unfold non_attrs, list_max in *. cbn [map filter].
    destruct (negb (is_attr (part_node p))); cbn [map fold_right]; lia.
  - cbn in *. destruct n; try contradiction; auto.
Qed.

(** C14.  The attributes added to the unconditional ones are exactly those all
    of whose conditions, as written around them, hold.  Missing: nesting deeper
    than three (see [C14_enclosing_partial]). *)
Theorem C14_written_partial name ps u s :
  Forall part_ok ps -> all usable (map part_node ps) -> Forall (fun p => part_depth p <= 3) ps ->
  (forall a c f, In (a, c) (written ps) -> In f c -> pure fr f) ->
  exists active l t,
    (forall a, In a active <-> exists c, In (a, c) (written ps) /\ c <> [] /\ forall f, In f c -> says fr true f) /\
    Permutation l (tag_spec (map fst (filter unconditional (written ps))) active) /\
    page o (fst (NewElement name (map ANode (map part_node ps)) u)) fr s =
      (let '(A, s1) := pages o (map NAttr l) fr (fst s, t) in
       let '(C, s2) := pages o (non_attrs (map part_node ps)) fr s1 in
       (wrap name A C, s2)).
Proof.
  intros K H Dp P.
  assert (Us : usable_args (map ANode (map part_node ps))).
  { intros n Hn. apply in_map_iff in Hn as (x & E & Hx). injection E as ->. rewrite all_In in H. auto. }
  pose proof (C14_evaluation_partial o fr O name _ u s Us) as X. cbv zeta in X. rewrite args_of in X. cbn [fst] in X.
  assert (L : all (linear 0) (map part_node ps)).
  { apply C14_three_levels_partial. apply all_In. intros n Hn. apply in_map_iff in Hn as (p & <- & Hp).
    rewrite Forall_forall in K, Dp. pose proof (depth_part p (K p Hp)). specialize (Dp p Hp). cbn beta in Dp. lia. }
  destruct (X L) as (l & t & Y). rewrite taken_conds, written_statics in Y by auto.
  assert (In_iff : forall a c, In (a, c) (filter (fun d => negb (unconditional d)) (flat_map (taken []) ps)) <->
    In (a, c) (written ps) /\ c <> []).
  { intros a c. rewrite filter_In. pose proof (taken_written ps) as T. split; intros [I N].
    - split; [eapply Permutation_in; eauto|]. destruct c; [discriminate|discriminate].
    - split; [eapply Permutation_in; [apply Permutation_sym|]; eauto|]. destruct c; [contradiction|reflexivity]. }
  destruct (sactive_pure fr (filter (fun d => negb (unconditional d)) (flat_map (taken []) ps)) (fst s)) as (act & E & Ha).
  { intros a c f I Hf. apply In_iff in I as [I _]. eauto. }
  rewrite E in Y. destruct Y as [Y1 Y2]. exists act, l, t. split; auto. intro a. rewrite Ha.
  split; intros (c & I & Z).
  - apply In_iff in I as [I N]. eauto.
  - destruct Z. exists c. split; auto. apply In_iff. auto.
Qed.

(** C13, C51.  Of the declarations of one name, none of them delimited, whose
    conditions hold, the one rendered is the last of: the unconditional ones as
    written, then the conditional ones, taken directly before through groups. *)
Definition last_opt {A} (l : list A) : option A := match rev l with a :: _ => Some a | [] => None end.

Lemma final_delims_none (ds : list (attr U)) : Forall (fun a => is_delim a = false) ds -> final_delims ds = [].
Proof.
  intro F. unfold final_delims. destruct (rev ds) as [|a r] eqn:E; [reflexivity|]. cbn [while_delim].
  rewrite Forall_forall in F. rewrite F; [reflexivity|]. apply in_rev. rewrite E. left. auto.
Qed.
Lemma effective_plain (ds : list (attr U)) : Forall (fun a => is_delim a = false) ds -> effective ds = last_opt ds.
Proof. intro F. unfold effective. rewrite final_delims_none by auto. reflexivity. Qed.
Lemma resolve_plain (ds act : list (attr U)) :
  Forall (fun a => is_delim a = false) (ds ++ act) ->
  resolve (effective ds) act = last_opt (ds ++ act).
Proof.
  intro F. apply Forall_app in F as [F1 F2]. rewrite effective_plain by auto. unfold last_opt. rewrite rev_app_distr.
  destruct (rev ds) as [|d r] eqn:Ed.
  - rewrite app_nil_r. unfold resolve. destruct act as [|a act]; [reflexivity|]. inversion F2; subst.
    destruct a; try discriminate; destruct (rev _); reflexivity.
  - assert (is_delim d = false).
    { rewrite Forall_forall in F1. apply F1. apply in_rev. rewrite Ed. left. auto. }
    unfold resolve. destruct (rev act) as [|a r'] eqn:Ea.
    + destruct d; try discriminate; reflexivity.
    + destruct d; try discriminate; reflexivity.
Qed.
Lemma last_opt_In {A} (l : list A) x : last_opt l = Some x -> In x l.
Proof. unfold last_opt. destruct (rev l) eqn:E; [discriminate|]. intro H. injection H as ->. apply in_rev. rewrite E. left. auto. Qed.

Lemma resolve_name (ds act : list (attr U)) m b : In m (names_of (ds ++ act)) ->
  resolve (effective (declared m ds)) (declared m act) = Some b -> attr_name b = m.
Proof.
  intros I E. pose proof (stored_attrs ds) as F. destruct (add_attributes ds) as [attrs idx]. destruct F as (_ & F2 & F3).
  assert (N : map (@attr_name U) (flat_map (shown attrs act) [m]) = [m]).
  { apply flat_shown_names. intros n [<-|[]]. apply names_of_spec in I. rewrite map_app in I.
    apply in_app_iff. apply in_app_iff in I as [I|I]; auto. left. rewrite F2. apply names_of_spec. auto. }
  cbn [flat_map] in N. rewrite app_nil_r, shown_resolve, F3, E in N. cbn in N. congruence.
Qed.

Theorem C51_rendered (ds act : list (attr U)) n a :
  Forall (fun a => is_delim a = false) (declared n (ds ++ act)) ->
  (In a (tag_spec ds act) /\ attr_name a = n <-> last_opt (declared n (ds ++ act)) = Some a).
Proof.
  intro F.
  assert (R : resolve (effective (declared n ds)) (declared n act) = last_opt (declared n (ds ++ act))).
  { unfold declared in *. rewrite filter_app in *. apply resolve_plain. auto. }
  destruct (names_of_spec (ds ++ act)) as [N1 N2]. split.
  - intros [I <-]. unfold tag_spec in I. apply in_flat_map in I as (m & Hm & Ho).
    assert (E : m = attr_name a).
    { destruct (resolve (effective (declared m ds)) (declared m act)) as [b|] eqn:Er; [|destruct Ho].
      destruct Ho as [<-|[]]. symmetry. eapply resolve_name; eauto. }
    subst m. rewrite R in Ho. destruct (last_opt _); [|destruct Ho]. destruct Ho as [<-|[]]. reflexivity.
  - intro L. assert (I : In a (declared n (ds ++ act))) by (apply last_opt_In; auto).
    unfold declared in I. apply filter_In in I as [I1 I2]. destruct (beq_spec (attr_name a) n) as [E|]; [|discriminate].
    split; auto. unfold tag_spec. apply in_flat_map. exists n. split.
    + apply N2. rewrite <- E. apply in_map. auto.
    + rewrite R, L. left. auto.
Qed.

(** The order in which declarations count, for templates in which no conditional
    with spare room has two below it (see C14), and so for those in which
    conditionals are at most three deep. *)
Theorem C51_linear_partial name ps u s :
  Forall part_ok ps -> all usable (map part_node ps) -> all (linear 0) (map part_node ps) ->
  exists l t,
    let '(active, u1) := sactive fr (filter (fun d => negb (unconditional d)) (flat_map (taken []) ps)) (fst s) in
    let ds := map fst (filter unconditional (written ps)) ++ active in
    (forall n a, Forall (fun a => is_delim a = false) (declared n ds) ->
       (In a l /\ attr_name a = n <-> last_opt (declared n ds) = Some a)) /\
    page o (fst (NewElement name (map ANode (map part_node ps)) u)) fr s =
      (let '(A, s1) := pages o (map NAttr l) fr (u1, t) in
       let '(C, s2) := pages o (non_attrs (map part_node ps)) fr s1 in
       (wrap name A C, s2)).
Proof.
  intros K H L.
  assert (Us : usable_args (map ANode (map part_node ps))).
  { intros n Hn. apply in_map_iff in Hn as (x & E & Hx). injection E as ->. rewrite all_In in H. auto. }
  pose proof (C14_evaluation_partial o fr O name _ u s Us) as X. cbv zeta in X. rewrite args_of in X. cbn [fst] in X.
  destruct (X L) as (l & t & Y). rewrite taken_conds, written_statics in Y by auto.
  exists l, t. destruct (sactive fr (filter (fun d => negb (unconditional d)) (flat_map (taken []) ps)) (fst s)) as [active u1]. destruct Y as [Y1 Y2]. cbv zeta. split; auto.
  intros n a F. rewrite <- (C51_rendered _ _ n a F). split; intros [I E]; split; auto.
  - eapply Permutation_in; eauto.
  - eapply Permutation_in; [apply Permutation_sym|]; eauto.
Qed.
Theorem C51_order_partial name ps u s :
  Forall part_ok ps -> all usable (map part_node ps) -> Forall (fun p => part_depth p <= 3) ps ->
  exists l t,
    let '(active, u1) := sactive fr (filter (fun d => negb (unconditional d)) (flat_map (taken []) ps)) (fst s) in
    let ds := map fst (filter unconditional (written ps)) ++ active in
    (forall n a, Forall (fun a => is_delim a = false) (declared n ds) ->
       (In a l /\ attr_name a = n <-> last_opt (declared n ds) = Some a)) /\
    page o (fst (NewElement name (map ANode (map part_node ps)) u)) fr s =
      (let '(A, s1) := pages o (map NAttr l) fr (u1, t) in
       let '(C, s2) := pages o (non_attrs (map part_node ps)) fr s1 in
       (wrap name A C, s2)).
Proof.
  intros K H Dp. apply C51_linear_partial; auto.
  apply C14_three_levels_partial. apply all_In. intros n Hn. apply in_map_iff in Hn as (p & <- & Hp).
  rewrite Forall_forall in K, Dp. pose proof (depth_part p (K p Hp)). specialize (Dp p Hp). cbn beta in Dp. lia.
Qed.

End Source.

(** ** Examples and refutation *)

(** Nodes given directly, as their constructors make them. *)
Section Direct.
Context {W : UserWorld}.
Lemma values_direct vs (u : U) : new_values (map AVal vs) u = (vs, u).
Proof. induction vs as [|v vs IH]; [reflexivity|]. cbn [map new_values new_value]. rewrite IH. reflexivity. Qed.
Lemma api_plain n vs (u : U) : api (NAttr (APlain n vs)).
Proof. pose proof (api_attribute n (map AVal vs) u) as H. unfold NewAttribute in H. rewrite values_direct in H. exact H. Qed.
Lemma api_delim n d vs (u : U) : api (NAttr (ADelim n d vs)).
Proof. pose proof (api_delimited n d (map AVal vs) u) as H. unfold NewDelimitedAttribute in H. rewrite values_direct in H. exact H. Qed.
Lemma api_ntext vs (u : U) : api (NText vs).
Proof. pose proof (api_text (map AVal vs) u) as H. unfold Text in H. rewrite values_direct in H. exact H. Qed.
Lemma api_group ns : (forall n, In n ns -> api n) -> api (NCollection ns).
Proof.
  intro H. assert (E : Collection (map Some ns) = NCollection ns).
  { unfold Collection. f_equal. clear. induction ns as [|n ns IH]; [reflexivity|].
    unfold somes in *. cbn [map flat_map app]. rewrite IH. reflexivity. }
  rewrite <- E. apply api_collection. intros n Hn. apply in_map_iff in Hn as (x & Ex & Hx). injection Ex as ->. auto.
Qed.
Lemma api_cond f attrs ns : (forall a, In a attrs -> api (NAttr a)) -> (forall n, In n ns -> api n) ->
  forallb (fun n => negb (is_attr n)) ns = true -> api (NConditional f attrs ns).
Proof.
  intros Ha Hn N. apply (api_conditional (Some f) (map Some (map NAttr attrs ++ ns))).
  - intros c Hc. apply in_map_iff in Hc as (x & Ex & Hx). injection Ex as ->. apply in_app_or in Hx as [Hx|Hx]; auto.
    apply in_map_iff in Hx as (a & <- & Hx). auto.
  - assert (A : forall l : list (node U), all_some (map Some l) = Some l).
    { induction l as [|n l IH]; [reflexivity|]. cbn. rewrite IH. reflexivity. }
    unfold Conditional. rewrite A. do 2 f_equal.
    + clear - N. induction attrs as [|a l IH]; cbn; [|f_equal; exact IH].
      induction ns as [|n ns IH]; [reflexivity|]. cbn in N. apply andb_true_iff in N as [N1 N2].
      destruct n; try discriminate; exact (IH N2).
    + unfold non_attrs. rewrite filter_app. clear - N. induction attrs as [|a l IH]; cbn; auto.
      induction ns as [|n ns IH]; [reflexivity|]. cbn in *. apply andb_true_iff in N as [N1 N2]. rewrite N1, IH; auto.
Qed.
End Direct.
Ltac in_list H := repeat (destruct H as [<-|H]); [..|destruct H].
Ltac direct := repeat (first
  [ apply (api_plain _ _ (st 0)) | apply (api_delim _ _ _ (st 0)) | apply (api_ntext _ (st 0))
  | apply api_group; let n := fresh in let H := fresh in intros n H; in_list H
  | apply api_cond; [let n := fresh in let H := fresh in intros n H; in_list H
                    |let n := fresh in let H := fresh in intros n H; in_list H|reflexivity] ]).
Ltac all_direct := repeat (match goal with |- api _ => fail 1 | _ => split end); direct.

Definition written_ex : list (@part demo) :=
  [PAttr (plain "id" "1"); PCond cT [POther (NText [Val (B "x") None []]); PAttr (plain "id" "2");
     PGroup [PAttr (deli "class" "a"); PCond cF [PAttr (plain "id" "3")]]]; PGroup [PAttr (deli "class" "b")]].
Example written_ex_ok : Forall part_ok written_ex /\ Forall (fun p => part_depth p <= 3) written_ex.
Proof. split; [cbn; repeat (constructor; cbn; auto 10)|]. repeat (constructor; [cbn; lia|]). constructor. Qed.
Example written_ex_usable : all usable (map part_node written_ex).
Proof. all_direct. Qed.
Example written_ex_page :
  fst (page listed (fst (NewElement (B "p") (map ANode (map part_node written_ex)) (st 0))) fr0 (st 0, 0)) =
  B "<p id=""2"" class=""b a"">x</p>".
Proof. vm_compute. reflexivity. Qed.

(** Even among the attributes of one conditional the last one written need not
    be the one rendered: an attribute in a group beats a later one outside it. *)
Theorem C51_group_refuted : exists (ps : list (@part demo)),
  Forall part_ok ps /\
  map fst (written ps) = [plain "id" "first"; plain "id" "last"] /\
  (forall a c f, In (a, c) (written ps) -> In f c -> says fr0 true f) /\
  fst (page listed (fst (NewElement (B "p") (map ANode (map part_node ps)) (st 0))) fr0 (st 0, 0)) =
  B "<p id=""first""></p>".
Proof.
  exists [PCond cT [PGroup [PAttr (plain "id" "first")]; PAttr (plain "id" "last")]].
  split; [constructor; [cbn; auto|constructor]|]. split; [reflexivity|]. split; [|vm_compute; reflexivity].
  intros a c f I Hf. cbn in I. destruct I as [E|[E|[]]]; injection E as <- <-; destruct Hf as [<-|[]]; intro u; reflexivity.
Qed.
