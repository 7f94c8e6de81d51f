(** C14 C15 C16: conditions. *)
From Coq Require Import Permutation ZArith.
From Verif Require Import Bytes IO IOFacts Escape Nodes NodeInd Values Render
  Slices Build Api SpecOut SpecRun SpecElem RenderFacts AttrFacts ApiFacts PageFacts CondFacts
  TagFacts PropValues PropElements PropGroups Demo.

Section Conditions.
Context {W : UserWorld}.
Variables (o : order) (fr : frame U).
Hypothesis O : ord_ok o.

(** ** C14 *)

(** Attribute [a] occurs in [n] inside exactly the conditions [c], outermost
    first (at least one). *)
Inductive inside : list (condfn U) -> node U -> attr U -> Prop :=
| in_direct f attrs ns a : In a attrs -> inside [f] (NConditional f attrs ns) a
| in_plain f attrs ns n a : In n ns -> In a (static_decls n) -> inside [f] (NConditional f attrs ns) a
| in_deeper f attrs ns n a c : In n ns -> inside c n a -> inside (f :: c) (NConditional f attrs ns) a
| in_collection ns n a c : In n ns -> inside c n a -> inside c (NCollection ns) a.

Lemma cond_decls_chain chain n a c :
  In (a, c) (cond_decls chain n) <->
  (chain <> [] /\ c = chain /\ In a (static_decls n)) \/ (exists c', c = chain ++ c' /\ inside c' n a).
Proof.
  revert n chain a c.
  apply (node_simple_ind (fun n => forall chain a c, In (a, c) (cond_decls chain n) <->
    (chain <> [] /\ c = chain /\ In a (static_decls n)) \/ (exists c', c = chain ++ c' /\ inside c' n a)));
    try (intros; cbn; split; [tauto|intros [(_ & _ & [])|(c' & _ & X)]; inversion X]).
  - intros a0 chain a c. cbn [cond_decls static_decls]. destruct chain as [|f chain].
    + cbn. split; [tauto|]. intros [(X & _)|(c' & _ & X)]; [congruence|inversion X].
    + split.
      * intros [E|[]]. injection E as <- <-. left. repeat split; [discriminate|left; auto].
      * intros [(_ & -> & [<-|[]])|(c' & _ & X)]; [left; auto|inversion X].
  - intros ns F chain a c. cbn [cond_decls static_decls]. rewrite in_flat_map. split.
    + intros (n & Hn & Hi). rewrite Forall_forall in F. apply (F n Hn) in Hi as [(X & -> & Hi)|(c' & -> & Hi)].
      * left. repeat split; auto. apply in_flat_map. eauto.
      * right. exists c'. split; auto. econstructor; eauto.
    + rewrite Forall_forall in F. intros [(X & -> & Hi)|(c' & -> & Hi)].
      * apply in_flat_map in Hi as (n & Hn & Hi). exists n. split; auto. apply (F n Hn). auto.
      * inversion Hi; subst. exists n. split; auto. apply (F n); eauto.
  - intros f attrs ns F chain a c. cbn [cond_decls static_decls]. rewrite in_app_iff, in_flat_map, in_map_iff.
    rewrite Forall_forall in F. split.
    + intros [(a' & E & Ha)|(n & Hn & Hi)].
      * injection E as -> <-. right. exists [f]. split; auto. constructor; auto.
      * apply (F n Hn) in Hi as [(X & -> & Hi)|(c' & -> & Hi)].
        -- right. exists [f]. split; auto. eapply in_plain; eauto.
        -- right. exists (f :: c'). rewrite <- app_assoc. split; auto. eapply in_deeper; eauto.
    + intros [(_ & _ & [])|(c' & -> & Hi)]. inversion Hi; subst.
      * left. exists a. auto.
      * right. exists n. split; auto. apply (F n); auto. left. split; [|auto]. destruct chain; discriminate.
      * right. exists n. split; auto. apply (F n); auto. right. eexists.
        rewrite <- app_assoc. split; [reflexivity|eassumption].
Qed.

(** A condition without side effects, in this context. *)
Definition says (b : bool) (f : condfn U) : Prop := forall u, f (view fr None) u = (b, u).
Definition pure (f : condfn U) : Prop := exists b, says b f.

Lemma sconds_pure cs u :
  (forall f, In f cs -> pure f) ->
  exists b, sconds fr cs u = (b, u) /\ (b = true <-> forall f, In f cs -> says true f).
Proof.
  induction cs as [|f cs IH]; intro P; cbn [sconds].
  - exists true. split; auto. split; auto. intros _ f [].
  - destruct (P f) as [b Hb]; [left; auto|]. rewrite Hb. destruct b.
    + destruct IH as (b' & E & H). { intros; apply P; right; auto. }
      exists b'. split; auto. rewrite H. split.
      * intros X g [<-|Hg]; auto.
      * intros X g Hg. apply X. right; auto.
    + exists false. split; auto. split; [discriminate|]. intro X. exfalso.
      specialize (X f ltac:(left; auto) u). rewrite Hb in X. discriminate.
Qed.

Lemma sactive_pure conds u :
  (forall a c f, In (a, c) conds -> In f c -> pure f) ->
  exists l, sactive fr conds u = (l, u) /\
    forall a, In a l <-> exists c, In (a, c) conds /\ forall f, In f c -> says true f.
Proof.
  induction conds as [|[a c] conds IH]; intro P.
  - exists []. split; auto. intro a. split; [intros []|intros (c & [] & _)].
  - destruct IH as (l & E & H). { intros a' c' f X. apply (P a' c' f). right; auto. }
    destruct (sconds_pure c u) as (b & E1 & H1). { intros f Hf. apply (P a c f); [left; auto|auto]. }
    unfold sactive in *. cbn [mapS snd fst]. rewrite E1.
    destruct (mapS _ conds u) as [ls u']. injection E as <- ->.
    exists ((if b then [a] else []) ++ concat ls). split; auto.
    intro x. rewrite in_app_iff, H. split.
    + intros [X|(c' & X1 & X2)].
      * destruct b; [|destruct X]. destruct X as [<-|[]]. exists c. split; [left; auto|]. apply H1. auto.
      * exists c'. split; [right; auto|auto].
    + intros (c' & [X|X] & Y).
      * injection X as <- <-. left. apply H1 in Y. rewrite Y. left; auto.
      * right. eauto.
Qed.

(** For templates in which no conditional at a depth with spare room in its slice
    of conditions has two conditionals below it (in particular up to three levels
    of nesting): the attributes added to the static ones are exactly those all of
    whose enclosing conditions hold, each governed by those conditions only.
    Missing from the claim: deeper nesting with several conditionals under one
    conditional at depth 3, 5, 6, 7, 9, ... (see the refutation). *)
Theorem C14_enclosing_partial name args u s :
  usable_args args ->
  let ns := fst (contents_to_nodes args u) in
  all (linear 0) ns ->
  (forall n a c f, In n ns -> inside c n a -> In f c -> pure f) ->
  exists active l t,
    (forall a, In a active <-> exists n c, In n ns /\ inside c n a /\ forall f, In f c -> says true f) /\
    Permutation l (tag_spec (flat_map static_decls ns) active) /\
    page o (fst (NewElement name args u)) fr s =
      (let '(A, s1) := pages o (map NAttr l) fr (fst s, t) in
       let '(C, s2) := pages o (non_attrs ns) fr s1 in
       (wrap name A C, s2)).
Proof.
  intros H ns L P. destruct (args_usable args u H) as [T Q]. subst ns. unfold NewElement.
  destruct (contents_to_nodes args u) as [ns u']. cbn [fst] in *.
  destruct (page_element o fr O name ns s T Q) as (conds & active & u1 & l & t & H1 & H2 & H3 & H4 & H5 & H6 & H7).
  rewrite (H2 L) in H3.
  assert (Ch : forall a c, In (a, c) (flat_map (cond_decls []) ns) <-> exists n, In n ns /\ inside c n a).
  { intros a c. rewrite in_flat_map. split; intros (n & Hn & X); exists n; split; auto.
    - apply cond_decls_chain in X as [(X & _)|(c' & -> & X)]; [congruence|auto].
    - apply cond_decls_chain. right. exists c. split; [reflexivity|exact X]. }
  destruct (sactive_pure (flat_map (cond_decls []) ns) (fst s)) as (l0 & E & Hl).
  { intros a c f X Hf. apply Ch in X as (n & Hn & X). eapply P; eauto. }
  rewrite E in H3. injection H3 as <- <-.
  exists l0, l, t. split; auto. intro a. rewrite Hl. split.
  - intros (c & X & Y). apply Ch in X as (n & Hn & X). eauto.
  - intros (n & c & Hn & X & Y). exists c. split; auto. apply Ch. eauto.
Qed.

(** Three levels suffice for the hypothesis. *)
Theorem C14_three_levels_partial ns :
  all (fun n => cond_depth n <= 3) ns -> all (linear 0) ns.
Proof.
  rewrite !all_In. intros H n Hn. apply depth_linear. specialize (H n Hn). cbn beta in H. lia.
Qed.

(** With stateful conditions: they are evaluated in declaration order, each
    attribute's own enclosing conditions outermost first. *)
Theorem C14_evaluation_partial name args u s :
  usable_args args ->
  let ns := fst (contents_to_nodes args u) in
  all (linear 0) ns ->
  exists l t,
    let '(active, u1) := sactive fr (flat_map (cond_decls []) ns) (fst s) in
    Permutation l (tag_spec (flat_map static_decls ns) active) /\
    page o (fst (NewElement name args u)) fr s =
      (let '(A, s1) := pages o (map NAttr l) fr (u1, t) in
       let '(C, s2) := pages o (non_attrs ns) fr s1 in
       (wrap name A C, s2)).
Proof.
  intros H ns L. destruct (args_usable args u H) as [T Q]. subst ns. unfold NewElement.
  destruct (contents_to_nodes args u) as [ns u']. cbn [fst] in *.
  destruct (page_element o fr O name ns s T Q) as (conds & active & u1 & l & t & H1 & H2 & H3 & H4 & H5 & H6 & H7).
  rewrite (H2 L) in H3. exists l, t. rewrite H3. auto.
Qed.

(** ** C15 *)

Theorem C15_gate f ns n s :
  all usable ns -> Conditional (Some f) (map Some ns) = Done n ->
  page o n fr s =
  (let '(b, u1) := f (view fr None) (fst s) in
   if b then pages o (non_attrs ns) fr (u1, snd s) else ([], (u1, snd s))).
Proof.
  intros H E. destruct (usable_tables ns H) as [T Q].
  assert (A : all_some (map Some ns) = Some ns).
  { clear. induction ns as [|n ns IH]; [reflexivity|]. cbn. rewrite IH. reflexivity. }
  unfold Conditional in E. rewrite A in E. injection E as <-.
  assert (T' : all tables_ok (non_attrs ns)) by (apply all_filter; auto).
  assert (Q' : all quiet (non_attrs ns)) by (apply all_filter; auto).
  rewrite page_snode by assumption. cbn [snode]. unfold liftU.
  destruct (f (view fr None) (fst s)) as [b u1]. destruct b; [|reflexivity].
  rewrite (pages_seqS o) by auto. reflexivity.
Qed.

(** Nothing but the condition and, when it holds, the contents is run. *)
Theorem C15_false f ns n s :
  all usable ns -> Conditional (Some f) (map Some ns) = Done n ->
  fst (f (view fr None) (fst s)) = false ->
  fst (page o n fr s) = [].
Proof.
  intros H E F. rewrite (C15_gate f ns n s H E).
  destruct (f (view fr None) (fst s)) as [b u1]. cbn in F. subst. reflexivity.
Qed.

(** Nested conditionals: the conjunction, the inner condition being evaluated
    only if the outer one holds. *)
Theorem C15_conjunction f g ns inner n m s :
  all usable ns ->
  Conditional (Some g) (map Some ns) = Done inner ->
  Conditional (Some f) [Some inner] = Done n ->
  Conditional (Some (fun c u => let '(b, u1) := f c u in if b then g c u1 else (false, u1))) (map Some ns) = Done m ->
  page o n fr s = page o m fr s.
Proof.
  intros H E1 E2 E3.
  assert (Ui : usable inner).
  { split.
    - eapply api_conditional; [|exact E1]. intros c Hc. apply in_map_iff in Hc as (x & X & Hx).
      injection X as ->. rewrite all_In in H. apply H. auto.
    - destruct (usable_tables ns H) as [_ Q]. unfold Conditional in E1.
      destruct (all_some (map Some ns)) as [l|] eqn:A; [|discriminate]. injection E1 as <-.
      change (all quiet (non_attrs l)). apply all_some_in in A.
      assert (l = ns). { revert A. clear. revert l. induction ns as [|x ns IH]; intros [|y l] A; try discriminate; auto.
        cbn in A. injection A as <- A. f_equal. auto. }
      subst. apply all_filter. auto. }
  change [Some inner] with (map Some [inner]) in E2.
  rewrite (C15_gate f [inner] n s (conj Ui I) E2).
  rewrite (C15_gate _ ns m s H E3).
  destruct (f (view fr None) (fst s)) as [b u1]. destruct b; [|reflexivity].
  assert (Hi : is_attr inner = false).
  { unfold Conditional in E1. destruct (all_some (map Some ns)); [|discriminate]. injection E1 as <-. reflexivity. }
  unfold non_attrs at 1. cbn [filter]. rewrite Hi. cbn [negb]. rewrite pages_one.
  rewrite (C15_gate g ns inner (u1, snd s) H E1). cbn [fst snd]. reflexivity.
Qed.

Theorem C15_nil_function ns : Conditional None ns = Done (Collection ns).
Proof. reflexivity. Qed.

(** ** C16 *)

(** When(k): the key is there and is not the bool false. *)
Definition holds (k : bytes) (c : ctx U) (u : U) : Prop :=
  exists m v, c_data c = Some m /\ mget u m k = Some v /\ v <> GBool false.

Lemma keyed_holds k c u : fst (keyed k c u) = true <-> holds k c u.
Proof.
  unfold keyed, holds, data_get. cbn [fst]. destruct (c_data c) as [m|].
  - destruct (mget u m k) as [v|] eqn:E.
    + split.
      * intro H. exists m, v. repeat split; auto. intros ->. discriminate.
      * intros (m' & v' & X & Y & Z). injection X as <-. rewrite E in Y. injection Y as <-.
        destruct v; auto. destruct b; congruence.
    + split; [discriminate|]. intros (m' & v' & X & Y & Z). injection X as <-. congruence.
  - split; [discriminate|]. intros (m' & v' & X & _). discriminate.
Qed.
Lemma unkeyed_keyed k c u : fst (unkeyed k c u) = negb (fst (keyed k c u)).
Proof.
  unfold keyed, unkeyed. cbn [fst]. destruct (data_get c k u) as [v|]; auto. destruct v; auto.
Qed.

(** When with a key that does not start with "!". *)
Theorem C16_when k ns n s :
  has_prefix (B "!") k = false -> all usable ns -> When k (map Some ns) = Done n ->
  (holds k (view fr None) (fst s) -> page o n fr s = pages o (non_attrs ns) fr s) /\
  (~ holds k (view fr None) (fst s) -> page o n fr s = ([], s)).
Proof.
  intros P H E. unfold When in E. rewrite P in E. rewrite (C15_gate _ ns n s H E).
  rewrite <- keyed_holds. unfold keyed. cbn [fst].
  destruct s as [u t]. cbn [fst snd].
  destruct (data_get (view fr None) k u) as [v|]; [destruct v; try destruct b|]; split; intro X; auto; try congruence.
Qed.

(** When("!" + k): the complement, for every k. *)
Theorem C16_when_not k ns n s :
  all usable ns -> When (B "!" ++ k) (map Some ns) = Done n ->
  (holds k (view fr None) (fst s) -> page o n fr s = ([], s)) /\
  (~ holds k (view fr None) (fst s) -> page o n fr s = pages o (non_attrs ns) fr s).
Proof.
  intros H E. unfold When in E.
  assert (has_prefix (B "!") (B "!" ++ k) = true) as P by reflexivity.
  rewrite P in E. change (skipn 1 (B "!" ++ k)) with k in E.
  rewrite (C15_gate _ ns n s H E).
  rewrite <- keyed_holds. unfold keyed, unkeyed. cbn [fst].
  destruct s as [u t]. cbn [fst snd].
  destruct (data_get (view fr None) k u) as [v|]; [destruct v; try destruct b|]; split; intro X; auto; try congruence.
Qed.

(** Exact complements: for a key without leading "!", exactly one of the two
    renders its nodes.  (Missing from the claim: keys that start with "!".) *)
Theorem C16_complement_partial k ns n m s :
  has_prefix (B "!") k = false -> all usable ns ->
  When k (map Some ns) = Done n -> When (B "!" ++ k) (map Some ns) = Done m ->
  (page o n fr s = pages o (non_attrs ns) fr s /\ page o m fr s = ([], s)) \/
  (page o n fr s = ([], s) /\ page o m fr s = pages o (non_attrs ns) fr s).
Proof.
  intros P H E1 E2. destruct (C16_when k ns n s P H E1) as [A1 A2].
  destruct (C16_when_not k ns m s H E2) as [B1 B2].
  pose proof (keyed_holds k (view fr None) (fst s)) as K.
  destruct (fst (keyed k (view fr None) (fst s))).
  - assert (X : holds k (view fr None) (fst s)) by (apply K; auto). left. auto.
  - assert (X : ~ holds k (view fr None) (fst s)). { intro X. apply K in X. discriminate. } right. auto.
Qed.

End Conditions.

(** ** Examples and refutations *)

Definition cT : condfn (@U demo) := fun _ u => (true, u).
Definition cF : condfn (@U demo) := fun _ u => (false, u).
(** Four levels: below three conditionals that hold, two siblings; the second
    sibling's condition takes the place of the first one's. *)
Definition deep (fa fb : condfn (@U demo)) : node (@U demo) :=
  mk_element (B "p") [NConditional cT [] [NConditional cT [] [NConditional cT []
    [NConditional fa [plain "a" "1"] []; NConditional fb [plain "b" "2"] []]]]].
Theorem C14_refuted :
  (* the condition directly around "a" is false, and "a" is written *)
  fst (page listed (deep cF cT) fr0 (st 0, 0)) = B "<p a=""1"" b=""2""></p>" /\
  (* all conditions around "a" hold, and it is not written *)
  fst (page listed (deep cT cF) fr0 (st 0, 0)) = B "<p></p>".
Proof. split; vm_compute; reflexivity. Qed.
Theorem C14_existential_refuted : exists (ns : list (node (@U demo))) fr (s : @U demo * nat) a,
  In a (fst (sactive fr (snd (fst (attributes_and_contents ns))) (fst s))) /\
  forall n c, In n ns -> inside c n a -> exists f, In f c /\ says fr false f.
Proof.
  exists [NConditional cT [] [NConditional cT [] [NConditional cT []
    [NConditional cF [plain "a" "1"] []; NConditional cT [plain "b" "2"] []]]]], fr0, (st 0, 0), (plain "a" "1").
  split; [vm_compute; left; reflexivity|].
  intros n c [<-|[]] H. exists cF. split; [|intro; reflexivity].
  assert (X : In (plain "a" "1", c) (cond_decls [] (NConditional cT [] [NConditional cT [] [NConditional cT []
    [NConditional cF [plain "a" "1"] []; NConditional cT [plain "b" "2"] []]]]))).
  { apply cond_decls_chain. right. exists c. split; auto. }
  cbn in X. destruct X as [X|[X|[]]]; [|discriminate].
  injection X as <-. right. right. right. left. reflexivity.
Qed.

(** The partial theorem's hypothesis, met by three levels with two siblings. *)
Example ex_three_levels :
  all (linear 0) [NConditional cT [] [NConditional cT []
    [NConditional cF [plain "a" "1"] []; NConditional cT [plain "b" "2"] []]]].
Proof. apply C14_three_levels_partial. cbn. repeat split; lia. Qed.
Example ex_three_levels_page :
  fst (page listed (mk_element (B "p") [NConditional cT [] [NConditional cT []
    [NConditional cF [plain "a" "1"] []; NConditional cT [plain "b" "2"] []]]]) fr0 (st 0, 0)) =
  B "<p b=""2""></p>".
Proof. vm_compute. reflexivity. Qed.

Example ex_when :
  exists n, When (B "on") [Some (NText [Val (B "x") None []])] = Done n /\
            fst (page listed n fr0 (st 0, 0)) = B "x" /\ fst (page listed n fr1 (st 0, 0)) = [].
Proof. eexists. split; [reflexivity|]. split; vm_compute; reflexivity. Qed.
Example ex_when_not :
  exists n, When (B "!off") [Some (NText [Val (B "x") None []])] = Done n /\
            fst (page listed n fr0 (st 0, 0)) = B "x".
Proof. eexists. split; [reflexivity|]. vm_compute; reflexivity. Qed.
(** A key that starts with "!": When("!x") and When("!!x") both render, since the
    first looks up "x" and the second "!x". *)
Theorem C16_refuted : exists k n m,
  When k [Some (NText [Val (B "y") None []])] = Done n /\
  When (B "!" ++ k) [Some (NText [Val (B "y") None []])] = Done m /\
  fst (page listed n fr0 (st 0, 0)) = B "y" /\ fst (page listed m fr0 (st 0, 0)) = B "y".
Proof.
  exists (B "!x"). eexists. eexists. split; [reflexivity|]. split; [reflexivity|].
  split; vm_compute; reflexivity.
Qed.
