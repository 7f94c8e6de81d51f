(** C56: a conditional whose condition is false might as well not be there. *)
From Coq Require Import Lia.
From Verif Require Import Bytes IO IOFacts Escape Nodes NodeInd Values Render
  Slices Build Api SpecOut SpecRun SpecElem RenderFacts AttrFacts ApiFacts PageFacts CondFacts
  TagFacts PropValues PropElements PropGroups PropConditions SpecSource PropSource SpecShared SharedFacts PropShared Demo.

Local Open Scope string_scope.
Local Open Scope list_scope.

Section Absent.
Context {W : UserWorld}.
Variables (o : order) (fr : frame U).
Hypothesis O : ord_ok o.

(** [absent lim d l l']: [l'] is [l] without some of the conditionals whose
    condition is false; [d] conditionals are around, which [lim] allows.  The
    conditions around a conditional that is left out have no side effects. *)
Inductive absent (lim : nat -> Prop) : nat -> list (node U) -> list (node U) -> Prop :=
| absent_nil d : absent lim d [] []
| absent_keep d n l l' : absent lim d l l' -> absent lim d (n :: l) (n :: l')
| absent_drop d f attrs ns l l' :
    lim d -> says fr false f -> absent lim d l l' -> absent lim d (NConditional f attrs ns :: l) l'
| absent_group d g g' l l' :
    absent lim d g g' -> absent lim d l l' -> absent lim d (NCollection g :: l) (NCollection g' :: l')
| absent_inside d f attrs g g' l l' :
    lim (S d) -> pure fr f -> absent lim (S d) g g' -> absent lim d l l' ->
    absent lim d (NConditional f attrs g :: l) (NConditional f attrs g' :: l').
Definition three (d : nat) : Prop := d <= 2.
Definition any_depth (d : nat) : Prop := True.

(** ** Contents *)

Lemma absent_all lim (P : node U -> Prop) d l l' :
  (forall g, P (NCollection g) <-> all P g) -> (forall f a g, P (NConditional f a g) <-> all P g) ->
  absent lim d l l' -> all P l -> all P l'.
Proof.
  intros Hc Hd. induction 1 as [d|d n l l' A IH|d f attrs ns l l' L F A IH|d g g' l l' A IHg B IHl|d f attrs g g' l l' L F A IHg B IHl];
    intro H; [exact I|destruct H as [H1 H2]; cbn [all]..].
  - split; auto.
  - apply IH; auto.
  - split; [|apply IHl; auto]. apply Hc. apply IHg. apply Hc. auto.
  - split; [|apply IHl; auto]. apply Hd. apply IHg. apply Hd in H1. auto.
Qed.

(** Attributes are left out by groups ([b] true), not by conditionals, whose
    constructor has left them out already. *)
Definition show (b : bool) (c : node U) (s : St) : bytes * St :=
  if b && is_attr c then ([], s) else snode o c fr s.
Lemma absent_content lim d l l' : absent lim d l l' -> forall b s, seqS (show b) l s = seqS (show b) l' s.
Proof.
  induction 1 as [d|d n l l' A IH|d f attrs ns l l' L F A IH|d g g' l l' A IHg B IHl|d f attrs g g' l l' L F A IHg B IHl];
    intros b s.
  - reflexivity.
  - rewrite !seqS_cons. destruct (show b n s) as [x s1]. rewrite IH. reflexivity.
  - rewrite seqS_cons. unfold show at 1. cbn [is_attr]. rewrite !andb_false_r. cbn [snode]. unfold liftU. rewrite F. destruct s as [u t]. cbn [fst snd].
    rewrite IH. destruct (seqS (show b) l' (u, t)). reflexivity.
  - rewrite !seqS_cons. unfold show at 1 3. cbn [is_attr]. rewrite !andb_false_r. cbn [snode].
    change (seqS (show true) g s) with (seqS (fun c s => if is_attr c then ([], s) else snode o c fr s) g s) in *.
    pose proof (IHg true s) as E. unfold show in E. cbn [andb] in E. rewrite E.
    destruct (seqS _ g' s) as [x s1]. rewrite IHl. reflexivity.
  - rewrite !seqS_cons. unfold show at 1 3. cbn [is_attr]. rewrite !andb_false_r. cbn [snode]. destruct (liftU _ s) as [[] s1].
    + pose proof (IHg false s1) as E. unfold show in E. cbn [andb] in E. rewrite E.
      destruct (seqS _ g' s1) as [x s2]. rewrite IHl. reflexivity.
    + rewrite IHl. reflexivity.
Qed.

(** ** Attributes *)

Lemma absent_static lim d l l' : absent lim d l l' -> flat_map static_decls l = flat_map static_decls l'.
Proof. induction 1; cbn [flat_map static_decls app]; congruence. Qed.

(** Conditions that fail without side effects. *)
Definition idle (c : list (condfn U)) : Prop := forall u, sconds fr c u = (false, u).
Lemma idle_chain path f r : (forall g, In g path -> pure fr g) -> says fr false f -> idle (path ++ f :: r).
Proof.
  intros P F u. induction path as [|g path IH]; cbn [app sconds].
  - rewrite F. reflexivity.
  - destruct (P g) as [[] G]; [left; auto| |]; rewrite G; auto. apply IH. intros; apply P; right; auto.
Qed.

Inductive thin : list (attr U * cref) -> list (attr U * cref) -> Prop :=
| thin_nil : thin [] []
| thin_keep x l l' : thin l l' -> thin (x :: l) (x :: l')
| thin_drop a c l l' : idle c -> thin l l' -> thin ((a, Known c) :: l) l'.
Lemma thin_app l1 l1' l2 l2' : thin l1 l1' -> thin l2 l2' -> thin (l1 ++ l2) (l1' ++ l2').
Proof. induction 1; intro; cbn [app]; auto; constructor; auto. Qed.
Lemma thin_refl l : thin l l.
Proof. induction l; constructor; auto. Qed.
Lemma thin_drops l l' : (forall d, In d l -> exists c, snd d = Known c /\ idle c) -> thin l' l' -> thin (l ++ l') l'.
Proof.
  intros H T. induction l as [|[a r] l IH]; auto. destruct (H (a, r)) as (c & E & I); [left; auto|].
  cbn [snd] in E. subst r. cbn [app]. constructor; auto. apply IH. intros; apply H; right; auto.
Qed.

Definition nospare (d : nat) : Prop := spare d = false.
Lemma shallow d : d <= 2 -> nospare d.
Proof. unfold nospare. intro L. assert (d = 0 \/ d = 1 \/ d = 2) as [->|[->| ->]] by lia; reflexivity. Qed.

(** Known lists begin with the conditions around. *)
Lemma known_prefix n : forall path k a c, In (a, Known c) (crefs spare path k n) -> exists r, c = path ++ r.
Proof.
  apply (node_simple_ind (fun n => forall path k a c, In (a, Known c) (crefs spare path k n) -> exists r, c = path ++ r));
    try (intros; contradiction).
  - intros x path k a c H. cbn [crefs] in H. destruct path; [contradiction|]. destruct H as [H|[]]; discriminate.
  - intros l F path k a c H. cbn [crefs] in H. apply in_flat_map in H as (m & Hm & H). rewrite Forall_forall in F. eauto.
  - intros f attrs l F path k a c H. rewrite Forall_forall in F. cbn [crefs] in H. destruct (spare (length path)).
    + apply in_app_or in H as [H|H].
      * apply in_map_iff in H as (x & E & _). discriminate.
      * apply in_flat_map in H as (m & Hm & H). destruct (F m Hm _ _ _ _ H) as [r ->]. rewrite <- app_assoc. eauto.
    + apply in_map_iff in H as ([x y] & E & H). injection E as <- <-. cbn [snd fst] in *. destruct y as [j|c].
      * rewrite <- app_assoc. eauto.
      * apply in_app_or in H as [H|H].
        -- apply in_map_iff in H as (z & E & _). discriminate.
        -- apply in_flat_map in H as (m & Hm & H). destruct (F m Hm _ _ _ _ H) as [r ->]. rewrite <- app_assoc. eauto.
Qed.
(** At a depth without spare room, what a list holds directly has exactly the
    conditions around. *)
Lemma own_zero n : forall path, nospare (length path) ->
  forall a j, In (a, Own j) (crefs spare path 0 n) -> j = 0.
Proof.
  apply (node_simple_ind (fun n => forall path, nospare (length path) ->
    forall a j, In (a, Own j) (crefs spare path 0 n) -> j = 0)); try (intros; contradiction).
  - intros x path N a j H. cbn [crefs] in H. destruct path; [contradiction|]. destruct H as [H|[]]. injection H. auto.
  - intros l F path N a j H. cbn [crefs] in H. apply in_flat_map in H as (m & Hm & H). rewrite Forall_forall in F. eauto.
  - intros f attrs l F path N a j H. cbn [crefs] in H. rewrite N in H. apply in_map_iff in H as (x & E & _). discriminate.
Qed.

Lemma settled base ns ns' l :
  (forall a j, In (a, Own j) l -> j = 0) -> map (settle base ns) l = map (settle base ns') l.
Proof.
  intro H. apply map_ext_in. intros [a [j|c]] I; unfold settle; cbn [fst snd]; auto.
  rewrite (H a j I). reflexivity.
Qed.
Lemma thin_settle base ns l l' : thin l l' -> thin (map (settle base ns) l) (map (settle base ns) l').
Proof. induction 1; cbn [map]; constructor; auto. Qed.

Lemma absent_thin d l l' : absent three d l l' ->
  forall path, length path = d -> d <= 2 -> (forall g, In g path -> pure fr g) ->
  thin (flat_map (crefs spare path 0) l) (flat_map (crefs spare path 0) l').
Proof.
  induction 1 as [d|d n l l' A IH|d f attrs ns l l' L F A IH|d g g' l l' A IHg B IHl|d f attrs g g' l l' L F A IHg B IHl];
    intros path E D P; try (unfold three in L); cbn [flat_map].
  - constructor.
  - apply thin_app; auto using thin_refl.
  - specialize (IH path E D P).
    assert (X : forall l1 l2 l3, (forall d, In d l1 -> exists c, snd d = Known c /\ idle c) -> thin l2 l3 -> thin (l1 ++ l2) l3).
    { clear. intros l1 l2 l3 H T. induction l1 as [|[a r] l IH]; auto. destruct (H (a, r)) as (c & E & I); [left; auto|].
      cbn [snd] in E. subst r. cbn [app]. constructor; auto. apply IH. intros; apply H; right; auto. }
    apply X; auto. intros [a r] Hr. cbn [crefs] in Hr. rewrite (shallow (length path)) in Hr by lia.
    apply in_map_iff in Hr as ([x y] & Er & Hr). injection Er as <- <-. cbn [fst snd] in *.
    assert (Id : forall r, idle ((path ++ [f]) ++ r)) by (intro r; rewrite <- app_assoc; apply idle_chain; auto).
    eexists. split; [reflexivity|]. destruct y as [j|c]; [apply Id|].
    apply in_app_or in Hr as [Hr|Hr].
    + apply in_map_iff in Hr as (z & Ez & _). discriminate.
    + apply in_flat_map in Hr as (m & Hm & Hr). apply known_prefix in Hr as [r ->]. apply Id.
  - cbn [crefs]. apply thin_app; auto.
  - apply thin_app; auto. cbn [crefs]. rewrite (shallow (length path)) by lia.
    assert (Lp : length (path ++ [f]) = S d) by (rewrite app_length; cbn; lia).
    assert (Z : forall l a j, In (a, Own j) (map (fun a : attr U => (a, Own 0)) attrs ++ flat_map (crefs spare (path ++ [f]) 0) l) -> j = 0).
    { intros l0 a j H. apply in_app_or in H as [H|H].
      - apply in_map_iff in H as (x & Ex & _). injection Ex. auto.
      - apply in_flat_map in H as (m & Hm & H). eapply own_zero; [|exact H]. apply shallow. lia. }
    rewrite (settled (path ++ [f]) g g') by (apply Z).
    apply thin_settle. apply thin_app; [apply thin_refl|]. apply IHg; auto.
    intros h Hh. apply in_app_or in Hh as [Hh|[<-|[]]]; auto.
Qed.

Lemma thin_active l l' : thin l l' -> forall u,
  sactive fr (map (fun d => (fst d, match snd d with Known c => c | Own _ => [] end)) l) u =
  sactive fr (map (fun d => (fst d, match snd d with Known c => c | Own _ => [] end)) l') u.
Proof.
  assert (C : forall a c l u, sactive fr ((a, c) :: l) u =
    (let '(b, u1) := sconds fr c u in let '(r, u2) := sactive fr l u1 in ((if b then [a] else []) ++ r, u2))).
  { intros a c l0 u. unfold sactive. cbn [mapS fst snd]. destruct (sconds fr c u) as [b u1].
    destruct (mapS _ l0 u1). reflexivity. }
  induction 1 as [|[a r] l l' T IH|a c l l' I T IH]; intro u; cbn [map fst snd]; auto.
  - rewrite !C. destruct (sconds _ _ u) as [b u1]. rewrite IH. reflexivity.
  - rewrite C, I, IH. destruct (sactive fr _ u). reflexivity.
Qed.

Lemma filter_show l s :
  seqS (fun c s => snode o c fr s) (filter (fun n => negb (is_attr n)) l) s = seqS (show true) l s.
Proof.
  revert s. induction l as [|n l IH]; intro s; [reflexivity|]. cbn [filter]. rewrite (seqS_cons _ n).
  unfold show at 1. cbn [andb]. destruct (is_attr n); cbn [negb].
  - rewrite IH. destruct (seqS (show true) l s). reflexivity.
  - rewrite seqS_cons. destruct (snode o n fr s) as [b s1]. rewrite IH. reflexivity.
Qed.

Lemma absent_page lim name l l' u s :
  absent lim 0 l l' -> all usable l ->
  (forall u, sactive fr (snd (fst (attributes_and_contents l))) u = sactive fr (snd (fst (attributes_and_contents l'))) u) ->
  page o (fst (NewElement name (map ANode l) u)) fr s = page o (fst (NewElement name (map ANode l') u)) fr s /\
  page o (fst (NewVoidElement name (map ANode l) u)) fr s = page o (fst (NewVoidElement name (map ANode l') u)) fr s.
Proof.
  intros A H Ac. destruct (usable_tables l H) as [T Q].
  assert (T' : all tables_ok l').
  { apply (absent_all lim tables_ok 0 l l'); auto; intros; cbn [tables_ok]; tauto. }
  assert (Q' : all quiet l').
  { apply (absent_all lim quiet 0 l l'); auto; intros; cbn [quiet]; tauto. }
  assert (NA : forall l, contents_to_nodes (map ANode l) u = (l, u)).
  { clear. induction l as [|n l IH]; [reflexivity|]. cbn [map contents_to_nodes content_to_node]. rewrite IH. reflexivity. }
  unfold NewElement, NewVoidElement. rewrite !NA. cbn [fst].
  pose proof (tables_element name l T) as TE. pose proof (tables_void name l) as TV.
  pose proof (quiet_element name l Q) as QE. pose proof (quiet_void name l) as QV.
  pose proof (tables_element name l' T') as TE'. pose proof (tables_void name l') as TV'.
  pose proof (quiet_element name l' Q') as QE'. pose proof (quiet_void name l') as QV'.
  rewrite !page_snode by auto. clear TE TV QE QV TE' TV' QE' QV'.
  unfold mk_element, mk_void. rewrite !attributes_deciding in *. cbn [fst snd] in Ac.
  rewrite (absent_static lim 0 l l') by auto. destruct (add_attributes (flat_map static_decls l')) as [attrs idx].
  assert (St : forall s, stag o fr name attrs (deciding spare l) s = stag o fr name attrs (deciding spare l') s).
  { intro s0. unfold stag, tag_attrs. rewrite Ac. reflexivity. }
  split; cbn [snode].
  - rewrite St. destruct (stag o fr name attrs (deciding spare l') s) as [b1 s1].
    rewrite !filter_show, (absent_content lim 0 l l') by auto. reflexivity.
  - apply St.
Qed.

(** Leaving out conditionals that are false, at most three deep, changes nothing:
    not the output, not the state, not the order of attributes.  Missing: deeper
    ones ([C56_refuted]) and conditions around them with side effects. *)
Theorem C56_absent_partial name l l' u s :
  absent three 0 l l' -> all usable l ->
  page o (fst (NewElement name (map ANode l) u)) fr s = page o (fst (NewElement name (map ANode l') u)) fr s /\
  page o (fst (NewVoidElement name (map ANode l) u)) fr s = page o (fst (NewVoidElement name (map ANode l') u)) fr s.
Proof.
  intros A H. apply (absent_page three); auto. intro s0. unfold mk_element, mk_void. rewrite !attributes_deciding.
  cbn [fst snd]. unfold deciding. apply thin_active. apply (absent_thin 0); auto. intros g [].
Qed.

(** At any depth, if no conditional with spare room has two below it (see C14). *)
Inductive slim : list (attr U * list (condfn U)) -> list (attr U * list (condfn U)) -> Prop :=
| slim_nil : slim [] []
| slim_keep x l l' : slim l l' -> slim (x :: l) (x :: l')
| slim_drop a c l l' : idle c -> slim l l' -> slim ((a, c) :: l) l'.
Lemma slim_app l1 l1' l2 l2' : slim l1 l1' -> slim l2 l2' -> slim (l1 ++ l2) (l1' ++ l2').
Proof. induction 1; intro; cbn [app]; auto; constructor; auto. Qed.
Lemma slim_refl l : slim l l.
Proof. induction l; constructor; auto. Qed.
Lemma slim_all l : (forall d, In d l -> idle (snd d)) -> slim l [].
Proof.
  induction l as [|[a c] l IH]; intro H; constructor; [apply (H (a, c)); left; auto|]. apply IH. intros; apply H; right; auto.
Qed.
Lemma slim_active l l' : slim l l' -> forall u, sactive fr l u = sactive fr l' u.
Proof.
  induction 1 as [|[a c] l l' T IH|a c l l' I T IH]; intro u; auto.
  - unfold sactive in *. cbn [mapS fst snd]. destruct (sconds fr c u) as [b u1]. specialize (IH u1).
    destruct (mapS _ l u1), (mapS _ l' u1). cbn [concat]. injection IH as E1 E2. subst. rewrite E1. reflexivity.
  - unfold sactive in *. cbn [mapS fst snd]. rewrite I. specialize (IH u). rewrite <- IH. destruct (mapS _ l u). reflexivity.
Qed.
Lemma decls_prefix n : forall path a c, In (a, c) (cond_decls path n) -> exists r, c = path ++ r.
Proof.
  apply (node_simple_ind (fun n => forall path a c, In (a, c) (cond_decls path n) -> exists r, c = path ++ r));
    try (intros; contradiction).
  - intros x path a c H. cbn [cond_decls] in H. destruct path; [contradiction|]. destruct H as [H|[]]. injection H as _ <-.
    exists []. rewrite app_nil_r. reflexivity.
  - intros l F path a c H. cbn [cond_decls] in H. apply in_flat_map in H as (m & Hm & H). rewrite Forall_forall in F. eauto.
  - intros f attrs l F path a c H. rewrite Forall_forall in F. cbn [cond_decls] in H. apply in_app_or in H as [H|H].
    + apply in_map_iff in H as (x & E & _). injection E as _ <-. eauto.
    + apply in_flat_map in H as (m & Hm & H). destruct (F m Hm _ _ _ H) as [r ->]. rewrite <- app_assoc. eauto.
Qed.
Lemma absent_slim lim d l l' : absent lim d l l' ->
  forall path, (forall g, In g path -> pure fr g) ->
  slim (flat_map (cond_decls path) l) (flat_map (cond_decls path) l').
Proof.
  induction 1 as [d|d n l l' A IH|d f attrs ns l l' L F A IH|d g g' l l' A IHg B IHl|d f attrs g g' l l' L F A IHg B IHl];
    intros path P; cbn [flat_map].
  - constructor.
  - apply slim_app; auto using slim_refl.
  - change (flat_map (cond_decls path) l') with ([] ++ flat_map (cond_decls path) l'). apply slim_app; auto.
    apply slim_all. intros [a c] Hc. change (NConditional f attrs ns) with (NConditional f attrs ns) in Hc. cbn [cond_decls snd] in *.
    assert (Id : forall r, idle ((path ++ [f]) ++ r)) by (intro r; rewrite <- app_assoc; apply idle_chain; auto).
    apply in_app_or in Hc as [Hc|Hc].
    + apply in_map_iff in Hc as (x & E & _). injection E as _ <-. specialize (Id []). rewrite app_nil_r in Id. exact Id.
    + apply in_flat_map in Hc as (m & Hm & Hc). apply decls_prefix in Hc as [r ->]. apply Id.
  - apply slim_app; auto. cbn [cond_decls]. apply IHg. exact P.
  - apply slim_app; auto. cbn [cond_decls]. apply slim_app; [apply slim_refl|]. apply IHg.
    intros h Hh. apply in_app_or in Hh as [Hh|[<-|[]]]; auto.
Qed.
Lemma absent_conds_in lim d l l' : absent lim d l l' ->
  list_sum (map conds_in l') <= list_sum (map conds_in l).
Proof.
  induction 1; unfold list_sum in *; cbn [map fold_right conds_in] in *; unfold list_sum in *; try lia.
Qed.
Lemma absent_linear lim d l l' : absent lim d l l' -> all (linear d) l -> all (linear d) l'.
Proof.
  induction 1 as [d|d n l l' A IH|d f attrs ns l l' L F A IH|d g g' l l' A IHg B IHl|d f attrs g g' l l' L F A IHg B IHl];
    intro H; [exact I|destruct H as [H1 H2]; cbn [all]..]; auto.
  - split; auto.
  - split; auto. exact (IHg H1).
  - split; auto. cbn [linear] in *. destruct H1 as [H1 H3]. split.
    + intro S. specialize (H1 S). pose proof (absent_conds_in _ _ _ _ A). lia.
    + apply IHg. exact H3.
Qed.
Theorem C56_linear_partial name l l' u s :
  absent any_depth 0 l l' -> all (linear 0) l -> all usable l ->
  page o (fst (NewElement name (map ANode l) u)) fr s = page o (fst (NewElement name (map ANode l') u)) fr s /\
  page o (fst (NewVoidElement name (map ANode l) u)) fr s = page o (fst (NewVoidElement name (map ANode l') u)) fr s.
Proof.
  intros A L H. apply (absent_page any_depth); auto. intro s0.
  rewrite (attributes_exact l L), (attributes_exact l' (absent_linear _ _ _ _ A L)). cbn [fst snd].
  apply slim_active. apply (absent_slim any_depth 0); auto. intros g [].
Qed.

End Absent.

(** ** Example and refutations *)

Definition said_ (s : string) : node (@U demo) := NText [Val (B s) None []].
Definition gone : list (node (@U demo)) :=
  [NAttr (plain "id" "1"); NConditional cF [plain "id" "2"; deli "class" "x"] [said_ "no"];
   NCollection [NConditional cT [plain "title" "t"] [said_ "yes"; NConditional cF [plain "title" "u"] [said_ "no"]]]].
Definition gone' : list (node (@U demo)) :=
  [NAttr (plain "id" "1"); NCollection [NConditional cT [plain "title" "t"] [said_ "yes"]]].
Example gone_absent : absent fr0 three 0 gone gone' /\ all usable gone.
Proof.
  split.
  - apply absent_keep. apply absent_drop; [unfold three; lia|intro u; reflexivity|]. apply absent_group; [|constructor].
    apply absent_inside; [unfold three; lia|exists true; intro u; reflexivity| |constructor].
    apply absent_keep. apply absent_drop; [unfold three; lia|intro u; reflexivity|constructor].
  - all_direct.
Qed.
Example gone_page :
  fst (page listed (fst (NewElement (B "p") (map ANode gone) (st 0))) fr0 (st 0, 0)) = B "<p id=""1"" title=""t"">yes</p>".
Proof. vm_compute. reflexivity. Qed.

(** Five deep, one below the other. *)
Example deep_absent :
  let inner := [NConditional cT [plain "id" "2"] [NConditional cF [plain "id" "3"] [said_ "no"]]] in
  let inner' := [NConditional cT [plain "id" "2"] []] in
  let around l := [NConditional cT [] [NConditional cT [] [NConditional cT [] l]]] in
  absent fr0 any_depth 0 (around inner) (around inner') /\ all (linear 0) (around inner) /\
  fst (page listed (fst (NewElement (B "p") (map ANode (around inner)) (st 0))) fr0 (st 0, 0)) = B "<p id=""2""></p>".
Proof.
  cbv zeta. split; [|split; [cbn; repeat split; lia|vm_compute; reflexivity]].
  do 4 (apply absent_inside; [exact I|exists true; intro u; reflexivity| |constructor]).
  apply absent_drop; [exact I|intro u; reflexivity|constructor].
Qed.

(** As stated C56 is false.  Four deep: the conditional that is false takes away
    the attribute of the conditional before it, whose conditions all hold. *)
Definition four (l : list (node (@U demo))) : list (node (@U demo)) :=
  [NConditional cT [] [NConditional cT [] [NConditional cT [] l]]].
Theorem C56_refuted : exists l l',
  l = four [NConditional cT [plain "a" "1"] []; NConditional cF [] []] /\
  l' = four [NConditional cT [plain "a" "1"] []] /\
  all usable l /\
  fst (page listed (fst (NewElement (B "p") (map ANode l) (st 0))) fr0 (st 0, 0)) = B "<p></p>" /\
  fst (page listed (fst (NewElement (B "p") (map ANode l') (st 0))) fr0 (st 0, 0)) = B "<p a=""1""></p>".
Proof. eexists _, _. split; [reflexivity|]. split; [reflexivity|]. split; [all_direct|]. split; vm_compute; reflexivity. Qed.

(** A condition is asked once for each of its attributes and once more for its
    contents, so that with one that changes its mind some of them appear and
    others do not. *)
Definition once : condfn (@U demo) := fun _ u => (Nat.eqb u 0, S u).
Theorem C56_together_refuted : exists n,
  Conditional (Some once) [Some (NAttr (plain "a" "1")); Some (NAttr (plain "b" "2")); Some (said_ "x")] = Done n /\
  usable n /\
  fst (page listed (fst (NewElement (B "p") [ANode n] (st 0))) fr0 (st 0, 0)) = B "<p a=""1""></p>".
Proof. eexists. split; [reflexivity|]. split; [all_direct|]. vm_compute. reflexivity. Qed.
