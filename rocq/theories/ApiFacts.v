(** Constructed nodes have well-formed attribute tables. *)
From Coq Require Import ZArith.
From Verif Require Import Bytes IO Escape Nodes NodeInd Values Render Slices Build Api SpecOut
  RenderFacts AttrFacts.

Section Facts.
Context {W : UserWorld}.

Lemma all_In {X} (P : X -> Prop) l : all P l <-> (forall x, In x l -> P x).
Proof. rewrite all_Forall. apply Forall_forall. Qed.

Lemma tables_element name content :
  all tables_ok content -> tables_ok (mk_element name content).
Proof.
  intro H. unfold mk_element, attributes_and_contents.
  destruct (collect_all nil_slice content []) as [[attrs conds] m].
  pose proof (add_attributes_facts attrs) as F.
  destruct (add_attributes attrs) as [a i]. destruct F as [T _]. simpl. split; auto.
  rewrite all_In in H |- *. intros x Hx. apply H. apply filter_In in Hx. tauto.
Qed.

Lemma tables_void name content : tables_ok (mk_void name content).
Proof.
  unfold mk_void, attributes_and_contents.
  destruct (collect_all nil_slice content []) as [[attrs conds] m].
  pose proof (add_attributes_facts attrs) as F.
  destruct (add_attributes attrs) as [a i]. destruct F as [T _]. simpl. auto.
Qed.

Lemma contents_to_nodes_all (P : node U -> Prop) args u :
  (forall vs, P (NText vs)) -> (forall n, In (ANode n) args -> P n) ->
  all P (fst (contents_to_nodes args u)).
Proof.
  intro PT. revert u; induction args as [|a args IH]; intros u H; simpl; auto.
  assert (H1 : forall u, P (fst (content_to_node a u))).
  { assert (HT : forall l u, P (fst (Text l u))).
    { intros l v. unfold Text. destruct (new_values l v). simpl. auto. }
    intro u'. destruct a; try apply HT. simpl. apply H. left; auto. }
  specialize (H1 u). destruct (content_to_node a u) as [n u1]. simpl in H1.
  specialize (IH u1). destruct (contents_to_nodes args u1) as [ns u2]. simpl in *.
  split; auto.
Qed.

Lemma all_some_in {X} (l : list (option X)) r :
  all_some l = Some r -> l = map Some r.
Proof.
  revert r; induction l as [|[x|] l IH]; intros r H; simpl in *; try discriminate.
  - injection H as <-. reflexivity.
  - destruct (all_some l) as [r'|] eqn:E; [|discriminate]. injection H as <-.
    simpl. f_equal. auto.
Qed.

Lemma non_attrs_all (P : node U -> Prop) ns l :
  all_some ns = Some l -> (forall c, In (Some c) ns -> P c) -> all P (non_attrs l).
Proof.
  intros E H. apply all_some_in in E. subst. apply all_In.
  intros x Hx. apply filter_In in Hx as [Hx _]. apply H. apply in_map. auto.
Qed.

Lemma somes_in {X} (l : list (option X)) x : In x (somes l) <-> In (Some x) l.
Proof.
  unfold somes. rewrite in_flat_map. split.
  - intros ([y|] & H1 & H2); simpl in H2; [|tauto]. destruct H2 as [->|[]]. auto.
  - intro H. exists (Some x). simpl. auto.
Qed.

Lemma tables_conditional fn ns n :
  (forall c, In (Some c) ns -> tables_ok c) -> Conditional fn ns = Done n -> tables_ok n.
Proof.
  intros H E. unfold Conditional in E. destruct fn as [f|].
  - destruct (all_some ns) as [l|] eqn:El; [|discriminate]. injection E as <-. simpl.
    eapply non_attrs_all; eauto.
  - injection E as <-. simpl. apply all_In. intros x Hx. apply H, somes_in; auto.
Qed.

Theorem api_tables :
  (forall n : node U, api n -> tables_ok n) /\ (forall p : iprog U, api_prog p -> tables_ok_prog p).
Proof.
  apply api_mutind; intros; try exact I; try assumption.
  - unfold NewAttribute. destruct (new_values vs u). exact I.
  - unfold NewDelimitedAttribute. destruct (new_values vs u). exact I.
  - unfold Text. destruct (new_values vs u). exact I.
  - unfold Comment. destruct (new_values vs u). exact I.
  - unfold Fragment. destruct (new_values vs u). exact I.
  - unfold PI. destruct (new_values vs u). exact I.
  - unfold NewElement. pose proof (contents_to_nodes_all tables_ok args u) as C.
    destruct (contents_to_nodes args u) as [ns u']. simpl in *. apply tables_element.
    apply C; auto. intros; exact I.
  - unfold NewVoidElement. destruct (contents_to_nodes args u) as [ns u']. apply tables_void.
  - simpl. apply all_In. intros x Hx. apply H, somes_in; auto.
  - eapply tables_conditional; eauto.
  - unfold When in e. destruct (has_prefix _ _); eapply tables_conditional; eauto.
  - change (forall c u, all (opt tables_ok) (fst (f c u))). intros c u. apply all_In. intros [x|] Hx; simpl; eauto.
  - unfold Iterate in e. destruct fn; [|discriminate].
    destruct (all_some ns) eqn:El; [|discriminate]. injection e as <-. simpl.
    eapply non_attrs_all; eauto.
  - unfold IterateKey in e. destruct (all_some ns) eqn:El; [|discriminate]. injection e as <-. simpl.
    eapply non_attrs_all; eauto.
  - unfold IterateYield in e. destruct fn; [|discriminate].
    destruct (all_some ns) eqn:El; [|discriminate]. injection e as <-. simpl.
    eapply non_attrs_all; eauto.
  - unfold Document.
    assert (HE : forall name args u, (forall n, In (ANode n) args -> tables_ok n) ->
       tables_ok (fst (NewElement name args u))).
    { intros name args v Ha. unfold NewElement. pose proof (contents_to_nodes_all tables_ok args v) as C.
      destruct (contents_to_nodes args v) as [ns u']. simpl in *. apply tables_element.
      apply C; auto. intros; exact I. }
    assert (H1 : exists la u1, (match lang with
        | AData GNil => (AData GNil, u)
        | _ => let '(n, u') := NewAttribute (B "lang") [lang] u in (ANode n, u')
        end) = (la, u1) /\ (forall n, la = ANode n -> tables_ok n)).
    { unfold NewAttribute. destruct (new_values [lang] u) as [lv lu].
      destruct lang; try (eexists; eexists; split; [reflexivity|]; intros ? X; injection X as <-; exact I).
      destruct g; eexists; eexists; (split; [reflexivity|]); intros ? X;
        try discriminate X; injection X as <-; exact I. }
    destruct H1 as (la & u1 & -> & Hla).
    assert (H2 : exists hd u2, (match head with
        | [] => (AData GNil, u1)
        | _ => let '(n, u') := NewElement (B "head") head u1 in (ANode n, u')
        end) = (hd, u2) /\ (forall n, hd = ANode n -> tables_ok n)).
    { specialize (HE (B "head") head u1 H). destruct (NewElement (B "head") head u1) as [hn hu].
      destruct head; eexists; eexists; (split; [reflexivity|]); intros ? X;
        try discriminate X; injection X as <-; exact HE. }
    destruct H2 as (hd & u2 & -> & Hhd).
    pose proof (HE (B "body") body u2 H0) as HB.
    destruct (NewElement (B "body") body u2) as [bn bu].
    unfold DocType, PI. destruct (new_values _ bu) as [pv pu].
    pose proof (HE (B "html") [la; hd; ANode bn] pu) as HH.
    destruct (NewElement (B "html") [la; hd; ANode bn] pu) as [hn hu]. simpl in *.
    refine (conj I (conj _ I)). apply HH.
    intros n [X|[X|[X|[]]]]; auto. injection X as <-. exact HB.
  - change (all (opt tables_ok) ns /\ tables_ok_prog k). split; auto.
    apply all_In. intros [x|] Hx; simpl; auto.
  - change (tables_ok n /\ forall r e, tables_ok_prog (k r e)). split; auto.
Qed.

End Facts.
