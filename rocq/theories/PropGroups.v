(** C13 (orders) C17 C18 C45 C51: grouping, nil arguments, documents. *)
From Coq Require Import Permutation ZArith.
From Verif Require Import Bytes IO IOFacts Escape SpecEscape EscapeFacts Nodes NodeInd Values Render
  Slices Build Api SpecOut SpecRun SpecElem RenderFacts AttrFacts ApiFacts PageFacts CondFacts
  TagFacts PropValues PropElements Demo.

Section Groups.
Context {W : UserWorld}.
Notation names := (map (@attr_name U)).

(** Two map orders: same conditions evaluated, same attributes up to order, same
    content rendered afterwards. *)
Theorem C13_order o1 o2 fr name args u s :
  ord_ok o1 -> ord_ok o2 -> usable_args args ->
  let ns := fst (contents_to_nodes args u) in
  exists l1 l2 u1 t1 t2,
    Permutation l1 l2 /\
    page o1 (fst (NewElement name args u)) fr s =
      (let '(A, s1) := pages o1 (map NAttr l1) fr (u1, t1) in
       let '(C, s2) := pages o1 (non_attrs ns) fr s1 in (wrap name A C, s2)) /\
    page o2 (fst (NewElement name args u)) fr s =
      (let '(A, s1) := pages o2 (map NAttr l2) fr (u1, t2) in
       let '(C, s2) := pages o2 (non_attrs ns) fr s1 in (wrap name A C, s2)).
Proof.
  intros O1 O2 H ns. destruct (args_usable args u H) as [T Q]. subst ns. unfold NewElement.
  destruct (contents_to_nodes args u) as [ns u']. cbn [fst] in *.
  unfold non_attrs.
  destruct (stag_spec o1 fr name ns s O1) as (conds & active & u1 & l & t & H1 & H2 & H3 & H4 & H5 & H6 & H7 & H8).
  destruct (stag_spec o2 fr name ns s O2) as (conds' & active' & u1' & l' & t' & J1 & J2 & J3 & J4 & J5 & J6 & J7 & J8).
  rewrite H7 in J7. injection J7 as ->. rewrite H3 in J3. injection J3 as <- <-.
  pose proof (tables_element name ns T) as TE. pose proof (quiet_element name ns Q) as QE.
  exists l, l', u1, t, t'. split. { rewrite H4. symmetry. auto. }
  rewrite !page_snode by auto. rewrite H8. clear H8 J8 TE QE.
  assert (E : attributes_and_contents ns = (flat_map static_decls ns, conds', filter (fun n => negb (is_attr n)) ns)).
  { pose proof (attributes_shape ns) as Sh. unfold mk_void in H7.
    destruct (attributes_and_contents ns) as [[a c] cs]. destruct Sh as (-> & _ & ->).
    destruct (add_attributes (flat_map static_decls ns)). injection H7 as ->. reflexivity. }
  rewrite E in H6, J6. cbn [snode]. rewrite H6, J6.
  split.
  - destruct (pages o1 (map NAttr l) fr (u1, t)) as [A s1].
    rewrite (pages_seqS o1) by (auto using all_filter).
    destruct (seqS _ _ s1) as [C s2]. unfold wrap, endtag. rewrite <- !app_assoc. reflexivity.
  - destruct (pages o2 (map NAttr l') fr (u1, t')) as [A s1].
    rewrite (pages_seqS o2) by (auto using all_filter).
    destruct (seqS _ _ s1) as [C s2]. unfold wrap, endtag. rewrite <- !app_assoc. reflexivity.
Qed.

(** ** C17 *)

Lemma items_attrs_app s l1 l2 m :
  items_attrs s (l1 ++ l2) m =
  let '(a1, c1, m1) := items_attrs s l1 m in
  let '(a2, c2, m2) := items_attrs s l2 m1 in (a1 ++ a2, c1 ++ c2, m2).
Proof.
  revert m; induction l1 as [|n l1 IH]; intro m; cbn [app items_attrs].
  - destruct (items_attrs s l2 m) as [[a c] m']. reflexivity.
  - fold (items_attrs s). destruct (collect_attrs s n m) as [[a c] m1]. rewrite IH.
    destruct (items_attrs s l1 m1) as [[a1 c1] m2]. destruct (items_attrs s l2 m2) as [[a2 c2] m3].
    rewrite !app_assoc. reflexivity.
Qed.

Variables (o : order) (fr : frame U).
Hypothesis O : ord_ok o.

(** Splicing a collection into a list of arguments collects the same attributes
    and the same conditions. *)
Lemma items_attrs_splice s pre ms post m :
  items_attrs s (pre ++ NCollection ms :: post) m = items_attrs s (pre ++ ms ++ post) m.
Proof.
  rewrite !items_attrs_app. destruct (items_attrs s pre m) as [[a c] m1].
  change (NCollection ms :: post) with ([NCollection ms] ++ post). rewrite !items_attrs_app.
  cbn [items_attrs]. rewrite collect_attrs_collection.
  destruct (items_attrs s ms m1) as [[a1 c1] m2]. rewrite !app_nil_r. reflexivity.
Qed.

Lemma seqS_content ns s :
  seqS (fun c s => if is_attr c then ([], s) else snode o c fr s) ns s =
  seqS (fun c s => snode o c fr s) (non_attrs ns) s.
Proof.
  revert s; induction ns as [|n ns IH]; intro s; [reflexivity|].
  rewrite seqS_cons. unfold non_attrs. cbn [filter]. fold (non_attrs ns).
  destruct (is_attr n); cbn [negb].
  - rewrite IH. destruct (seqS _ (non_attrs ns) s). reflexivity.
  - rewrite seqS_cons. destruct (snode o n fr s) as [b s1]. rewrite IH. reflexivity.
Qed.

(** A collection renders its non-attribute members one after the other. *)
Theorem C17_collection ns s :
  all usable ns -> page o (NCollection ns) fr s = pages o (non_attrs ns) fr s.
Proof.
  intro H. destruct (usable_tables ns H) as [T Q].
  rewrite page_snode; auto. rewrite pages_seqS by (auto; apply all_filter; auto).
  cbn [snode]. apply seqS_content.
Qed.

(** A collection among the arguments of an element, or its members directly:
    the same output, in every state. *)
Theorem C17_element name pre ms post s :
  all usable (pre ++ ms ++ post) ->
  page o (mk_element name (pre ++ NCollection ms :: post)) fr s =
  page o (mk_element name (pre ++ ms ++ post)) fr s /\
  page o (mk_void name (pre ++ NCollection ms :: post)) fr s =
  page o (mk_void name (pre ++ ms ++ post)) fr s.
Proof.
  intro H. destruct (usable_tables _ H) as [T Q].
  assert (T' : all tables_ok (pre ++ NCollection ms :: post)).
  { rewrite all_In in *. intros x Hx. apply in_app_or in Hx as [Hx|[<-|Hx]].
    - apply T. apply in_or_app. auto.
    - change (all tables_ok ms). apply all_In. intros y Hy. apply T. rewrite !in_app_iff. auto.
    - apply T. rewrite !in_app_iff. auto. }
  assert (Q' : all quiet (pre ++ NCollection ms :: post)).
  { rewrite all_In in *. intros x Hx. apply in_app_or in Hx as [Hx|[<-|Hx]].
    - apply Q. apply in_or_app. auto.
    - change (all quiet ms). apply all_In. intros y Hy. apply Q. rewrite !in_app_iff. auto.
    - apply Q. rewrite !in_app_iff. auto. }
  assert (E : collect_all nil_slice (pre ++ NCollection ms :: post) [] =
              collect_all nil_slice (pre ++ ms ++ post) []).
  { rewrite !collect_all_items. apply items_attrs_splice. }
  split.
  - rewrite !page_snode by (auto using tables_element, quiet_element).
    unfold mk_element, attributes_and_contents. rewrite E.
    destruct (collect_all nil_slice (pre ++ ms ++ post) []) as [[a c] m].
    destruct (add_attributes a) as [attrs idx]. cbn [snode].
    destruct (stag o fr name attrs _ s) as [b1 s1].
    assert (X : forall l1 l2 s, seqS (fun c s => snode o c fr s) (l1 ++ l2) s =
      (let '(b1, s1) := seqS (fun c s => snode o c fr s) l1 s in
       let '(b2, s2) := seqS (fun c s => snode o c fr s) l2 s1 in (b1 ++ b2, s2))).
    { clear. induction l1 as [|n l1 IH]; intros l2 s; cbn [app].
      - change (seqS (fun c s0 => snode o c fr s0) [] s) with (@nil ascii, s).
        cbn. destruct (seqS _ l2 s). reflexivity.
      - rewrite !seqS_cons. destruct (snode o n fr s) as [b s1]. rewrite IH.
        destruct (seqS _ l1 s1) as [b1 s2]. destruct (seqS _ l2 s2) as [b2 s3].
        rewrite app_assoc. reflexivity. }
    rewrite !filter_app. cbn [filter is_attr negb].
    change (filter (fun n => negb (is_attr n)) ms) with (non_attrs ms).
    rewrite !X. destruct (seqS _ (filter (fun n => negb (is_attr n)) pre) s1) as [b2 s2].
    rewrite seqS_cons, X. cbn [snode]. rewrite seqS_content.
    destruct (seqS _ (non_attrs ms) s2) as [b3 s3].
    destruct (seqS _ (filter (fun n => negb (is_attr n)) post) s3) as [b4 s4]. reflexivity.
  - rewrite !page_snode by (auto using tables_void, quiet_void).
    unfold mk_void, attributes_and_contents. rewrite E.
    destruct (collect_all nil_slice (pre ++ ms ++ post) []) as [[a c] m]. reflexivity.
Qed.

(** The same inside a collection. *)
Theorem C17_nested pre ms post s :
  all usable (pre ++ ms ++ post) ->
  page o (NCollection (pre ++ NCollection ms :: post)) fr s =
  page o (NCollection (pre ++ ms ++ post)) fr s.
Proof.
  intro H. assert (H' : all usable (pre ++ NCollection ms :: post)).
  { rewrite all_In in *. intros x Hx. apply in_app_or in Hx as [Hx|[<-|Hx]].
    - apply H. apply in_or_app. auto.
    - split.
      + replace (NCollection ms) with (Collection (map Some ms)).
        * apply api_collection. intros n Hn. apply in_map_iff in Hn as (y & E & Hy). injection E as ->.
          apply H. rewrite !in_app_iff. auto.
        * unfold Collection. f_equal. clear. induction ms; simpl; congruence.
      + change (all quiet ms). apply all_In. intros y Hy. apply H. rewrite !in_app_iff. auto.
    - apply H. rewrite !in_app_iff. auto. }
  rewrite !C17_collection by auto. unfold non_attrs. rewrite !filter_app, !pages_app.
  destruct (pages o (filter _ pre) fr s) as [b1 s1]. rewrite !pages_app. cbn [filter is_attr negb pages].
  rewrite C17_collection by (rewrite all_In in *; intros x Hx; apply H; rewrite !in_app_iff; auto).
  unfold non_attrs. destruct (pages o (filter _ ms) fr s1) as [b2 s2].
  destruct (pages o (filter _ post) fr s2) as [b3 s3]. rewrite app_assoc. reflexivity.
Qed.

(** All nested collections dissolved. *)
Fixpoint flatten (n : node U) : list (node U) :=
  match n with NCollection ns => flat_map flatten ns | _ => [n] end.

Lemma flatten_usable n x : usable n -> In x (flatten n) -> tables_ok x /\ quiet x.
Proof.
  intros [A Q] Hx. apply api_tables in A. revert n A Q Hx.
  apply (node_simple_ind (fun n => tables_ok n -> quiet n -> In x (flatten n) -> tables_ok x /\ quiet x));
    try (intros; match goal with H : In x (flatten _) |- _ => destruct H as [<-|[]] end; split; assumption).
  intros ns F A Q Hx. change (all tables_ok ns) in A. change (all quiet ns) in Q.
  cbn [flatten] in Hx. apply in_flat_map in Hx as (y & Hy & Hx).
  rewrite Forall_forall in F. rewrite all_In in A, Q. apply (F y Hy); auto.
Qed.

Theorem C17_flatten ns s :
  all usable ns ->
  page o (NCollection ns) fr s = pages o (non_attrs (flat_map flatten ns)) fr s.
Proof.
  intro H. destruct (usable_tables ns H) as [T Q].
  assert (T' : all tables_ok (flat_map flatten ns) /\ all quiet (flat_map flatten ns)).
  { rewrite !all_In. rewrite all_In in H. split; intros x Hx; apply in_flat_map in Hx as (y & Hy & Hx);
    apply (flatten_usable y x); auto. }
  destruct T' as [T' Q'].
  rewrite page_snode by auto. rewrite pages_seqS by (auto; apply all_filter; auto).
  clear T Q T' Q' H. rewrite <- seqS_content.
  set (f := fun c s => if is_attr c then ([], s) else snode o c fr s).
  assert (App : forall l1 l2 s, seqS f (l1 ++ l2) s =
      (let '(b1, s1) := seqS f l1 s in let '(b2, s2) := seqS f l2 s1 in (b1 ++ b2, s2))).
  { clear. induction l1 as [|n l1 IH]; intros l2 s; cbn [app].
    - change (seqS f [] s) with (@nil ascii, s). cbn. destruct (seqS f l2 s). reflexivity.
    - rewrite !seqS_cons. destruct (f n s) as [b s1]. rewrite IH.
      destruct (seqS f l1 s1) as [b1 s2]. destruct (seqS f l2 s2) as [b2 s3].
      rewrite app_assoc. reflexivity. }
  assert (One : forall n s, f n s = seqS f (flatten n) s).
  { apply (node_simple_ind (fun n => forall s, f n s = seqS f (flatten n) s));
      try (intros; cbn [flatten]; rewrite seqS_cons; change (seqS f [] ?s) with (@nil ascii, s);
           destruct (f _ _); rewrite app_nil_r; reflexivity).
    intros ms F s0. cbn [flatten]. change (f (NCollection ms) s0) with (seqS f ms s0).
    revert s0; induction F as [|n ms Hn _ IH]; intro s0; [reflexivity|].
    cbn [flat_map]. rewrite App, seqS_cons, Hn. destruct (seqS f (flatten n) s0) as [b s1].
    rewrite IH. reflexivity. }
  change (snode o (NCollection ns) fr s) with (f (NCollection ns) s). rewrite One. reflexivity.
Qed.

(** ** C18 *)

(** nil in a list of values. *)
Theorem C18_values (l1 l2 : list (arg U)) u :
  new_values (l1 ++ AData GNil :: l2) u = new_values (l1 ++ l2) u.
Proof.
  rewrite !new_values_app. destruct (new_values l1 u) as [v1 u1]. cbn [new_values new_value].
  destruct (new_values l2 u1). reflexivity.
Qed.

(** nil among the arguments of an element. *)
Theorem C18_element name (l1 l2 : list (arg U)) u s :
  usable_args (l1 ++ l2) ->
  page o (fst (NewElement name (l1 ++ AData GNil :: l2) u)) fr s =
  page o (fst (NewElement name (l1 ++ l2) u)) fr s /\
  page o (fst (NewVoidElement name (l1 ++ AData GNil :: l2) u)) fr s =
  page o (fst (NewVoidElement name (l1 ++ l2) u)) fr s.
Proof.
  intro H. assert (App : forall (l1 l2 : list (arg U)) u, contents_to_nodes (l1 ++ l2) u =
     (let '(n1, u1) := contents_to_nodes l1 u in
      let '(n2, u2) := contents_to_nodes l2 u1 in (n1 ++ n2, u2))).
  { clear. induction l1 as [|x l1 IH]; intros l2 u; cbn [app contents_to_nodes].
    - destruct (contents_to_nodes l2 u). reflexivity.
    - destruct (content_to_node x u) as [n u1]. rewrite IH.
      destruct (contents_to_nodes l1 u1) as [n1 u2]. destruct (contents_to_nodes l2 u2). reflexivity. }
  unfold NewElement, NewVoidElement. rewrite !App.
  assert (U1 : usable_args l1) by (intros n Hn; apply H, in_or_app; auto).
  assert (U2 : usable_args l2) by (intros n Hn; apply H, in_or_app; auto).
  pose proof (args_usable l1 u U1) as [T1 Q1].
  destruct (contents_to_nodes l1 u) as [n1 u1]. cbn [contents_to_nodes content_to_node Text new_values new_value app fst].
  pose proof (args_usable l2 u1 U2) as [T2 Q2].
  destruct (contents_to_nodes l2 u1) as [n2 u2]. cbn [fst] in *.
  (* an empty text: a member of an empty collection *)
  assert (C : forall m, collect_all nil_slice (n1 ++ NText [] :: n2) m = collect_all nil_slice (n1 ++ n2) m).
  { intro m. rewrite !collect_all_items, !items_attrs_app.
    destruct (items_attrs nil_slice n1 m) as [[a c] m1].
    cbn [items_attrs collect_attrs]. fold (items_attrs nil_slice).
    destruct (items_attrs nil_slice n2 m1) as [[a2 c2] m2]. reflexivity. }
  assert (Ta : all tables_ok (n1 ++ n2)).
  { rewrite all_In in *. intros x Hx. apply in_app_or in Hx as [Hx|Hx]; auto. }
  assert (Qa : all quiet (n1 ++ n2)).
  { rewrite all_In in *. intros x Hx. apply in_app_or in Hx as [Hx|Hx]; auto. }
  assert (Tb : all tables_ok (n1 ++ NText [] :: n2)).
  { rewrite all_In in *. intros x Hx. apply in_app_or in Hx as [Hx|[<-|Hx]]; auto. exact I. }
  assert (Qb : all quiet (n1 ++ NText [] :: n2)).
  { rewrite all_In in *. intros x Hx. apply in_app_or in Hx as [Hx|[<-|Hx]]; auto. exact I. }
  split.
  - rewrite !page_snode by (auto using tables_element, quiet_element).
    unfold mk_element, attributes_and_contents. rewrite C.
    destruct (collect_all nil_slice (n1 ++ n2) []) as [[a c] m].
    destruct (add_attributes a) as [attrs idx]. cbn [snode].
    destruct (stag o fr name attrs _ s) as [b1 s1]. rewrite !filter_app. cbn [filter is_attr negb].
    assert (F : forall P : node U -> Prop, all P n1 -> all P n2 -> P (NText []) ->
       all P (filter (fun n => negb (is_attr n)) n1 ++ filter (fun n => negb (is_attr n)) n2) /\
       all P (filter (fun n => negb (is_attr n)) n1 ++ NText [] :: filter (fun n => negb (is_attr n)) n2)).
    { clear. intros P H1 H2 H3. rewrite !all_In in *. split; intros x Hx.
      - apply in_app_or in Hx as [Hx|Hx]; apply filter_In in Hx as [Hx _]; auto.
      - apply in_app_or in Hx as [Hx|[<-|Hx]]; auto; apply filter_In in Hx as [Hx _]; auto. }
    destruct (F tables_ok T1 T2 I) as [F1 F2]. destruct (F quiet Q1 Q2 I) as [F3 F4].
    rewrite <- !(pages_seqS o) by auto.
    rewrite !pages_app. destruct (pages o _ fr s1) as [b2 s2]. cbn [pages].
    rewrite page_text. unfold liftU. cbn [svals mapS concat fst snd]. destruct s2 as [u0 t0]. cbn [fst snd].
    destruct (pages o _ fr (u0, t0)). reflexivity.
  - rewrite !page_snode by (auto using tables_void, quiet_void).
    unfold mk_void, attributes_and_contents. rewrite C.
    destruct (collect_all nil_slice (n1 ++ n2) []) as [[a c] m]. reflexivity.
Qed.

(** nil among the nodes of a Collection, of ContentCollect and WriteNodes, of
    Start. *)
Theorem C18_collection l1 l2 : Collection (l1 ++ None :: l2) = Collection (l1 ++ l2).
Proof. unfold Collection. f_equal. unfold somes. rewrite !flat_map_app. reflexivity. Qed.

Lemma content_nil r l1 l2 e E w :
  run E (each_content_ignore r (l1 ++ None :: l2) e) w = run E (each_content_ignore r (l1 ++ l2) e) w.
Proof.
  revert e w; induction l1 as [|[n|] l1 IH]; intros e w; [reflexivity| |apply IH].
  cbn [app]. change (each_content_ignore r (Some n :: ?l) e) with
    (if is_attr n then each_content_ignore r l e
     else '(_, e') <- r n e ;; each_content_ignore r l e').
  destruct (is_attr n); [apply IH|]. rewrite !run_bind.
  destruct (run E (r n e) w) as [[x e'] w']. apply IH.
Qed.
Theorem C18_write_nodes l1 l2 k err E s :
  run E (render (Imperative (Some (IWriteNodes (l1 ++ None :: l2) k))) fr err) s =
  run E (render (Imperative (Some (IWriteNodes (l1 ++ l2) k))) fr err) s.
Proof.
  unfold Imperative. cbn [render run_imper]. rewrite !run_bind, content_nil. reflexivity.
Qed.
Theorem C18_collect f g err E s :
  (forall c u, exists l1 l2, fst (f c u) = l1 ++ None :: l2 /\ g c u = (l1 ++ l2, snd (f c u))) ->
  run E (render (ContentCollect (Some f)) fr err) s = run E (render (ContentCollect (Some g)) fr err) s.
Proof.
  intro H. unfold ContentCollect. cbn [render run]. destruct (H (view fr err) (w_u s)) as (l1 & l2 & E1 & E2).
  rewrite E2. destruct (f (view fr err) (w_u s)) as [l u']. cbn [fst snd] in *. subst l.
  rewrite !run_bind, content_nil. reflexivity.
Qed.
Lemma start_nil l1 l2 acc : @start_attrs W (l1 ++ None :: l2) acc = start_attrs (l1 ++ l2) acc.
Proof.
  revert acc; induction l1 as [|[n|] l1 IH]; intro acc; cbn [app start_attrs]; auto.
  destruct n; auto.
Qed.
Theorem C18_start name v l1 l2 k err E s :
  run E (render (Imperative (Some (IStart name v (l1 ++ None :: l2) k))) fr err) s =
  run E (render (Imperative (Some (IStart name v (l1 ++ l2) k))) fr err) s.
Proof. unfold Imperative. cbn [render run_imper]. unfold start_tag. rewrite start_nil. reflexivity. Qed.

(** Where nodes are expected by Conditional, When, Iterate, IterateKey and
    IterateYield, a nil node is a run-time panic: the claim as stated is false. *)
Lemma all_some_none {A} (l1 l2 : list (option A)) : all_some (l1 ++ None :: l2) = None.
Proof. induction l1 as [|[x|] l1 IH]; cbn [app all_some]; auto. rewrite IH. reflexivity. Qed.
Theorem C18_nil_nodes_panic l1 l2 :
  (forall f, Conditional (Some f) (l1 ++ None :: l2) = @Panic (node U)) /\
  (forall key, When key (l1 ++ None :: l2) = @Panic (node U)) /\
  (forall f, Iterate f (l1 ++ None :: l2) = @Panic (node U)) /\
  (forall key, IterateKey key (l1 ++ None :: l2) = @Panic (node U)) /\
  (forall f, IterateYield f (l1 ++ None :: l2) = @Panic (node U)).
Proof.
  unfold When, Conditional, Iterate, IterateKey, IterateYield. rewrite all_some_none.
  repeat split; intros; auto; try (destruct (has_prefix _ _); reflexivity); destruct f; reflexivity.
Qed.

(** ** C45 *)

Theorem C45_document lang head body u s :
  usable_args head -> usable_args body ->
  page o (fst (Document lang head body u)) fr s =
  (let '(langs, u1) := match lang with
                       | AData GNil => ([], u)
                       | _ => let '(n, u') := NewAttribute (B "lang") [lang] u in ([n], u')
                       end in
   let '(heads, u2) := match head with
                       | [] => ([], u1)
                       | _ => let '(n, u') := NewElement (B "head") head u1 in ([n], u')
                       end in
   let '(A, s1) := pages o langs fr s in
   let '(H, s2) := pages o heads fr s1 in
   let '(Bd, s3) := page o (fst (NewElement (B "body") body u2)) fr s2 in
   (B "<!DOCTYPE html>" ++ ["010"%char] ++
    B "<html" ++ A ++ B ">" ++ H ++ Bd ++ B "</html>", s3)).
Proof.
  intros Hh Hb.
  assert (G : forall langs heads bd u', 
     (langs = [] \/ exists vs, langs = [NAttr (APlain (B "lang") vs)]) ->
     all tables_ok heads -> all quiet heads -> all (fun n => exists a i c ns, n = NElement (B "head") a i c ns) heads ->
     tables_ok bd -> quiet bd -> (exists a i c ns, bd = NElement (B "body") a i c ns) ->
     page o (NDocument (Some (fst (DocType u'))) [fst (NewElement (B "html")
        [match langs with [] => AData GNil | l :: _ => ANode l end;
         match heads with [] => AData GNil | h :: _ => ANode h end; ANode bd] u')]) fr s =
     (let '(A, s1) := pages o langs fr s in
      let '(H, s2) := pages o (firstn 1 heads) fr s1 in
      let '(Bd, s3) := page o bd fr s2 in
      (B "<!DOCTYPE html>" ++ ["010"%char] ++
       B "<html" ++ A ++ B ">" ++ H ++ Bd ++ B "</html>", s3))).
  { intros langs heads bd u' L T Q Hs Tb Qb Eb.
    assert (E1 : exists v, fst (DocType u') = NPI (B "DOCTYPE") [Val v None []] /\ v = B "html").
    { unfold DocType, PI. eexists. cbn. split; reflexivity. }
    destruct E1 as (v & -> & ->).
    set (args := [match langs with [] => AData GNil | l :: _ => ANode l end;
         match heads with [] => AData GNil | h :: _ => ANode h end; ANode bd]).
    assert (E : fst (NewElement (B "html") args u') = NElement (B "html")
       (flat_map static_decls langs) (combine (names (flat_map static_decls langs)) (seq 0 (length (flat_map static_decls langs)))) []
       ((match langs with [] => [NText []] | _ => [] end) ++ (match heads with [] => [NText []] | h :: _ => [h] end) ++ [bd])).
    { subst args. destruct Eb as (a & i & c & ns & ->).
      destruct L as [->|[vs ->]]; destruct heads as [|h heads]; try reflexivity;
        destruct Hs as [(a' & i' & c' & ns' & ->) _]; reflexivity. }
    rewrite E. clear E args.
    rewrite page_snode; auto.
    - cbn [snode seqS]. unfold liftU at 1. cbn [svals mapS sval fst snd concat].
      unfold stag, tag_attrs. cbn [sactive mapS fst snd concat].
      rewrite <- pages_attrs with (o := o).
      assert (X : map NAttr (flat_map static_decls langs) = langs) by (destruct L as [->|[vs ->]]; reflexivity).
      rewrite X. destruct s as [us ts]. cbn [fst snd].
      destruct (pages o langs fr (us, ts)) as [A s1].
      rewrite <- (pages_seqS o).
      2: exact O.
      2: { destruct L as [->|[vs ->]]; destruct heads; cbn; cbn in T; tauto. }
      2: { destruct L as [->|[vs ->]]; destruct heads; cbn; cbn in Q; tauto. }
      assert (Y : forall s, pages o [NText []] fr s = ([], s)).
      { intros [a b]. cbn [pages]. rewrite page_text. reflexivity. }
      assert (Z1 : pages o (match langs with [] => [NText []] | _ => [] end) fr s1 = ([], s1)).
      { destruct langs; [apply Y|reflexivity]. }
      assert (Z2 : pages o (match heads with [] => [NText []] | h :: _ => [h] end) fr s1 =
                   pages o (firstn 1 heads) fr s1).
      { destruct heads; [apply Y|reflexivity]. }
      rewrite pages_app, Z1, pages_app, Z2. destruct (pages o (firstn 1 heads) fr s1) as [H s2].
      rewrite pages_one. destruct (page o bd fr s2) as [Bd s3].
      unfold endtag. rewrite !app_nil_r. cbn [app]. rewrite <- !app_assoc. reflexivity.
    - split; [exact I|]. refine (conj _ I). split.
      + split; [reflexivity|]. destruct L as [->|[vs ->]]; cbn; repeat constructor; tauto.
      + destruct L as [->|[vs ->]]; destruct heads; cbn; cbn in T; tauto.
    - split; [exact I|]. refine (conj _ I).
      destruct L as [->|[vs ->]]; destruct heads; cbn; cbn in Q; tauto. }
  assert (NE : forall nm args u, exists a i c ns, fst (NewElement nm args u) = NElement nm a i c ns).
  { clear. intros. unfold NewElement. destruct (contents_to_nodes args u) as [ns u'].
    unfold mk_element. destruct (attributes_and_contents ns) as [[x y] z]. destruct (add_attributes x).
    cbn. eauto. }
  assert (NT : forall nm args u, usable_args args -> tables_ok (fst (NewElement nm args u)) /\ quiet (fst (NewElement nm args u))).
  { clear. intros nm args u H. destruct (args_usable args u H) as [T Q]. unfold NewElement.
    destruct (contents_to_nodes args u). split; [apply tables_element|apply quiet_element]; auto. }
  assert (LangShape : exists langs u1, (langs = [] \/ exists vs, langs = [NAttr (APlain (B "lang") vs)]) /\
     (match lang with
      | AData GNil => (AData GNil, u)
      | _ => let '(n, u') := NewAttribute (B "lang") [lang] u in (ANode n, u')
      end) = (match langs with [] => AData GNil | l :: _ => ANode l end, u1) /\
     (match lang with
      | AData GNil => ([], u)
      | _ => let '(n, u') := NewAttribute (B "lang") [lang] u in ([n], u')
      end) = (langs, u1)).
  { assert (D : forall a, exists langs u1, (langs = [] \/ exists vs, langs = [NAttr (APlain (B "lang") vs)]) /\
      (let '(n, u') := NewAttribute (B "lang") [a] u in (ANode n, u')) =
        (match langs with [] => AData GNil | l :: _ => ANode l end, u1) /\
      (let '(n, u') := NewAttribute (B "lang") [a] u in ([n], u')) = (langs, u1)).
    { intro a. unfold NewAttribute. destruct (new_values [a] u) as [vs u1].
      exists [NAttr (APlain (B "lang") vs)], u1. split; [right; eauto|]. split; reflexivity. }
    destruct lang as [n|v|f|k|g]; try apply D. destruct g; try apply D.
    exists [], u. split; auto. }
  destruct LangShape as (langs & u1 & L & E1 & E2).
  unfold Document. rewrite E1, E2. clear E1 E2.
  destruct head as [|h head].
  - destruct (NT (B "body") body u1 Hb) as [Tb Qb]. pose proof (NE (B "body") body u1) as Eb.
    destruct (NewElement (B "body") body u1) as [bd u3]. cbn [fst] in *.
    assert (E4 : DocType u3 = (fst (DocType u3), u3)) by reflexivity. rewrite E4.
    specialize (G langs [] bd u3 L I I I Tb Qb Eb). cbn [firstn] in G.
    destruct (NewElement (B "html") _ u3) as [html u5] eqn:Eh.
    cbn [fst] in *. exact G.
  - destruct (NT (B "head") (h :: head) u1 Hh) as [Th Qh]. pose proof (NE (B "head") (h :: head) u1) as Ehd.
    destruct (NewElement (B "head") (h :: head) u1) as [hd u2]. cbn [fst] in *.
    destruct (NT (B "body") body u2 Hb) as [Tb Qb]. pose proof (NE (B "body") body u2) as Eb.
    destruct (NewElement (B "body") body u2) as [bd u3]. cbn [fst] in *.
    assert (E4 : DocType u3 = (fst (DocType u3), u3)) by reflexivity. rewrite E4.
    specialize (G langs [hd] bd u3 L (conj Th I) (conj Qh I) (conj Ehd I) Tb Qb Eb). cbn [firstn] in G.
    destruct (NewElement (B "html") _ u3) as [html u5] eqn:Eh.
    cbn [fst] in *. exact G.
Qed.

End Groups.

(** ** Examples *)

Definition tt_fn : condfn (@U demo) := fun _ u => (true, u).
Definition plain (name v : string) : attr (@U demo) := APlain (B name) [Val (B v) None []].
Definition deli (name v : string) : attr (@U demo) := ADelim (B name) (B " ") [Val (B v) None []].
Lemma plain_usable name v : usable (NAttr (plain name v)).
Proof.
  split; [|exact I]. change (NAttr (plain name v)) with
    (fst (NewAttribute (B name) [AVal (Val (B v) None [])] (st 0))). apply api_attribute.
Qed.

(** C05/C10: attributes merged, content in order. *)
Example ex_element :
  fst (page listed (fst (NewElement (B "p")
    [ANode (NAttr (deli "class" "a")); str (B "x"); ANode (NAttr (plain "id" "1"));
     ANode (NAttr (deli "class" "b")); ANode (NText [Val (B "y") None []])] (st 0))) fr0 (st 0, 0)) =
  B "<p class=""a b"" id=""1"">xy</p>".
Proof. vm_compute. reflexivity. Qed.
Example ex_element_usable :
  usable_args [ANode (NAttr (deli "class" "a")); str (B "x"); ANode (NAttr (plain "id" "1"))].
Proof.
  intros n [H|[H|[H|[]]]]; try discriminate; injection H as <-.
  - split; [|exact I]. change (NAttr (deli "class" "a")) with
      (fst (NewDelimitedAttribute (B "class") (B " ") [AVal (Val (B "a") None [])] (st 0))).
    apply api_delimited.
  - apply plain_usable.
Qed.
(** C07. *)
Example ex_void :
  fst (page listed (fst (NewVoidElement (B "br") [str (B "gone"); ANode (NAttr (plain "id" "1"))] (st 0)))
    fr0 (st 0, 0)) = B "<br id=""1"">".
Proof. vm_compute. reflexivity. Qed.
(** C07: contents inside a conditional are dropped, its attributes are not. *)
Definition ex_inside : list (node (@U demo)) :=
  [NConditional tt_fn [] [NText [Val (B "gone") None []]; NAttr (plain "id" "1")]].
Example ex_void_conditional :
  (flat_map attributes_only ex_inside = [NConditional tt_fn [] [NAttr (plain "id" "1")]]) /\
  (fst (page listed (mk_void (B "br") ex_inside) fr0 (st 0, 0)) = B "<br id=""1"">").
Proof. split; [reflexivity|vm_compute; reflexivity]. Qed.
(** C09, C13: a conditional attribute under two map orders. *)
Definition ex_conditional := fst (NewElement (B "p")
    [ANode (NAttr (plain "id" "1")); ANode (NAttr (deli "class" "a"));
     ANode (NConditional tt_fn [plain "id" "2"; deli "class" "b"; plain "x" "3"] [])] (st 0)).
Example ex_conditional_listed :
  fst (page listed ex_conditional fr0 (st 0, 0)) = B "<p id=""2"" class=""a b"" x=""3""></p>".
Proof. vm_compute. reflexivity. Qed.
Example ex_conditional_reversed :
  fst (page reversed ex_conditional fr0 (st 0, 0)) = B "<p class=""a b"" id=""2"" x=""3""></p>".
Proof. vm_compute. reflexivity. Qed.
(** C10: mixed kinds. *)
Example ex_mixed :
  effective [deli "c" "a"; plain "c" "b"; deli "c" "d"; deli "c" "e"] =
  Some (ADelim (B "c") (B " ") [Val (B "d") None []; Val (B "e") None []]).
Proof. reflexivity. Qed.
(** C11: an interleaving that is neither attributes first nor last. *)
Example ex_interleave :
  interleave (map NAttr [plain "a" "1"; plain "b" "2"]) [NText []; @NComment (@U demo) []]
    [NText []; NAttr (plain "a" "1"); NComment []; NAttr (plain "b" "2")].
Proof. cbn. repeat constructor. Qed.
(** C17. *)
Example ex_splice :
  fst (page listed (mk_element (B "p") [NAttr (plain "a" "1");
     NCollection [NAttr (plain "b" "2"); NText [Val (B "x") None []]]; NText [Val (B "y") None []]]) fr0 (st 0, 0)) =
  B "<p a=""1"" b=""2"">xy</p>".
Proof. vm_compute. reflexivity. Qed.
(** C18. *)
Example ex_nil :
  fst (page listed (fst (NewElement (B "p") [AData GNil; str (B "x"); AData GNil] (st 0))) fr0 (st 0, 0)) =
  B "<p>x</p>".
Proof. vm_compute. reflexivity. Qed.
(** C18 as stated is false: [Conditional(f, nil)] panics. *)
Theorem C18_refuted : exists ns : list (option (node (@U demo))),
  In None ns /\ Conditional (Some tt_fn) ns = Panic.
Proof. exists [Some (NText []); None]. split; [right; left; reflexivity|reflexivity]. Qed.

(** C45. *)
Example ex_document :
  fst (page listed (fst (Document (str (B "en")) [] [str (B "x")] (st 0))) fr0 (st 0, 0)) =
  B "<!DOCTYPE html>" ++ ["010"%char] ++ B "<html lang=""en""><body>x</body></html>".
Proof. vm_compute. reflexivity. Qed.

(** ** C51 *)

(** The source order of a static and an active conditional declaration does not
    decide: here the static one is written last, and the conditional one is
    rendered. *)
Theorem C51_refuted : exists (f : condfn (@U demo)) (ns : list (node (@U demo))) fr s,
  ns = [NConditional f [plain "id" "first"] []; NAttr (plain "id" "last")] /\
  fst (f (view fr None) (fst s)) = true /\
  fst (page listed (mk_element (B "p") ns) fr s) = B "<p id=""first""></p>".
Proof.
  exists tt_fn. eexists. exists fr0, (st 0, 0). split; [reflexivity|].
  split; [reflexivity|]. vm_compute. reflexivity.
Qed.

(** How much of it holds: if the name has no conditional declarations, or only
    conditional ones outside the direct/nested mixture, the last one counts.
    (Missing: static declarations after conditional ones, which lose.) *)
Section LastWins.
Context {W : UserWorld}.
Theorem C51_last_wins_partial (ds act : list (attr U)) n a :
  is_delim a = false -> attr_name a = n ->
  (* static only *)
  resolve (effective (declared n (ds ++ [a]))) [] = Some a /\
  (* conditional declarations after non-delimited static ones *)
  (forall b, effective (declared n ds) = Some b -> is_delim b = false ->
     resolve (effective (declared n ds)) (declared n (act ++ [a])) = Some a) /\
  (* conditional only, the first not being delimited *)
  (forall b, is_delim b = false -> attr_name b = n ->
     resolve None (declared n (b :: act ++ [a])) = Some a).
Proof.
  intros D <-.
  assert (S : forall l : list (attr U), declared (attr_name a) (l ++ [a]) = declared (attr_name a) l ++ [a]).
  { intro l. unfold declared. rewrite filter_app. cbn [filter]. rewrite beq_refl. reflexivity. }
  split; [|split].
  - rewrite S, C10_last_wins by auto. apply resolve_none.
  - intros b -> Hb. rewrite S. apply C13_other_static. auto.
  - intros b Hb Hn. change (b :: act ++ [a]) with ([b] ++ act ++ [a]). rewrite app_assoc, S.
    unfold declared at 1. cbn [filter app]. rewrite Hn, beq_refl. apply C13_no_static_other. auto.
Qed.
End LastWins.
