(** C62: what nodes say about themselves. *)
From Verif Require Import Bytes IO IOFacts Escape Nodes Values Render Build Packages Tables Accessors
  SpecOut SpecRun RenderFacts PageFacts PropPackages Demo.
Import ListNotations.

Section Accessors.
Context {W : UserWorld}.

(** The code asks [Type() == AttributeNode]; the model asks [is_attr]. *)
Lemma is_attr_type (n : node U) : is_attr n = true <-> type_of n = AttributeNode.
Proof. destruct n; cbn; split; intro H; try discriminate; reflexivity. Qed.

Lemma starts o (d : bytes) (f : option error -> io U (option error * option error)) u t :
  exists rest, snd (fst (fst (hrun o (e <- ctx_write d None ;; f e) u t))) = d ++ rest /\
               rest = snd (fst (fst (hrun o (f None) u t))).
Proof.
  rewrite hrun_bind, h_ctx_write. destruct (hrun o (f None) u t) as [[[a b] u'] t']. eexists. split; reflexivity.
Qed.
Lemma page_starts o n fr s x :
  (exists rest, snd (fst (fst (hrun o (render n fr None) (fst s) (snd s)))) = x ++ rest) ->
  exists rest, fst (page o n fr s) = x ++ rest.
Proof.
  rewrite page_hrun. destruct (hrun _ _ _ _) as [[[a b] u'] t']. auto.
Qed.

(** C62.  Elements, attributes and processing instructions begin with the name
    they report. *)
Lemma element_starts o n fr s name (f : option error -> io U (option error * option error)) :
  render n fr None = (e <- ctx_write (B "<") None ;; e <- ctx_write name e ;; f e) ->
  exists rest, fst (page o n fr s) = B "<" ++ name ++ rest.
Proof.
  intro R. destruct (page_starts o n fr s (B "<" ++ name)) as [r E]; [|exists r; rewrite E; apply app_assoc_reverse].
  rewrite R. edestruct starts as (r & E1 & E2). rewrite E1, E2.
  edestruct starts as (r' & E3 & E4). rewrite E3. eexists. apply app_assoc.
Qed.
Theorem C62_element o n fr s :
  type_of n = ElementNode -> exists rest, fst (page o n fr s) = B "<" ++ name_of n ++ rest.
Proof.
  intro T. destruct n; try discriminate; cbn [name_of]; eapply element_starts; cbn [render]; reflexivity.
Qed.
Theorem C62_attribute o n fr s :
  type_of n = AttributeNode -> exists rest, fst (page o n fr s) = B " " ++ name_of n ++ rest.
Proof.
  intro T. destruct n as [a| | | | | | | | | | | | |]; try discriminate. cbn [name_of].
  rewrite page_attr. unfold liftU.
  destruct a as [name vs|name|name d vs]; cbn [sattr attr_name].
  - destruct (svals fr vs (fst s)). cbn [fst]. eexists. reflexivity.
  - exists []. cbn [fst]. rewrite app_nil_r. reflexivity.
  - destruct (mapS (sval fr) vs (fst s)). cbn [fst]. eexists. reflexivity.
Qed.
Theorem C62_pi o n fr s :
  type_of n = PINode -> exists rest, fst (page o n fr s) = B "<" ++ name_of n ++ B " " ++ rest.
Proof.
  intro T. destruct n as [| | | | |name vs| | | | | | | |]; try discriminate. cbn [name_of].
  rewrite page_pi. unfold liftU. destruct (svals fr vs (fst s)). cbn [fst]. eexists. reflexivity.
Qed.

(** All others report names that no checked element or attribute can have; so a
    valid name tells that the node is one of these. *)
Theorem C62_valid_name (n : node U) :
  valid_name (name_of n) = true -> type_of n = ElementNode \/ type_of n = AttributeNode.
Proof. destruct n; auto; discriminate. Qed.
(** The other names tell the kinds of node apart, those of [Iterate] and
    [IterateYield] too. *)
Definition yields (n : node U) : bool := match n with NYield _ _ => true | _ => false end.
Theorem C62_other_names (n n' : node U) :
  ~ In (type_of n) [ElementNode; AttributeNode; PINode] -> ~ In (type_of n') [ElementNode; AttributeNode; PINode] ->
  name_of n = name_of n' -> type_of n = type_of n' /\ yields n = yields n'.
Proof.
  intros H H'. destruct n, n'; cbn [type_of name_of In] in *; try tauto; intro E; try discriminate E; auto.
Qed.
Example other_names_ex : name_of (NIter (fun _ u => ([], u)) [] : node U) <> name_of (NYield YRet [] : node U).
Proof. discriminate. Qed.
Theorem C62_checked p name args u n u' :
  (Element p name args u = Done (Some n, u') \/ VoidElement p name args u = Done (Some n, u') ->
   type_of n = ElementNode /\ name_of n = name /\ valid_name (name_of n) = true) /\
  ((exists d, DelimitedAttribute p name d args u = Done (Some n, u')) \/
   Attribute p name args u = Done (Some n, u') \/ BooleanAttribute p name u = Done (Some n, u') ->
   type_of n = AttributeNode /\ name_of n = name /\ valid_name (name_of n) = true).
Proof.
  assert (X : forall mk T, (forall u, type_of (fst (mk u)) = T /\ name_of (fst (mk u)) = name) ->
    checked p name mk u = Done (Some n, u') -> type_of n = T /\ name_of n = name /\ valid_name (name_of n) = true).
  { intros mk T H C. unfold checked in C. destruct (valid_name name) eqn:V; [|destruct p; discriminate].
    specialize (H u). destruct (mk u) as [m u1]. inversion C; subst. cbn [fst] in H. destruct H as [H1 H2].
    rewrite H2. auto. }
  assert (E : forall u, type_of (fst (NewElement name args u)) = ElementNode /\ name_of (fst (NewElement name args u)) = name).
  { intro u1. unfold NewElement. destruct (contents_to_nodes args u1). cbn [fst]. unfold mk_element.
    destruct (attributes_and_contents _) as [[? ?] ?]. destruct (add_attributes _). auto. }
  assert (V : forall u, type_of (fst (NewVoidElement name args u)) = ElementNode /\ name_of (fst (NewVoidElement name args u)) = name).
  { intro u1. unfold NewVoidElement. destruct (contents_to_nodes args u1). cbn [fst]. unfold mk_void.
    destruct (attributes_and_contents _) as [[? ?] ?]. destruct (add_attributes _). auto. }
  split.
  - intros [H|H]; [|exact (X _ _ V H)]. unfold Element in H.
    destruct (bmem name void_element_names); [exact (X _ _ V H)|exact (X _ _ E H)].
  - intros [[d H]|[H|H]]; refine (X _ _ _ H); intro u1.
    + unfold NewDelimitedAttribute. destruct (new_values args u1). auto.
    + unfold NewAttribute. destruct (new_values args u1). auto.
    + auto.
Qed.

(** The functions of html, svg and htmx: the type and the name of what they make. *)
Theorem C62_functions f k args u n u' :
  In (f, k) (html_element_functions ++ svg_element_functions) ->
  call k args u = Some (n, u') -> type_of n = ElementNode /\ name_of n = produces k.
Proof.
  intros H C.
  assert (T : forallb (fun '(f, k) => match k with KElement _ | KVoid _ => true | _ => false end)
                (html_element_functions ++ svg_element_functions) = true) by (vm_compute; reflexivity).
  rewrite forallb_forall in T. specialize (T _ H). cbn beta iota in T.
  destruct k; try discriminate; cbn [call produces] in *; inversion C as [C']; clear C.
  - unfold NewElement in C'. destruct (contents_to_nodes args u). inversion C'. unfold mk_element.
    destruct (attributes_and_contents _) as [[? ?] ?]. destruct (add_attributes _). auto.
  - unfold NewVoidElement in C'. destruct (contents_to_nodes args u). inversion C'. unfold mk_void.
    destruct (attributes_and_contents _) as [[? ?] ?]. destruct (add_attributes _). auto.
Qed.
Theorem C62_attribute_functions f k args u n u' :
  In (f, k) (html_attribute_functions ++ svg_attribute_functions ++ htmx_attribute_functions) ->
  call k args u = Some (n, u') -> type_of n = AttributeNode /\ name_of n = produces k.
Proof.
  intros H C.
  assert (T : forallb (fun '(f, k) => match k with KPlain _ | KBool _ | KDelim _ _ => true | _ => false end)
                (html_attribute_functions ++ svg_attribute_functions ++ htmx_attribute_functions) = true)
    by (vm_compute; reflexivity).
  rewrite forallb_forall in T. specialize (T _ H). cbn beta iota in T.
  destruct k; try discriminate; cbn [call produces] in *; inversion C as [C']; clear C.
  - unfold NewAttribute in C'. destruct (new_values args u). inversion C'. auto.
  - auto.
  - unfold NewDelimitedAttribute in C'. destruct (new_values args u). inversion C'. auto.
Qed.
(** A css property is a style attribute. *)
Theorem C62_css f k args u n u' :
  In (f, k) css_property_functions ->
  call k args u = Some (n, u') -> type_of n = AttributeNode /\ name_of n = B "style".
Proof.
  intros H C.
  assert (T : forallb (fun '(f, k) => match k with KStyle _ => true | _ => false end)
                css_property_functions = true) by (vm_compute; reflexivity).
  rewrite forallb_forall in T. specialize (T _ H). cbn beta iota in T.
  destruct k; try discriminate; cbn [call] in *; inversion C as [C']; clear C.
  unfold style_attribute in C'. destruct (NewConcatValue _ _) as [v u1]. unfold NewDelimitedAttribute in C'.
  destruct (new_values _ _). inversion C'. auto.
Qed.

(** The constructors of all other nodes. *)
Theorem C62_constructors (l : list (arg U)) name u ns f g fn y p lang head body :
  (type_of (fst (Text l u)) = TextNode) /\ (type_of (fst (Comment l u)) = CommentNode) /\
  (type_of (fst (PI name l u)) = PINode) /\ (name_of (fst (PI name l u)) = B "!" ++ name) /\
  (type_of (fst (DocType u)) = PINode) /\ (type_of (fst (Fragment l u)) = FragmentNode) /\
  (type_of (fst (Document lang head body u)) = DocumentNode) /\
  (type_of (Collection ns) = CollectionNode) /\
  (type_of (ContentCollect f) = match f with Some _ => DynamicNode | None => CollectionNode end) /\
  (type_of (Imperative p) = ImperativeNode) /\
  (forall n, Conditional g ns = Done n ->
     type_of n = match g with Some _ => ConditionalNode | None => CollectionNode end) /\
  (forall n, When name ns = Done n -> type_of n = ConditionalNode) /\
  (forall n, Iterate fn ns = Done n \/ IterateKey name ns = Done n \/ IterateYield y ns = Done n ->
     type_of n = IteratorNode).
Proof.
  repeat match goal with |- _ /\ _ => split end; intros.
  - unfold Text. destruct (new_values l u). reflexivity.
  - unfold Comment. destruct (new_values l u). reflexivity.
  - unfold PI. destruct (new_values l u). reflexivity.
  - unfold PI. destruct (new_values l u). reflexivity.
  - reflexivity.
  - unfold Fragment. destruct (new_values l u). reflexivity.
  - unfold Document.
    repeat match goal with |- context [let '(_, _) := ?x in _] => destruct x end. reflexivity.
  - reflexivity.
  - destruct f; reflexivity.
  - reflexivity.
  - unfold Conditional in H. destruct g; [destruct (all_some ns)|]; inversion H; reflexivity.
  - unfold When, Conditional in H. destruct (has_prefix _ _); destruct (all_some ns); inversion H; reflexivity.
  - destruct H as [H|[H|H]]; [unfold Iterate in H; destruct fn|unfold IterateKey in H|unfold IterateYield in H; destruct y];
      try destruct (all_some ns); inversion H; reflexivity.
Qed.

End Accessors.

Example C62_example :
  let n := fst (NewElement (B "p") [ANode (NAttr (ABool (B "hidden")))] (st 0)) in
  type_of n = ElementNode /\ name_of n = B "p" /\ fst (page listed n fr0 (st 0, 0)) = B "<p hidden></p>" /\
  name_of (fst (DocType (W := demo) (st 0))) = B "!DOCTYPE".
Proof. repeat split; vm_compute; reflexivity. Qed.
