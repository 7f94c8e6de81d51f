(** C59: functions and constants say what they write. *)
From Verif Require Import Bytes IO Escape EscapeFacts SpecEscape Nodes Values Render Build SpecRun PageFacts TagFacts
  PropValues Demo Tables Packages PropPackages SpecNamed.

(** Deciding [named_after]. *)
Definition drop_last (k : nat) (s : bytes) : bytes := firstn (length s - k) s.
Definition stem_ok (go name suffix : bytes) : bool :=
  let stem := drop_last (length suffix) go in
  beq go (stem ++ suffix) && beq (spelled stem) (spelled name).
Definition named_afterb (go name : bytes) : bool :=
  beq (spelled go) (spelled name) || stem_ok go name (B "Element") || stem_ok go name (B "Attr").
Lemma stem_ok_spec go name suffix : stem_ok go name suffix = true ->
  exists stem, go = stem ++ suffix /\ spelled stem = spelled name.
Proof.
  intro H. apply andb_prop in H as [H1 H2].
  destruct (beq_spec go (drop_last (length suffix) go ++ suffix)) as [E|]; [|discriminate].
  destruct (beq_spec (spelled (drop_last (length suffix) go)) (spelled name)) as [F|]; [|discriminate].
  exists (drop_last (length suffix) go). auto.
Qed.
Lemma named_after_spec go name : named_afterb go name = true -> named_after go name.
Proof.
  intro H. apply Bool.orb_true_iff in H as [H|H]; [apply Bool.orb_true_iff in H as [H|H]|].
  - left. destruct (beq_spec (spelled go) (spelled name)); [auto|discriminate].
  - right. apply stem_ok_spec in H as (stem & H1 & H2). exists stem. auto.
  - right. apply stem_ok_spec in H as (stem & H1 & H2). exists stem. auto.
Qed.

Section Names.
Context {W : UserWorld}.

(** Every element function of html and svg calls NewElement or NewVoidElement
    with the tag it is named after; Para, the second name of P, aside. *)
Theorem C59_elements f k :
  In (f, k) (html_element_functions ++ svg_element_functions) -> f <> "Para"%string ->
  exists tag, named_after (B f) (B tag) /\
    ((forall args u, call k args u = Some (NewElement (B tag) args u)) \/
     (forall args u, call k args u = Some (NewVoidElement (B tag) args u))).
Proof.
  intros H N.
  assert (C : forallb (fun '(f, k) => String.eqb f "Para" ||
    match k with KElement t | KVoid t => named_afterb (B f) (B t) | _ => false end)
    (html_element_functions ++ svg_element_functions) = true) by (vm_compute; reflexivity).
  pose proof (forall_table _ _ _ C H) as E. cbv beta iota in E. clear C H. apply Bool.orb_true_iff in E as [E|E].
  - apply String.eqb_eq in E. contradiction.
  - destruct k; try discriminate E; exists tag; (split; [apply named_after_spec, E|]); [left|right]; reflexivity.
Qed.
Theorem C59_para : In ("Para"%string, KElement "p") html_element_functions.
Proof. apply (in_table (fun e => String.eqb (fst e) "Para")). vm_compute. reflexivity. Qed.

(** Every attribute function of html and svg makes the attribute it is named
    after. *)
Theorem C59_attributes f k :
  In (f, k) (html_attribute_functions ++ svg_attribute_functions) ->
  exists name, named_after (B f) (B name) /\
    ((forall args u, call k args u = Some (NewAttribute (B name) args u)) \/
     (forall args u, call k args u = Some (NewBooleanAttribute (B name), u)) \/
     (exists d, forall args u, call k args u = Some (NewDelimitedAttribute (B name) (B d) args u))).
Proof.
  intro H.
  assert (C : forallb (fun '(f, k) =>
    match k with KPlain n | KBool n | KDelim n _ => named_afterb (B f) (B n) | _ => false end)
    (html_attribute_functions ++ svg_attribute_functions) = true) by (vm_compute; reflexivity).
  pose proof (forall_table _ _ _ C H) as E. cbv beta iota in E. clear C H.
  destruct k; try discriminate E; exists name; (split; [apply named_after_spec, E|]).
  - left. reflexivity.
  - right. left. reflexivity.
  - right. right. exists delimiter. reflexivity.
Qed.

(** The htmx functions: hx- and the name of the function. *)
Theorem C59_htmx f k :
  In (f, k) htmx_attribute_functions ->
  exists name, spelled (B f) = spelled (B name) /\
    ((forall args u, call k args u = Some (NewAttribute (B ("hx-" ++ name)) args u)) \/
     (exists d, forall args u, call k args u = Some (NewDelimitedAttribute (B ("hx-" ++ name)) (B d) args u))).
Proof.
  intro H.
  pose (rest := fun n => substring 3 (String.length n) n).
  assert (C : forallb (fun '(f, k) =>
    match k with KPlain n | KDelim n _ => String.eqb n ("hx-" ++ rest n) && beq (spelled (B f)) (spelled (B (rest n))) | _ => false end)
    htmx_attribute_functions = true) by (vm_compute; reflexivity).
  pose proof (forall_table _ _ _ C H) as E. cbv beta iota in E. clear C H.
  destruct k; try discriminate E; apply andb_prop in E as [E1 E2]; apply String.eqb_eq in E1;
    exists (rest name); rewrite <- E1; (split; [destruct (beq_spec (spelled (B f)) (spelled (B (rest name)))); [auto|discriminate]|]).
  - left. reflexivity.
  - right. exists delimiter. reflexivity.
Qed.

(** No two functions of a package write the same tag or attribute name, or
    declare the same property; P and Para aside. *)
Definition writes (k : fkind) : string :=
  match k with
  | KElement n | KVoid n | KPlain n | KBool n | KDelim n _ | KStyle n | KUnit n => n
  end.
Fixpoint unequal (l : list (string * fkind)) : bool :=
  match l with
  | [] => true
  | x :: l => forallb (fun y => negb (String.eqb (writes (snd x)) (writes (snd y)))) l && unequal l
  end.
Lemma unequal_spec l : unequal l = true ->
  forall x y, In x l -> In y l -> writes (snd x) = writes (snd y) -> x = y.
Proof.
  induction l as [|z l IH]; intros H x y Hx Hy E; [destruct Hx|]. apply andb_prop in H as [H1 H2].
  rewrite forallb_forall in H1. destruct Hx as [->|Hx], Hy as [->|Hy]; auto.
  - specialize (H1 _ Hy). rewrite E, String.eqb_refl in H1. discriminate.
  - specialize (H1 _ Hx). rewrite E, String.eqb_refl in H1. discriminate.
Qed.
Theorem C59_distinct table f g k l :
  In table [html_attribute_functions; svg_element_functions; svg_attribute_functions;
            css_property_functions; css_unit_functions; htmx_attribute_functions;
            filter (fun e => negb (String.eqb (fst e) "Para")) html_element_functions] ->
  In (f, k) table -> In (g, l) table -> writes k = writes l -> f = g.
Proof.
  intros T H1 H2 E. enough ((f, k) = (g, l)) as X by congruence.
  assert (C : forallb unequal [html_attribute_functions; svg_element_functions; svg_attribute_functions;
            css_property_functions; css_unit_functions; htmx_attribute_functions;
            filter (fun e => negb (String.eqb (fst e) "Para")) html_element_functions] = true) by (vm_compute; reflexivity).
  apply (unequal_spec table); auto. apply (forall_table _ _ _ C T).
Qed.

(** Every string constant of css and htmx renders as itself, wherever strings do. *)
Theorem C59_constants o fr c x u s :
  In (c, x) (css_constants ++ htmx_constants) ->
  page o (fst (Text [AData (GString (B x))] u)) fr s = (B x, s).
Proof.
  intro H.
  assert (C : forallb (fun '(c, x) => negb (contains_special (B x))) (css_constants ++ htmx_constants) = true)
    by (vm_compute; reflexivity).
  pose proof (forall_table _ _ _ C H) as E. cbv beta iota in E. clear C H.
  apply Bool.negb_true_iff in E.
  assert (html_escape_string (B x) = B x) as X by (unfold html_escape_string; rewrite E; reflexivity).
  destruct s as [u0 i]. unfold Text. cbn [new_values new_value value_to_bytes fst]. rewrite X.
  rewrite page_text. cbn. rewrite ?app_nil_r. reflexivity.
Qed.

(** The constant AttrX names the attribute of the function X; On, Headers and
    HeadersJS are described in C35 and C36. *)
Theorem C59_attr_constants f x :
  In (("Attr" ++ f)%string, x) htmx_constants -> f <> "On"%string -> f <> "Headers"%string ->
  exists k, In (f, k) htmx_attribute_functions /\ writes k = x.
Proof.
  intros H N1 N2.
  assert (C : forallb (fun '(c, x) =>
    negb (String.eqb (substring 0 4 c) "Attr") ||
    let f := substring 4 (String.length c) c in
    String.eqb f "On" || String.eqb f "Headers" ||
    existsb (fun '(g, k) => String.eqb f g && String.eqb (writes k) x) htmx_attribute_functions) htmx_constants = true)
    by (vm_compute; reflexivity).
  pose proof (forall_table _ _ _ C H) as E. cbv beta iota zeta in E. clear C H.
  assert (substring 4 (String.length ("Attr" ++ f)) ("Attr" ++ f) = f) as Q.
  { change (substring 0 (4 + String.length f) f = f). generalize 4 as m. clear. induction f as [|a f IH]; intro m.
    - destruct m; reflexivity.
    - cbn [String.length]. rewrite <- plus_n_Sm. cbn [substring]. rewrite IH. reflexivity. }
  rewrite Q in E. change (substring 0 4 ("Attr" ++ f)) with ("Attr" ++ substring 0 0 f)%string in E.
  replace (substring 0 0 f) with ""%string in E by (destruct f; reflexivity).
  change (negb (String.eqb ("Attr" ++ "") "Attr")) with false in E. cbn [orb] in E.
  apply Bool.orb_true_iff in E as [E|E]; [apply Bool.orb_true_iff in E as [E|E]; apply String.eqb_eq in E; contradiction|].
  apply existsb_exists in E as ([g k] & Hg & E). apply andb_prop in E as [E1 E2].
  apply String.eqb_eq in E1, E2. subst g. exists k. auto.
Qed.

End Names.

(** Entries that meet the hypotheses: svg.TextElement, svg.ClipPathAttr, htmx.SwapOob,
    css.Important. *)
Example C59_example :
  In ("TextElement", KElement "text")%string (html_element_functions ++ svg_element_functions) /\
  named_after (B "TextElement") (B "text") /\
  In ("ClipPathAttr", KPlain "clip-path")%string (html_attribute_functions ++ svg_attribute_functions) /\
  In ("SwapOob", KPlain "hx-swap-oob")%string htmx_attribute_functions /\
  In ("AttrSwapOob", "hx-swap-oob")%string htmx_constants /\
  In ("Important", " !important")%string (css_constants ++ htmx_constants).
Proof.
  repeat split.
  - apply (in_table (fun e => String.eqb (fst e) "TextElement")). vm_compute. reflexivity.
  - right. exists (B "Text"). split; [left; reflexivity|vm_compute; reflexivity].
  - apply (in_table (fun e => String.eqb (fst e) "ClipPathAttr")). vm_compute. reflexivity.
  - apply (in_table (fun e => String.eqb (fst e) "SwapOob")). vm_compute. reflexivity.
  - apply (in_table (fun e => String.eqb (fst e) "AttrSwapOob")). vm_compute. reflexivity.
  - apply (in_table (fun e => String.eqb (fst e) "Important")). vm_compute. reflexivity.
Qed.
