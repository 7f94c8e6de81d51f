(** C58: components of the user's own. *)
From Verif Require Import Bytes Slices IO IOFacts Escape Nodes NodeInd Values Render Build SpecOut
  Strip Sharing SharingFacts SpecRun SpecErr SpecComponent PropErrors Demo PropGroups.

Section Component.
Context {W : UserWorld}.

(** On its own a component does what its node does, with any writer and context. *)
Lemma same_ret_bind {A B} (p : io U (A * B)) : same ('(r, e) <- p ;; Ret (r, e)) p.
Proof. intros E w. rewrite run_bind. destruct (run E p w) as [[r e] w']. reflexivity. Qed.
Lemma component_same n fr e : same (render (component n) fr e) (render n fr e).
Proof. apply same_ret_bind. Qed.

Lemma same_sym {A} (p q : io U A) : same p q -> same q p.
Proof. intros H E w. symmetry. apply H. Qed.
Lemma same_trans {A} (p q r : io U A) : same p q -> same q r -> same p r.
Proof. intros H K E w. rewrite H. apply K. Qed.

(** Nodes that can stand for each other in every place. *)
Definition good (n m : node U) : Prop :=
  (n = m \/ is_attr n = false /\ is_attr m = false) /\
  (forall c x, collect_attrs c n x = collect_attrs c m x) /\
  (forall fr e, same (render n fr e) (render m fr e)).
Lemma good_refl n : good n n.
Proof. split; [left; reflexivity|]. split; [reflexivity|]. intros; apply same_refl. Qed.
Lemma good_attr n m : good n m -> is_attr n = is_attr m.
Proof. intros [[->|[-> ->]] _]; reflexivity. Qed.

Lemma bare_collect n : bare n -> forall c x, collect_attrs c n x = ([], [], x).
Proof.
  induction n as [a|name attrs idx conds contents F|name attrs idx conds|vs|vs|name vs|vs|ns F|fn attrs ns F|f|p|fn ns F|fn ns F|pr ns F]
    using node_simple_ind; intros H c x; try reflexivity; try (destruct H; fail).
  cbn [collect_attrs]. change (fold_right (fun c Q => bare c /\ Q) True ns) in H.
  revert H x. induction F as [|n ns Hn F IH]; intros H x; [reflexivity|].
  destruct H as [H1 H2]. rewrite Hn by auto. rewrite (IH H2). reflexivity.
Qed.

Lemma good_non_attrs l l' : Forall2 good l l' -> Forall2 good (non_attrs l) (non_attrs l').
Proof.
  induction 1 as [|n m l l' H F IH]; [constructor|]. unfold non_attrs. cbn [filter].
  rewrite (good_attr _ _ H). destruct (is_attr m); cbn [negb]; [exact IH|]. constructor; auto.
Qed.
Lemma good_node_attrs l l' : Forall2 good l l' -> node_attrs l = node_attrs l'.
Proof.
  induction 1 as [|n m l l' H F IH]; [reflexivity|]. unfold node_attrs in *. cbn [flat_map]. rewrite IH. f_equal.
  destruct H as [[->|[H1 H2]] _]; [reflexivity|]. destruct n; try discriminate; destruct m; try discriminate; reflexivity.
Qed.
Lemma good_collect_all l l' : Forall2 good l l' -> forall c x, collect_all c l x = collect_all c l' x.
Proof.
  induction 1 as [|n m l l' H F IH]; intros c x; [reflexivity|]. cbn [collect_all].
  destruct H as (_ & H & _). rewrite H. destruct (collect_attrs c m x) as [[a1 c1] m1]. rewrite IH. reflexivity.
Qed.
(** The loops over children. *)
Lemma good_assign fr l l' : Forall2 good l l' -> forall e,
  same (each_assign (fun c e => render c fr e) l e) (each_assign (fun c e => render c fr e) l' e).
Proof.
  induction 1 as [|n m l l' H F IH]; intro e; [apply same_refl|].
  cbn [each_assign]. apply same_bind; [apply H|]. intros [x y]. apply IH.
Qed.
Lemma good_ignore fr l l' : Forall2 good l l' -> forall e,
  same (each_ignore (fun c e => render c fr e) l e) (each_ignore (fun c e => render c fr e) l' e).
Proof.
  induction 1 as [|n m l l' H F IH]; intro e; [apply same_refl|].
  cbn [each_ignore]. apply same_bind; [apply H|]. intros [x y]. apply IH.
Qed.
Lemma good_until fr l l' : Forall2 good l l' -> forall e,
  same (each_until (fun c e => render c fr e) l e) (each_until (fun c e => render c fr e) l' e).
Proof.
  induction 1 as [|n m l l' H F IH]; intro e; [apply same_refl|].
  cbn [each_until]. apply same_bind; [apply H|]. intros [[x|] y]; [apply same_refl|apply IH].
Qed.
Lemma good_item fr l l' : Forall2 good l l' -> forall e,
  same (each_item (fun c e => render c fr e) l e) (each_item (fun c e => render c fr e) l' e).
Proof.
  induction 1 as [|n m l l' H F IH]; intro e; [apply same_refl|].
  cbn [each_item]. apply same_bind; [apply H|]. intros [[x|] y]; [apply same_refl|apply IH].
Qed.
Lemma good_content fr l l' : Forall2 good l l' -> forall e,
  same (each_content_until (fun c e => render c fr e) l e) (each_content_until (fun c e => render c fr e) l' e).
Proof.
  induction 1 as [|n m l l' H F IH]; intro e; [apply same_refl|].
  cbn [each_content_until]. rewrite (good_attr _ _ H). destruct (is_attr m); [apply IH|].
  apply same_bind; [apply H|]. intros [[x|] y]; [apply same_refl|apply IH].
Qed.
Definition goodo (a b : option (node U)) : Prop :=
  match a, b with Some n, Some m => good n m | None, None => True | _, _ => False end.
Lemma good_opt fr l l' : Forall2 goodo l l' -> forall e,
  same (each_content_ignore (fun c e => render c fr e) l e) (each_content_ignore (fun c e => render c fr e) l' e).
Proof.
  induction 1 as [|n m l l' H F IH]; intro e; [apply same_refl|].
  destruct n as [n|], m as [m|]; try destruct H; cbn [each_content_ignore]; [|apply IH].
  destruct H0 as [H2 H3]. rewrite (good_attr n m) by (split; auto). destruct (is_attr m); [apply IH|].
  apply same_bind; [apply H3|]. intros [x y]. apply IH.
Qed.

Lemma good_element name l l' : Forall2 good l l' -> good (mk_element name l) (mk_element name l').
Proof.
  intro F. unfold mk_element, attributes_and_contents. rewrite (good_collect_all l l' F).
  destruct (collect_all nil_slice l' []) as [[a c] m]. destruct (add_attributes a) as [attrs idx].
  split; [right; split; reflexivity|]. split; [reflexivity|]. intros fr e. cbn [render].
  do 4 (apply same_bind; [apply same_refl|intro]).
  apply same_bind; [apply good_assign; apply (good_non_attrs l l' F)|]. intro. apply same_refl.
Qed.
Lemma good_void name l l' : Forall2 good l l' -> mk_void name l = mk_void name l'.
Proof.
  intro F. unfold mk_void, attributes_and_contents. rewrite (good_collect_all l l' F).
  destruct (collect_all nil_slice l' []) as [[a c] m]. reflexivity.
Qed.
Definition gooda (a b : arg U) : Prop :=
  a = b \/ exists n m, a = ANode n /\ b = ANode m /\ good n m.
Lemma good_contents l l' : Forall2 gooda l l' -> forall u,
  Forall2 good (fst (contents_to_nodes l u)) (fst (contents_to_nodes l' u)) /\
  snd (contents_to_nodes l u) = snd (contents_to_nodes l' u).
Proof.
  induction 1 as [|a b l l' H F IH]; intro u; [split; [constructor|reflexivity]|]. cbn [contents_to_nodes].
  assert (X : good (fst (content_to_node a u)) (fst (content_to_node b u)) /\ snd (content_to_node a u) = snd (content_to_node b u)).
  { destruct H as [->|(n & m & -> & -> & G)]; [split; [apply good_refl|reflexivity]|]. split; [exact G|reflexivity]. }
  destruct (content_to_node a u) as [n u1], (content_to_node b u) as [m u1']. cbn [fst snd] in X. destruct X as [X1 <-].
  specialize (IH u1). destruct (contents_to_nodes l u1) as [ns u2], (contents_to_nodes l' u1) as [ns' u2'].
  cbn [fst snd] in *. destruct IH as [I1 <-]. split; [constructor; auto|reflexivity].
Qed.
Lemma good_new name l l' u : Forall2 gooda l l' ->
  good (fst (NewElement name l u)) (fst (NewElement name l' u)) /\ snd (NewElement name l u) = snd (NewElement name l' u).
Proof.
  intro F. destruct (good_contents l l' F u) as [G1 G2]. unfold NewElement.
  destruct (contents_to_nodes l u) as [ns u1], (contents_to_nodes l' u) as [ns' u1']. cbn [fst snd] in *.
  split; [apply good_element; exact G1|exact G2].
Qed.
Lemma goodo_somes l l' : Forall2 goodo l l' -> Forall2 good (somes l) (somes l').
Proof.
  induction 1 as [|n m l l' H F IH]; [constructor|].
  destruct n as [n|], m as [m|]; try destruct H; cbn [somes]; [|exact IH]. constructor; auto. split; auto.
Qed.
Lemma goodo_all_some l l' : Forall2 goodo l l' ->
  match all_some l, all_some l' with Some a, Some b => Forall2 good a b | None, None => True | _, _ => False end.
Proof.
  induction 1 as [|n m l l' H F IH]; [constructor|].
  destruct n as [n|], m as [m|]; try (destruct H; fail); cbn [all_some]; [|exact I].
  destruct (all_some l), (all_some l'); auto.
Qed.
Lemma good_conditional f a b : Forall2 good a b ->
  good (NConditional f (node_attrs a) (non_attrs a)) (NConditional f (node_attrs b) (non_attrs b)).
Proof.
  intro F. split; [right; split; reflexivity|]. split.
  - intros c x. rewrite !collect_cond, (good_node_attrs a b F). destruct (append1 x c f) as [m1 nc].
    rewrite (good_collect_all _ _ (good_non_attrs a b F)). reflexivity.
  - intros fr e. cbn [render]. apply same_cb. intro u. destruct (f (view fr e) u) as [[] u']; split; try reflexivity.
    + apply good_until. apply good_non_attrs, F.
    + apply same_refl.
Qed.
Lemma good_collection a b : Forall2 good a b -> good (NCollection a) (NCollection b).
Proof.
  intro F. split; [right; split; reflexivity|]. split.
  - intros c x. rewrite !collect_coll. apply (good_collect_all a b F).
  - intros fr e. cbn [render]. apply good_content, F.
Qed.
Lemma good_cond_node fn l l' n m : Forall2 goodo l l' ->
  Conditional fn l = Done n -> Conditional fn l' = Done m -> good n m.
Proof.
  intros F. unfold Conditional. destruct fn as [f|].
  - pose proof (goodo_all_some l l' F) as X. destruct (all_some l), (all_some l'); try discriminate.
    intros H1 H2. injection H1 as <-. injection H2 as <-. apply good_conditional, X.
  - intros H1 H2. injection H1 as <-. injection H2 as <-. apply good_collection, goodo_somes, F.
Qed.
Lemma good_iter_node f a b : Forall2 good a b -> good (NIter f (non_attrs a)) (NIter f (non_attrs b)).
Proof.
  intro F. split; [right; split; reflexivity|]. split; [reflexivity|]. intros fr e. cbn [render].
  destruct e as [e|]; [apply same_refl|]. apply same_cb. intro u.
  destruct (f (view fr None) u) as [items u']. split; [|reflexivity].
  apply same_iter. intros ifr e. apply good_item, good_non_attrs, F.
Qed.
Lemma good_yield_node f a b : Forall2 good a b -> good (NYield f (non_attrs a)) (NYield f (non_attrs b)).
Proof.
  intro F. split; [right; split; reflexivity|]. split; [reflexivity|]. intros fr e. cbn [render].
  destruct e as [e|]; [apply same_refl|]. apply same_yield. intros ifr e. apply good_item, good_non_attrs, F.
Qed.
Lemma good_document lang head head' body body' u : Forall2 gooda head head' -> Forall2 gooda body body' ->
  good (fst (Document lang head body u)) (fst (Document lang head' body' u)).
Proof.
  intros Fh Fb. unfold Document.
  destruct (match lang with AData GNil => (AData GNil, u) | _ => let '(n, u') := NewAttribute (B "lang") [lang] u in (ANode n, u') end) as [la u1].
  assert (X : gooda (fst (match head with [] => (AData GNil, u1) | _ => let '(n, u') := NewElement (B "head") head u1 in (ANode n, u') end))
                    (fst (match head' with [] => (AData GNil, u1) | _ => let '(n, u') := NewElement (B "head") head' u1 in (ANode n, u') end)) /\
              snd (match head with [] => (AData GNil, u1) | _ => let '(n, u') := NewElement (B "head") head u1 in (ANode n, u') end) =
              snd (match head' with [] => (AData GNil, u1) | _ => let '(n, u') := NewElement (B "head") head' u1 in (ANode n, u') end)).
  { inversion Fh as [|a b l l' H F]; subst; [split; [left; reflexivity|reflexivity]|].
    destruct (good_new (B "head") (a :: l) (b :: l') u1 Fh) as [G1 G2].
    destruct (NewElement (B "head") (a :: l) u1) as [n u2], (NewElement (B "head") (b :: l') u1) as [m u2']. cbn [fst snd] in *.
    split; [right; exists n, m; auto|exact G2]. }
  destruct (match head with [] => _ | _ => _ end) as [h u2], (match head' with [] => _ | _ => _ end) as [h' u2'].
  cbn [fst snd] in X. destruct X as [X1 <-].
  destruct (good_new (B "body") body body' u2 Fb) as [G1 G2].
  destruct (NewElement (B "body") body u2) as [bn u3], (NewElement (B "body") body' u2) as [bm u3']. cbn [fst snd] in *. subst u3'.
  destruct (DocType u3) as [pr u4].
  destruct (good_new (B "html") [la; h; ANode bn] [la; h'; ANode bm] u4) as [G3 G4].
  { constructor; [left; reflexivity|]. constructor; [exact X1|]. constructor; [right; exists bn, bm; auto|constructor]. }
  destruct (NewElement (B "html") [la; h; ANode bn] u4) as [hn u5], (NewElement (B "html") [la; h'; ANode bm] u4) as [hm u5']. cbn [fst snd] in *.
  split; [right; split; reflexivity|]. split; [reflexivity|]. intros fr e. cbn [render].
  apply same_bind; [apply same_refl|]. intro. apply same_bind; [|intro; apply same_refl].
  apply good_ignore. constructor; [exact G3|constructor].
Qed.

Lemma swap_good :
  (forall n m, swap n m -> good n m) /\
  (forall l l', swaps l l' -> Forall2 gooda l l') /\
  (forall l l', swapo l l' -> Forall2 goodo l l') /\
  (forall p q, swapp p q -> forall fr st e, same (run_imper p fr st e) (run_imper q fr st e)).
Proof.
  apply swap_mutind.
  - apply good_refl.
  - intros n m Bn _ (G1 & G2 & G3). split; [right; split; [|reflexivity]|split].
    + destruct n; try reflexivity. destruct Bn.
    + intros c x. rewrite (bare_collect n Bn). reflexivity.
    + intros fr e. apply (same_trans _ (render m fr e)); [apply G3|]. apply same_sym, component_same.
  - intros name l l' u _ F. apply good_new, F.
  - intros name l l' u _ F. destruct (good_contents l l' F u) as [G1 G2]. unfold NewVoidElement.
    destruct (contents_to_nodes l u) as [ns u1], (contents_to_nodes l' u) as [ns' u1']. cbn [fst snd] in *.
    rewrite (good_void name ns ns' G1). apply good_refl.
  - intros l l' _ F. apply good_collection, goodo_somes, F.
  - intros fn l l' n m _ F. apply good_cond_node, F.
  - intros key l l' n m _ F. unfold When. destruct (has_prefix _ key); apply good_cond_node, F.
  - intros f f' Hs _ F. split; [right; split; reflexivity|]. split; [reflexivity|]. intros fr e.
    unfold ContentCollect. cbn [render]. apply same_cb. intro u. specialize (F (view fr e) u). specialize (Hs (view fr e) u).
    destruct (f (view fr e) u) as [ns u1], (f' (view fr e) u) as [ns' u1']. cbn [fst snd] in *. split; [|exact Hs].
    apply same_bind; [apply good_opt, F|]. intro. apply same_refl.
  - intros fn l l' n m _ F. unfold Iterate. destruct fn as [f|]; [|discriminate].
    pose proof (goodo_all_some l l' F) as X. destruct (all_some l), (all_some l'); try discriminate.
    intros H1 H2. injection H1 as <-. injection H2 as <-. apply good_iter_node, X.
  - intros key l l' n m _ F. unfold IterateKey.
    pose proof (goodo_all_some l l' F) as X. destruct (all_some l), (all_some l'); try discriminate.
    intros H1 H2. injection H1 as <-. injection H2 as <-. apply good_iter_node, X.
  - intros fn l l' n m _ F. unfold IterateYield. destruct fn as [f|]; [|discriminate].
    pose proof (goodo_all_some l l' F) as X. destruct (all_some l), (all_some l'); try discriminate.
    intros H1 H2. injection H1 as <-. injection H2 as <-. apply good_yield_node, X.
  - intros lang head head' body body' u _ Fh _ Fb. apply good_document; auto.
  - intros p p' _ H. split; [right; split; reflexivity|]. split; [reflexivity|]. intros fr e. apply H.
  - constructor.
  - intros n m l l' _ G _ F. constructor; auto. right. exists n, m. auto.
  - intros a l l' _ F. constructor; auto. left. reflexivity.
  - constructor.
  - intros n m l l' _ G _ F. constructor; auto.
  - intros l l' _ F. constructor; auto. exact I.
  - intros; apply same_refl.
  - intros k k' Hs _ H fr st e. cbn [run_imper]. apply same_cb. intro u.
    specialize (H (view fr e) u fr st e). specialize (Hs (view fr e) u).
    destruct (k (view fr e) u) as [p1 u1], (k' (view fr e) u) as [p2 u2]. split; auto.
  - intros s k k' _ H fr st e. cbn [run_imper]. apply same_bind; [apply same_refl|intro; apply H].
  - intros s k k' _ H fr st e. cbn [run_imper]. apply same_bind; [apply same_refl|intro; apply H].
  - intros l l' k k' _ F _ H fr st e. cbn [run_imper]. apply same_bind; [apply good_opt, F|intro; apply H].
  - intros name v attrs k k' _ H fr st e. cbn [run_imper]. apply same_bind; [apply same_refl|intro; apply H].
  - intros k k' _ H fr st e. cbn [run_imper]. destruct st; [apply H|]. apply same_bind; [apply same_refl|intro; apply H].
  - intros k k' _ H fr st e. cbn [run_imper]. apply same_bind; [apply same_refl|intro; apply H].
  - intros n m inner k k' _ (_ & _ & G) _ H fr st e. destruct inner as [fr'|].
    + change (same ('(r, x) <- render n fr' None ;; run_imper (k r x) fr st e) ('(r, x) <- render m fr' None ;; run_imper (k' r x) fr st e)).
      apply same_bind; [apply G|]. intros [r x]. apply H.
    + change (same ('(r, x) <- render n fr e ;; run_imper (k r x) fr st x) ('(r, x) <- render m fr e ;; run_imper (k' r x) fr st x)).
      apply same_bind; [apply G|]. intros [r x]. apply H.
  - intros d k k' _ H fr st e E w. cbn [run_imper run]. destruct (e_wr E (w_log w) d) as [m x]. apply H.
  - intros x k k' _ H fr st e. apply H.
Qed.

(** C58.  Wrapping contents in components changes nothing: for every writer,
    context and state, the same calls are made, and the same errors returned.
    Missing: attributes, conditionals, and collections that contain such; for
    them it is false (C58_refuted). *)
Theorem C58_components_partial E n m fr err s :
  swap n m -> outcome_of E m fr err s = outcome_of E n fr err s.
Proof.
  intro H. unfold outcome_of. destruct (proj1 swap_good n m H) as (_ & _ & G). rewrite G. reflexivity.
Qed.
(** The component on its own, for every node. *)
Theorem C58_alone E n fr err s : outcome_of E (component n) fr err s = outcome_of E n fr err s.
Proof. unfold outcome_of. rewrite component_same. reflexivity. Qed.

End Component.

(** A text wrapped in a collection in a paragraph in a division. *)
Example C58_example :
  let text := fst (Text [str (B "x")] (st 0)) in
  let page n := fst (NewElement (B "div")
    [ANode (fst (NewElement (B "p") [ANode (Collection [Some (NAttr (plain "id" "1")); Some n])] (st 0)))] (st 0)) in
  swap (page text) (page (component text)) /\
  fst (SpecRun.page listed (page (component text)) fr0 (st 0, 0)) = B "<div><p id=""1"">x</p></div>".
Proof.
  split; [|vm_compute; reflexivity].
  apply sw_element. apply ss_node; [|constructor]. apply sw_element. apply ss_node; [|constructor].
  apply sw_collection. apply so_node; [apply sw_same|]. apply so_node; [|constructor].
  apply sw_wrap; [exact I|apply sw_same].
Qed.

(** C58 as stated is false: the attribute in a collection reaches the element
    only if the collection is there itself. *)
Theorem C58_refuted : exists (n m : node (@U demo)) (s : @U demo * nat),
  n = fst (NewElement (B "p") [ANode (Collection [Some (NAttr (plain "id" "1"))])] (fst s)) /\
  m = fst (NewElement (B "p") [ANode (component (Collection [Some (NAttr (plain "id" "1"))]))] (fst s)) /\
  fst (page listed n fr0 s) = B "<p id=""1""></p>" /\ fst (page listed m fr0 s) = B "<p></p>".
Proof. eexists _, _, (st 0, 0). split; [reflexivity|]. split; [reflexivity|]. split; vm_compute; reflexivity. Qed.
