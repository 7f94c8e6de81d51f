(** What every program has: nodes whose attributes exist and whose attribute
    tables list each attribute once. *)
From Coq Require Import ZArith Lia.
From Verif Require Import Bytes IO IOFacts Nodes NodeInd Values Render Slices Build SpecOut RenderFacts AttrFacts ApiFacts
  Sharing SharingFacts LinearFacts PropSharing Programs.
Local Open Scope nat_scope.

Section Facts.
Context {W : UserWorld}.
Notation names := (map (@attr_name U)).

Lemma read_is_attr (h : heap) n : is_attr (read h n) = is_sattr n.
Proof. destruct n as [| [] | | | | | | |]; reflexivity. Qed.

(** Tables depend on names only. *)
Lemma table_names a1 a2 idx : names a1 = names a2 -> table_ok a1 idx -> table_ok a2 idx.
Proof.
  intros E [H1 H2]. split; [|rewrite <- E; exact H2]. rewrite H1, E. f_equal. f_equal.
  pose proof (f_equal (@length _) E) as L. rewrite !map_length in L. auto.
Qed.
Definition same_names (h h' : heap) (ls : list loc) : Prop := forall l, In l ls -> attr_name (deref h' l) = attr_name (deref h l).
Lemma names_deref h h' ls : same_names h h' ls -> names (map (deref h) ls) = names (map (deref h') ls).
Proof. intro H. rewrite !map_map. apply map_ext_in. intros l Hl. symmetry. apply H, Hl. Qed.
Lemma tables_read (h h' : heap) : forall n, same_names h h' (refs n) -> tables_ok (read h n) -> tables_ok (read h' n).
Proof.
  assert (G : forall ns, Forall (fun n => same_names h h' (refs n) -> tables_ok (read h n) -> tables_ok (read h' n)) ns ->
    same_names h h' (flat_map refs ns) -> all tables_ok (map (read h) ns) -> all tables_ok (map (read h') ns)).
  { intros ns F N T. rewrite all_In in *. intros x Hx. apply in_map_iff in Hx. destruct Hx as (n & <- & Hn).
    rewrite Forall_forall in F. apply F; [exact Hn| |apply T, in_map, Hn]. intros l Hl. apply N, in_flat_map. eauto. }
  assert (A : forall l1 l2 : list loc, same_names h h' (l1 ++ l2) -> same_names h h' l1 /\ same_names h h' l2).
  { intros l1 l2 N. split; intros l Hl; apply N, in_or_app; auto. }
  induction n using snode_ind'; cbn [refs read tables_ok]; intros N T; auto.
  - apply G; auto. apply (A _ _ N).
  - destruct (A _ _ N) as [N1 N2]. destruct (A _ _ N2) as [_ N3]. destruct T as [T1 T2]. split; [|apply G; auto].
    eapply table_names; [apply names_deref, N1|exact T1].
  - destruct (A _ _ N) as [N1 _]. eapply table_names; [apply names_deref, N1|exact T].
  - destruct T as [T1 T2]. split; [exact T1|apply G; auto].
Qed.

(** addAttributes makes such a table. *)
Lemma combine_snoc {A D} (l : list A) (m : list D) x y : length l = length m -> combine (l ++ [x]) (m ++ [y]) = combine l m ++ [(x, y)].
Proof. revert m; induction l as [|a l IH]; intros [|b m] L; cbn in *; try discriminate; [reflexivity|]. f_equal. auto. Qed.
Lemma set_nth_same {A} (l : list A) i x : nth_error l i = Some x -> set_nth l i x = l.
Proof. revert i; induction l as [|y l IH]; intros [|i] H; cbn [nth_error set_nth] in *; try discriminate; [congruence|]. f_equal. auto. Qed.
Lemma sadd_table h atts idx l : table_ok (map (deref h) atts) idx ->
  let '(h', atts', idx') := sadd (h, atts, idx) l in
  table_ok (map (deref h') atts') idx' /\ (forall x, attr_name (deref h' x) = attr_name (deref h x)).
Proof.
  intro T. pose proof T as [Ei ND].
  assert (Len : length (names (map (deref h) atts)) = length (map (deref h) atts)) by apply map_length.
  assert (F : fits h atts idx /\ in_range atts idx).
  { rewrite Ei. rewrite <- Len. split.
    - intros nm i e Hi He. apply idx_get_bound in Hi. destruct Hi as [_ Hi]. rewrite Nat.sub_0_r, map_map, nth_error_map in Hi.
      unfold loc in *. rewrite He in Hi. cbn in Hi. congruence.
    - intros nm i Hi. apply idx_get_bound in Hi. destruct Hi as [[_ Hi] _]. cbn [Nat.add] in Hi. rewrite !map_length in Hi. exact Hi. }
  destruct F as [F R]. pose proof (sadd_step h atts idx l F R) as S.
  unfold sadd in *. destruct (idx_get idx (attr_name (deref h l))) as [i|] eqn:E.
  - destruct (nth_error atts i) as [e|] eqn:Ee; [|auto].
    pose proof (F _ _ _ E Ee) as N.
    assert (K : table_ok (map (deref h) (set_nth atts i l)) idx).
    { eapply table_names; [|exact T]. rewrite map_set_nth. symmetry. eapply set_nth_names; [rewrite nth_error_map, Ee; reflexivity|congruence]. }
    destruct (deref h e) as [n1 v1|n1|n d vs] eqn:De; auto.
    destruct (deref h l) as [n2 v2|n2|n2 d2 vs2] eqn:Dl; auto.
    destruct S as (_ & _ & _ & S & _). split; [|intro x; apply S].
    eapply table_names; [|exact T]. apply names_deref. intros x _. apply S.
  - split; [|auto]. split.
    + rewrite !map_app, !app_length, map_length. cbn [map length]. rewrite seq_app. cbn [seq Nat.add].
      rewrite Ei at 1. rewrite combine_snoc by (rewrite !map_length, seq_length; reflexivity). rewrite map_length. reflexivity.
    + rewrite !map_app. cbn [map]. apply NoDup_app_iff_local; [exact ND|repeat constructor; auto|].
      intros x Hx [<-|[]]. revert Hx. apply (idx_get_none _ 0). rewrite Len, <- Ei. exact E.
Qed.
Lemma sadds_table ds : forall h atts idx, table_ok (map (deref h) atts) idx ->
  let '(h', atts', idx') := fold_left sadd ds (h, atts, idx) in
  table_ok (map (deref h') atts') idx' /\ (forall x, attr_name (deref h' x) = attr_name (deref h x)).
Proof.
  induction ds as [|d ds IH]; intros h atts idx T; cbn [fold_left]; [auto|].
  pose proof (sadd_table h atts idx d T) as S. destruct (sadd (h, atts, idx) d) as [[h1 a1] i1]. destruct S as [T1 N1].
  specialize (IH h1 a1 i1 T1). destruct (fold_left sadd ds (h1, a1, i1)) as [[h2 a2] i2]. destruct IH as [T2 N2].
  split; [exact T2|]. intro x. rewrite N2. apply N1.
Qed.

(** ** Sound nodes *)
Definition sound (h : heap) (n : snode) : Prop := tables_ok (read h n) /\ forall l, In l (refs n) -> l < length h.
Definition sound_opt (h : heap) (n : option snode) : Prop := match n with Some n => sound h n | None => True end.

Lemma sound_more h x n : sound h n -> sound (h ++ x) n.
Proof.
  intros [T L]. assert (N : forall l, l < length h -> deref (h ++ x) l = deref h l) by (intros l Hl; unfold deref; apply app_nth1, Hl).
  split.
  - eapply tables_read; [|exact T]. intros l Hl. rewrite N; auto.
  - intros l Hl. rewrite app_length. specialize (L l Hl). lia.
Qed.
Lemma build_sound void name l h : Forall (sound h) l ->
  let '(h', n) := build void name l h in sound h' n /\ forall m, sound h m -> sound h' m.
Proof.
  intro F. pose proof (build_refs void name l h) as BR. pose proof (build_length void name l h) as BL.
  assert (X : let '(h', n) := build void name l h in
    (forall x, attr_name (deref h' x) = attr_name (deref h x)) /\ (all tables_ok (map (read h') (others_of l)) -> tables_ok (read h' n))).
  { unfold build. destruct (scollect_all nil_slice l []) as [[ds cs] m].
    pose proof (sadds_table ds h [] [] ltac:(split; [reflexivity|constructor])) as S.
    destruct (fold_left sadd ds (h, [], [])) as [[h' atts] idx]. destruct S as [T N]. split; [exact N|].
    destruct void; cbn [read tables_ok]; auto. }
  destruct (build void name l h) as [h' n]. cbn [fst snd] in *. destruct X as [N T].
  assert (M : forall m, sound h m -> sound h' m).
  { intros m [T1 L1]. split; [eapply tables_read; [|exact T1]; intros x _; apply N|]. rewrite BL. exact L1. }
  split; [|exact M]. rewrite Forall_forall in F. split.
  - apply T. apply all_In. intros x Hx. apply in_map_iff in Hx. destruct Hx as (y & <- & Hy). apply filter_In in Hy. apply M, F, Hy.
  - intros x Hx. rewrite BL. apply BR, in_flat_map in Hx. destruct Hx as (y & Hy & Hl). apply (F y Hy), Hl.
Qed.

Lemma sound_nodes h ns : (forall i n, node_at ns i = Some n -> sound h n) -> forall is, Forall (sound_opt h) (map (node_at ns) is).
Proof.
  intros H is. apply Forall_forall. intros x Hx. apply in_map_iff in Hx. destruct Hx as (i & <- & _).
  destruct (node_at ns i) eqn:E; [exact (H i _ E)|exact I].
Qed.
Lemma sound_somes h l : Forall (sound_opt h) l -> Forall (sound h) (somes l).
Proof. intro F. rewrite Forall_forall in *. intros x Hx. apply somes_in in Hx. exact (F _ Hx). Qed.
Lemma sound_all h l r : Forall (sound_opt h) l -> all_some l = Some r -> Forall (sound h) r.
Proof. intros F E. apply all_some_in in E. subst. rewrite Forall_forall in *. intros x Hx. exact (F (Some x) (in_map _ _ _ Hx)). Qed.
Lemma sound_list h l : Forall (sound h) l -> all tables_ok (map (read h) l) /\ forall x, In x (flat_map refs l) -> x < length h.
Proof.
  intro F. rewrite Forall_forall in F. split.
  - apply all_In. intros x Hx. apply in_map_iff in Hx. destruct Hx as (y & <- & Hy). apply F, Hy.
  - intros x Hx. apply in_flat_map in Hx. destruct Hx as (y & Hy & Hl). apply (F y Hy), Hl.
Qed.
Lemma sound_others h l : Forall (sound h) l -> Forall (sound h) (others_of l).
Proof. intro F. rewrite Forall_forall in *. intros x Hx. apply filter_In in Hx. apply F, Hx. Qed.
Lemma sattrs_refs l x : In x (sattrs_of l) -> In x (flat_map refs l).
Proof.
  unfold sattrs_of. intro H. apply in_flat_map in H. destruct H as (y & Hy & Hx). apply in_flat_map. exists y. split; [exact Hy|].
  destruct y; try destruct Hx; subst; [left; reflexivity|contradiction].
Qed.
Lemma sound_group h l mk r : Forall (sound_opt h) l -> (forall l, Forall (sound h) l -> sound h (mk l)) -> kall l mk = Done r -> sound h r.
Proof. unfold kall. intros F K. destruct (all_some l) as [l'|] eqn:E; [|discriminate]. intro X. injection X as <-. apply K. eapply sound_all; eauto. Qed.

Lemma contents_sound h ns vals : (forall i n, node_at ns i = Some n -> sound h n) ->
  forall xs u, Forall (sound h) (fst (item_contents h ns vals xs u)).
Proof.
  intro H. assert (SL : forall vs, sound h (SLeaf (LText vs))) by (intro vs; split; [exact I|intros l []]).
  assert (C : forall x u, sound h (fst (item_content h ns vals x u))).
  { intros x u. destruct x as [i| | | |]; cbn [item_content].
    - destruct (node_at ns i) as [n|] eqn:E; [exact (H _ _ E)|]. destruct (new_values _ u). apply SL.
    - destruct (new_values _ u). apply SL.
    - destruct (new_values _ u). apply SL.
    - destruct (new_values _ u). apply SL.
    - destruct (new_values _ u). apply SL. }
  induction xs as [|x xs IH]; intro u; cbn [item_contents]; [constructor|].
  specialize (C x u). destruct (item_content h ns vals x u) as [n u1]. specialize (IH u1). destruct (item_contents h ns vals xs u1) as [l u2].
  cbn [fst] in *. constructor; auto.
Qed.

Lemma contents_any h h' ns vals xs : (forall i n, node_at ns i = Some n -> sound h n) -> (forall m, sound h m -> sound h' m) ->
  forall u, Forall (sound h') (fst (item_contents h' ns vals xs u)).
Proof. intros H K u. apply contents_sound. eauto. Qed.
Lemma kdocument_sound h ns vals lang head body u : (forall i n, node_at ns i = Some n -> sound h n) ->
  let '((h', n), _) := kdocument h ns vals lang head body u in sound h' n /\ forall m, sound h m -> sound h' m.
Proof.
  intro H. unfold kdocument.
  assert (S1 : let '(h1, langAtt, u1) := match item_arg h ns vals lang with
      | AData GNil => (h, None, u)
      | a => let '(vs, u') := new_values [a] u in (h ++ [APlain (B "lang") vs], Some (SAttr (length h)), u') end in
    sound_opt h1 langAtt /\ forall m, sound h m -> sound h1 m).
  { assert (A : forall a, let '(h1, langAtt, u1) := (let '(vs, u') := new_values [a] u in (h ++ [APlain (B "lang") vs], Some (SAttr (length h)), u')) in
      sound_opt h1 langAtt /\ forall m, sound h m -> sound h1 m).
    { intro a. destruct (new_values [a] u) as [vs u']. cbn [sound_opt]. split; [|intro m; apply sound_more]. split; [exact I|].
      cbn [refs]. intros l [<-|[]]. rewrite app_length. cbn [length]. lia. }
    destruct (item_arg h ns vals lang) as [n|v|f|k|[]]; try apply A. cbn [sound_opt]. auto. }
  destruct (match item_arg h ns vals lang with AData GNil => _ | _ => _ end) as [[h1 la] u1]. destruct S1 as [A1 M1].
  assert (S2 : let '(h2, headNode, u2) := match head with
      | [] => (h1, None, u1)
      | _ => let '(l, u') := item_contents h1 ns vals head u1 in let '(h', n) := build false (B "head") l h1 in (h', Some n, u') end in
    sound_opt h2 headNode /\ forall m, sound h1 m -> sound h2 m).
  { destruct head as [|x head]; [cbn [sound_opt]; auto|]. pose proof (contents_any h h1 ns vals (x :: head) H M1 u1) as F.
    destruct (item_contents h1 ns vals (x :: head) u1) as [l u']. pose proof (build_sound false (B "head") l h1 F) as S.
    destruct (build false (B "head") l h1) as [h2 n]. exact S. }
  destruct (match head with [] => _ | _ => _ end) as [[h2 hd] u2]. destruct S2 as [A2 M2].
  pose proof (contents_any h h2 ns vals body H (fun m X => M2 m (M1 m X)) u2) as F3.
  destruct (item_contents h2 ns vals body u2) as [l3 u3]. pose proof (build_sound false (B "body") l3 h2 F3) as S3.
  destruct (build false (B "body") l3 h2) as [h3 bd]. destruct S3 as [A3 M3]. destruct (new_values _ u3) as [vs u4].
  assert (F4 : Forall (sound h3) (fst (item_contents h3 [la; hd; Some bd] [] [INode 0; INode 1; INode 2] u4))).
  { apply contents_sound. intros i n. unfold node_at. destruct i as [|[|[|i]]]; cbn [nth]; intro E.
    - subst la. auto.
    - subst hd. auto.
    - injection E as <-. exact A3.
    - destruct i; discriminate. }
  destruct (item_contents h3 [la; hd; Some bd] [] [INode 0; INode 1; INode 2] u4) as [l4 u5].
  pose proof (build_sound false (B "html") l4 h3 F4) as S4. destruct (build false (B "html") l4 h3) as [h4 n]. destruct S4 as [[T4 L4] M4].
  split; [|auto]. split; [|cbn [refs flat_map]; rewrite app_nil_r; exact L4]. split; [exact I|]. split; [exact T4|exact I].
Qed.

(** The attribute of a css property. *)
Definition styled (property : bytes) (vs : list (value U)) : attr U := ADelim (B "style") (B "; ") [Val [] None (Val property None [] :: vs)].
Lemma kstyle_eq h property args u :
  kstyle h property args u = let '(vs, u') := new_values args u in ((h ++ [styled property vs], SAttr (length h)), u').
Proof. unfold kstyle, NewConcatValue. cbn [new_values new_value value_to_bytes]. destruct (new_values args u). reflexivity. Qed.

(** The nodes that user code builds for itself are sound in the sense of SpecOut.v. *)
Definition call_ok (c : kcall) : Prop :=
  match c with
  | KContentCollect (Some f) => tables_ok (NCollect f)
  | KImperative (Some p) => tables_ok (NImper (Some p))
  | _ => True
  end.

Lemma kmake_sound p c h ns vals u h' n u' : call_ok c -> (forall i n, node_at ns i = Some n -> sound h n) ->
  kmake p c h ns vals u = Done ((h', n), u') -> sound_opt h' n /\ forall m, sound h m -> sound h' m.
Proof.
  intros OK H. pose proof (sound_nodes h ns H) as HM.
  assert (Leaf : forall (k : list (value U) -> leaf) xs, (forall vs, sound h (SLeaf (k vs))) ->
    kalways (fun u => let '(vs, u') := new_values (map (item_arg h ns vals) xs) u in ((h, SLeaf (k vs)), u')) u = Done ((h', n), u') ->
    sound_opt h' n /\ forall m, sound h m -> sound h' m).
  { intros k xs K. unfold kalways. destruct (new_values _ u) as [vs u1]. intro X. injection X as <- <- _. split; [apply K|auto]. }
  assert (Att : forall (k : list (value U) -> attr U) vs, sound (h ++ [k vs]) (SAttr (length h)) /\ forall m, sound h m -> sound (h ++ [k vs]) m).
  { intros k vs. split; [|intro m; apply sound_more]. split; [exact I|]. cbn [refs]. intros l [<-|[]]. rewrite app_length. cbn [length]. lia. }
  assert (AttA : forall (k : list (value U) -> attr U) xs,
    kalways (fun u => let '(vs, u') := new_values (map (item_arg h ns vals) xs) u in ((h ++ [k vs], SAttr (length h)), u')) u = Done ((h', n), u') ->
    sound_opt h' n /\ forall m, sound h m -> sound h' m).
  { intros k xs. unfold kalways. destruct (new_values _ u) as [vs u1]. intro X. injection X as <- <- _. apply Att. }
  assert (Chk : forall name (mk : U -> (heap * snode) * U), (kalways mk u = Done ((h', n), u') -> sound_opt h' n /\ forall m, sound h m -> sound h' m) ->
    kchecked p name h mk u = Done ((h', n), u') -> sound_opt h' n /\ forall m, sound h m -> sound h' m).
  { intros name mk K. unfold kchecked. destruct (valid_name name); [exact K|]. destruct p; [discriminate|]. intro X. injection X as <- <- _. split; [exact I|auto]. }
  assert (El : forall void name xs,
    kalways (fun u => let '(l, u') := item_contents h ns vals xs u in (build void name l h, u')) u = Done ((h', n), u') ->
    sound_opt h' n /\ forall m, sound h m -> sound h' m).
  { intros void name xs. unfold kalways. pose proof (contents_sound h ns vals H xs u) as F. destruct (item_contents h ns vals xs u) as [l u1].
    pose proof (build_sound void name l h F) as S. destruct (build void name l h) as [h1 n1]. intro X. injection X as <- <- _. exact S. }
  assert (Gr : forall r, (forall n, r = Done n -> sound h n) -> kgroup h r u = Done ((h', n), u') -> sound_opt h' n /\ forall m, sound h m -> sound h' m).
  { intros r K. unfold kgroup. destruct r as [n1|]; [|discriminate]. intro X. injection X as <- <- _. split; [apply K; reflexivity|auto]. }
  assert (Gc : forall f is n, kcond f (map (node_at ns) is) = Done n -> sound h n).
  { intros f is n1. apply sound_group; [apply HM|]. intros l F. split.
    - cbn [read tables_ok]. apply sound_list, sound_others, F.
    - cbn [refs]. intros x Hx. apply in_app_or in Hx. destruct Hx as [Hx|Hx]; [apply sattrs_refs in Hx; eapply sound_list; eauto|].
      eapply sound_list; [apply sound_others, F|exact Hx]. }
  assert (Go : forall (mk : list snode -> snode) is n,
     (forall l, refs (mk l) = flat_map refs l /\ tables_ok (read h (mk l)) = all tables_ok (map (read h) l)) ->
     kall (map (node_at ns) is) (fun l => mk (others_of l)) = Done n -> sound h n).
  { intros mk is n1 K. apply sound_group; [apply HM|]. intros l F. apply sound_others in F. destruct (sound_list _ _ F) as [F1 F2].
    destruct (K (others_of l)) as [K1 K2]. split; [rewrite K2; exact F1|rewrite K1; exact F2]. }
  assert (Gcoll : forall is, sound h (SCollection (somes (map (node_at ns) is)))).
  { intro is. pose proof (sound_somes _ _ (HM is)) as F. destruct (sound_list _ _ F) as [F1 F2]. split; [exact F1|exact F2]. }
  destruct c; cbn [kmake]; try (apply Leaf; intro vs; split; [exact I|intros l []]); try (apply Chk); try apply AttA; try apply El.
  - apply Gr. intros m X. injection X as <-. apply Gcoll.
  - destruct f as [f|]; apply Gr; [apply Gc|]. intros m X. injection X as <-. apply Gcoll.
  - apply Gr. destruct (has_prefix _ _); apply Gc.
  - destruct f as [f|]; [|discriminate]. apply Gr. intro m. apply (Go (SIter f)). auto.
  - apply Gr. intro m. apply (Go (SIter (key_items key))). auto.
  - destruct p0 as [f|]; [|discriminate]. apply Gr. intro m. apply (Go (SYield f)). auto.
  - destruct f as [f|]; apply Gr; intros m X; injection X as <-; (split; [|intros l []]); [exact OK|exact I].
  - apply Gr. intros m X. injection X as <-. split; [|intros l []]. destruct p0; [exact OK|exact I].
  - unfold kalways. pose proof (kdocument_sound h ns vals lang head body u H) as S. destruct (kdocument h ns vals lang head body u) as [[h1 n1] u1].
    intro X. injection X as <- <- _. exact S.
  - unfold kalways. rewrite kstyle_eq. destruct (new_values _ u) as [vs u1]. intro X. injection X as <- <- _. apply (Att (styled property)).
Qed.

Definition cmd_ok (c : cmd) : Prop := match c with Make c => call_ok c | _ => True end.
Definition sound_state (s : kstate) : Prop := forall i n, node_at (k_nodes s) i = Some n -> sound (k_heap s) n.
Lemma kcmd_sound p E c s w s' w' : cmd_ok c -> sound_state s -> kcmd p E c s w = Done (s', w') -> sound_state s'.
Proof.
  intros OK H. destruct s as [h ns vals out]. unfold sound_state in *. cbn [k_nodes k_heap] in *. destruct c as [c|x|xs|i fr e]; cbn [kcmd].
  - destruct (kmake p c h ns vals (w_u w)) as [[[h' n] u']|] eqn:K; [|discriminate]. intro X. injection X as <- _.
    destruct (kmake_sound _ _ _ _ _ _ _ _ _ OK H K) as [S1 S2]. cbn [k_nodes k_heap]. intros i m Hi. unfold node_at in *.
    destruct (Nat.lt_ge_cases i (length ns)) as [L|L]; [rewrite app_nth1 in Hi by exact L; eauto|].
    rewrite app_nth2 in Hi by exact L. destruct (i - length ns) as [|[|k]]; cbn in Hi; try discriminate. subst n. exact S1.
  - destruct (NewValue _ _) as [v u']. intro X. injection X as <- _. exact H.
  - destruct (NewConcatValue _ _) as [v u']. intro X. injection X as <- _. exact H.
  - destruct (node_at ns i); [|discriminate]. destruct (run _ _ _) as [r w1]. intro X. injection X as <- _. exact H.
Qed.
Lemma sound_start : sound_state kstart.
Proof. intros i n. unfold node_at. destruct i; discriminate. Qed.
End Facts.
