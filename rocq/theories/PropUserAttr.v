(** Properties of attributes whose types the user defines (UserAttr.v): C66
    (they stand for library attributes), C67 (each name once). *)
From Coq Require Import Permutation.
From Verif Require Import Bytes IO IOFacts Nodes Values Render Slices Build SpecOut RenderFacts AttrFacts
  TagFacts UserAttr UserAttrFacts Demo.

Section Statements.
Context {W : UserWorld}.
Notation names := (map (@x_name W)).

(** ** C67 *)

(** The attributes of a tag, the user's among them.  The conditions are asked
    first; then exactly the attributes of [x_spec] are rendered, each once, in
    some order.  Between the groups nothing happens but the choice of an order.
    [x_spec] has each declared name once (second part). *)
Theorem C67_shown E fr ds conds err w :
  ord_ok (e_ord E) ->
  let '(act, u) := x_applying (view fr err) conds (w_u w) in
  let w0 := World (w_log w) u (w_tick w) in
  match act with
  | [] => run E (x_attributes fr ds conds err) w = run E (x_each fr (x_spec ds []) err) w0
  | _ =>
      exists l1 l2,
        Permutation (l1 ++ l2) (x_spec ds act) /\
        run E (x_attributes fr ds conds err) w =
        (let '(e, w1) := run E (x_each fr l1 err) (ticked w0) in
         run E (x_each fr l2 e) (ticked w1))
  end.
Proof. apply x_attributes_run. Qed.

Theorem C67_names (ds act : list xattr) :
  NoDup (names (x_spec ds act)) /\
  (forall n, In n (names (x_spec ds act)) <-> In n (names ds) \/ In n (names act)).
Proof.
  rewrite x_spec_names. destruct (x_names_of_spec (ds ++ act)) as [A Bb]. split; auto.
  intro n. rewrite Bb, map_app, in_app_iff. tauto.
Qed.

(** The winner of a name: a user's attribute declared last is the one rendered,
    if no conditional declaration of the name applies. *)
Theorem C67_last (ds1 ds2 act : list xattr) n p :
  ~ In n (names ds2) -> ~ In n (names act) ->
  In (Mine n p) (x_spec (ds1 ++ Mine n p :: ds2) act).
Proof.
  intros H2 Ha. unfold x_spec. apply in_flat_map. exists n. split.
  - apply x_names_of_spec. rewrite !map_app. cbn [map x_name]. rewrite !in_app_iff. simpl. tauto.
  - assert (x_get act n = []) as -> by (apply x_get_in; auto). rewrite x_settled_nil.
    assert (x_get (ds1 ++ Mine n p :: ds2) n = x_get ds1 n ++ [Mine n p]) as ->.
    { unfold x_get. rewrite filter_app. cbn [filter x_name]. rewrite beq_refl.
      fold (x_get ds2 n). apply x_get_in in H2. rewrite H2. reflexivity. }
    rewrite x_effective_snoc. left.
    destruct (x_effective (x_get ds1 n)) as [[[m vs|m|m d vs]|m q]|]; reflexivity.
Qed.

(** An attribute that loses its name to another one is not rendered at all: only
    what [x_spec] lists is, and there it is the other. *)
Theorem C67_overridden (ds1 ds2 act : list xattr) n p x :
  x_name x = n -> x_delimited x = false ->
  ~ In (Mine n p) ds2 -> ~ In (Mine n p) act -> x <> Mine n p ->
  ~ In (Mine n p) (x_spec (ds1 ++ Mine n p :: x :: ds2) act).
Proof.
  intros Nx Dx H2 Ha Hx H. unfold x_spec in H. apply in_flat_map in H as (m & _ & H).
  assert (E : m = n).
  { pose proof (x_shown_spec (ds1 ++ Mine n p :: x :: ds2) act m) as S.
    unfold x_shown in S.
    destruct (x_settled (x_effective (x_get (ds1 ++ Mine n p :: x :: ds2) m)) (x_get act m))
      as [y|] eqn:Y; [|destruct H]. destruct H as [H|[]]. subst y.
    destruct S as (a & S1 & S2).
    - rewrite map_app, in_app_iff.
      destruct (x_get (ds1 ++ Mine n p :: x :: ds2) m) as [|g gs] eqn:G.
      + right. destruct (x_get act m) as [|h hs] eqn:K; [discriminate Y|].
        assert (In h (x_get act m)) by (rewrite K; left; auto).
        rewrite <- (x_get_name act m h) by auto. apply in_map.
        unfold x_get in H. apply filter_In in H. tauto.
      + left. assert (In g (x_get (ds1 ++ Mine n p :: x :: ds2) m)) by (rewrite G; left; auto).
        rewrite <- (x_get_name _ m g) by eauto. apply in_map.
        unfold x_get in H. apply filter_In in H. tauto.
    - injection S1 as S1. rewrite <- S2, <- S1. reflexivity. }
  subst m.
  assert (G : x_get (ds1 ++ Mine n p :: x :: ds2) n = (x_get ds1 n ++ [Mine n p; x]) ++ x_get ds2 n).
  { unfold x_get. rewrite filter_app, <- app_assoc. cbn [filter x_name app]. rewrite beq_refl, Nx, beq_refl.
    reflexivity. }
  rewrite G in H. clear G.
  assert (A : forall l, ~ In (Mine n p) l ->
    forall b, b <> Mine n p ->
    forall r, x_effective r = Some b ->
    exists c, x_effective (r ++ l) = Some c /\ c <> Mine n p).
  { induction l as [|y l IH]; intros Hl b Hb r Hr.
    - exists b. rewrite app_nil_r. auto.
    - replace (r ++ y :: l) with ((r ++ [y]) ++ l) by (rewrite <- app_assoc; reflexivity).
      apply (IH (fun K => Hl (or_intror K)) (x_merge b y)).
      + destruct b as [[m ws|m|m e ws]|m q];
          try (intro K; apply Hl; left; exact K);
          destruct y as [[k vs|k|k d vs]|k q']; try discriminate;
          intro K; apply Hl; left; exact K.
      + rewrite x_effective_snoc, Hr. reflexivity. }
  destruct (A (x_get ds2 n)
              (fun K => H2 (proj1 (proj1 (filter_In _ _ _) K))) x Hx
              (x_get ds1 n ++ [Mine n p; x])) as (c & C1 & C2).
  { replace (x_get ds1 n ++ [Mine n p; x]) with ((x_get ds1 n ++ [Mine n p]) ++ [x])
      by (rewrite <- app_assoc; reflexivity).
    rewrite !x_effective_snoc. f_equal.
    destruct (x_effective (x_get ds1 n)) as [[[m ws|m|m e ws]|m q]|];
      destruct x as [[k vs|k|k d vs]|k q']; try discriminate; reflexivity. }
  rewrite C1 in H. clear A C1.
  assert (Ha' : ~ In (Mine n p) (x_get act n)).
  { intro K. apply Ha. unfold x_get in K. apply filter_In in K. tauto. }
  destruct (x_get act n) as [|y l].
  - rewrite x_settled_nil in H. destruct H as [H|[]]. auto.
  - rewrite x_settled_static in H. destruct H as [H|[]].
    unfold x_resolve in H.
    assert (L : In (last (y :: l) c) (y :: l)) by (apply last_in; discriminate).
    destruct c as [[m ws|m|m e ws]|m q]; [| |discriminate|]; apply Ha'; rewrite <- H; exact L.
Qed.

(** ** The model here and the main model agree on library attributes *)

Lemma x_add_own (ds : list (attr U)) n :
  x_find (x_add (map Own ds)) n = option_map Own (static_of (fst (add_attributes ds)) n).
Proof.
  rewrite x_find_add. pose proof (stored_attrs ds) as F.
  destruct (add_attributes ds) as [attrs idx]. destruct F as (_ & _ & F). cbn [fst]. rewrite F.
  rewrite <- effective_merge. unfold SpecElem.declared.
  assert (x_get (map Own ds) n = map Own (filter (fun a => beq (attr_name a) n) ds)) as ->.
  { clear F. unfold x_get. induction ds as [|a ds IH]; [reflexivity|]. cbn [map filter x_name].
    destruct (beq (attr_name a) n); cbn [map]; rewrite IH; reflexivity. }
  generalize (filter (fun a => beq (attr_name a) n) ds). clear. intro l.
  induction l as [|a l IH] using rev_ind; [reflexivity|].
  rewrite map_app. cbn [map]. rewrite x_effective_snoc, IH, fold_left_app. cbn [fold_left].
  destruct (fold_left merge_opt l None) as [b|]; cbn [option_map merge_opt]; [|reflexivity].
  destruct b as [m ws|m|m e ws]; cbn; try reflexivity. destruct a; reflexivity.
Qed.

Lemma x_names_own (ds : list (attr U)) :
  names (x_add (map Own ds)) = map (@attr_name U) (fst (add_attributes ds)).
Proof.
  rewrite x_add_names. pose proof (stored_attrs ds) as F.
  destruct (add_attributes ds) as [attrs idx]. destruct F as (_ & F & _). cbn [fst]. rewrite F.
  unfold x_names_of, SpecElem.names_of. rewrite map_map. reflexivity.
Qed.

Lemma x_list_own (ds : list (attr U)) :
  x_add (map Own ds) = map Own (fst (add_attributes ds)).
Proof.
  pose proof (x_names_own ds) as N. pose proof (x_add_own ds) as F.
  pose proof (stored_attrs ds) as T. destruct (add_attributes ds) as [attrs idx]. cbn [fst] in *.
  destruct T as ((_ & ND) & _ & _).
  revert N F. generalize (x_add (map Own ds)). intro l. revert l ND.
  induction attrs as [|a attrs IH]; intros [|x l] ND N F; try discriminate; [reflexivity|].
  cbn [map] in *. inversion ND as [|? ? I1 I2]; subst. injection N as N1 N2.
  assert (X : x = Own a).
  { pose proof (F (attr_name a)) as Fa. unfold x_find, static_of in Fa. cbn [find] in Fa.
    rewrite N1, !beq_refl in Fa. injection Fa as ->. reflexivity. }
  subst x. f_equal. apply IH; auto. intro n. specialize (F n). unfold x_find, static_of in *.
  cbn [find x_name] in F. destruct (beq_spec (attr_name a) n) as [En|Hn]; auto. rewrite <- En. clear F.
  destruct (find (fun a0 => beq (x_name a0) (attr_name a)) l) as [y|] eqn:Y.
  - exfalso. apply find_some in Y as [Y1 Y2]. destruct (beq_spec (x_name y) (attr_name a)); [|discriminate].
    apply I1. rewrite <- N2, <- e. apply in_map. auto.
  - destruct (find (fun a0 => beq (attr_name a0) (attr_name a)) attrs) as [y|] eqn:Z; [|reflexivity].
    exfalso. apply find_some in Z as [Z1 Z2]. destruct (beq_spec (attr_name y) (attr_name a)); [|discriminate].
    apply I1. rewrite <- e. apply in_map. auto.
Qed.

Lemma x_get_own (l : list (attr U)) n : x_get (map Own l) n = map Own (ev_get l n).
Proof.
  unfold x_get, ev_get. induction l as [|a l IH]; [reflexivity|]. cbn [map filter x_name].
  destruct (beq (attr_name a) n); cbn [map]; rewrite IH; reflexivity.
Qed.

Lemma x_values_own (l : list (attr U)) : x_values (map Own l) = all_values l.
Proof. unfold x_values, all_values. rewrite flat_map_concat_map, map_map, flat_map_concat_map. reflexivity. Qed.

Lemma last_own (l : list (attr U)) a : last (map Own l) (Own a) = Own (last l a).
Proof. induction l as [|b l IH]; [reflexivity|]. destruct l; [reflexivity|exact IH]. Qed.

Lemma x_resolve_own (a : attr U) l : x_resolve (Own a) (map Own l) = Own (resolve_static a l).
Proof.
  destruct a as [n vs|n|n d vs]; cbn [x_resolve resolve_static];
    [apply last_own|apply last_own|rewrite x_values_own; reflexivity].
Qed.

Lemma x_keys_own (l : list (attr U)) : x_keys (map Own l) = ev_names l.
Proof. induction l as [|a l IH]; [reflexivity|]. cbn [map x_keys ev_names x_name]. rewrite IH. reflexivity. Qed.

Lemma x_active_own E fr err conds w :
  run E (x_active fr err (map (fun c => (Own (fst c), snd c)) conds)) w =
  let '(l, w') := run E (active_attrs fr err conds) w in (map Own l, w').
Proof.
  revert w; induction conds as [|[a cs] conds IH]; intro w; [reflexivity|].
  cbn [map fst snd x_active active_attrs]. rewrite !run_bind.
  destruct (run E (conds_eval fr err cs) w) as [b w1]. rewrite !run_bind, IH.
  destruct (run E (active_attrs fr err conds) w1) as [l w2]. destruct b; reflexivity.
Qed.

Theorem C67_own E fr ds conds err w :
  run E (x_attributes fr (map Own ds) (map (fun c => (Own (fst c), snd c)) conds) err) w =
  (let '(attrs, idx) := add_attributes ds in
   run E (render_attributes fr attrs idx conds err) w).
Proof.
  pose proof (stored_attrs ds) as T. pose proof (x_list_own ds) as L.
  destruct (add_attributes ds) as [attrs idx]. cbn [fst] in L. destruct T as (T & _ & _).
  unfold x_attributes, render_attributes. rewrite L, !run_bind, x_active_own.
  destruct (run E (active_attrs fr err conds) w) as [ev w1].
  assert (Z : forall e w', run E (x_each fr (map Own attrs) e) w' = run E (attrs_render fr attrs e) w').
  { clear. induction attrs as [|a attrs IH]; intros e w'; [reflexivity|].
    cbn [map x_each attrs_render x_render]. rewrite !run_bind.
    destruct (run E (attr_render fr a e) w') as [e1 w1]. apply IH. }
  destruct ev as [|x ev]; [apply Z|]. cbn [map].
  change (Own x :: map Own ev) with (map (@Own W) (x :: ev)).
  remember (x :: ev) as evs. clear Heqevs x ev Z.
  assert (Nm : names (map Own attrs) = map fst idx).
  { rewrite map_map. cbn [x_name]. change (fun x => attr_name x) with (@attr_name U).
    destruct T as [-> _]. symmetry.
    assert (forall (l : list bytes) (k : list nat), length l = length k -> map fst (combine l k) = l) as X.
    { induction l as [|q l IH]; intros [|r k] Q; try discriminate; [reflexivity|].
      cbn [combine map fst]. f_equal. apply IH. injection Q as ->. reflexivity. }
    apply X. rewrite map_length, seq_length. reflexivity. }
  rewrite Nm, x_keys_own. cbn [run].
  assert (Fnd : forall n, x_find (map Own attrs) n = option_map Own (static_of attrs n)).
  { intro n. unfold x_find, static_of. clear. induction attrs as [|a l IH]; [reflexivity|].
    cbn [map find x_name]. destruct (beq (attr_name a) n); [reflexivity|apply IH]. }
  assert (S1 : forall ns e w', run E (x_static_loop fr (map Own attrs) (map Own evs) ns e) w' =
                 run E (static_loop fr attrs idx evs ns e) w').
  { induction ns as [|n ns IH]; intros e w'; [reflexivity|].
    cbn [x_static_loop static_loop]. rewrite !run_bind, Fnd, x_get_own.
    pose proof (table_get attrs idx n T) as G.
    destruct (idx_get idx n) as [i|].
    - rewrite G. destruct (static_of attrs n) as [a|]; cbn [option_map]; [|apply IH].
      destruct (ev_get evs n) as [|y l]; cbn [map x_render].
      + destruct (run E (attr_render fr a e) w') as [e1 w2]. apply IH.
      + change (Own y :: map Own l) with (map (@Own W) (y :: l)). rewrite x_resolve_own. cbn [x_render].
        destruct (run E (attr_render fr (resolve_static a (y :: l)) e) w') as [e1 w2]. apply IH.
    - rewrite <- G. cbn [option_map]. apply IH. }
  assert (S2 : forall ns e w', run E (x_dynamic_loop fr (map Own attrs) (map Own evs) ns e) w' =
                 run E (dynamic_loop fr idx evs ns e) w').
  { induction ns as [|n ns IH]; intros e w'; [reflexivity|].
    cbn [x_dynamic_loop dynamic_loop]. rewrite !run_bind, Fnd, x_get_own.
    pose proof (table_get attrs idx n T) as G.
    destruct (idx_get idx n) as [i|] eqn:Ei.
    - destruct T as [T1 T2]. destruct (static_of attrs n) as [a|]; cbn [option_map]; [apply IH|].
      exfalso. apply nth_error_None in G. subst idx.
      rewrite <- (map_length (@attr_name U)) in Ei. apply idx_get_bound in Ei as [Ei _].
      rewrite map_length in Ei. simpl in Ei. apply (Nat.lt_irrefl i).
      apply Nat.lt_le_trans with (length attrs); tauto.
    - rewrite <- G. cbn [option_map]. destruct (ev_get evs n) as [|y l]; cbn [map]; [apply IH|].
      rewrite x_resolve_own. cbn [x_render]. unfold resolve_static, resolve_dynamic.
      match goal with |- context [run E (attr_render fr ?y e) w'] =>
        destruct (run E (attr_render fr y e) w') as [e1 w2] end. apply IH. }
  rewrite !run_bind, S1.
  destruct (run E (static_loop fr attrs idx evs (e_ord E (w_tick w1) (map fst idx)) err) _) as [e w2].
  cbn [run]. apply S2.
Qed.

(** ** C66 *)

Definition delim_declared (D : list (@xattr W)) (n : bytes) : Prop :=
  exists d, In d D /\ x_delimited d = true /\ x_name d = n.

(** [y] can take the place of [x] among the declarations [D]. *)
Record stands_for (D : list (@xattr W)) (y x : xattr) : Prop := {
  sf_name : x_name y = x_name x;
  sf_delim : x_delimited x = true -> y = x;
  sf_plain : x_delimited x = false -> x_delimited y = false;
  sf_values : delim_declared D (x_name x) -> x_values [y] = x_values [x];
  sf_render : forall E fr err w, run E (x_render fr y err) w = run E (x_render fr x err) w
}.

(** As [stands_for], for what addAttributes makes of declarations in [D]. *)
Record stored_for (D : list (@xattr W)) (y x : xattr) : Prop := {
  st_sf : stands_for D y x;
  st_from : x_delimited x = true -> delim_declared D (x_name x)
}.

Lemma stands_stored D y x : In x D -> stands_for D y x -> stored_for D y x.
Proof. intros I S. split; auto. intro H. exists x. auto. Qed.

Lemma stands_refl D x : stands_for D x x.
Proof. split; auto. Qed.

Lemma merge_stored D y x b a :
  stored_for D y x -> stored_for D b a -> x_name x = x_name a ->
  stored_for D (x_merge y b) (x_merge x a).
Proof.
  intros S T N.
  destruct (x_delimited x) eqn:Dx.
  - pose proof (sf_delim _ _ _ (st_sf _ _ _ S) Dx) as ->.
    destruct (x_delimited a) eqn:Da.
    + pose proof (sf_delim _ _ _ (st_sf _ _ _ T) Da) as ->. split.
      * apply stands_refl.
      * intros _. rewrite x_merge_name by auto. apply (st_from _ _ _ T Da).
    + pose proof (sf_plain _ _ _ (st_sf _ _ _ T) Da) as Db.
      assert (x_merge x b = b /\ x_merge x a = a) as [-> ->]; [|exact T].
      destruct x as [[m ws|m|m e ws]|m q]; try discriminate.
      destruct a as [[k vs|k|k d vs]|k q']; try discriminate;
        destruct b as [[k' vs'|k'|k' d' vs']|k' q'']; try discriminate; auto.
  - pose proof (sf_plain _ _ _ (st_sf _ _ _ S) Dx) as Dy.
    assert (x_merge y b = b /\ x_merge x a = a) as [-> ->]; [|exact T].
    destruct x as [[m ws|m|m e ws]|m q]; try discriminate;
      destruct y as [[k vs|k|k d vs]|k q']; try discriminate; auto.
Qed.

Lemma add1_stored D ly lx b a :
  Forall2 (stored_for D) ly lx -> stored_for D b a ->
  Forall2 (stored_for D) (x_add1 ly b) (x_add1 lx a).
Proof.
  intros H T. induction H as [|y x ly lx S H IH]; cbn [x_add1].
  - constructor; [exact T|constructor].
  - rewrite (sf_name _ _ _ (st_sf _ _ _ S)), (sf_name _ _ _ (st_sf _ _ _ T)).
    destruct (beq_spec (x_name x) (x_name a)) as [E|E].
    + constructor; auto. apply merge_stored; auto.
    + constructor; auto.
Qed.

Lemma add_stored D ly lx :
  Forall2 (stored_for D) ly lx -> Forall2 (stored_for D) (x_add ly) (x_add lx).
Proof.
  intro H. unfold x_add.
  assert (G : forall r s, Forall2 (stored_for D) r s ->
     Forall2 (stored_for D) (fold_left x_add1 ly r) (fold_left x_add1 lx s)).
  { induction H as [|b a ly lx T H IH]; intros r s R; cbn [fold_left]; auto.
    apply IH, add1_stored; auto. }
  apply G. constructor.
Qed.

Lemma stored_names D ly lx : Forall2 (stored_for D) ly lx -> names ly = names lx.
Proof.
  induction 1 as [|y x ly lx S H IH]; [reflexivity|]. cbn [map].
  rewrite IH, (sf_name _ _ _ (st_sf _ _ _ S)). reflexivity.
Qed.

Lemma stored_keys D ly lx : Forall2 (stored_for D) ly lx -> x_keys ly = x_keys lx.
Proof.
  induction 1 as [|y x ly lx S H IH]; [reflexivity|]. cbn [x_keys].
  rewrite IH, (sf_name _ _ _ (st_sf _ _ _ S)). reflexivity.
Qed.

Lemma stored_get D ly lx n :
  Forall2 (stored_for D) ly lx -> Forall2 (stored_for D) (x_get ly n) (x_get lx n).
Proof.
  unfold x_get. induction 1 as [|y x ly lx S H IH]; [constructor|]. cbn [filter].
  rewrite (sf_name _ _ _ (st_sf _ _ _ S)). destruct (beq (x_name x) n); auto.
Qed.

Lemma stored_find D ly lx n :
  Forall2 (stored_for D) ly lx ->
  match x_find ly n, x_find lx n with
  | Some y, Some x => stored_for D y x /\ x_name x = n
  | None, None => True
  | _, _ => False
  end.
Proof.
  unfold x_find. induction 1 as [|y x ly lx S H IH]; [exact I|]. cbn [find].
  rewrite (sf_name _ _ _ (st_sf _ _ _ S)). destruct (beq_spec (x_name x) n); auto.
Qed.

Lemma stored_values D ly lx n :
  delim_declared D n -> Forall2 (stored_for D) ly lx ->
  Forall (fun x => x_name x = n) lx -> x_values ly = x_values lx.
Proof.
  intros Dn. induction 1 as [|y x ly lx S H IH]; intro F; [reflexivity|].
  inversion F as [|? ? F1 F2]; subst. cbn [x_values flat_map].
  fold (x_values ly). fold (x_values lx). rewrite (IH F2).
  pose proof (sf_values _ _ _ (st_sf _ _ _ S) Dn) as V.
  cbn [x_values flat_map] in V. rewrite !app_nil_r in V. rewrite V. reflexivity.
Qed.

Lemma stored_last D ly lx y x :
  stored_for D y x -> Forall2 (stored_for D) ly lx -> stored_for D (last ly y) (last lx x).
Proof.
  intros S H. induction H as [|b a ly lx T H IH]; [exact S|].
  destruct H as [|b' a' ly lx T' H]; [exact T|]. exact IH.
Qed.

Lemma stored_resolve D ly lx y x n :
  stored_for D y x -> Forall2 (stored_for D) ly lx ->
  x_name x = n -> Forall (fun z => x_name z = n) lx ->
  forall E fr err w,
    run E (x_render fr (x_resolve y ly) err) w = run E (x_render fr (x_resolve x lx) err) w.
Proof.
  intros S H Nx F E fr err w. destruct (x_delimited x) eqn:Dx.
  - pose proof (sf_delim _ _ _ (st_sf _ _ _ S) Dx) as ->.
    assert (V : x_values ly = x_values lx).
    { apply (stored_values D ly lx n); auto. rewrite <- Nx. apply (st_from _ _ _ S Dx). }
    unfold x_resolve. rewrite V.
    destruct x as [[m ws|m|m e ws]|m q]; try discriminate. reflexivity.
  - pose proof (sf_plain _ _ _ (st_sf _ _ _ S) Dx) as Dy.
    assert (x_resolve y ly = last ly y /\ x_resolve x lx = last lx x) as [-> ->].
    { destruct x as [[m ws|m|m e ws]|m q]; try discriminate;
        destruct y as [[k vs|k|k d vs]|k q']; try discriminate; auto. }
    apply (sf_render _ _ _ (st_sf _ _ _ (stored_last D ly lx y x S H))).
Qed.

Lemma get_names (l : list (@xattr W)) n : Forall (fun z => x_name z = n) (x_get l n).
Proof. apply Forall_forall. intros z H. apply (x_get_name l n z H). Qed.

(** Attributes in the declarations of an element may be exchanged for others of
    the same name that write the same, delimited ones apart: the user's for the
    library's, the library's for the user's, one of the user's for another.  The
    tag is the same in every run, with every writer and in every map order.
    Where the name is also declared by a delimited attribute the two must have
    the same values, and a user's attribute has none.
    The full claim would not need [sf_values]. *)
Theorem C66_element_partial ds ds' conds conds' :
  let D := ds ++ map fst conds in
  Forall2 (stands_for D) ds' ds ->
  Forall2 (fun c' c => stands_for D (fst c') (fst c) /\ snd c' = snd c) conds' conds ->
  forall E fr name err w,
    run E (x_tag fr name ds' conds' err) w = run E (x_tag fr name ds conds err) w.
Proof.
  intros D H K E fr name err w.
  assert (H' : Forall2 (stored_for D) (x_add ds') (x_add ds)).
  { apply add_stored. assert (I : forall x, In x ds -> In x D) by (intros; apply in_or_app; auto).
    clear K. clearbody D. revert I. induction H as [|y x l r S H IH]; intro I; constructor.
    - apply stands_stored; auto. apply I; left; auto.
    - apply IH. intros; apply I; right; auto. }
  assert (K' : Forall2 (fun c' c => stored_for D (fst c') (fst c) /\ snd c' = snd c) conds' conds).
  { assert (I : forall c, In c conds -> In (fst c) D)
      by (intros; apply in_or_app; right; apply in_map; auto).
    clear H H'. clearbody D. revert I. induction K as [|c' c l r [S Q] K IH]; intro I; constructor.
    - split; auto. apply stands_stored; auto. apply I; left; auto.
    - apply IH. intros; apply I; right; auto. }
  unfold x_tag. rewrite !run_bind.
  destruct (run E (ctx_write (B "<") err) w) as [e0 w0]. rewrite !run_bind.
  destruct (run E (ctx_write name e0) w0) as [e1 w1]. rewrite !run_bind.
  assert (Z : run E (x_attributes fr ds' conds' e1) w1 = run E (x_attributes fr ds conds e1) w1);
    [|rewrite Z; reflexivity].
  clear H K w w0 err e0 name. rename e1 into err, w1 into w.
  unfold x_attributes. rewrite !run_bind.
  assert (A : let '(ly, w1) := run E (x_active fr err conds') w in
              let '(lx, w2) := run E (x_active fr err conds) w in
              w1 = w2 /\ Forall2 (stored_for D) ly lx).
  { clear H'. clearbody D. revert w.
    induction K' as [|[a' cs'] [a cs] l r [S Q] K IH]; intro w; [split; [reflexivity|constructor]|].
    cbn [fst snd] in *. subst cs'. cbn [x_active]. rewrite !run_bind.
    destruct (run E (conds_eval fr err cs) w) as [b w1]. rewrite !run_bind.
    specialize (IH w1). destruct (run E (x_active fr err l) w1) as [ly w2].
    destruct (run E (x_active fr err r) w1) as [lx w3]. destruct IH as [-> IH].
    cbn [run]. split; auto. destruct b; auto. }
  destruct (run E (x_active fr err conds') w) as [ly w1].
  destruct (run E (x_active fr err conds) w) as [lx w2]. destruct A as [-> A].
  rewrite (stored_names _ _ _ H'), (stored_keys _ _ _ A).
  revert H' A. generalize (x_add ds'), (x_add ds). clear K'. clearbody D. clear conds conds'. intros ay ax Ha A.
  assert (Z0 : forall e w', run E (x_each fr ay e) w' = run E (x_each fr ax e) w').
  { clear A. induction Ha as [|y x ay ax S Ha IH]; intros e w'; [reflexivity|].
    cbn [x_each]. rewrite !run_bind, (sf_render _ _ _ (st_sf _ _ _ S)).
    destruct (run E (x_render fr x e) w') as [e1 w1]. apply IH. }
  assert (Z1 : forall ns e w', run E (x_static_loop fr ay ly ns e) w' = run E (x_static_loop fr ax lx ns e) w').
  { induction ns as [|n ns IH]; intros e w'; [reflexivity|].
    cbn [x_static_loop]. rewrite !run_bind.
    pose proof (stored_find D ay ax n Ha) as Fd. pose proof (stored_get D ly lx n A) as G.
    pose proof (get_names lx n) as Gn.
    destruct (x_find ay n) as [y|], (x_find ax n) as [x|]; try contradiction; [|apply IH].
    destruct Fd as [S Nx]. destruct G as [|b a gy gx T G].
    - rewrite (sf_render _ _ _ (st_sf _ _ _ S)).
      destruct (run E (x_render fr x e) w') as [e1 w1]. apply IH.
    - rewrite (stored_resolve D (b :: gy) (a :: gx) y x n) by (auto; constructor; auto).
      destruct (run E (x_render fr (x_resolve x (a :: gx)) e) w') as [e1 w1]. apply IH. }
  assert (Z2 : forall ns e w', run E (x_dynamic_loop fr ay ly ns e) w' = run E (x_dynamic_loop fr ax lx ns e) w').
  { induction ns as [|n ns IH]; intros e w'; [reflexivity|].
    cbn [x_dynamic_loop]. rewrite !run_bind.
    pose proof (stored_find D ay ax n Ha) as Fd. pose proof (stored_get D ly lx n A) as G.
    pose proof (get_names lx n) as Gn.
    destruct (x_find ay n) as [y|], (x_find ax n) as [x|]; try contradiction; [apply IH|].
    destruct G as [|b a gy gx T G]; [apply IH|].
    inversion Gn; subst.
    rewrite (stored_resolve D gy gx b a (x_name a)) by auto.
    destruct (run E (x_render fr (x_resolve a gx) e) w') as [e1 w1]. apply IH. }
  destruct A as [|b a ly lx T A]; [apply Z0|].
  cbn [run]. rewrite !run_bind, Z1.
  destruct (run E (x_static_loop fr ax (a :: lx) _ err) _) as [e1 w1]. cbn [run]. apply Z2.
Qed.

(** [Start] takes a user's attribute for a boolean one: it writes its Name and
    does not call its Render method. *)
Definition as_boolean (x : @xattr W) : attr U :=
  match x with Own a => a | Mine n _ => ABool n end.

Theorem C66_start fr name l err :
  x_start fr name l err = start_tag fr name (map (fun x => Some (NAttr (as_boolean x))) l) err.
Proof.
  unfold x_start, start_tag.
  assert (Z : forall l acc, fold_left x_start_add l acc =
            start_attrs (map (fun x => Some (NAttr (as_boolean x))) l) acc).
  { clear. induction l as [|x l IH]; intro acc; [reflexivity|]. cbn [fold_left map start_attrs].
    rewrite IH. f_equal. unfold x_start_add, start_add.
    destruct x as [[n vs|n|n d vs]|n p]; reflexivity. }
  rewrite Z. reflexivity.
Qed.

(** ** Library attributes written out as programs *)

(** What a plain attribute with one static value does, and a boolean one. *)
Definition plain_prog (n v : bytes) (e : option error) : iprog U :=
  IWriteRaw (B " ") (IWriteRaw n (IWriteRaw (B "=""")
    (IDirect v (fun _ r => ISetError r (IWriteRaw (B """") (IRet e)))))).
Definition bool_prog (n : bytes) (e : option error) : iprog U :=
  IWriteRaw (B " ") (IWriteRaw n (IRet e)).

Lemma plain_prog_run n v r E fr err w :
  run E (x_render fr (Mine n (plain_prog n v r)) err) w =
  run E (x_render fr (Own (APlain n [Val v None []])) err) w.
Proof.
  unfold plain_prog. cbn [x_render run_imper attr_render].
  rewrite !run_bind. destruct (run E (ctx_write (B " ") err) w) as [e1 w1].
  rewrite !run_bind. destruct (run E (ctx_write n e1) w1) as [e2 w2].
  rewrite !run_bind. destruct (run E (ctx_write (B "=""") e2) w2) as [e3 w3].
  cbn [values_render value_render bind]. cbn [run].
  destruct (e_wr E (w_log w3) v) as [m e4]. rewrite !run_bind.
  destruct (run E (ctx_write (B """") e4) _) as [e5 w5]. reflexivity.
Qed.

Lemma bool_prog_run n r E fr err w :
  run E (x_render fr (Mine n (bool_prog n r)) err) w = run E (x_render fr (Own (ABool n)) err) w.
Proof.
  unfold bool_prog. cbn [x_render run_imper attr_render].
  rewrite !run_bind. destruct (run E (ctx_write (B " ") err) w) as [e1 w1].
  rewrite !run_bind. destruct (run E (ctx_write n e1) w1) as [e2 w2]. reflexivity.
Qed.

(** Whatever a user's attribute returns from Render is dropped. *)
Theorem C66_returned D n v r r' :
  stands_for D (Mine n (plain_prog n v r)) (Mine n (plain_prog n v r')).
Proof.
  split; auto; [discriminate|]. intros. rewrite !plain_prog_run. reflexivity.
Qed.

End Statements.

(** ** Examples *)

Definition yes : condfn (@U demo) := fun _ u => (true, u).
Definition out {A} (r : A * world (@U demo)) : bytes := accepted (w_log (snd r)).
Definition w00 : world (@U demo) := World [] (st 0) 0.
Definition title : xattr := Mine (B "title") (plain_prog (B "title") (B "t") (Some 9)).

(** The user's attribute replaces the library's of the same name and is replaced
    by a conditional one; another name is left alone. *)
Example C67_shown_ex :
  out (run (Env healthy listed)
         (x_attributes frn [Own (APlain (B "title") [Val (B "lib") None []]); title; Own (ABool (B "open"))]
            [] None) w00) = B " title=""t"" open" /\
  out (run (Env healthy reversed)
         (x_attributes frn [Own (APlain (B "title") [Val (B "lib") None []]); title; Own (ABool (B "open"))]
            [(Mine (B "title") (bool_prog (B "title") None), [yes])] None) w00) = B " open title".
Proof. vm_compute. auto. Qed.

Example C67_last_ex :
  In title (x_spec [Own (APlain (B "title") [Val (B "lib") None []]); title; Own (ABool (B "open"))] []).
Proof.
  apply (C67_last [Own (APlain (B "title") [Val (B "lib") None []])] [Own (ABool (B "open"))]);
    simpl; [intros [H|[]]; discriminate|tauto].
Qed.

Example C67_overridden_ex :
  ~ In title (x_spec [Own (ABool (B "open")); title; Own (APlain (B "title") [Val (B "lib") None []])] []).
Proof.
  apply (C67_overridden [Own (ABool (B "open"))] []); simpl; try reflexivity; try tauto. discriminate.
Qed.

Example C67_names_ex :
  map x_name (x_spec [title; Own (ABool (B "open")); title] [Own (ABool (B "title")); Mine (B "id") (IRet None)]) =
  [B "title"; B "open"; B "id"].
Proof. rewrite x_spec_names, <- x_add_names. reflexivity. Qed.

(** Exchanging the user's [title] for the library's. *)
Example C66_element_ex E fr err w :
  run E (x_tag fr (B "a") [title; Own (ADelim (B "class") (B " ") [Val (B "c") None []])]
           [(title, [yes])] err) w =
  run E (x_tag fr (B "a") [Own (APlain (B "title") [Val (B "t") None []]);
                           Own (ADelim (B "class") (B " ") [Val (B "c") None []])]
           [(Own (APlain (B "title") [Val (B "t") None []]), [yes])] err) w.
Proof.
  assert (S : forall D, ~ delim_declared D (B "title") ->
            stands_for D title (Own (APlain (B "title") [Val (B "t") None []]))).
  { intros D N. split; auto; [discriminate|intro H; destruct (N H)|].
    intros. apply plain_prog_run. }
  apply C66_element_partial; cbn [map fst app];
    (assert (N : ~ delim_declared [Own (APlain (B "title") [Val (B "t") None []]);
        Own (ADelim (B "class") (B " ") [Val (B "c") None []]);
        Own (APlain (B "title") [Val (B "t") None []])] (B "title"));
     [intros (d & [<-|[<-|[<-|[]]]] & Dd & Nd); discriminate|]).
  - constructor; [apply S; exact N|]. constructor; [apply stands_refl|constructor].
  - constructor; [|constructor]. split; [apply S; exact N|reflexivity].
Qed.

(** ** What is false *)

(** A user's attribute that applies, of a name that is declared by a delimited
    attribute, is not written at all, while the library's that writes the same
    adds its value. *)
Theorem C66_element_refuted :
  exists (mine lib : xattr),
    x_name mine = x_name lib /\ x_delimited mine = false /\ x_delimited lib = false /\
    (forall E fr err w, run E (x_render fr mine err) w = run E (x_render fr lib err) w) /\
    let ds := [Own (ADelim (B "class") (B " ") [Val (B "a") None []])] in
    out (run (Env healthy listed) (x_tag frn (B "p") ds [(mine, [yes])] None) w00) = B "<p class=""a"">" /\
    out (run (Env healthy listed) (x_tag frn (B "p") ds [(lib, [yes])] None) w00) = B "<p class=""a b"">".
Proof.
  exists (Mine (B "class") (plain_prog (B "class") (B "b") None)), (Own (APlain (B "class") [Val (B "b") None []])).
  split; [reflexivity|]. split; [reflexivity|]. split; [reflexivity|]. split.
  - intros. apply plain_prog_run.
  - vm_compute. auto.
Qed.

(** [Start] drops the value of a user's attribute. *)
Theorem C66_start_refuted :
  exists (mine lib : xattr),
    x_name mine = x_name lib /\ x_delimited mine = false /\ x_delimited lib = false /\
    (forall E fr err w, run E (x_render fr mine err) w = run E (x_render fr lib err) w) /\
    out (run (Env healthy listed) (x_start frn (B "p") [mine] None) w00) = B "<p title>" /\
    out (run (Env healthy listed) (x_start frn (B "p") [lib] None) w00) = B "<p title=""t"">".
Proof.
  exists title, (Own (APlain (B "title") [Val (B "t") None []])).
  split; [reflexivity|]. split; [reflexivity|]. split; [reflexivity|]. split.
  - intros. apply plain_prog_run.
  - vm_compute. auto.
Qed.
