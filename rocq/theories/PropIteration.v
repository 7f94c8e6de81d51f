(** C24-C26: iteration. *)
From Coq Require Import ZArith.
From Verif Require Import Bytes IO IOFacts Escape Nodes NodeInd Values Render Build SpecOut
  RenderFacts Api ApiFacts SpecRun PageFacts Demo PropElements PropGroups.

Section Iteration.
Context {W : UserWorld}.

(** The context one item is rendered in, and the output for a list of items. *)
Definition scope (fr : frame U) (it : gval U) : frame U :=
  {| f_data := match it with GMap m => Some m | _ => f_data fr end;
     f_cargo := it;
     f_parent := Some (view fr None) |}.
Fixpoint per_item (o : order) (ns : list (node U)) (fr : frame U) (items : list (gval U)) (s : U * nat)
  : bytes * (U * nat) :=
  match items with
  | [] => ([], s)
  | it :: items' =>
      let '(b1, s1) := pages o ns (scope fr it) s in
      let '(b2, s2) := per_item o ns fr items' s1 in (b1 ++ b2, s2)
  end.

(** The node arguments that are not attributes. *)
Definition content_args (ns : list (option (node U))) : list (node U) :=
  flat_map (fun n => match n with Some (NAttr _) | None => [] | Some c => [c] end) ns.

Lemma content_args_spec ns l : all_some ns = Some l -> non_attrs l = content_args ns.
Proof.
  revert l; induction ns as [|[n|] ns IH]; intros l H; cbn [all_some] in H; [|destruct (all_some ns)|discriminate].
  - injection H as <-. reflexivity.
  - injection H as <-. unfold non_attrs in *. cbn [filter]. rewrite (IH _ eq_refl).
    destruct n; reflexivity.
  - discriminate.
Qed.

Lemma content_args_in ns c : In c (content_args ns) -> In (Some c) ns.
Proof.
  unfold content_args. rewrite in_flat_map. intros (x & H1 & H2). destruct x as [x|]; [|destruct H2].
  destruct x; cbn in H2; try (destruct H2 as [<-|[]]; auto); destruct H2.
Qed.

Definition usable_opts (ns : list (option (node U))) : Prop := forall n, In (Some n) ns -> usable n.

Lemma content_args_usable ns : usable_opts ns -> all usable (content_args ns).
Proof. intro H. apply all_In. intros c Hc. apply H, content_args_in, Hc. Qed.

Lemma siter_per_item o ns fr items s :
  ord_ok o -> all usable ns ->
  siter (fun ifr s => seqS (fun c s => snode o c ifr s) ns s) fr items s = per_item o ns fr items s.
Proof.
  intros O H. revert s; induction items as [|it items IH]; intro s; [reflexivity|].
  cbn [siter per_item]. rewrite pages_seqS; auto.
  - change (Frame (item_data it (f_data fr)) it (Some (view fr None))) with (scope fr it).
    destruct (seqS _ ns s) as [b1 s1]. rewrite IH. reflexivity.
  - apply all_In. rewrite all_In in H. intros c Hc. apply (proj1 api_tables), H, Hc.
  - apply all_In. rewrite all_In in H. intros c Hc. apply H, Hc.
Qed.

Lemma page_iter o f ns fr s :
  ord_ok o -> all usable ns ->
  page o (NIter f ns) fr s =
  let '(items, u1) := f (view fr None) (fst s) in per_item o ns fr items (u1, snd s).
Proof.
  intros O H. rewrite page_snode; auto.
  - cbn [snode]. unfold liftU. destruct (f (view fr None) (fst s)) as [items u1].
    apply siter_per_item; auto.
  - change (all tables_ok ns). apply all_In. rewrite all_In in H. intros c Hc. apply (proj1 api_tables), H, Hc.
  - change (all quiet ns). apply all_In. rewrite all_In in H. intros c Hc. apply H, Hc.
Qed.

(** C24. *)
Theorem C24_iterate o f args n fr s :
  ord_ok o -> usable_opts args -> Iterate (Some f) args = Done n ->
  page o n fr s =
  let '(items, u1) := f (view fr None) (fst s) in
  per_item o (content_args args) fr items (u1, snd s).
Proof.
  intros O H. unfold Iterate. destruct (all_some args) as [l|] eqn:A; [|discriminate].
  intro D. injection D as <-. rewrite (content_args_spec _ _ A). apply page_iter; auto.
  apply content_args_usable, H.
Qed.

(** What is rendered after the iterator sees the enclosing Data, Cargo and
    Parent. *)
Theorem C24_enclosing_unchanged o f args n c fr s :
  ord_ok o -> usable_opts args -> Iterate (Some f) args = Done n -> usable c -> is_attr c = false ->
  page o (Collection [Some n; Some c]) fr s =
  let '(b1, s1) := page o n fr s in
  let '(b2, s2) := page o c fr s1 in (b1 ++ b2, s2).
Proof.
  intros O H I Hc Ac.
  assert (Hn : usable n /\ is_attr n = false).
  { split; [split|].
    - apply (api_iterate (Some f) args); auto. intros c' Hc'. apply H, Hc'.
    - unfold Iterate in I. destruct (all_some args) as [l|] eqn:A; [|discriminate]. injection I as <-.
      change (all quiet (non_attrs l)). rewrite (content_args_spec _ _ A). apply all_In.
      intros x Hx. pose proof (content_args_usable args H) as X. rewrite all_In in X. apply X, Hx.
    - unfold Iterate in I. destruct (all_some args); [|discriminate]. injection I as <-. reflexivity. }
  destruct Hn as [Hn An].
  change (Collection [Some n; Some c]) with (NCollection [n; c]). rewrite page_snode; auto.
  - cbn [snode]. rewrite seqS_cons, An. rewrite (page_snode o n) by (auto; (apply (proj1 api_tables); apply Hn) || (apply (proj1 api_tables); apply Hc) || apply Hn || apply Hc).
    destruct (snode o n fr s) as [b1 s1]. rewrite (page_snode o c) by (auto; (apply (proj1 api_tables); apply Hn) || (apply (proj1 api_tables); apply Hc) || apply Hn || apply Hc).
    rewrite seqS_cons, Ac. destruct (snode o c fr s1) as [b2 s2]. cbn. rewrite app_nil_r. reflexivity.
  - cbn. repeat split; apply (proj1 api_tables); [apply Hn|apply Hc].
  - cbn. repeat split; [apply Hn|apply Hc].
Qed.

(** C25.  The elements of the value under a key: [es] are the elements when the
    value is a slice (of any element type; a []byte has uint8 elements). *)
Inductive slice_of : gval U -> list (gval U) -> Prop :=
| so_any xs : slice_of (GSlice false xs) xs
| so_typed xs : slice_of (GSlice true xs) xs
| so_bytes b : slice_of (GBytes b) (map (fun a => GUint (N_of_ascii a)) b).

Theorem C25_iterates o key args n fr s m v es :
  ord_ok o -> usable_opts args -> IterateKey key args = Done n ->
  f_data fr = Some m -> mget (fst s) m key = Some v -> slice_of v es ->
  page o n fr s = per_item o (content_args args) fr es s.
Proof.
  intros O H I Hd Hm Hs. unfold IterateKey in I. destruct (all_some args) as [l|] eqn:A; [|discriminate].
  injection I as <-. rewrite (content_args_spec _ _ A).
  rewrite page_iter by (auto; apply content_args_usable, H).
  unfold key_items, data_get. destruct s as [u t]. cbn [fst snd] in *.
  replace (c_data (view fr None)) with (Some m) by (destruct fr; cbn in *; congruence).
  rewrite Hm. inversion Hs; subst; reflexivity.
Qed.

Theorem C25_otherwise_nothing o key args n fr s :
  ord_ok o -> usable_opts args -> IterateKey key args = Done n ->
  (forall m v, f_data fr = Some m -> mget (fst s) m key = Some v -> forall es, ~ slice_of v es) ->
  page o n fr s = ([], s).
Proof.
  intros O H I N. unfold IterateKey in I. destruct (all_some args) as [l|] eqn:A; [|discriminate].
  injection I as <-. rewrite (content_args_spec _ _ A).
  rewrite page_iter by (auto; apply content_args_usable, H).
  unfold key_items, data_get. destruct s as [u t]. cbn [fst snd] in *.
  destruct (f_data fr) as [m|] eqn:Hd.
  - replace (c_data (view fr None)) with (Some m) by (destruct fr; cbn in *; congruence).
    specialize (N m). destruct (mget u m key) as [v|]; [|reflexivity].
    specialize (N v eq_refl eq_refl).
    destruct v as [| | | | | | | | | |ty xs|]; try reflexivity.
    + destruct (N _ (so_bytes b)).
    + destruct ty; [destruct (N _ (so_typed xs))|destruct (N _ (so_any xs))].
  - replace (c_data (view fr None)) with (@None mref) by (destruct fr; cbn in *; congruence).
    reflexivity.
Qed.

(** C26.  What IterateYield does: the nodes are rendered for each yielded item
    when it is yielded, with Cargo the item and Data the most recent item that
    is a map (this one included). *)
Fixpoint latest_map (items : list (gval U)) : option mref :=   (* newest first *)
  match items with
  | [] => None
  | GMap m :: _ => Some m
  | _ :: items' => latest_map items'
  end.
Fixpoint per_yield (o : order) (ns : list (node U)) (fr : frame U) (before : list (gval U))
  (p : yprog U) (s : U * nat) : bytes * (U * nat) :=
  match p with
  | YRet => ([], s)
  | YRead k => let '(p', u') := k (view fr None) (fst s) in per_yield o ns fr before p' (u', snd s)
  | YYield it p' =>
      let '(b1, s1) := pages o ns (Frame (latest_map (it :: before)) it (Some (view fr None))) s in
      let '(b2, s2) := per_yield o ns fr (it :: before) p' s1 in (b1 ++ b2, s2)
  end.

Lemma syield_per o ns fr before p s :
  ord_ok o -> all usable ns ->
  syield (fun ifr s => seqS (fun c s => snode o c ifr s) ns s) fr (latest_map before) p s =
  per_yield o ns fr before p s.
Proof.
  intros O H.
  assert (T : all tables_ok ns).
  { apply all_In. rewrite all_In in H. intros c Hc. apply (proj1 api_tables), H, Hc. }
  assert (Q : all quiet ns). { apply all_In. rewrite all_In in H. intros c Hc. apply H, Hc. }
  revert before s. revert p. fix IH 1. intros p before s. destruct p as [|it p|k]; cbn [syield per_yield].
  - reflexivity.
  - rewrite pages_seqS by auto.
    replace (item_data it (latest_map before)) with (latest_map (it :: before)) by (destruct it; reflexivity).
    destruct (seqS _ ns s) as [b1 s1]. rewrite (IH p (it :: before) s1). reflexivity.
  - pose proof (IH (fst (k (view fr None) (fst s)))) as X. clear IH.
    destruct (k (view fr None) (fst s)) as [p' u']. apply X.
Qed.

Theorem C26_most_recent_partial o p args n fr s :
  ord_ok o -> usable_opts args -> IterateYield (Some p) args = Done n ->
  page o n fr s = per_yield o (content_args args) fr [] p s.
Proof.
  intros O H I. unfold IterateYield in I. destruct (all_some args) as [l|] eqn:A; [|discriminate].
  injection I as <-. rewrite (content_args_spec _ _ A).
  pose proof (content_args_usable _ H) as C. pose proof C as C'. rewrite all_In in C'.
  rewrite page_snode; auto.
  - cbn [snode]. change None with (latest_map []). apply syield_per; auto.
  - change (all tables_ok (content_args args)). apply all_In. intros c Hc. apply (proj1 api_tables), C', Hc.
  - change (all quiet (content_args args)). apply all_In. intros c Hc. apply C', Hc.
Qed.

(** C26 when every yielded item is a map: each sees exactly its own data.
    Missing: items that are not maps, for which it is false (C26_refuted). *)
Fixpoint yields_maps (p : yprog U) : Prop :=
  match p with
  | YRet => True
  | YYield it p' => (exists m, it = GMap m) /\ yields_maps p'
  | YRead k => forall c u, yields_maps (fst (k c u))
  end.
Fixpoint per_own (o : order) (ns : list (node U)) (fr : frame U) (p : yprog U) (s : U * nat)
  : bytes * (U * nat) :=
  match p with
  | YRet => ([], s)
  | YRead k => let '(p', u') := k (view fr None) (fst s) in per_own o ns fr p' (u', snd s)
  | YYield it p' =>
      let '(b1, s1) := pages o ns (scope fr it) s in
      let '(b2, s2) := per_own o ns fr p' s1 in (b1 ++ b2, s2)
  end.
Theorem C26_maps_partial o p args n fr s :
  ord_ok o -> usable_opts args -> IterateYield (Some p) args = Done n -> yields_maps p ->
  page o n fr s = per_own o (content_args args) fr p s.
Proof.
  intros O H I M. rewrite (C26_most_recent_partial o p args n fr s O H I).
  generalize (@nil (gval U)). revert s M. clear I. revert p.
  fix IH 1. intros p s M before. destruct p as [|it p|k]; cbn [per_yield per_own].
  - reflexivity.
  - destruct M as [[m ->] M]. change (Frame (latest_map (GMap m :: before)) (GMap m) (Some (view fr None))) with (scope fr (GMap m)).
    destruct (pages o (content_args args) (scope fr (GMap m)) s) as [b1 s1].
    rewrite (IH p s1 M (GMap m :: before)). reflexivity.
  - pose proof (IH (fst (k (view fr None) (fst s)))) as X. clear IH.
    specialize (M (view fr None) (fst s)). destruct (k (view fr None) (fst s)) as [p' u']. apply X. exact M.
Qed.

End Iteration.

(** ** Examples *)

(** Shows Data[name] (or "-"), then whether Cargo is a string, and the Parent's
    Data. *)
Definition show_scope : node (@U demo) :=
  NText [Val [] (Some (fun c u =>
    ((match data_get c (B "name") u with Some (GString s) => s | _ => B "-" end) ++
     (match c_cargo c with GString s => s | _ => B "*" end) ++
     (match c_parent c with Some p => match c_data p with Some _ => B "D" | None => B "N" end | None => B "?" end),
     u))) []].
Lemma show_scope_usable : usable show_scope.
Proof.
  split; [|exact I]. change (api (fst (Text [AVal (Val [] (Some (fun c u =>
    ((match data_get c (B "name") u with Some (GString s) => s | _ => B "-" end) ++
     (match c_cargo c with GString s => s | _ => B "*" end) ++
     (match c_parent c with Some p => match c_data p with Some _ => B "D" | None => B "N" end | None => B "?" end),
     u))) [])] (st 0)))). apply api_text.
Qed.
Definition items3 : ctx (@U demo) -> @U demo -> list (gval (@U demo)) * @U demo :=
  fun _ u => ([GString (B "s"); GMap 1; GNil], u).
Example C24_example : exists n,
  usable_opts [Some show_scope; Some (NAttr (plain "id" "gone"))] /\
  Iterate (Some items3) [Some show_scope; Some (NAttr (plain "id" "gone"))] = Done n /\
  page listed n fr0 (st 0, 0) = (B "a<bsD" ++ B "-*D" ++ B "a<b*D", (st 0, 0)).
Proof.
  eexists. split; [|split; [reflexivity|vm_compute; reflexivity]].
  intros n [H|[H|[]]]; injection H as <-; [apply show_scope_usable|apply plain_usable].
Qed.
Example C25_example : exists n,
  IterateKey (B "items") [Some show_scope] = Done n /\
  f_data fr0 = Some 0 /\
  mget (st 0) 0 (B "items") = Some (GSlice true [GString (B "x"); GInt 7]) /\
  page listed n fr0 (st 0, 0) = (B "a<bxD" ++ B "a<b*D", (st 0, 0)).
Proof. eexists. repeat split. Qed.
Example C25_nothing_example : exists n,
  IterateKey (B "on") [Some show_scope] = Done n /\
  (forall m v, f_data fr0 = Some m -> mget (st 0) m (B "on") = Some v -> forall es, ~ slice_of v es) /\
  page listed n fr0 (st 0, 0) = ([], (st 0, 0)).
Proof.
  eexists. split; [reflexivity|]. split; [|vm_compute; reflexivity].
  intros m v H. injection H as <-. intro H. injection H as <-. intros es X. inversion X.
Qed.
Example C26_example : exists n,
  IterateYield (Some (YYield (GMap 0) (YYield (GMap 1) YRet))) [Some show_scope] = Done n /\
  yields_maps (@YYield (@U demo) (GMap 0) (YYield (GMap 1) YRet)) /\
  page listed n frn (st 0, 0) = (B "a<b*N" ++ B "-*N", (st 0, 0)).
Proof.
  eexists. split; [reflexivity|]. split; [|vm_compute; reflexivity].
  cbn. split; [eexists; reflexivity|]. split; [eexists; reflexivity|exact I].
Qed.

(** C26 as stated is false, both ways: a string yielded after a map sees the
    data of that map; and a string does not see the enclosing data. *)
Theorem C26_refuted : exists (p : yprog (@U demo)) n fr (s : @U demo * nat),
  api n /\ IterateYield (Some p) [Some show_scope] = Done n /\
  p = YYield (GMap 0) (YYield (GString (B "s")) YRet) /\ f_data fr = None /\
  fst (page listed n fr s) = B "a<b*N" ++ B "a<bsN".
Proof.
  exists (YYield (GMap 0) (YYield (GString (B "s")) YRet)), (NYield (YYield (GMap 0) (YYield (GString (B "s")) YRet)) [show_scope]), frn, (st 0, 0).
  split; [|split; [|split; [reflexivity|split; [reflexivity|vm_compute; reflexivity]]]].
  2: reflexivity.
  apply (api_iterate_yield (Some (YYield (GMap 0) (YYield (GString (B "s")) YRet))) [Some show_scope]); [|reflexivity].
  intros c [H|[]]. injection H as <-. apply show_scope_usable.
Qed.
Theorem C26_inherit_refuted : exists (p : yprog (@U demo)) n fr (s : @U demo * nat),
  api n /\ IterateYield (Some p) [Some show_scope] = Done n /\
  p = YYield (GString (B "s")) YRet /\ f_data fr = Some 0 /\
  fst (page listed n fr s) = B "-sD" /\
  exists n', Iterate (Some (fun _ u => ([GString (B "s")], u))) [Some show_scope] = Done n' /\
             fst (page listed n' fr s) = B "a<bsD".
Proof.
  exists (YYield (GString (B "s")) YRet), (NYield (YYield (GString (B "s")) YRet) [show_scope]), fr0, (st 0, 0).
  split; [|split; [|split; [reflexivity|split; [reflexivity|split; [vm_compute; reflexivity|]]]]].
  2: reflexivity.
  - apply (api_iterate_yield (Some (YYield (GString (B "s")) YRet)) [Some show_scope]); [|reflexivity].
    intros c [H|[]]. injection H as <-. apply show_scope_usable.
  - eexists. split; [reflexivity|vm_compute; reflexivity].
Qed.
