(** C74: htmx.Headers and HeadersJS, against the Go source. *)
From Coq Require Import ZArith Permutation Sorting.Sorted Lia.
From Verif Require Import Bytes IO IOFacts Nodes Values Render Slices Build SpecRun Headers PropHeaders HeadersRun
  GoSyntax SourceLib Source GoSem GoRun GoRep GoStep GoOwn RefineUser RefineIter RefineNew RefineMake RefineProgram RefineHeaders GoExamples Demo.
Local Open Scope nat_scope.

Section Claims.
Context {W : UserWorld}.
Variable M : go_mode.
Hypothesis MO : mode_ok M.
Notation C := (go_config M).
Definition call_headers (cv : gv) : prog (list gv) := PCall (CFun "htmx.Headers") [cv] true PRet.
Definition call_headers_js (cv : gv) : prog (list gv) := PCall (CFun "htmx.HeadersJS") [cv] true PRet.

(** Whether Headers of the model panics does not depend on the order of the maps. *)
Lemma loop_flags r value : forall t b c m, fst (fst (headers_loop r t value b c m)) = flags value b c.
Proof.
  induction value as [|[hm|a] value IH]; intros t b c m; cbn [headers_loop flags]; [reflexivity| |].
  - destruct c; [reflexivity|]. apply IH.
  - destruct b; [reflexivity|]. apply IH.
Qed.
Lemma headers_panics r value u : Headers r value u = Panic <-> mixed value = true.
Proof.
  unfold Headers, mixed. pose proof (loop_flags r value 0 false false []) as F. destruct (headers_loop r 0 value false false []) as [[[b c] m] t]. cbn [fst] in F. rewrite <- F.
  destruct (c && b); [split; reflexivity|]. split; [|discriminate]. destruct b.
  - destruct (NewConcatValue _ u). discriminate.
  - discriminate.
Qed.

(** The call of the source gives the attribute that the model gives, calls the
    same user code, writes nothing, and changes no object that was there: not
    the maps either.  It panics exactly when the model does. *)
Theorem C74_headers E w r h cv xs value :
  ord_ok (e_ord E) -> ranges_ok r -> (forall m, In (HMap m) value -> hmap_ok m) -> slice_is h cv xs -> all2 (harg_rep M h) xs value ->
  match Headers r value (w_u w) with
  | Done (n, u') => exists k v h' w', go_run C k E (call_headers cv) h w = Some (ROk [v] h' w') /\
      new_attr M h h' v n /\ grown h h' /\ w_log w' = w_log w /\ w_u w' = u'
  | Panic => exists k w', go_run C k E (call_headers cv) h w = Some (RPanic w')
  end.
Proof.
  intros O R OK Hs HA. pose proof (headers_run E O r R value w OK) as H. pose proof (headers_panics r value (w_u w)) as HP.
  destruct (sim_cases (P := mixed value = true) _ _ _ _ _ (Headers_spec M MO h cv xs value Hs HA) E w O) as [(k & vs & h' & X & n & X1 & v & -> & X2 & X3)|(X & k & w' & Y)].
  - destruct (Headers r value (w_u w)) as [[n' u']|]; [|rewrite H in X1; discriminate]. destruct H as (H1 & H2 & H3). rewrite H1 in X1. injection X1 as ->.
    exists k, v, h', (snd (run E (headers_io value) w)). auto.
  - apply HP in X. rewrite X. exists k, w'. exact Y.
Qed.
Theorem C74_headers_js E w r h cv xs value :
  ord_ok (e_ord E) -> ranges_ok r -> Forall hmap_ok value -> slice_is h cv xs -> all2 (map_rep M h) xs value ->
  exists k v h' w', go_run C k E (call_headers_js cv) h w = Some (ROk [v] h' w') /\
    new_attr M h h' v (fst (HeadersJS r value (w_u w))) /\ grown h h' /\ w_log w' = w_log w /\ w_u w' = snd (HeadersJS r value (w_u w)).
Proof.
  intros O R OK Hs HA. pose proof (headers_js_run E O r R value w OK) as (H1 & H2 & H3).
  destruct (sim_never _ _ _ _ _ (HeadersJS_spec M MO h cv xs value Hs HA) E w O) as (k & vs & h' & X & v & -> & X2 & X3). rewrite H1 in X2.
  exists k, v, h', (snd (run E (headers_js_io value) w)). auto.
Qed.

(** Mixing header maps with other arguments is a panic of the source, whatever the orders. *)
Theorem C74_mixture E w h cv xs value m a :
  ord_ok (e_ord E) -> (forall m, In (HMap m) value -> hmap_ok m) -> slice_is h cv xs -> all2 (harg_rep M h) xs value ->
  In (HMap m) value -> In (HOther a) value -> exists k w', go_run C k E (call_headers cv) h w = Some (RPanic w').
Proof.
  intros O OK Hs HA I1 I2. pose proof (C74_headers E w (fun _ m => m) h cv xs value O (fun _ _ => Permutation_refl _) OK Hs HA) as H.
  rewrite (proj2 (C37_mixture (fun _ m => m) value (w_u w))) in H; [exact H|eauto].
Qed.

(** ** The attribute rendered *)
Definition then_render (p : prog (list gv)) (fr : frame U) : prog (option error * option error) :=
  pbind p (fun vs => pbind (one vs) (fun v => render_value v fr None)).
Lemma then_renders p h E w k v n h' w' fr : ord_ok (e_ord E) -> go_run C k E p h w = Some (ROk [v] h' w') -> new_attr M h h' v n ->
  exists k' h2, go_run C k' E (then_render p fr) h w = Some (ROk (fst (run E (render n fr None) w')) h2 (snd (run E (render n fr None) w'))).
Proof.
  intros O X (l & a & -> & -> & _ & A & _).
  destruct (sim_never _ _ _ _ _ (render_value_spec M MO (VPtr l) (NAttr a) h' fr None A I) E w' O) as (k2 & x & h2 & Y & Y1 & _). subst x.
  exists (k + k2), h2. unfold then_render. eapply run_bind; [exact X|]. exact Y.
Qed.

Lemma entries_unique (l1 l2 : list (bytes * arg U)) :
  StronglySorted below (map fst l1) -> StronglySorted below (map fst l2) -> (forall x v, In (x, v) l1 <-> In (x, v) l2) -> l1 = l2.
Proof.
  intros S1 S2 H.
  assert (K : map fst l1 = map fst l2).
  { apply sorted_unique; auto. intro x. rewrite !in_map_iff. split; intros ([y v] & <- & I); exists (y, v); (split; [reflexivity|]); apply H, I. }
  assert (ND : forall l, StronglySorted below l -> NoDup l).
  { induction 1 as [|x l SS IH F]; constructor; auto. intro I. rewrite Forall_forall in F. exact (below_irrefl _ (F _ I)). }
  pose proof (ND _ S1) as N1. clear S1 S2 ND. revert l2 H K. induction l1 as [|[x v] l1 IH]; intros [|[y v2] l2] H K; try discriminate; [reflexivity|].
  cbn [map fst] in *. injection K as <- K. inversion N1 as [|? ? N2 N3]; subst.
  assert (v2 = v).
  { destruct (proj1 (H x v) (or_introl eq_refl)) as [X|X]; [congruence|]. exfalso. apply N2. rewrite K. change x with (fst (x, v)). apply in_map, X. }
  subst v2. f_equal. apply IH; auto. intros z w. split; intro I.
  - destruct (proj1 (H z w) (or_intror I)) as [X|X]; [|exact X]. injection X as <- <-. exfalso. apply N2. change x with (fst (x, v)). apply in_map, I.
  - destruct (proj2 (H z w) (or_intror I)) as [X|X]; [|exact X]. injection X as <- <-. exfalso. apply N2. rewrite K. change x with (fst (x, v)). apply in_map, I.
Qed.

(** What the source shows for header maps: an object with each key once, in
    ascending order, with the value of the last map that has it. *)
Theorem C74_shown o u t h cv xs ms fr :
  ord_ok o -> Forall hmap_ok ms -> ms <> [] -> slice_is h cv xs -> all2 (map_rep M h) xs ms ->
  exists es k res h' w' t1,
    StronglySorted below (map fst es) /\ (forall x v, In (x, v) es <-> last_entry ms x v) /\
    go_run C k (Env healthy o) (then_render (call_headers cv) fr) h (World [] u t) = Some (ROk res h' w') /\
    (accepted (w_log w'), (w_u w', w_tick w')) =
      page o (fst (NewAttribute (B "hx-headers") (object es) u)) fr (snd (NewAttribute (B "hx-headers") (object es) u), t1).
Proof.
  intros O OK N Hs HA. set (r := fun (_ : nat) (m : @hmap W) => m). assert (R : ranges_ok r) by (intros ? ?; apply Permutation_refl).
  assert (HA' : all2 (harg_rep M h) xs (map HMap ms)).
  { clear -HA. revert xs HA. induction ms as [|m ms IH]; intros xs HA; [exact HA|]. destruct HA as (x & xs' & -> & H1 & H2). cbn [map all2]. eexists _, _. split; [reflexivity|]. split; [exact H1|auto]. }
  assert (OK' : forall m, In (HMap m) (map HMap ms) -> hmap_ok m).
  { intros m Hm. apply in_map_iff in Hm. destruct Hm as (m' & X & Hm). injection X as ->. rewrite Forall_forall in OK. auto. }
  pose proof (C74_headers (Env healthy o) (World [] u t) r h cv xs (map HMap ms) O R OK' Hs HA') as H. cbn [w_u w_log] in H.
  assert (K : exists es, StronglySorted below (map fst es) /\ (forall x v, In (x, v) es <-> last_entry ms x v) /\
    forall s, exists n u', Headers r (map HMap ms) u = Done (n, u') /\ page o n fr s = page o (fst (NewAttribute (B "hx-headers") (object es) u)) fr s /\ u' = snd (NewAttribute (B "hx-headers") (object es) u)).
  { destruct (C36_headers o fr r ms u (u, t) R OK N) as (es & _ & _ & E1 & E2 & _). exists es. split; [exact E1|]. split; [exact E2|]. intro s.
    destruct (C36_headers o fr r ms u s R OK N) as (es' & n & u' & E1' & E2' & E3 & E4 & E5).
    assert (es' = es); [|subst; eauto].
    eapply entries_unique; eauto. intros x v. rewrite E2, E2'. reflexivity. }
  destruct K as (es & E1 & E2 & K).
  destruct (Headers r (map HMap ms) u) as [[n u']|] eqn:HE; [|destruct (K (u, t)) as (n & u' & X & _); discriminate].
  destruct H as (k & v & h' & w' & X & A & G & L & U').
  destruct (then_renders _ _ (Env healthy o) _ _ _ _ _ _ fr O X A) as (k' & h2 & Y).
  destruct (K (u', w_tick w')) as (n1 & u1 & Z & P1 & P2). injection Z as <- <-.
  eexists es, k', _, h2, _, (w_tick w'). split; [exact E1|]. split; [exact E2|]. split; [exact Y|]. rewrite <- P2, <- P1. unfold page. cbn [fst snd].
  destruct w' as [lg uu tt']. cbn [w_log w_u w_tick] in *. subst lg uu. reflexivity.
Qed.
Theorem C74_shown_js o u t h cv xs ms fr :
  ord_ok o -> Forall hmap_ok ms -> slice_is h cv xs -> all2 (map_rep M h) xs ms ->
  exists es k res h' w' t1,
    StronglySorted below (map fst es) /\ (forall x v, In (x, v) es <-> last_entry ms x v) /\
    go_run C k (Env healthy o) (then_render (call_headers_js cv) fr) h (World [] u t) = Some (ROk res h' w') /\
    (accepted (w_log w'), (w_u w', w_tick w')) =
      page o (fst (NewAttribute (B "hx-headers") (raw (B "js:") :: object es) u)) fr (snd (NewAttribute (B "hx-headers") (raw (B "js:") :: object es) u), t1).
Proof.
  intros O OK Hs HA. set (r := fun (_ : nat) (m : @hmap W) => m). assert (R : ranges_ok r) by (intros ? ?; apply Permutation_refl).
  destruct (C74_headers_js (Env healthy o) (World [] u t) r h cv xs ms O R OK Hs HA) as (k & v & h' & w' & X & A & G & L & U'). cbn [w_u w_log] in *.
  destruct (then_renders _ _ (Env healthy o) _ _ _ _ _ _ fr O X A) as (k' & h2 & Y).
  destruct (C36_headers_js o fr r ms u (w_u w', w_tick w') R OK) as (es & E1 & E2 & E3 & E4).
  eexists es, k', _, h2, _, (w_tick w'). split; [exact E1|]. split; [exact E2|]. split; [exact Y|]. rewrite <- E4, <- U', <- E3. unfold page. cbn [fst snd].
  destruct w' as [lg uu tt']. cbn [w_log w_u w_tick] in *. subst lg. reflexivity.
Qed.
End Claims.

(** ** Two maps *)
(** Two maps, lists of both, and one that mixes a map with nil. *)
Definition two_maps : list (@obj demo) :=
  [OMap [(B "b", VAny (GInt 1)); (B "a""", VAny (GString (B "<")))];
   OMap [(B "c", VAny (GBool true)); (B "b", VKey (B "name"))];
   OArr [VMap 0; VMap 1]; OArr [VMap 0; VNil]].
Example C74_hyps :
  Forall hmap_ok demo_headers /\ slice_is two_maps (VSlice 2 2) [VMap 0; VMap 1] /\ all2 (map_rep the_mode two_maps) [VMap 0; VMap 1] demo_headers /\
  slice_is two_maps (VSlice 3 2) [VMap 0; VNil] /\
  all2 (harg_rep the_mode two_maps) [VMap 0; VNil] [HMap (hd [] demo_headers); HOther (AData GNil)].
Proof.
  assert (M0 : map_rep the_mode two_maps (VMap 0) (hd [] demo_headers)).
  { eexists 0, _. split; [reflexivity|]. split; [reflexivity|]. cbn. eexists _, _. split; [reflexivity|]. split; [split; [reflexivity|left; reflexivity]|]. eexists _, _. split; [reflexivity|]. split; [split; [reflexivity|left; reflexivity]|reflexivity]. }
  split; [apply demo_headers_ok|]. split; [eexists; split; [reflexivity|]; split; [cbn; lia|reflexivity]|]. split.
  { cbn [all2 demo_headers]. eexists _, _. split; [reflexivity|]. split; [exact M0|]. eexists _, _. split; [reflexivity|]. split; [|reflexivity].
    eexists 1, _. split; [reflexivity|]. split; [reflexivity|]. cbn. eexists _, _. split; [reflexivity|]. split; [split; [reflexivity|left; reflexivity]|]. eexists _, _. split; [reflexivity|]. split; [split; reflexivity|reflexivity]. }
  split; [eexists; split; [reflexivity|]; split; [cbn; lia|reflexivity]|].
  cbn [all2]. eexists _, _. split; [reflexivity|]. split; [exact M0|]. eexists _, _. split; [reflexivity|]. split; [|reflexivity]. left. reflexivity.
Qed.
Definition headers_text (p : prog (list gv)) : option (option bytes) :=
  match go_run (go_config the_mode) 3000 E0 (then_render p fr0) two_maps (World [] (st 0) 0) with
  | Some (ROk _ _ w) => Some (Some (accepted (w_log w)))
  | Some (RPanic _) => Some None
  | _ => None
  end.
Example C74_example :
  headers_text (call_headers (VSlice 2 2)) = Some (Some (B " hx-headers=""{'a&quot;': &lt;, 'b': a&lt;b, 'c': true}""")) /\
  headers_text (call_headers_js (VSlice 2 2)) = Some (Some (B " hx-headers=""js:{'a&quot;': &lt;, 'b': a&lt;b, 'c': true}""")) /\
  headers_text (call_headers_js (VSlice 2 1)) = Some (Some (B " hx-headers=""js:{'a&quot;': &lt;, 'b': 1}""")) /\
  headers_text (call_headers_js VNil) = Some (Some (B " hx-headers=""js:{}""")) /\
  headers_text (call_headers (VSlice 3 2)) = Some None.
Proof. vm_compute. auto. Qed.
