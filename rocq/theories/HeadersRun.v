(** htmx.Headers and HeadersJS as programs that pick the order of map iteration
    when they come to it, and that they give what [Headers.v] says. *)
From Coq Require Import Permutation Lia.
From Verif Require Import Bytes IO IOFacts Nodes Values Render Slices Build Headers PropHeaders.
Local Open Scope nat_scope.

Section Run.
Context {W : UserWorld}.

Definition call_back {D : Type} (fn : U -> D * U) : io U D := Cb (fun u => let '(d, u') := fn u in (Ret d, u')).

(** The entries in the order of these keys. *)
Definition in_order (m : @hmap W) (ks : list bytes) : @hmap W :=
  flat_map (fun k => match hget m k with Some v => [(k, v)] | None => [] end) ks.
(** [for k, v := range hm { into[k] = v }] *)
Definition merge_io (into hm : @hmap W) : io U (@hmap W) :=
  Pick (map fst hm) (fun o => Ret (hset_all into (in_order hm o))).
Fixpoint merge_all_io (into : @hmap W) (ms : list (@hmap W)) : io U (@hmap W) :=
  match ms with
  | [] => Ret into
  | hm :: ms' => bind (merge_io into hm) (fun m => merge_all_io m ms')
  end.
Fixpoint headers_loop_io (value : list (@harg W)) (foundHeadersMap foundOthers : bool) (merged : @hmap W)
  : io U (bool * bool * @hmap W) :=
  match value with
  | [] => Ret (foundHeadersMap, foundOthers, merged)
  | HMap hm :: rest =>
      if foundOthers then Ret (true, true, merged)
      else bind (merge_io merged hm) (fun m => headers_loop_io rest true false m)
  | HOther _ :: rest =>
      if foundHeadersMap then Ret (true, true, merged)
      else headers_loop_io rest false true merged
  end.
Definition serialize_io (m : @hmap W) (prefix : bytes) : io U (list (arg U)) :=
  Pick (map fst m) (fun o =>
    Ret ((match prefix with [] => [] | _ => [AData (GBytes prefix)] end) ++
         AData (GBytes (B "{")) :: serialize_keys m [] (sort_strings o) ++ [AData (GBytes (B "}"))])).
Definition attribute_io (m : @hmap W) (prefix : bytes) : io U (node U) :=
  bind (serialize_io m prefix) (fun args =>
  bind (call_back (NewConcatValue args)) (fun v =>
  call_back (NewAttribute (B "hx-headers") [AVal v]))).
(** [None]: a panic. *)
Definition headers_io (value : list (@harg W)) : io U (option (node U)) :=
  bind (headers_loop_io value false false []) (fun '(foundHeadersMap, foundOthers, merged) =>
  if foundOthers && foundHeadersMap then Ret None
  else if foundHeadersMap then bind (attribute_io merged []) (fun n => Ret (Some n))
  else bind (call_back (NewAttribute (B "hx-headers") (map arg_of value))) (fun n => Ret (Some n))).
Definition headers_js_io (value : list (@hmap W)) : io U (node U) :=
  match value with
  | [m] => attribute_io m (B "js:")
  | _ => bind (merge_all_io [] value) (fun m => attribute_io m (B "js:"))
  end.

(** ** What they give *)
Lemma in_order_In (m : @hmap W) k v ks : In (k, v) (in_order m ks) <-> In k ks /\ hget m k = Some v.
Proof.
  unfold in_order. rewrite in_flat_map. split.
  - intros (x & Hx & H). destruct (hget m x) as [y|] eqn:E; [|contradiction]. destruct H as [H|[]]. injection H as -> ->. auto.
  - intros [Hk E]. exists k. rewrite E. split; [exact Hk|left; reflexivity].
Qed.
Lemma in_order_keys (m : @hmap W) ks : (forall k, In k ks -> In k (map fst m)) -> map fst (in_order m ks) = ks.
Proof.
  induction ks as [|k ks IH]; [reflexivity|]. intro H. cbn [in_order flat_map]. rewrite map_app. fold (in_order m ks). rewrite IH by (intros; apply H; right; auto).
  destruct (hget m k) eqn:E; [reflexivity|]. apply hget_None in E. destruct E. apply H. left. reflexivity.
Qed.
Lemma in_order_ok (m : @hmap W) ks : hmap_ok m -> Permutation (map fst m) ks -> hmap_ok (in_order m ks) /\ forall k, hget (in_order m ks) k = hget m k.
Proof.
  intros H P. assert (K : hmap_ok (in_order m ks)).
  { unfold hmap_ok. rewrite in_order_keys; [eapply Permutation_NoDup; eauto|]. intros k. apply Permutation_in, Permutation_sym, P. }
  split; [exact K|]. intro k. destruct (hget m k) as [v|] eqn:E.
  - apply (hget_In _ _ _ K). apply in_order_In. split; [|exact E]. eapply Permutation_in; [exact P|]. apply (hget_In _ _ _ H) in E.
    change k with (fst (k, v)). apply in_map, E.
  - apply hget_None. rewrite in_order_keys; [|intros x; apply Permutation_in, Permutation_sym, P]. apply hget_None in E. intro X. apply E.
    eapply Permutation_in; [apply Permutation_sym, P|exact X].
Qed.

Variable E : env.
Hypothesis O : ord_ok (e_ord E).
Variable r : @ranges W.
Hypothesis R : ranges_ok r.

(** Only the clock of the map iterations has moved. *)
Definition later (w w' : world U) : Prop := w_log w' = w_log w /\ w_u w' = w_u w.
Definition same_map (m m' : @hmap W) : Prop := hmap_ok m /\ hmap_ok m' /\ forall k, hget m k = hget m' k.

Lemma merge_run m m' hm t w : same_map m m' -> hmap_ok hm ->
  same_map (fst (run E (merge_io m hm) w)) (hset_all m' (r t hm)) /\ later w (snd (run E (merge_io m hm) w)).
Proof.
  intros (H1 & H2 & H3) H. cbn [run merge_io fst snd]. split; [|split; reflexivity].
  destruct (in_order_ok hm (e_ord E (w_tick w) (map fst hm)) H (O _ _)) as [K1 K2]. destruct (range_ok r t hm R H) as [L1 L2].
  split; [apply hset_all_ok, H1|]. split; [apply hset_all_ok, H2|]. intro k. rewrite !hget_hset_all, K2, L2, H3 by auto. reflexivity.
Qed.
Lemma headers_loop_run value : (forall m, In (HMap m) value -> hmap_ok m) -> forall t b c m m' w, same_map m m' ->
  let '(b1, c1, m1) := fst (run E (headers_loop_io value b c m) w) in
  let '(b2, c2, m2, _) := headers_loop r t value b c m' in
  b1 = b2 /\ c1 = c2 /\ same_map m1 m2 /\ later w (snd (run E (headers_loop_io value b c m) w)).
Proof.
  induction value as [|[hm|a] value IH]; intros OK t b c m m' w S; cbn [headers_loop_io headers_loop].
  - cbn [run fst snd]. split; [auto|]. split; [auto|]. split; [exact S|split; reflexivity].
  - destruct c.
    + cbn [run fst snd]. split; [auto|]. split; [auto|]. split; [exact S|split; reflexivity].
    + rewrite run_bind. destruct (merge_run m m' hm t w S (OK _ (or_introl eq_refl))) as [S1 L1].
      destruct (run E (merge_io m hm) w) as [m1 w1]. cbn [fst snd] in *.
      specialize (IH (fun m H => OK m (or_intror H)) (Datatypes.S t) true false m1 _ w1 S1).
      destruct (run E (headers_loop_io value true false m1) w1) as [[[b1 c1] m2] w2]. cbn [fst snd] in *.
      destruct (headers_loop r (Datatypes.S t) value true false (hset_all m' (r t hm))) as [[[b2 c2] m3] t2].
      destruct IH as (-> & -> & S2 & L2). split; [auto|]. split; [auto|]. split; [exact S2|]. destruct L1, L2. split; congruence.
  - destruct b.
    + cbn [run fst snd]. split; [auto|]. split; [auto|]. split; [exact S|split; reflexivity].
    + apply IH; [|exact S]. intros x H. apply OK. right. exact H.
Qed.
Lemma merge_all_run ms : Forall hmap_ok ms -> forall t m m' w, same_map m m' ->
  same_map (fst (run E (merge_all_io m ms) w)) (fst (merges r ms (m', t))) /\ later w (snd (run E (merge_all_io m ms) w)).
Proof.
  induction ms as [|hm ms IH]; intros OK t m m' w S; cbn [merge_all_io].
  - split; [exact S|split; reflexivity].
  - inversion OK as [|x xs H1 H2]; subst. rewrite run_bind. destruct (merge_run m m' hm t w S H1) as [S1 L1].
    destruct (run E (merge_io m hm) w) as [m1 w1]. cbn [fst snd] in *. unfold merges. cbn [fold_left]. fold (merges r ms (hset_all m' (r t hm), Datatypes.S t)).
    destruct (IH H2 (Datatypes.S t) m1 _ w1 S1) as [S2 L2]. split; [exact S2|]. destruct L1, L2. split; congruence.
Qed.
Lemma same_permutation (l l' : list bytes) : NoDup l -> NoDup l' -> (forall x, In x l <-> In x l') -> sort_strings l = sort_strings l'.
Proof.
  intros N N' H. apply sorted_unique; try (apply sort_sorted; auto).
  intro x. rewrite <- (Permutation_in' eq_refl (sort_perm l)), <- (Permutation_in' eq_refl (sort_perm l')). apply H.
Qed.
Lemma serialize_keys_ext (m m' : @hmap W) ks : (forall k, hget m k = hget m' k) -> forall d, serialize_keys m d ks = serialize_keys m' d ks.
Proof. intro H. induction ks as [|k ks IH]; intro d; cbn [serialize_keys]; [reflexivity|]. rewrite H, IH. reflexivity. Qed.
Lemma serialize_run m m' p t w : same_map m m' ->
  fst (run E (serialize_io m p) w) = serialize r t m' p /\ later w (snd (run E (serialize_io m p) w)).
Proof.
  intros (H1 & H2 & H3). cbn [run serialize_io fst snd]. split; [|split; reflexivity]. unfold serialize. cbv zeta.
  assert (K : sort_strings (e_ord E (w_tick w) (map fst m)) = sort_strings (map fst (r t m'))).
  { apply same_permutation.
    - eapply Permutation_NoDup; [apply O|exact H1].
    - apply (range_ok r t m' R H2).
    - intro x. rewrite <- (Permutation_in' eq_refl (O (w_tick w) (map fst m))). destruct (range_ok r t m' R H2) as [_ L].
      assert (Hm : forall a : @hmap W, In x (map fst a) <-> hget a x <> None).
      { intro a. split; [intros Hx N; apply hget_None in N; auto|]. intro N. destruct (in_dec (list_eq_dec Ascii.ascii_dec) x (map fst a)) as [Y|Y]; [exact Y|]. apply hget_None in Y. contradiction. }
      rewrite !Hm, L, H3. reflexivity. }
  rewrite K, (serialize_keys_ext m m' _ H3). reflexivity.
Qed.
Lemma attribute_run m m' p t w : same_map m m' ->
  let '(v, u1) := NewConcatValue (serialize r t m' p) (w_u w) in
  fst (run E (attribute_io m p) w) = fst (NewAttribute (B "hx-headers") [AVal v] u1) /\
  w_log (snd (run E (attribute_io m p) w)) = w_log w /\
  w_u (snd (run E (attribute_io m p) w)) = snd (NewAttribute (B "hx-headers") [AVal v] u1).
Proof.
  intro S. destruct (serialize_run m m' p t w S) as [S1 [L1 L2]]. unfold attribute_io. rewrite run_bind. destruct (run E (serialize_io m p) w) as [args w1].
  cbn [fst snd] in *. subst args. rewrite <- L2, <- L1. unfold call_back. cbn [bind run]. destruct (NewConcatValue _ (w_u w1)) as [v u1].
  cbn [bind run w_u w_log]. destruct (NewAttribute _ _ u1) as [n u2]. auto.
Qed.

(** Whatever order was picked, the result is the one of [Headers]. *)
Theorem headers_run value w : (forall m, In (HMap m) value -> hmap_ok m) ->
  match Headers r value (w_u w) with
  | Done (n, u') => fst (run E (headers_io value) w) = Some n /\ w_log (snd (run E (headers_io value) w)) = w_log w /\ w_u (snd (run E (headers_io value) w)) = u'
  | Panic => fst (run E (headers_io value) w) = None
  end.
Proof.
  intro OK. unfold Headers, headers_io. rewrite run_bind.
  pose proof (headers_loop_run value OK 0 false false [] [] w) as H. specialize (H (conj (NoDup_nil _) (conj (NoDup_nil _) (fun _ => eq_refl)))).
  destruct (run E (headers_loop_io value false false []) w) as [[[b1 c1] m1] w1]. cbn [fst snd] in *.
  destruct (headers_loop r 0 value false false []) as [[[b2 c2] m2] t]. destruct H as (-> & -> & S & [L1 L2]). destruct (c2 && b2); [reflexivity|]. destruct b2.
  - pose proof (attribute_run m1 m2 [] t w1 S) as A. rewrite L2 in A. destruct (NewConcatValue _ (w_u w)) as [v u1].
    rewrite run_bind. destruct (run E (attribute_io m1 []) w1) as [n w2]. cbn [fst snd run] in *. destruct A as (-> & A2 & A3).
    destruct (NewAttribute _ _ u1) as [n' u2]. cbn [fst snd] in *. split; [reflexivity|]. split; congruence.
  - unfold call_back. cbn [bind run]. rewrite L2. destruct (NewAttribute _ _ (w_u w)) as [n u2]. cbn [bind run fst snd w_log w_u]. auto.
Qed.
Theorem headers_js_run value w : Forall hmap_ok value ->
  fst (run E (headers_js_io value) w) = fst (HeadersJS r value (w_u w)) /\
  w_log (snd (run E (headers_js_io value) w)) = w_log w /\
  w_u (snd (run E (headers_js_io value) w)) = snd (HeadersJS r value (w_u w)).
Proof.
  intro OK. unfold HeadersJS, headers_js_io.
  assert (G : let '(merged, t) := merges r value ([], 0) in
    let '(v, u1) := NewConcatValue (serialize r t merged (B "js:")) (w_u w) in
    let p := bind (merge_all_io [] value) (fun m => attribute_io m (B "js:")) in
    fst (run E p w) = fst (NewAttribute (B "hx-headers") [AVal v] u1) /\ w_log (snd (run E p w)) = w_log w /\
    w_u (snd (run E p w)) = snd (NewAttribute (B "hx-headers") [AVal v] u1)).
  { destruct (merge_all_run value OK 0 [] [] w (conj (NoDup_nil _) (conj (NoDup_nil _) (fun _ => eq_refl)))) as [S [L1 L2]].
    change (merges r value ([], 0)) with (merges r value (@nil (bytes * arg U), 0)) in S. revert S.
    destruct (merges r value ([], 0)) as [merged t]. intro S. cbv zeta. rewrite run_bind.
    change (@nil (bytes * arg U)) with (@nil (bytes * arg U) : @hmap W) in *. destruct (run E (merge_all_io [] value) w) as [m1 w1]. cbn [fst snd] in *.
    pose proof (attribute_run m1 merged (B "js:") t w1 S) as A. rewrite L1, L2 in A. exact A. }
  unfold merges in G. destruct value as [|m1 [|m2 ms]].
  - destruct (fold_left _ _ _) as [merged t]. destruct (NewConcatValue _ _) as [v u1]. exact G.
  - inversion OK; subst. pose proof (attribute_run m1 m1 (B "js:") 0 w (conj H1 (conj H1 (fun _ => eq_refl)))) as A.
    destruct (NewConcatValue _ _) as [v u1]. exact A.
  - destruct (fold_left _ _ _) as [merged t]. destruct (NewConcatValue _ _) as [v u1]. exact G.
Qed.

End Run.
