(** C36 C37: htmx headers. *)
From Coq Require Import Permutation Sorted ZArith Lia.
From Verif Require Import Bytes IO IOFacts Escape SpecEscape EscapeFacts Nodes NodeInd Values Render
  Slices Build Api SpecOut SpecRun SpecElem RenderFacts AttrFacts ApiFacts PageFacts CondFacts
  TagFacts PropValues PropElements Demo SpecHtml HtmlFacts SpecSafe PropSafe Headers.

(** ** The specification *)

(** Ascending order of byte strings. *)
Inductive below : bytes -> bytes -> Prop :=
| below_nil c b : below [] (c :: b)
| below_head x y a b : nat_of_ascii x < nat_of_ascii y -> below (x :: a) (y :: b)
| below_tail c a b : below a b -> below (c :: a) (c :: b).

Section Spec.
Context {W : UserWorld}.

(** [v] is the value of [k] in the last of the maps that has [k]. *)
Definition last_entry (ms : list (@hmap W)) (k : bytes) (v : arg U) : Prop :=
  exists pre m post, ms = pre ++ m :: post /\ In (k, v) m /\
    forall m', In m' post -> ~ In k (map fst m').

(** The object as a list of values: braces around the entries, each the quoted
    key, a colon and the value, separated by commas. *)
Definition raw (s : bytes) : arg U := AData (GBytes s).
Definition item (e : bytes * arg U) : list (arg U) :=
  [raw (B "'"); raw (quote_key (fst e)); raw (B "': "); snd e].
Fixpoint items (es : list (bytes * arg U)) : list (arg U) :=
  match es with
  | [] => []
  | [e] => item e
  | e :: es' => item e ++ raw (B ", ") :: items es'
  end.
Definition object (es : list (bytes * arg U)) : list (arg U) := raw (B "{") :: items es ++ [raw (B "}")].

End Spec.

(** ** Order facts *)

Lemma below_irrefl a : ~ below a a.
Proof. induction a as [|c a IH]; intro H; inversion H; subst; try lia; auto. Qed.
Lemma below_trans a b c : below a b -> below b c -> below a c.
Proof.
  revert b c; induction a as [|x a IH]; intros b c H1 H2; inversion H1; subst; inversion H2; subst;
    try apply below_nil; try (apply below_head; lia); apply below_tail; eauto.
Qed.
Lemma bltb_below a b : bltb a b = true <-> below a b.
Proof.
  revert b; induction a as [|x a IH]; intros [|y b]; cbn [bltb].
  - split; [discriminate|]. intro H. inversion H.
  - split; auto. intro. constructor.
  - split; [discriminate|]. intro H. inversion H.
  - destruct (Ascii.eqb_spec x y) as [->|N].
    + rewrite IH. split; intro H; [apply below_tail; auto|]. inversion H; subst; auto. lia.
    + rewrite Nat.ltb_lt. split; intro H; [constructor; auto|]. inversion H; subst; auto. congruence.
Qed.
Lemma below_total a b : a = b \/ below a b \/ below b a.
Proof.
  revert b; induction a as [|x a IH]; intros [|y b]; auto.
  - right; left; constructor.
  - right; right; constructor.
  - destruct (Nat.lt_trichotomy (nat_of_ascii x) (nat_of_ascii y)) as [H|[H|H]].
    + right; left; constructor; auto.
    + assert (x = y) as ->. { rewrite <- (ascii_nat_embedding x), <- (ascii_nat_embedding y). congruence. }
      destruct (IH b) as [->|[H'|H']]; auto; [right; left|right; right]; apply below_tail; auto.
    + right; right; constructor; auto.
Qed.

Lemma insert_perm s l : Permutation (s :: l) (insert_string s l).
Proof.
  induction l as [|x l IH]; cbn [insert_string]; auto. destruct (bltb x s); auto.
  eapply perm_trans; [apply perm_swap|]. constructor. auto.
Qed.
Lemma sort_perm l : Permutation l (sort_strings l).
Proof.
  induction l as [|x l IH]; cbn [sort_strings fold_right]; auto.
  eapply perm_trans; [|apply insert_perm]. constructor. auto.
Qed.
Lemma insert_sorted s l :
  StronglySorted below l -> ~ In s l -> StronglySorted below (insert_string s l).
Proof.
  induction 1 as [|x l S IH F]; intro N; cbn [insert_string].
  - constructor; constructor.
  - destruct (bltb x s) eqn:E.
    + constructor; [apply IH; intro; apply N; right; auto|].
      eapply Permutation_Forall; [apply insert_perm|]. constructor; auto. apply bltb_below. auto.
    + assert (L : below s x).
      { destruct (below_total s x) as [->|[?|H]]; auto.
        - exfalso. apply N. left. auto.
        - apply bltb_below in H. congruence. }
      constructor; [constructor; auto|]. constructor; auto.
      eapply Forall_impl; [|exact F]. intros y Hy. eapply below_trans; eauto.
Qed.
Lemma sort_sorted l : NoDup l -> StronglySorted below (sort_strings l).
Proof.
  induction 1 as [|x l N _ IH]; cbn [sort_strings fold_right]; [constructor|].
  apply insert_sorted; auto. intro H. apply N.
  eapply Permutation_in; [apply Permutation_sym, sort_perm|]. exact H.
Qed.
(** An ascending list is determined by its elements. *)
Lemma sorted_unique l1 l2 :
  StronglySorted below l1 -> StronglySorted below l2 -> (forall x, In x l1 <-> In x l2) -> l1 = l2.
Proof.
  intro S1. revert l2; induction S1 as [|x l1 S1 IH F1]; intros l2 S2 H.
  - destruct l2 as [|y l2]; auto. destruct (proj2 (H y)). left; auto.
  - destruct S2 as [|y l2 S2 F2]. { destruct (proj1 (H x)). left; auto. }
    rewrite Forall_forall in F1, F2.
    assert (x = y) as <-.
    { destruct (proj1 (H x)) as [E|E]; [left; auto|auto|].
      destruct (proj2 (H y)) as [E'|E']; [left; auto|auto|].
      exfalso. apply (below_irrefl x). eapply below_trans; [apply F1|apply F2]; eauto. }
    f_equal. apply IH; auto. intro z. split; intro Hz.
    + destruct (proj1 (H z)) as [E|E]; [right; auto| |auto]. subst z.
      exfalso. apply (below_irrefl x). auto.
    + destruct (proj2 (H z)) as [E|E]; [right; auto| |auto]. subst z.
      exfalso. apply (below_irrefl x). auto.
Qed.

(** ** Map facts *)

Section Maps.
Context {W : UserWorld}.
Implicit Types (m : @hmap W) (r : @ranges W).

Lemma hget_In m k v : hmap_ok m -> (hget m k = Some v <-> In (k, v) m).
Proof.
  unfold hmap_ok. induction m as [|[k' v'] m IH]; cbn [hget map fst In]; intro N.
  - split; [discriminate|tauto].
  - inversion N; subst. destruct (beq_spec k' k) as [->|D].
    + split; [intros [= ->]; auto|]. intros [[= ->]|H]; auto.
      exfalso. apply H1. change k with (fst (k, v)). apply in_map. auto.
    + rewrite IH by auto. split; auto. intros [[= -> ->]|H]; [congruence|auto].
Qed.
Lemma hget_None m k : hget m k = None <-> ~ In k (map fst m).
Proof.
  induction m as [|[k' v'] m IH]; cbn [hget map fst In]; [tauto|].
  destruct (beq_spec k' k) as [->|D].
  - split; [discriminate|tauto].
  - rewrite IH. tauto.
Qed.
Lemma hset_keys m k v : map fst (hset m k v) = if bmem k (map fst m) then map fst m else map fst m ++ [k].
Proof.
  induction m as [|[k' v'] m IH]; cbn [hset map fst bmem existsb app]; auto.
  rewrite (beq_sym k k'). destruct (beq_spec k' k) as [->|D]; cbn [orb map fst]; auto.
  rewrite IH. unfold bmem. destruct (existsb (beq k) (map fst m)); reflexivity.
Qed.
Lemma hset_ok m k v : hmap_ok m -> hmap_ok (hset m k v).
Proof.
  unfold hmap_ok. intro N. rewrite hset_keys. destruct (bmem k (map fst m)) eqn:E; auto.
  apply (Permutation_NoDup (l := k :: map fst m)); [apply Permutation_cons_append|].
  constructor; auto. intro H. apply bmem_In in H. congruence.
Qed.
Lemma hget_hset m k v k' : hget (hset m k v) k' = if beq k k' then Some v else hget m k'.
Proof.
  induction m as [|[k0 v0] m IH]; cbn [hset hget]; auto.
  destruct (beq_spec k0 k) as [->|D]; cbn [hget].
  - destruct (beq_spec k k'); auto.
  - rewrite IH. destruct (beq_spec k0 k') as [->|]; auto.
    destruct (beq_spec k k'); auto. congruence.
Qed.

Lemma hset_all_ok l m : hmap_ok m -> hmap_ok (hset_all m l).
Proof.
  revert m; induction l as [|[k v] l IH]; intros m N; cbn; auto. apply IH. apply hset_ok. auto.
Qed.
Lemma hget_hset_all l m k :
  hmap_ok l -> hget (hset_all m l) k = match hget l k with Some v => Some v | None => hget m k end.
Proof.
  unfold hmap_ok. revert m; induction l as [|[k0 v0] l IH]; intros m N; cbn [hset_all fold_left hget]; auto.
  inversion N; subst. fold (hset_all (hset m k0 v0) l). rewrite IH by auto. rewrite hget_hset.
  destruct (beq_spec k0 k) as [->|D]; auto.
  apply hget_None in H1. rewrite H1. reflexivity.
Qed.
Lemma range_ok r t m : ranges_ok r -> hmap_ok m -> hmap_ok (r t m) /\ forall k, hget (r t m) k = hget m k.
Proof.
  intros R N. assert (N' : hmap_ok (r t m)).
  { eapply Permutation_NoDup; [|exact N]. apply Permutation_map, R. }
  split; auto. intro k. destruct (hget m k) as [v|] eqn:E.
  - apply hget_In; auto. apply hget_In in E; auto. eapply Permutation_in; [apply R|]. auto.
  - apply hget_None. apply hget_None in E. intro H. apply E.
    eapply Permutation_in; [apply Permutation_map, Permutation_sym, R|]. exact H.
Qed.

(** The value of the last map, as a function. *)
Fixpoint last_value (ms : list hmap) (k : bytes) (d : option (arg U)) : option (arg U) :=
  match ms with
  | [] => d
  | m :: ms' => last_value ms' k (match hget m k with Some v => Some v | None => d end)
  end.
Lemma last_value_app ms1 ms2 k d : last_value (ms1 ++ ms2) k d = last_value ms2 k (last_value ms1 k d).
Proof. revert d; induction ms1 as [|m ms1 IH]; intro d; cbn; auto. Qed.
Lemma last_value_spec ms k v :
  Forall hmap_ok ms -> (last_value ms k None = Some v <-> last_entry ms k v).
Proof.
  intro F. revert v; induction ms as [|m ms IH] using rev_ind; intro v.
  - cbn. split; [discriminate|]. intros (pre & m & post & E & _). destruct pre; discriminate.
  - apply Forall_app in F as [F1 F2]. inversion F2; subst. rewrite last_value_app. cbn [last_value].
    destruct (hget m k) as [w|] eqn:E.
    + apply hget_In in E as E'; auto. split.
      * intros [= ->]. exists ms, m, []. repeat split; auto.
      * intros (pre & m0 & post & E0 & I & L). destruct post as [|p post] using rev_ind.
        -- apply app_inj_tail in E0 as [-> ->]. apply hget_In in I; auto. congruence.
        -- change (m0 :: post ++ [p]) with ((m0 :: post) ++ [p]) in E0. rewrite app_assoc in E0.
           apply app_inj_tail in E0 as [-> ->]. exfalso. apply (L p); [apply in_or_app; right; left; auto|].
           change k with (fst (k, w)). apply in_map. auto.
    + rewrite IH by auto. apply hget_None in E. split.
      * intros (pre & m0 & post & -> & I & L). exists pre, m0, (post ++ [m]).
        rewrite <- app_assoc. repeat split; auto. intros m' Hm'. apply in_app_or in Hm' as [Hm'|[<-|[]]]; auto.
      * intros (pre & m0 & post & E0 & I & L). destruct post as [|p post _] using rev_ind.
        -- apply app_inj_tail in E0 as [-> ->]. exfalso. apply E. change k with (fst (k, v)). apply in_map. auto.
        -- change (m0 :: post ++ [p]) with ((m0 :: post) ++ [p]) in E0. rewrite app_assoc in E0.
           apply app_inj_tail in E0 as [-> ->]. exists pre, m0, post. repeat split; auto.
           intros m' Hm'. apply L. apply in_or_app. auto.
Qed.

(** The merge of Headers and HeadersJS: whatever the order, the last value. *)
Definition merges (r : ranges) (ms : list hmap) (st : hmap * nat) : hmap * nat :=
  fold_left (fun '(merged, t) hm => (hset_all merged (r t hm), S t)) ms st.
Lemma merges_spec r ms m t :
  ranges_ok r -> Forall hmap_ok ms -> hmap_ok m ->
  hmap_ok (fst (merges r ms (m, t))) /\
  forall k, hget (fst (merges r ms (m, t))) k = last_value ms k (hget m k).
Proof.
  intros R F. revert m t; induction F as [|x ms N F IH]; intros m t M; cbn [merges fold_left last_value]; auto.
  destruct (range_ok r t x R N) as [N' G].
  destruct (IH (hset_all m (r t x)) (S t) (hset_all_ok _ _ M)) as [I1 I2]. split; auto.
  intro k. unfold merges in I2. rewrite I2, hget_hset_all, G by auto. reflexivity.
Qed.

Lemma headers_loop_maps r ms t m b :
  headers_loop r t (map HMap ms) b false m =
  (match ms with [] => b | _ => true end, false, fst (merges r ms (m, t)), snd (merges r ms (m, t))).
Proof.
  revert t m b; induction ms as [|x ms IH]; intros t m b; cbn [map headers_loop merges fold_left]; auto.
  rewrite IH. unfold merges. destruct ms; reflexivity.
Qed.

(** The entries of a map in ascending order of the keys. *)
Definition ordered (m : hmap) : list (bytes * arg U) :=
  map (fun k => (k, match hget m k with Some v => v | None => AData GNil end)) (sort_strings (map fst m)).

Lemma ordered_keys m : map fst (ordered m) = sort_strings (map fst m).
Proof. unfold ordered. rewrite map_map. apply map_id. Qed.
Lemma ordered_In m k v : hmap_ok m -> (In (k, v) (ordered m) <-> hget m k = Some v).
Proof.
  intro N. unfold ordered. rewrite in_map_iff. split.
  - intros (k' & [= -> <-] & H). apply (Permutation_in k (Permutation_sym (sort_perm (map fst m)))) in H.
    destruct (hget m k) eqn:E; auto. apply hget_None in E. contradiction.
  - intro H. exists k. rewrite H. split; auto.
    apply (Permutation_in k (sort_perm (map fst m))). apply hget_In in H; auto.
    change k with (fst (k, v)). apply in_map. auto.
Qed.
Lemma ordered_ext m1 m2 :
  hmap_ok m1 -> hmap_ok m2 -> (forall k, hget m1 k = hget m2 k) -> ordered m1 = ordered m2.
Proof.
  intros N1 N2 H. unfold ordered.
  assert (sort_strings (map fst m1) = sort_strings (map fst m2)) as ->.
  { apply sorted_unique; try (apply sort_sorted; assumption). intro k.
    assert (G : In k (map fst m1) <-> In k (map fst m2)).
    { destruct (in_dec bytes_dec k (map fst m1)) as [I1|I1], (in_dec bytes_dec k (map fst m2)) as [I2|I2]; try tauto.
      - apply (proj2 (hget_None _ _)) in I2. rewrite <- H in I2. apply (proj1 (hget_None _ _)) in I2. tauto.
      - apply (proj2 (hget_None _ _)) in I1. rewrite H in I1. apply (proj1 (hget_None _ _)) in I1. tauto. }
    split; intro I; apply (Permutation_in k (sort_perm _)); apply (Permutation_in k (Permutation_sym (sort_perm _))) in I; tauto. }
  apply map_ext. intro k. rewrite H. reflexivity.
Qed.

(** What serialize makes of a list of entries. *)
Fixpoint entry_args (d : bytes) (es : list (bytes * arg U)) : list (arg U) :=
  match es with
  | [] => []
  | (k, v) :: es' => raw (d ++ B "'" ++ quote_key k ++ B "': ") :: v :: entry_args (B ", ") es'
  end.
Lemma serialize_ordered r t m p :
  ranges_ok r -> hmap_ok m ->
  serialize r t m p =
  (match p with [] => [] | _ => [raw p] end) ++ raw (B "{") :: entry_args [] (ordered m) ++ [raw (B "}")].
Proof.
  intros R N. unfold serialize. f_equal. f_equal.
  assert (sort_strings (map fst (r t m)) = sort_strings (map fst m)) as ->.
  { destruct (range_ok r t m R N) as [N' _]. apply sorted_unique; try (apply sort_sorted; assumption).
    intro k. split; intro I; apply (Permutation_in k (sort_perm _));
      apply (Permutation_in k (Permutation_sym (sort_perm _))) in I;
      eapply Permutation_in; try exact I; apply Permutation_map; [apply Permutation_sym, R|apply R]. }
  f_equal. unfold ordered. generalize (sort_strings (map fst m)). intro l.
  assert (G : forall l d, serialize_keys m d l =
     entry_args d (map (fun k => (k, match hget m k with Some v => v | None => AData GNil end)) l)).
  { clear. induction l as [|k l IH]; intro d; cbn [serialize_keys map entry_args]; auto. rewrite IH. reflexivity. }
  apply G.
Qed.

(** Splitting raw bytes over several values makes no difference. *)
Section Render.
Variables (o : order) (fr : frame U).

Definition shows (l1 l2 : list (arg U)) : Prop :=
  forall u, snd (new_values l1 u) = snd (new_values l2 u) /\
            forall w, svals fr (fst (new_values l1 u)) w = svals fr (fst (new_values l2 u)) w.
Lemma shows_refl l : shows l l. Proof. intro u. auto. Qed.
Lemma shows_app a1 a2 b1 b2 : shows a1 b1 -> shows a2 b2 -> shows (a1 ++ a2) (b1 ++ b2).
Proof.
  intros H1 H2 u. rewrite !new_values_app. destruct (H1 u) as [E1 S1].
  destruct (new_values a1 u) as [v1 u1], (new_values b1 u) as [w1 u1']. cbn [fst snd] in *. subst u1'.
  destruct (H2 u1) as [E2 S2]. destruct (new_values a2 u1) as [v2 u2], (new_values b2 u1) as [w2 u2'].
  cbn [fst snd] in *. subst u2'. split; auto. intro w. rewrite !svals_app, S1.
  destruct (svals fr w1 w) as [x w']. rewrite S2. reflexivity.
Qed.
Lemma shows_trans l1 l2 l3 : shows l1 l2 -> shows l2 l3 -> shows l1 l3.
Proof. intros H1 H2 u. destruct (H1 u), (H2 u). split; [congruence|]. intro w. rewrite H0. auto. Qed.
Lemma shows_raws l1 l2 : concat l1 = concat l2 -> shows (map raw l1) (map raw l2).
Proof.
  assert (G : forall l u, new_values (map raw l) u = (map (fun b => Val b None []) l, u)).
  { induction l as [|x l IH]; intro u; cbn [map new_values new_value value_to_bytes raw]; auto.
    rewrite IH. reflexivity. }
  assert (S : forall l w, svals fr (map (fun b => Val b None []) l) w = (concat l, w)).
  { intros l w. unfold svals. induction l as [|x l IH] in w |- *; cbn [map mapS sval concat]; auto.
    specialize (IH w). destruct (mapS (sval fr) _ w) as [y w']. cbn [concat] in *.
    injection IH as -> ->. reflexivity. }
  intros H u. rewrite !G. cbn [fst snd]. split; auto. intro w. rewrite !S, H. reflexivity.
Qed.
Lemma entry_args_items d es :
  es <> [] -> shows (entry_args d es) (raw d :: items es).
Proof.
  revert d; induction es as [|[k v] es IH]; intros d N; [congruence|]. cbn [entry_args]. clear N.
  assert (H : forall rest rest', shows rest rest' ->
    shows (raw (d ++ B "'" ++ quote_key k ++ B "': ") :: v :: rest) (raw d :: item (k, v) ++ rest')).
  { intros rest rest' H.
    change (raw (d ++ B "'" ++ quote_key k ++ B "': ") :: v :: rest)
      with (map raw [d ++ B "'" ++ quote_key k ++ B "': "] ++ [v] ++ rest).
    change (raw d :: item (k, v) ++ rest')
      with (map raw [d; B "'"; quote_key k; B "': "] ++ [v] ++ rest').
    apply shows_app; [apply shows_raws|apply shows_app; [apply shows_refl|exact H]].
    cbn [concat]. rewrite !app_nil_r. reflexivity. }
  destruct es as [|e es].
  - specialize (H [] [] (shows_refl _)). rewrite app_nil_r in H. exact H.
  - apply H. apply IH. discriminate.
Qed.
Lemma serialize_object p es :
  shows ((match p with [] => [] | _ => [raw p] end) ++ raw (B "{") :: entry_args [] es ++ [raw (B "}")])
        (raw p :: object es).
Proof.
  unfold object. change (raw p :: raw (B "{") :: items es ++ [raw (B "}")])
    with ([raw p] ++ [raw (B "{")] ++ items es ++ [raw (B "}")]).
  change (raw (B "{") :: entry_args [] es ++ [raw (B "}")])
    with ([raw (B "{")] ++ entry_args [] es ++ [raw (B "}")]).
  apply shows_app.
  { destruct p; [|apply shows_refl]. apply (shows_raws [] [[]]). reflexivity. }
  apply shows_app; [apply shows_refl|]. apply shows_app; [|apply shows_refl].
  destruct es as [|e es]; [apply shows_refl|].
  eapply shows_trans; [apply entry_args_items; discriminate|].
  change (raw [] :: items (e :: es)) with (map raw [[]] ++ items (e :: es)).
  change (items (e :: es)) with (map raw [] ++ items (e :: es)) at 2.
  apply shows_app; [apply shows_raws; reflexivity|apply shows_refl].
Qed.

(** An attribute around a concatenated value shows the same as one with the
    values themselves. *)
Lemma attribute_shows name l1 l2 u s :
  shows l1 l2 -> l1 <> [] -> (forall u, fst (new_values l1 u) <> []) ->
  (let '(v, u1) := NewConcatValue l1 u in
   page o (fst (NewAttribute name [AVal v] u1)) fr s = page o (fst (NewAttribute name l2 u)) fr s /\
   snd (NewAttribute name [AVal v] u1) = snd (NewAttribute name l2 u)).
Proof.
  intros H _ NE. unfold NewConcatValue, NewAttribute. destruct (H u) as [E S]. specialize (NE u).
  destruct (new_values l1 u) as [v1 u1], (new_values l2 u) as [v2 u2]. cbn [fst snd] in *. subst u2.
  cbn [new_values new_value app fst snd]. split; auto. rewrite !page_attr. unfold liftU. cbn [sattr].
  rewrite svals_one, sval_group, S by auto. reflexivity.
Qed.

(** ** C36 *)

(** Headers with header maps only: the attribute shows the object whose keys
    are those of the maps, each once and in ascending order, with the value of
    the last map that has the key. *)
Theorem C36_headers r ms u s :
  ranges_ok r -> Forall hmap_ok ms -> ms <> [] ->
  exists es n u',
    StronglySorted below (map fst es) /\
    (forall k v, In (k, v) es <-> last_entry ms k v) /\
    Headers r (map HMap ms) u = Done (n, u') /\
    page o n fr s = page o (fst (NewAttribute (B "hx-headers") (object es) u)) fr s /\
    u' = snd (NewAttribute (B "hx-headers") (object es) u).
Proof.
  intros R F N. unfold Headers. rewrite headers_loop_maps.
  destruct (merges_spec r ms [] 0 R F (NoDup_nil _)) as [M G]. set (m := fst (merges r ms ([], 0))) in *.
  exists (ordered m). destruct ms as [|x ms]; [congruence|]. cbn [andb].
  rewrite serialize_ordered by auto.
  pose proof (serialize_object [] (ordered m)) as S. cbn [app] in S.
  pose proof (attribute_shows (B "hx-headers") _ (raw [] :: object (ordered m)) u s S ltac:(discriminate)) as A.
  cbn [app]. change (fst (merges r (x :: ms) ([], 0))) with m.
  destruct (NewConcatValue (raw (B "{") :: entry_args [] (ordered m) ++ [raw (B "}")]) u) as [v u1].
  specialize (A ltac:(intro w; cbn [new_values new_value value_to_bytes raw];
    destruct (new_values (entry_args [] (ordered m) ++ [raw (B "}")]) w); discriminate)).
  destruct A as [A1 A2].
  exists (fst (NewAttribute (B "hx-headers") [AVal v] u1)), (snd (NewAttribute (B "hx-headers") [AVal v] u1)).
  split; [rewrite ordered_keys; apply sort_sorted, M|].
  split. { intros k w. rewrite ordered_In, G by auto. apply last_value_spec. auto. }
  split; [reflexivity|].
  assert (X : forall l u, page o (fst (NewAttribute (B "hx-headers") (raw [] :: l) u)) fr s =
      page o (fst (NewAttribute (B "hx-headers") l u)) fr s /\
      snd (NewAttribute (B "hx-headers") (raw [] :: l) u) = snd (NewAttribute (B "hx-headers") l u)).
  { clear. intros l u. unfold NewAttribute. cbn [new_values new_value value_to_bytes raw].
    destruct (new_values l u) as [vs u1]. cbn [fst snd app]. split; auto. rewrite !page_attr. unfold liftU.
    cbn [sattr]. change (Val [] None [] :: vs) with ([Val [] None []] ++ vs). rewrite svals_app, svals_one.
    cbn [sval]. destruct (svals fr vs (fst s)). reflexivity. }
  destruct (X (object (ordered m)) u) as [X1 X2]. rewrite A1, A2, X1, X2. auto.
Qed.

(** HeadersJS likewise, with js: in front; no maps give the empty object. *)
Theorem C36_headers_js r ms u s :
  ranges_ok r -> Forall hmap_ok ms ->
  exists es,
    StronglySorted below (map fst es) /\
    (forall k v, In (k, v) es <-> last_entry ms k v) /\
    page o (fst (HeadersJS r ms u)) fr s =
      page o (fst (NewAttribute (B "hx-headers") (raw (B "js:") :: object es) u)) fr s /\
    snd (HeadersJS r ms u) = snd (NewAttribute (B "hx-headers") (raw (B "js:") :: object es) u).
Proof.
  intros R F. unfold HeadersJS.
  assert (X : exists m t,
     (match ms with [m] => (m, 0) | _ => merges r ms ([], 0) end) = (m, t) /\
     hmap_ok m /\ forall k, hget m k = last_value ms k None).
  { destruct (merges_spec r ms [] 0 R F (NoDup_nil _)) as [M G].
    destruct ms as [|x [|y ms]].
    - exists [], 0. cbn. auto.
    - exists x, 0. inversion F; subst. split; [reflexivity|]. split; [assumption|].
      intro k. cbn. destruct (hget x k); reflexivity.
    - exists (fst (merges r (x :: y :: ms) ([], 0))), (snd (merges r (x :: y :: ms) ([], 0))).
      split; [apply surjective_pairing|]. split; [exact M|exact G]. }
  destruct X as (m & t & E & M & G). unfold merges in E. rewrite E.
  exists (ordered m). split; [rewrite ordered_keys; apply sort_sorted, M|].
  split. { intros k w. rewrite ordered_In, G by auto. apply last_value_spec. auto. }
  rewrite serialize_ordered by auto.
  pose proof (serialize_object (B "js:") (ordered m)) as S. cbn [app] in S.
  pose proof (attribute_shows (B "hx-headers") _ _ u s S ltac:(discriminate)) as A.
  cbn [app]. change (match B "js:" with [] => [] | _ :: _ => [raw (B "js:")] end) with [raw (B "js:")] in *.
  cbn [app] in *. destruct (NewConcatValue _ u) as [v u1].
  apply A. intro w. cbn [new_values new_value value_to_bytes raw].
  destruct (new_values (entry_args [] (ordered m) ++ [raw (B "}")]) w); discriminate.
Qed.

(** Same result for every order in which Go visits the maps. *)
Theorem C36_deterministic r1 r2 args u :
  ranges_ok r1 -> ranges_ok r2 -> (forall m, In (HMap m) args -> hmap_ok m) ->
  Headers r1 args u = Headers r2 args u.
Proof.
  intros R1 R2 F. unfold Headers.
  assert (G : forall args t1 t2 b c m1 m2,
    (forall m, In (HMap m) args -> hmap_ok m) ->
    hmap_ok m1 -> hmap_ok m2 -> (forall k, hget m1 k = hget m2 k) ->
    let '(b1, c1, x1, _) := headers_loop r1 t1 args b c m1 in
    let '(b2, c2, x2, _) := headers_loop r2 t2 args b c m2 in
    b1 = b2 /\ c1 = c2 /\ hmap_ok x1 /\ hmap_ok x2 /\ forall k, hget x1 k = hget x2 k).
  { clear - R1 R2. induction args as [|[m|a] args IH]; intros t1 t2 b c m1 m2 F M1 M2 H; cbn [headers_loop].
    - auto 6.
    - destruct c; [auto 6|].
      assert (N : hmap_ok m) by (apply F; left; auto).
      destruct (range_ok r1 t1 m R1 N) as [N1 G1]. destruct (range_ok r2 t2 m R2 N) as [N2 G2].
      apply IH; try (apply hset_all_ok; assumption); [intros; apply F; right; auto|].
      intro k. rewrite !hget_hset_all, G1, G2, H by auto. reflexivity.
    - destruct b; [auto 6|]. apply IH; auto. intros. apply F. right. auto. }
  specialize (G args 0 0 false false [] [] F (NoDup_nil _) (NoDup_nil _) (fun _ => eq_refl)).
  destruct (headers_loop r1 0 args false false []) as [[[b1 c1] x1] t1],
           (headers_loop r2 0 args false false []) as [[[b2 c2] x2] t2].
  destruct G as (-> & -> & X1 & X2 & G). rewrite !serialize_ordered by auto.
  rewrite (ordered_ext x1 x2) by auto. reflexivity.
Qed.

(** ** C37 *)

(** Headers panics exactly when it is given both header maps and other values. *)
Theorem C37_mixture r args u :
  Headers r args u = Panic <->
  (exists m, In (HMap m) args) /\ (exists a, In (HOther a) args).
Proof.
  set (has_map := existsb (fun h : harg => match h with HMap _ => true | _ => false end)).
  set (has_other := existsb (fun h : harg => match h with HOther _ => true | _ => false end)).
  assert (G : forall args t b c m, b && c = false ->
    let '(b', c', _, _) := headers_loop r t args b c m in
    c' && b' = (b || has_map args) && (c || has_other args)).
  { clear. induction args as [|[x|a] args IH]; intros t b c m N; cbn [headers_loop has_map has_other existsb orb].
    - rewrite !orb_false_r. apply andb_comm.
    - fold (has_map args) (has_other args). destruct c.
      + rewrite orb_true_r. reflexivity.
      + specialize (IH (S t) true false (hset_all m (r t x)) eq_refl).
        destruct (headers_loop r (S t) args true false (hset_all m (r t x))) as [[[b' c'] ?] ?].
        rewrite IH, orb_true_r. reflexivity.
    - fold (has_map args) (has_other args). destruct b.
      + rewrite orb_true_r. reflexivity.
      + specialize (IH t false true m eq_refl).
        destruct (headers_loop r t args false true m) as [[[b' c'] ?] ?].
        rewrite IH, orb_true_r. reflexivity. }
  specialize (G args 0 false false [] eq_refl). unfold Headers.
  destruct (headers_loop r 0 args false false []) as [[[b' c'] m] t]. cbn [orb] in G.
  assert (M : has_map args = true <-> exists m, In (HMap m) args).
  { unfold has_map. rewrite existsb_exists. split.
    - intros ([x|a] & H & E); [eauto|discriminate].
    - intros [x H]. exists (HMap x). auto. }
  assert (T : has_other args = true <-> exists a, In (HOther a) args).
  { unfold has_other. rewrite existsb_exists. split.
    - intros ([x|a] & H & E); [discriminate|eauto].
    - intros [x H]. exists (HOther x). auto. }
  rewrite <- M, <- T, <- andb_true_iff, <- G. destruct (c' && b').
  - tauto.
  - destruct b'; [destruct (NewConcatValue _ u)|]; split; discriminate.
Qed.

(** Other values only: an ordinary attribute with those values. *)
Theorem C37_others r args u :
  Headers r (map HOther args) u = Done (NewAttribute (B "hx-headers") args u).
Proof.
  unfold Headers.
  assert (G : forall args t c, headers_loop r t (map HOther args) false c [] =
     (false, match args with [] => c | _ => true end, [], t)).
  { clear. induction args as [|a args IH]; intros t c; cbn [map headers_loop]; auto.
    rewrite IH. destruct args; reflexivity. }
  rewrite G, andb_false_r, map_map. cbn [arg_of]. rewrite map_id. reflexivity.
Qed.

(** No double quote. *)
Definition quoteless (b : bytes) : Prop := ~ In """"%char b.

Lemma quoteless_inert b : inert b -> quoteless b.
Proof. intros [H _] I. apply (H _ I). unfold markup_char. cbn. auto. Qed.
Lemma quoteless_app a b : quoteless a -> quoteless b -> quoteless (a ++ b).
Proof. unfold quoteless. rewrite in_app_iff. tauto. Qed.
Lemma quoteless_key k : quoteless (quote_key k).
Proof.
  unfold quoteless, quote_key. rewrite in_flat_map. intros (c & _ & H).
  destruct (Ascii.eqb_spec c """"%char) as [E|N].
  - vm_compute in H. intuition discriminate.
  - destruct H as [H|[]]. auto.
Qed.

Definition quoteless_arg (a : arg U) : Prop :=
  exists g, a = AData g /\ forall u, quoteless (fst (value_to_bytes g u)).
Lemma quoteless_raw b : quoteless b -> quoteless_arg (raw b).
Proof. intro H. exists (GBytes b). split; auto. Qed.
Lemma quoteless_tidy g : tidy g -> quoteless_arg (AData g).
Proof. intro H. exists g. split; auto. intro u. apply quoteless_inert, tidy_bytes. auto. Qed.

Lemma quoteless_values l u :
  Forall quoteless_arg l ->
  exists bs, fst (new_values l u) = map (fun b => Val b None []) bs /\ Forall quoteless bs.
Proof.
  intro H. revert u; induction H as [|a l (g & -> & Q) _ IH]; intro u; [exists []; auto|].
  cbn [new_values].
  assert (G : exists bs, fst (new_value (AData g) u) = map (fun b => Val b None []) bs /\ Forall quoteless bs).
  { specialize (Q u). destruct g; cbn [new_value]; [exists []; auto|..];
      match goal with |- context [value_to_bytes ?g u] => destruct (value_to_bytes g u) as [x u'] end;
      exists [x]; (split; [reflexivity|constructor; auto]). }
  destruct (new_value (AData g) u) as [vs u1]. destruct G as (b1 & G1 & G2). cbn [fst] in G1. subst vs.
  destruct (IH u1) as (b2 & I1 & I2). destruct (new_values l u1) as [vs2 u2]. cbn [fst] in *. subst vs2.
  exists (b1 ++ b2). rewrite map_app. split; auto. apply Forall_app. auto.
Qed.

Lemma quoteless_concat bs : Forall quoteless bs -> quoteless (concat bs).
Proof. induction 1 as [|b bs H _ IH]; cbn [concat]; [intros []|]. apply quoteless_app; auto. Qed.

(** Inside a double-quoted attribute value. *)
Definition valuing (t : tag) (n : bytes) (st : state) : Prop :=
  (exists v, st = Value (Some """"%char) t n v) \/ (exists buf v, st = RefValue buf (Some """"%char) t n v).
Lemma valuing_step t n st c :
  valuing t n st -> c <> """"%char -> exists st', step st c = ([], st') /\ valuing t n st'.
Proof.
  intros V N.
  assert (G : forall v, exists st', in_value (Some """"%char) t n v c = ([], st') /\ valuing t n st').
  { intro v. unfold in_value. destruct (is c "&").
    - eexists. split; [reflexivity|]. right. eauto.
    - unfold is. destruct (Ascii.eqb_spec c """"%char); [congruence|]. eexists. split; [reflexivity|]. left. eauto. }
  destruct V as [[v ->]|(buf & v & ->)]; cbn [step]; [auto|].
  destruct (is c ";"); [destruct (reference buf)|destruct (ref_char c); auto].
  - eexists. split; [reflexivity|]. left. eauto.
  - eexists. split; [reflexivity|]. left. eauto.
  - eexists. split; [reflexivity|]. right. eauto.
Qed.
Lemma valuing_feed t n b st :
  valuing t n st -> quoteless b -> exists st', feed st b = ([], st') /\ valuing t n st'.
Proof.
  revert st; induction b as [|c b IH]; intros st V Q; cbn [feed]; [eauto|].
  destruct (valuing_step t n st c V) as (st1 & E & V1); [intros ->; apply Q; left; auto|]. rewrite E.
  destruct (IH st1 V1) as (st2 & E2 & V2); [intro; apply Q; right; auto|]. rewrite E2. eauto.
Qed.
Lemma valuing_end t n st :
  valuing t n st -> exists v, feed st (B """") = ([], AfterValue (add_attr t n v)).
Proof. intros [[v ->]|(buf & v & ->)]; eexists; reflexivity. Qed.

(** With string, number and bool values (more generally data that converts to
    inert bytes), whatever the keys: the attribute value has no double quote
    inside, and a tokenizer at the place of an attribute reads exactly one
    attribute hx-headers and stands behind its closing quote afterwards. *)
Theorem C37_stays_inside r ms u s :
  ranges_ok r -> Forall hmap_ok ms -> ms <> [] ->
  (forall m k v, In m ms -> In (k, v) m -> exists g, v = AData g /\ tidy g) ->
  exists n u' b,
    Headers r (map HMap ms) u = Done (n, u') /\
    page o n fr s = (B " hx-headers=""" ++ b ++ B """", s) /\
    quoteless b /\
    (forall t st, pending t st ->
       exists v, feed st (B " hx-headers=""" ++ b ++ B """") = ([], AfterValue (add_attr t (B "hx-headers") v))).
Proof.
  intros R F N P. destruct (C36_headers r ms u s R F N) as (es & n & u' & _ & L & E & Pg & _).
  exists n, u'. rewrite Pg. clear Pg.
  assert (Q : Forall quoteless_arg (object es)).
  { unfold object. constructor; [apply quoteless_raw; intro H; vm_compute in H; intuition discriminate|].
    apply Forall_app. split.
    2: { constructor; [apply quoteless_raw; intro H; vm_compute in H; intuition discriminate|constructor]. }
    assert (T : forall k v, In (k, v) es -> exists g, v = AData g /\ tidy g).
    { intros k v I. apply L in I as (pre & m & post & -> & I & _). eapply P; [|exact I].
      apply in_or_app. right. left. auto. }
    clear - T.
    assert (It : forall e, In e es -> Forall quoteless_arg (item e)).
    { intros [k v] I. destruct (T k v I) as (g & -> & G). unfold item. cbn [fst snd].
      repeat apply Forall_cons; try (apply quoteless_raw); try apply Forall_nil;
        try apply quoteless_key; try (apply quoteless_tidy; exact G);
        intro H; vm_compute in H; intuition discriminate. }
    clear T. induction es as [|e es IH]; [constructor|].
    specialize (IH (fun e He => It e (or_intror He))). cbn [items].
    destruct es as [|e' es]; [apply It; left; auto|]. apply Forall_app. split; [apply It; left; auto|].
    constructor; [|exact IH]. apply quoteless_raw. intro H; vm_compute in H; intuition discriminate. }
  destruct (quoteless_values _ u Q) as (bs & V & Qb). exists (concat bs).
  split; [exact E|]. unfold NewAttribute. destruct (new_values (object es) u) as [vs u1]. cbn [fst] in *. subst vs.
  split.
  { rewrite page_attr. apply liftU_ret. intro w. cbn [sattr].
    assert (S : forall l w, svals fr (map (fun b => Val b None []) l) w = (concat l, w)).
    { clear. intros l w. unfold svals. induction l as [|x l IH] in w |- *; cbn [map mapS sval concat]; auto.
      specialize (IH w). destruct (mapS (sval fr) _ w) as [y w']. cbn [concat] in *.
      injection IH as -> ->. reflexivity. }
    rewrite S. reflexivity. }
  apply quoteless_concat in Qb. split; [exact Qb|]. intros t st Pn.
  assert (Vn : valid_name (B "hx-headers") = true) by reflexivity.
  pose proof (pending_name t st _ Pn Vn) as Fn.
  destruct (valuing_feed t (B "hx-headers") (concat bs) (Value (Some """"%char) t (B "hx-headers") []))
    as (st1 & F1 & V1); [left; eauto|exact Qb|].
  destruct (valuing_end _ _ _ V1) as [v Fv]. exists v.
  change (B " hx-headers=""") with ((B " " ++ B "hx-headers") ++ B "="""). rewrite <- app_assoc.
  eapply (feed_seq st _ _ [] _ [] _); [exact Fn|].
  eapply (feed_seq _ (B "=""") _ [] (Value (Some """"%char) t (B "hx-headers") []) [] _); [reflexivity|].
  eapply (feed_seq _ (concat bs) _ [] st1 [] _); [exact F1|exact Fv].
Qed.

End Render.
End Maps.

(** Two maps, visited in either order. *)
Definition forwards : @ranges demo := fun _ m => m.
Definition backwards : @ranges demo := fun _ m => rev m.
Lemma forwards_ok : ranges_ok forwards.
Proof. intros t m. apply Permutation_refl. Qed.
Lemma backwards_ok : ranges_ok backwards.
Proof. intros t m. apply Permutation_rev. Qed.
Definition demo_headers : list (@hmap demo) :=
  [[(B "b", AData (GInt 1)); (B "a""", AData (GString (B "<")))]; [(B "c", AData (GBool true)); (B "b", AKey (B "name"))]].
Lemma demo_headers_ok : Forall hmap_ok demo_headers.
Proof.
  repeat constructor; cbn; intuition discriminate.
Qed.
Definition headers_page (r : @ranges demo) (args : list (@harg demo)) : option bytes :=
  match Headers r args (st 0) with
  | Done (n, _) => Some (fst (page listed n fr0 (st 0, 0)))
  | Panic => None
  end.
Example C36_ex :
  headers_page forwards (map HMap demo_headers) =
    Some (B " hx-headers=""{'a&quot;': &lt;, 'b': a&lt;b, 'c': true}""") /\
  headers_page backwards (map HMap demo_headers) = headers_page forwards (map HMap demo_headers) /\
  fst (page listed (fst (HeadersJS forwards [] (st 0))) fr0 (st 0, 0)) = B " hx-headers=""js:{}""".
Proof. vm_compute. auto. Qed.
Example C37_ex :
  headers_page forwards [HMap (hd [] demo_headers); HOther (AData GNil)] = None /\
  headers_page forwards [HOther (str (B "{""x"":1}"))] = Some (B " hx-headers=""{&quot;x&quot;:1}""").
Proof. vm_compute. auto. Qed.
(** The hypotheses of [C37_stays_inside]. *)
Example C37_ex_hyp :
  let ms := [hd [] demo_headers] in
  ranges_ok backwards /\ Forall hmap_ok ms /\ ms <> [] /\
  forall m k v, In m ms -> In (k, v) m -> exists g, v = AData g /\ @tidy demo g.
Proof.
  cbv zeta. split; [apply backwards_ok|]. split; [constructor; [apply (Forall_inv demo_headers_ok)|constructor]|].
  split; [discriminate|]. intros m k v [<-|[]] [H|[H|[]]]; injection H as <- <-; eexists; split; try reflexivity; exact I.
Qed.
