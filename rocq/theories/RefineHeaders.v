(** htmx.Headers, HeadersJS and HeadersMap.serialize of the Go source make the
    attribute of the model. *)
From Coq Require Import ZArith Permutation Lia.
From Verif Require Import Bytes IO IOFacts Nodes Values Slices Build Headers PropHeaders HeadersRun
  GoSyntax SourceLib Source GoSem GoRun GoRep GoStep GoOwn RefineUser RefineIter RefineStart RefineNew RefineMake RefineVariadic RefineStyle.
Local Open Scope nat_scope.

Section Refine.
Context {W : UserWorld}.
Variable M : go_mode.
Hypothesis MO : mode_ok M.
Notation C := (go_config M).
Notation sim := (sim C).

(** ** Maps in the heap *)
Definition entries_rep (h : heap) (es : list (bytes * gv)) (m : @hmap W) : Prop :=
  all2 (fun e x => fst e = fst x /\ arg_rep M h (snd e) (snd x)) es m.
Definition map_rep (h : heap) (v : gv) (m : @hmap W) : Prop :=
  exists l es, v = VMap l /\ nth_error h l = Some (OMap es) /\ entries_rep h es m.
Definition harg_rep (h : heap) (v : gv) (x : @harg W) : Prop :=
  match x with HMap m => map_rep h v m | HOther a => arg_rep M h v a end.

Lemma entries_keys h m : forall es, entries_rep h es m -> map fst es = map fst m.
Proof. induction m as [|x m IH]; intros es H; cbn in H; [subst; reflexivity|]. destruct H as (e & es' & -> & [H1 _] & H). cbn [map]. f_equal; auto. Qed.
Lemma entries_get h k m : forall es a, entries_rep h es m -> hget m k = Some a -> exists v, bassoc k es = Some v /\ arg_rep M h v a.
Proof.
  induction m as [|[k' a'] m IH]; intros es a H G; [discriminate|]. destruct H as ([k0 v0] & es' & -> & [H1 H2] & H). cbn [fst snd] in *. subst k0.
  cbn [hget bassoc] in *. destruct (beq k' k); [|eauto]. injection G as ->. eauto.
Qed.
Lemma entries_store h k v a m : forall es, entries_rep h es m -> arg_rep M h v a -> entries_rep h (bstore k v es) (hset m k a).
Proof.
  induction m as [|[k' a'] m IH]; intros es H A.
  - cbn in H. subst. cbn. eexists (k, v), []. split; [reflexivity|]. split; [auto|reflexivity].
  - destruct H as ([k0 v0] & es' & -> & [H1 H2] & H). cbn [fst snd] in *. subst k0. cbn [hset bstore]. destruct (beq_spec k' k) as [->|].
    + eexists _, _. split; [reflexivity|]. split; [auto|exact H].
    + eexists _, _. split; [reflexivity|]. split; [auto|]. apply IH; auto.
Qed.
Lemma hget_keys (m : @hmap W) k : In k (map fst m) -> exists a, hget m k = Some a.
Proof. intro H. destruct (hget m k) eqn:E; [eauto|]. apply hget_None in E. contradiction. Qed.

(** An argument is a HeadersMap only if it is given as one. *)
Lemma map_type h l : has_type C h (VMap l) "HeadersMap" = Some (VMap l).
Proof. reflexivity. Qed.
Lemma other_type h v a : arg_rep M h v a -> has_type C h v "HeadersMap" = None.
Proof.
  destruct (mode_numbers M MO) as (M1 & M2 & M3).
  pose proof (number_not _ "HeadersMap" M1 eq_refl) as E1. pose proof (number_not _ "HeadersMap" M2 eq_refl) as E2. pose proof (number_not _ "HeadersMap" M3 eq_refl) as E3.
  assert (P : forall l, has_type C h (VPtr l) "HeadersMap" = None).
  { intro l. unfold has_type. replace (assoc "HeadersMap" (p_ifaces (c_prog C))) with (@None (list string)) by reflexivity.
    destruct (tag_of h (VPtr l)) as [tag|]; [|reflexivity]. reflexivity. }
  assert (D : forall g, has_type C h (any_of g) "HeadersMap" = None).
  { intro g. unfold has_type. replace (assoc "HeadersMap" (p_ifaces (c_prog C))) with (@None (list string)) by reflexivity.
    destruct g; cbn [any_of]; try reflexivity; cbn [c_int c_uint c_float go_config]; rewrite ?E1, ?E2, ?E3; reflexivity. }
  destruct a as [n|[b dyn cs]|f|k|g]; cbn [arg_rep].
  - intro H. destruct n; cbn [node_rep] in H; try (destruct H as (l & -> & _); apply P). 
    destruct a; cbn [attr_rep] in H; destruct H as (l & H); repeat match goal with H : exists _, _ |- _ => destruct H end; intuition; subst; apply P.
  - cbn [val_rep]. intros (bv & dv & sv & xs & -> & _). reflexivity.
  - intros ->. reflexivity.
  - intros ->. reflexivity.
  - intros [->|H]; [apply D|]. destruct g; try contradiction; subst; reflexivity.
Qed.

(** ** Merging a map into the new one *)
Definition store_body (vx : string) : stmt := SBlock [SAssign [LIndex (ELoc "mergedHeadersMap") (ELoc "k")] [ELoc vx]].
Lemma merge_turns {P : panics} vx en h0 l lm es hm : vx = "val"%string \/ vx = "v"%string ->
  assoc "mergedHeadersMap" en = Some (VMap lm) -> nth_error h0 l = Some (OMap es) -> entries_rep h0 es hm -> length h0 <= lm ->
  forall ks, (forall k, In k ks -> In k (map fst hm)) -> forall h ms m, grown h0 h -> nth_error h lm = Some (OMap ms) -> entries_rep h0 ms m ->
  sim (range_with (exec C (store_body vx)) "k" vx (map (map_item l) ks) en) h (Ret (hset_all m (in_order hm ks)))
    (fun r h' m' => r = (FNext, en) /\ grown h0 h' /\ exists ms', nth_error h' lm = Some (OMap ms') /\ entries_rep h0 ms' m').
Proof.
  intros V E Hl He Hlm. induction ks as [|k ks IH]; intros HK h ms m G Hm Hr.
  - cbn [map range_with in_order flat_map]. apply sim_ret. split; [reflexivity|]. split; [exact G|]. exists ms. auto.
  - destruct (hget_keys hm k (HK k (or_introl eq_refl))) as (a & Ha). destruct (entries_get _ _ _ _ _ He Ha) as (x & Hx & Ax).
    cbn [in_order flat_map]. rewrite Ha. cbn [app]. fold (in_order hm ks). cbn [hset_all fold_left]. fold (hset_all (hset m k a) (in_order hm ks)).
    eapply sim_range_map_cons; [eapply grown_nth; eauto|exact Hx|reflexivity|destruct V; subst vx; reflexivity|].
    pose proof (nth_lt _ _ _ Hm) as L. destruct V; subst vx; steps;
      (eapply simb_store_map; [exact Hm|]); steps;
      (eapply IH; [intros; apply HK; right; auto|eapply RefineNew.grown_same; [exact G|apply same_update; exact Hlm]|apply nth_set_same, L|apply entries_store; auto]).
Qed.

(** ** serialize *)
Lemma simb_make0 {A' B} t c h (f : gv -> prog A') (m : io U B) Q : String.eqb (substring 0 4 t) "map[" = false -> (0 <= c)%Z ->
  sim (f (VSlice (length h) 0)) (h ++ [OArr (repeat VNil (Z.to_nat c))]) m Q -> sim (pbind (make t [VInt 0; VInt c]) f) h m Q.
Proof.
  intros T L K. unfold make. rewrite T. cbn [Z.ltb Z.compare orb]. rewrite (proj2 (Z.ltb_ge c 0) L). apply sim_assoc. apply simb_alloc. exact K.
Qed.
Lemma slice_none h n : slice_is (h ++ [OArr (repeat VNil n)]) (VSlice (length h) 0) [].
Proof. eexists. split; [apply nth_app_new|]. split; [lia|reflexivity]. Qed.
Lemma strings_map ks : strings_of (map VStr ks) = Some ks.
Proof. induction ks as [|k ks IH]; [reflexivity|]. cbn [map strings_of]. rewrite IH. reflexivity. Qed.
Lemma simb_sort {A' B} h s ks (f : list gv -> prog A') (m : io U B) Q b : slice_is h s (map VStr ks) -> own b s ->
  (forall h', slice_is h' s (map VStr (sort_strings ks)) -> same_below b h h' -> (forall l o, not_at l s -> nth_error h l = Some o -> nth_error h' l = Some o) -> sim (f []) h' m Q) ->
  sim (pbind (external C "sort.Strings" [s] false) f) h m Q.
Proof.
  intros Hs Ho K. unfold external. lazy [String.eqb Ascii.eqb Bool.eqb]. destruct s; try contradiction.
  - cbn [slice_is] in Hs. destruct ks; [|discriminate]. cbn [sort_in_place pbind]. apply K; auto. apply same_refl.
  - pose proof (slice_length _ _ _ Hs) as L. destruct Hs as (cs & H1 & H2 & H3). cbn [sort_in_place]. apply sim_assoc. eapply simb_load; [exact H1|]. cbn beta iota.
    rewrite <- H3, strings_map. apply sim_assoc. apply simb_update; [apply Nat.le_0_l|]. cbn [own] in Ho. rewrite map_length in L.
    assert (N : length (sort_strings ks) = n) by (rewrite <- L; symmetry; apply Permutation_length, sort_perm).
    apply K.
    + eexists. split; [apply nth_set_same; eapply nth_lt; eauto|]. split.
      * rewrite app_length, map_length, skipn_length. lia.
      * rewrite firstn_app, map_length, N, Nat.sub_diag. cbn [firstn]. rewrite app_nil_r, firstn_all2; [reflexivity|]. rewrite map_length. lia.
    + apply same_update, Ho.
    + intros l' o Hn Hl. rewrite nth_set_other; auto.
Qed.
Definition keys_body : stmt := SBlock [SAssign [LLoc "keys"] [ECall (EExt "append") [ELoc "keys"; ELoc "k"] false]].
Lemma keys_turns en b l es : l < b ->
  forall ks, (forall k, In k ks -> exists v, bassoc k es = Some v) ->
  forall h s xs, nth_error h l = Some (OMap es) -> slice_is h s (map VStr xs) -> own b s -> b <= length h ->
  sim (range_with (exec C keys_body) "k" "_" (map (map_item l) ks) (("keys"%string, s) :: en)) h (Ret tt)
    (fun r h' _ => exists s', r = (FNext, ("keys"%string, s') :: en) /\ slice_is h' s' (map VStr (xs ++ ks)) /\ own b s' /\ same_below b h h').
Proof.
  intros Hl. induction ks as [|k ks IH]; intros HK h s xs Hm Hs Ho Hb.
  - cbn [map range_with]. apply sim_ret. exists s. rewrite app_nil_r. split; [reflexivity|]. split; [exact Hs|]. split; [exact Ho|apply same_refl].
  - destruct (HK k (or_introl eq_refl)) as (x & Hx). cbn [map range_with]. eapply simb_map_item; [exact Hm|exact Hx|]. cbn beta iota. cbn [push pbind String.eqb Ascii.eqb Bool.eqb]. steps.
    eapply simb_append; [exact Hs|exact Ho|exact Hb|]. intros h1 s1 S1 O1 A1 _. pose proof (appended_same _ _ _ _ _ Ho A1) as SB. red_head; repeat step. leaves.
    eapply sim_conseq; [eapply IH with (xs := xs ++ [k]); [intros; apply HK; right; auto|apply SB; auto| |exact O1|destruct SB; lia]|].
    + rewrite map_app. exact S1.
    + intros r h' u (s' & -> & R1 & R2 & R3). exists s'. split; [reflexivity|]. rewrite <- app_assoc in R1. split; [exact R1|]. split; [exact R2|eapply same_trans; eauto].
Qed.

Definition entry_body : stmt :=
  SBlock [SAssign [LLoc "result"] [ECall (EExt "append") [ELoc "result";
            EConv "[]byte" (EBin OAdd (EBin OAdd (EBin OAdd (ELoc "delimit") (EStr (B "'")))
                                                 (ECall (EExt "strings.ReplaceAll") [ELoc "key"; EStr (B """"); EStr (B "&quot;")] false))
                                      (EStr (B "': ")));
            EIndex (ELoc "m") (ELoc "key")] false];
          SAssign [LLoc "delimit"] [EStr (B ", ")]].
Definition apart (s t : gv) : Prop := match t with VSlice l _ => not_at l s | _ => True end.
Lemma appended_apart s h s' h' t ys : appended s h s' h' -> slice_is h t ys -> apart s t -> slice_is h' t ys /\ apart s' t.
Proof.
  intros (L & K1 & K2 & _) St Ap. destruct t; try contradiction; [split; [exact St|exact I]|]. destruct St as (cs & H1 & H2 & H3). cbn [apart] in *.
  split; [exists cs; split; [apply K1; auto|auto]|]. destruct s'; cbn [not_at]; auto. destruct (K2 _ _ eq_refl) as [(n' & ->)|HL]; [exact Ap|].
  apply nth_lt in H1. unfold loc in *. lia.
Qed.
Lemma entry_turns h0 l es m kv pv : nth_error h0 l = Some (OMap es) -> entries_rep h0 es m ->
  forall ks, (forall k, In k ks -> In k (map fst m)) ->
  forall h d rv xs args pre, slice_is h kv (map VStr (pre ++ ks)) -> slice_is h rv xs -> all2 (arg_rep M h0) xs args -> own (length h0) rv -> grown h0 h -> apart rv kv ->
  sim (range_with (exec C entry_body) "_" "key" (slice_items kv (length (map VStr pre)) (length ks))
        [("delimit"%string, VStr d); ("keys"%string, kv); ("result"%string, rv); ("prefix"%string, pv); ("m"%string, VMap l)])
    h (Ret (args ++ serialize_keys m d ks))
    (fun r h' args' => exists d' rv' xs',
      r = (FNext, [("delimit"%string, VStr d'); ("keys"%string, kv); ("result"%string, rv'); ("prefix"%string, pv); ("m"%string, VMap l)]) /\
      slice_is h' rv' xs' /\ all2 (arg_rep M h0) xs' args' /\ own (length h0) rv' /\ grown h0 h').
Proof.
  intros Hl He. induction ks as [|k ks IH]; intros HK h d rv xs args pre Hk Hr HA Ho G Ap.
  - cbn [length range_with serialize_keys]. apply sim_ret. exists d, rv, xs. rewrite app_nil_r. auto.
  - destruct (hget_keys m k (HK k (or_introl eq_refl))) as (a & Ha). destruct (entries_get _ _ _ _ _ He Ha) as (x & Hx & Ax).
    pose proof Hk as Hk'. rewrite map_app in Hk'. cbn [map] in Hk'. replace (length (k :: ks)) with (S (length (map (@VStr W) ks))) by (rewrite map_length; reflexivity).
    eapply sim_range_cons; [exact Hk'|]. steps.
    apply (simb_eq M) with (X' := PRet [VStr (quote_key k)]); [reflexivity|]. steps.
    eapply simb_index_map; [eapply grown_nth; [exact G|exact Hl]|]. rewrite Hx. steps.
    unfold external. lazy [String.eqb Ascii.eqb Bool.eqb]. unfold append_builtin. apply sim_assoc.
    lazymatch goal with |- context [append_slice rv ?vs] =>
      assert (EA : match rv with VBytes a => pbind (lift (bytes_of_ints vs)) (fun b => PRet (VBytes (a ++ b))) | _ => append_slice rv vs end = append_slice rv vs)
        by (destruct rv; try contradiction; reflexivity) end.
    eapply simb_eq; [exact EA|]. clear EA.
    eapply simb_append_slice with (b := length h0); [exact Hr|exact Ho|apply grown_length, G|].
    intros h1 s1 S1 O1 A1 _. steps. 
    destruct (appended_apart _ _ _ _ _ _ A1 Hk Ap) as [Hk1 Ap1].
    eapply sim_model_eq with (m := Ret ((args ++ [AData (GBytes (d ++ B "'" ++ quote_key k ++ B "': ")); a]) ++ serialize_keys m (B ", ") ks)).
    { intros E w. cbn [serialize_keys]. rewrite Ha, <- app_assoc. reflexivity. }
    replace (map (@VStr W) pre ++ [VStr k])%list with (map (@VStr W) (pre ++ [k])) by apply map_app. rewrite (map_length _ ks).
    eapply IH with (pre := pre ++ [k]).
    + intros; apply HK; right; auto.
    + rewrite <- app_assoc. exact Hk1.
    + exact S1.
    + apply RefineNew.all2_app; [exact HA|]. cbn [all2]. eexists _, _. split; [reflexivity|]. split; [right; rewrite <- !app_assoc; reflexivity|]. eexists _, _. split; [reflexivity|]. split; [exact Ax|reflexivity].
    + exact O1.
    + eapply (appended_grown h0 rv h s1 h1); eauto.
    + exact Ap1.
Qed.

Lemma serialize_spec h l es m pv p : nth_error h l = Some (OMap es) -> entries_rep h es m -> (pv = VNil /\ p = [] \/ pv = VBytes p) ->
  sim (PCall (CFun "HeadersMap.serialize") [VMap l; pv] false PRet) h (serialize_io m p)
    (fun vs h' args => exists s, vs = [s] /\ arg_list M h' s args /\ grown h h').
Proof.
  intros Hl He Hp. pose proof (entries_keys _ _ _ He) as HK. enter. steps.
  eapply simb_len_map; [exact Hl|]. steps. eapply simb_make0; [reflexivity|lia|]. steps.
  set (h1 := h ++ _). assert (G1 : grown h h1) by apply grown_app. assert (S1 : slice_is h1 (VSlice (length h) 0) []) by apply slice_none.
  assert (O1 : own (length h) (VSlice (length h) 0)) by (cbn [own]; lia).
  assert (LP : bytes_of pv = Some p /\ external C "len" [pv] false = PRet [VInt (Z.of_nat (length p))]) by (destruct Hp as [[-> ->]| ->]; split; reflexivity).
  destruct LP as [BP LP]. eapply (simb_eq M); [exact LP|]. steps. 

  set (pre := match p with [] => [] | _ => [AData (GBytes p)] end : list (arg U)).
  eapply sim_bind_l with (R := fun r h2 => exists rv xs, r = (FNext, [("result"%string, rv); ("prefix"%string, pv); ("m"%string, VMap l)]) /\
    slice_is h2 rv xs /\ own (length h) rv /\ grown h h2 /\ all2 (arg_rep M h) xs pre).
  { rewrite pos_of_nat. destruct p as [|c p]; cbn [length Nat.ltb Nat.leb].
    - apply sim_eta. steps. apply sim_ret. eexists _, _. split; [reflexivity|]. split; [exact S1|]. split; [exact O1|]. split; [exact G1|reflexivity].
    - apply sim_eta. steps. eapply simb_append with (b := length h); [exact S1|exact O1|apply grown_length, G1|]. intros h2 s2 S2 O2 A2 _. steps. apply sim_ret.
      eexists _, _. split; [reflexivity|]. split; [exact S2|]. split; [exact O2|]. split; [exact (appended_grown _ _ _ _ _ O1 G1 A2)|].
      unfold pre. cbn [app all2]. eexists _, _. split; [reflexivity|]. split; [|reflexivity]. destruct Hp as [[_ X]| ->]; [discriminate|]. right. reflexivity. }
  intros r h2 (rv & xs & -> & S2 & O2 & G2 & A2). steps.
  eapply simb_append with (b := length h); [exact S2|exact O2|apply grown_length, G2|]. intros h3 rv3 S3 O3 A3 _. pose proof (appended_grown _ _ _ _ _ O2 G2 A3) as G3. steps.
  assert (Hl3 : nth_error h3 l = Some (OMap es)) by (eapply grown_nth; eauto).
  eapply simb_len_map; [exact Hl3|]. steps. eapply simb_make0; [reflexivity|lia|]. steps.
  set (h4 := h3 ++ _). assert (G4 : grown h3 h4) by apply grown_app. assert (S4 : slice_is h4 (VSlice (length h3) 0) (map VStr [])) by apply slice_none.
  assert (Hl4 : nth_error h4 l = Some (OMap es)) by (eapply grown_nth; eauto).
  unfold serialize_io. rewrite <- HK. eapply simb_map_range; [exact Hl4|]. intros ks PK. steps.
  assert (L3 : l < length h3) by (eapply nth_lt; eauto).
  assert (IK : forall k, In k ks -> In k (map fst m)) by (intros k Ik; rewrite <- HK; eapply Permutation_in; [apply Permutation_sym, PK|exact Ik]).
  eapply sim_bind_l with (R := fun r h5 => exists kv, r = (FNext, ("keys"%string, kv) :: [("result"%string, rv3); ("prefix"%string, pv); ("m"%string, VMap l)]) /\
    slice_is h5 kv (map VStr ks) /\ own (length h3) kv /\ same_below (length h3) h4 h5).
  { change (exec C _) with (exec C keys_body). eapply sim_conseq; [eapply (keys_turns _ (length h3) l es L3) with (xs := []); [|exact Hl4|exact S4|cbn [own]; lia|apply grown_length, G4]|].
    - intros k Ik. destruct (hget_keys m k (IK k Ik)) as (a & Ha). destruct (entries_get _ _ _ _ _ He Ha) as (x & Hx & _). eauto.
    - intros r h' u (kv & R1 & R2 & R3 & R4). exists kv. auto. }
  intros r h5 (kv & -> & S5 & O5 & B5). steps.
  eapply simb_sort; [exact S5|exact O5|]. intros h6 S6 B6 _. steps.
  assert (SB : same_below (length h3) h3 h6).
  { eapply same_trans; [apply same_grown, G4|]. eapply same_trans; eauto. }
  assert (S3' : slice_is h6 rv3 (xs ++ [VBytes (B "{")])).
  { eapply slice_same; [exact S3|]. intros l' o _ Ho. apply SB; [eapply nth_lt; eauto|exact Ho]. }
  assert (G6 : grown h h6) by (eapply RefineNew.grown_same; [exact G3|]; destruct SB as [B1 B2]; split; [exact B1|]; intros l1 o1 L1; apply B2; apply grown_length in G3; lia).
  eapply sim_model_eq with (m := bind (Ret ((pre ++ [AData (GBytes (B "{"))]) ++ serialize_keys m [] (sort_strings ks))) (fun args => Ret (args ++ [AData (GBytes (B "}"))]))).
  { intros E w. cbn [bind]. rewrite <- !app_assoc. reflexivity. }
  eapply sim_bind.
  { change (exec C _) with (exec C entry_body). rewrite (map_length _ (sort_strings ks)). eapply (entry_turns h l es m kv pv Hl He) with (pre := []).
    - intros k Ik. apply IK. eapply Permutation_in; [apply Permutation_sym, sort_perm|exact Ik].
    - exact S6.
    - exact S3'.
    - apply RefineNew.all2_app; [exact A2|]. cbn [all2]. eexists _, _. split; [reflexivity|]. split; [right; reflexivity|reflexivity].
    - exact O3.
    - exact G6.
    - destruct kv; cbn [apart]; auto. destruct rv3; cbn [not_at]; auto. destruct S3 as (cs & X1 & _). apply nth_lt in X1. cbn [own] in O5. unfold loc in *. lia. }
  intros r h7 args (d' & rv7 & xs7 & -> & S7 & A7 & O7 & G7). steps.
  eapply simb_append with (b := length h); [exact S7|exact O7|apply grown_length, G7|]. intros h8 rv8 S8 O8 A8 _. pose proof (appended_grown _ _ _ _ _ O7 G7 A8) as G8. steps. apply sim_ret.
  exists rv8. split; [reflexivity|]. split; [|exact G8]. exists (xs7 ++ [VBytes (B "}")]). split; [exact S8|].
  apply RefineNew.all2_app; [eapply all2_mono; [|exact A7]; intros x y; apply arg_grown, G8|]. cbn [all2]. eexists _, _. split; [reflexivity|]. split; [right; reflexivity|reflexivity].
Qed.

(** ** The loop over the arguments *)
Fixpoint flags (value : list (@harg W)) (b c : bool) : bool * bool :=
  match value with
  | [] => (b, c)
  | HMap _ :: rest => if c then (true, true) else flags rest true false
  | HOther _ :: rest => if b then (true, true) else flags rest false true
  end.
Definition headers_body : stmt :=
  SBlock [SIf (Some (SDefine ["hm"; "ok"] [EAssert (ELoc "v") "HeadersMap"])) (ELoc "ok")
     (SBlock [SAssign [LLoc "foundHeadersMap"] [EBool true];
              SIf None (ELoc "foundOthers") (SBlock [SBreak]) SSkip;
              SRange "k" "val" (ELoc "hm") (store_body "val")])
     (SBlock [SAssign [LLoc "foundOthers"] [EBool true];
              SIf None (ELoc "foundHeadersMap") (SBlock [SBreak]) SSkip])].
Definition headers_env (lm : loc) (b c : bool) (cv : gv) : venv :=
  [("mergedHeadersMap"%string, VMap lm); ("foundOthers"%string, VBool c); ("foundHeadersMap"%string, VBool b); ("value"%string, cv)].
Lemma headers_turns {P : panics} h0 lm cv : length h0 <= lm -> forall rest pre xs, slice_is h0 cv (pre ++ xs) -> all2 (harg_rep h0) xs rest ->
  forall h ms m b c, grown h0 h -> nth_error h lm = Some (OMap ms) -> entries_rep h0 ms m ->
  sim (range_with (exec C headers_body) "_" "v" (slice_items cv (length pre) (length xs)) (headers_env lm b c cv)) h (headers_loop_io rest b c m)
    (fun r h' x => r = (FNext, headers_env lm (fst (fst x)) (snd (fst x)) cv) /\ fst x = flags rest b c /\ grown h0 h' /\
       exists ms', nth_error h' lm = Some (OMap ms') /\ entries_rep h0 ms' (snd x)).
Proof.
  intros Hlm. induction rest as [|a rest IH]; intros pre xs Hs HA h ms m b c G Hm He.
  - cbn in HA. subst xs. cbn [length range_with headers_loop_io]. apply sim_ret. cbn [fst snd flags]. split; [reflexivity|]. split; [reflexivity|]. eauto.
  - destruct HA as (x & xs' & -> & Hx & HA). eapply sim_range_cons; [eapply slice_grown; eauto|]. cbn [length]. unfold headers_body, headers_env. steps.
    replace (pre ++ x :: xs') with ((pre ++ [x]) ++ xs') in Hs by (rewrite <- app_assoc; reflexivity).
    destruct a as [hm|a]; cbn [harg_rep] in Hx.
    + destruct Hx as (l & es & -> & Hl & Hes). eapply simb_assert_ok; [apply map_type|]. steps. cbn [headers_loop_io flags].
      destruct c.
      * steps. apply sim_ret. cbn [fst snd]. split; [reflexivity|]. split; [reflexivity|]. eauto.
      * steps. unfold merge_io. cbn [bind]. rewrite <- (entries_keys _ _ _ Hes). eapply simb_map_range; [eapply grown_nth; eauto|]. intros ks PK. steps.
        change (headers_loop_io rest true false (hset_all m (in_order hm ks))) with (bind (Ret (hset_all m (in_order hm ks))) (fun m' => headers_loop_io rest true false m')).
        eapply sim_bind.
        { eapply (merge_turns "val" _ h0 l lm es hm); [left; reflexivity|reflexivity|exact Hl|exact Hes|exact Hlm| |exact G|exact Hm|exact He].
          intros k Ik. rewrite <- (entries_keys _ _ _ Hes). eapply Permutation_in; [apply Permutation_sym, PK|exact Ik]. }
        intros r h1 m1 (-> & G1 & ms1 & Hm1 & He1). steps.
        eapply sim_conseq; [eapply (IH (pre ++ [VMap l]) xs' Hs HA h1 ms1 m1 true false); eauto|]. intros r h2 y Hy. exact Hy.
    + eapply simb_assert_ok; [apply (other_type h x a); eapply arg_grown; [exact G|exact Hx]|]. steps. cbn [headers_loop_io flags]. destruct b.
      * steps. apply sim_ret. cbn [fst snd]. split; [reflexivity|]. split; [reflexivity|]. eauto.
      * steps. eapply sim_conseq; [eapply (IH (pre ++ [x]) xs' Hs HA h ms m false true); eauto|]. intros r h2 y Hy. exact Hy.
Qed.

(** ** The attribute *)
Lemma arg_in_map h xs value : all2 (harg_rep h) xs value -> (forall m, ~ In (HMap m) value) -> all2 (arg_rep M h) xs (map arg_of value).
Proof.
  revert xs. induction value as [|a value IH]; intros xs H N; [exact H|]. destruct H as (x & xs' & -> & Hx & H). cbn [map all2]. eexists _, _. split; [reflexivity|].
  split; [|apply IH; auto; intros m I; apply (N m); right; exact I]. destruct a as [m|a]; [destruct (N m); left; reflexivity|]. exact Hx.
Qed.
Lemma flags_none value : forall c b' c', flags value false c = (b', c') -> b' = false -> forall m, ~ In (HMap m) value.
Proof.
  induction value as [|[hm|a] value IH]; intros c b' c' F -> m; cbn [flags] in F; [auto| |].
  - destruct c; [discriminate|]. exfalso. revert F. clear. assert (K : forall v b c, b = true -> fst (flags v b c) = true).
    { induction v as [|[]]; intros b c ->; cbn [flags fst]; [reflexivity| |reflexivity]. destruct c; [reflexivity|]. apply IHv. reflexivity. }
    intro F. specialize (K value true false eq_refl). rewrite F in K. discriminate.
  - intros [I|I]; [discriminate|]. eapply IH; eauto.
Qed.
Definition mixed (value : list (@harg W)) : bool := let '(b, c) := flags value false false in c && b.

Ltac plain_attribute :=
  steps; apply (simb_eq M) with (X' := PRet (VBytes (B "hx-headers"))); [reflexivity|]; steps;
  (eapply simb_pcall; [apply sim_weak; eapply (NewAttribute_spec M MO); [reflexivity|]|]);
  [eexists; split; [eapply slice_grown; eauto|]; eapply all2_mono; [intros x y; apply arg_grown; eassumption|]; eapply arg_in_map; [eassumption|]; eapply flags_none; eauto|];
  let vs := fresh "vs" in let h3 := fresh "h3" in let n := fresh "n" in let K := fresh "K" in intros vs h3 n K;
  eapply new_attr_grown in K; [|eassumption]; destruct K as (v & -> & K1 & K2); steps; apply sim_ret; exists n; split; [reflexivity|]; exists v; auto.
Lemma entries_grown h h' es m : grown h h' -> entries_rep h es m -> entries_rep h' es m.
Proof. intros G. apply all2_mono. intros x y [H1 H2]. split; [exact H1|]. eapply arg_grown; eauto. Qed.

Ltac map_attribute h2 ms m G Hm He :=
  let h3 := fresh "h" in let args := fresh "args" in let s3 := fresh "s" in let A3 := fresh "A" in let G3 := fresh "G" in
  let h4 := fresh "h" in let x := fresh "x" in let v4 := fresh "v" in let V4 := fresh "V" in let G4 := fresh "G" in
  let h5 := fresh "h" in let n := fresh "n" in let v := fresh "v" in let K := fresh "K" in let K1 := fresh "K" in let K2 := fresh "K" in
  (eapply simb_eq; [reflexivity|]);
  unfold attribute_io; apply sim_model_assoc;
  (eapply simb_pcall; [apply sim_weak; eapply (serialize_spec h2 _ ms m); [exact Hm|exact He|]|
   intros ? h3 args (s3 & -> & A3 & G3)]); [|
  steps; apply sim_model_assoc;
  (eapply simb_pcall; [apply sim_weak; apply (NewConcatValue_spec M MO s3 args h3 A3)|]);
  intros ? h4 x (v4 & -> & V4 & G4); steps;
  (eapply simb_pcall; [apply (sim_variadic M _ [VBytes (B "hx-headers")] [v4]); [eexists _, _, _; split; reflexivity|]; apply sim_weak; eapply (NewAttribute_spec M MO); [reflexivity|apply (arg_list_new M h4 [v4] [AVal x])]|]);
  [cbn [all2]; eexists _, _; split; [reflexivity|]; auto|];
  intros ? h5 n K;
  eapply new_attr_grown in K; [|exact (grown_trans _ _ _ G (grown_trans _ _ _ G3 (grown_trans _ _ _ G4 (grown_app _ _))))]; destruct K as (v & -> & K1 & K2); steps; revert v h5 n K1 K2].

Lemma Headers_spec h cv xs value : slice_is h cv xs -> all2 (harg_rep h) xs value ->
  GoRun.sim (P := mixed value = true) C (PCall (CFun "htmx.Headers") [cv] true PRet) h (headers_io value)
    (fun vs h' r => exists n, r = Some n /\ returns_of (new_attr M h) h vs h' n).
Proof.
  intros Hs HA. enter. steps. eapply simb_make_map; [reflexivity|]. set (h1 := h ++ [OMap []]). assert (G1 : grown h h1) by apply grown_app.
  pose proof (slice_grown _ _ _ _ G1 Hs) as Hs1. steps. unfold headers_io. eapply sim_bind.
  { change (exec C _) with (exec C headers_body). eapply (headers_turns h (length h) cv (le_n _) value [] xs Hs HA h1 [] [] false false G1); [apply nth_app_new|reflexivity]. }
  intros r h2 [[b c] m] (-> & F & G2 & ms & Hm & He). cbn [fst snd] in *. unfold headers_env. steps.
  destruct c, b; cbn [andb].
  - steps. apply sim_panic. unfold may_panic, mixed. rewrite <- F. reflexivity.
  - plain_attribute.
  - steps. apply (simb_eq M) with (X' := PRet (VBytes (B "hx-headers"))); [reflexivity|]. steps.
    map_attribute h2 ms m G2 Hm (entries_grown _ _ _ _ G2 He); [left; auto|]. intros nv h9 n K1 K2. steps. apply sim_ret. exists n. split; [reflexivity|]. exists nv. auto.
  - plain_attribute.
Qed.

(** ** HeadersJS *)
Definition js_body : stmt := SBlock [SRange "k" "v" (ELoc "hm") (store_body "v")].
Definition js_env (lm : loc) (cv : gv) : venv := [("mergedHeadersMap"%string, VMap lm); ("value"%string, cv)].
Lemma js_turns h0 lm cv : length h0 <= lm -> forall rest pre xs, slice_is h0 cv (pre ++ xs) -> all2 (map_rep h0) xs rest ->
  forall h ms m, grown h0 h -> nth_error h lm = Some (OMap ms) -> entries_rep h0 ms m ->
  sim (range_with (exec C js_body) "_" "hm" (slice_items cv (length pre) (length xs)) (js_env lm cv)) h (merge_all_io m rest)
    (fun r h' m' => r = (FNext, js_env lm cv) /\ grown h0 h' /\ exists ms', nth_error h' lm = Some (OMap ms') /\ entries_rep h0 ms' m').
Proof.
  intros Hlm. induction rest as [|hm rest IH]; intros pre xs Hs HA h ms m G Hm He.
  - cbn in HA. subst xs. cbn [length range_with merge_all_io]. apply sim_ret. split; [reflexivity|]. eauto.
  - destruct HA as (x & xs' & -> & (l & es & -> & Hl & Hes) & HA). eapply sim_range_cons; [eapply slice_grown; eauto|]. cbn [length]. unfold js_body, js_env. steps.
    replace (pre ++ VMap l :: xs') with ((pre ++ [VMap l]) ++ xs') in Hs by (rewrite <- app_assoc; reflexivity).
    cbn [merge_all_io]. unfold merge_io. cbn [bind]. rewrite <- (entries_keys _ _ _ Hes). eapply simb_map_range; [eapply grown_nth; eauto|]. intros ks PK. steps.
    change (merge_all_io (hset_all m (in_order hm ks)) rest) with (bind (Ret (hset_all m (in_order hm ks))) (fun m' => merge_all_io m' rest)).
    eapply sim_bind.
    { eapply (merge_turns "v" _ h0 l lm es hm); [right; reflexivity|reflexivity|exact Hl|exact Hes|exact Hlm| |exact G|exact Hm|exact He].
      intros k Ik. rewrite <- (entries_keys _ _ _ Hes). eapply Permutation_in; [apply Permutation_sym, PK|exact Ik]. }
    intros r h1 m1 (-> & G1 & ms1 & Hm1 & He1). steps.
    eapply sim_conseq; [eapply (IH (pre ++ [VMap l]) xs' Hs HA h1 ms1 m1); eauto|]. intros r h2 y Hy. exact Hy.
Qed.
Lemma HeadersJS_spec h cv xs value : slice_is h cv xs -> all2 (map_rep h) xs value ->
  sim (PCall (CFun "htmx.HeadersJS") [cv] true PRet) h (headers_js_io value) (returns_of (new_attr M h) h).
Proof.
  intros Hs HA. enter. steps.
  apply sim_model_eq with (bind (bind (match value with [m] => Ret m | _ => merge_all_io [] value end) (fun m => attribute_io m (B "js:"))) Ret).
  { intros E w. rewrite (IOFacts.run_bind E _ Ret). unfold headers_js_io. destruct value as [|m1 [|m2 rest]]; cbn [bind]; match goal with |- context [run E ?p w] => destruct (run E p w) end; reflexivity. }
  apply sim_model_assoc. eapply sim_bind with (R := fun r h2 m => exists lm, r = (FNext, js_env lm cv) /\ grown h h2 /\ exists ms, nth_error h2 lm = Some (OMap ms) /\ entries_rep h ms m).
  { destruct value as [|m1 [|m2 rest]].
    - cbn in HA. subst xs. cbn [length Z.of_nat Z.eqb]. apply sim_eta. steps. eapply simb_make_map; [reflexivity|]. pose proof (grown_app h [OMap []]) as G1. pose proof (slice_grown _ _ _ _ G1 Hs) as Hs1. steps.
      change (exec C _) with (exec C js_body). apply sim_eta_model.
      eapply sim_bind; [eapply (js_turns h (length h) cv (le_n _) [] [] [] Hs eq_refl _ [] []); [exact G1|apply nth_app_new|reflexivity]|].
      intros r h2 m (-> & G2 & ms & Hm & He). unfold js_env. steps. apply sim_ret. exists (length h). eauto.
    - destruct HA as (x & xs' & -> & (l & es & -> & Hl & He) & HA). cbn in HA. subst xs'. cbn [length Z.of_nat Z.eqb Pos.of_succ_nat Pos.eqb]. apply sim_eta. steps.
      eapply simb_index_slice; [exact Hs|lia|reflexivity|]. steps. apply sim_ret. exists l. split; [reflexivity|]. split; [apply grown_refl|]. eauto.
    - destruct HA as (x & xs' & -> & Hx & HA). pose proof HA as (x2 & xs2 & -> & _). 
      replace (Z.of_nat (length (x :: x2 :: xs2)) =? 1)%Z with false by (symmetry; apply Z.eqb_neq; cbn [length]; lia).
      apply sim_eta. steps. eapply simb_make_map; [reflexivity|]. pose proof (grown_app h [OMap []]) as G1. pose proof (slice_grown _ _ _ _ G1 Hs) as Hs1. steps.
      change (exec C _) with (exec C js_body). apply sim_eta_model.
      eapply sim_bind; [eapply (js_turns h (length h) cv (le_n _) (m1 :: m2 :: rest) [] (x :: x2 :: xs2) Hs); [eexists _, _; eauto|exact G1|apply nth_app_new|reflexivity]|].
      intros r h2 m (-> & G2 & ms & Hm & He). unfold js_env. steps. apply sim_ret. exists (length h). eauto. }
  intros r h2 m (lm & -> & G2 & ms & Hm & He). unfold js_env. steps.
  apply (simb_eq M) with (X' := PRet (VBytes (B "hx-headers"))); [reflexivity|]. steps.
  apply (simb_eq M) with (X' := PRet (VBytes (B "js:"))); [reflexivity|]. steps.
  map_attribute h2 ms m G2 Hm (entries_grown _ _ _ _ G2 He); [right; reflexivity|]. intros nv h9 n K1 K2. steps. apply sim_ret. exists nv. auto.
Qed.
End Refine.
