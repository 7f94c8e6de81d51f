(** The translated source of imperativeContext.Start does what the model says. *)
From Coq Require Import ZArith Lia.
From Verif Require Import Bytes IO IOFacts Nodes NodeInd Values Escape Render Build SpecOut Slices GoSyntax Source GoSem GoRun GoRep GoStep GoOwn RefineValue RefineNode RefineAttrs RefineUser RefineImper.
Local Open Scope nat_scope.

Section Start.
Context {W : UserWorld}.
Context {FL : floor}.
Variable M : go_mode.
Notation C := (go_config M).
Notation sim := (sim C).

(** ** Arrays *)

Lemma nth_firstn_lt {A} (l : list A) n i : i < n -> nth_error (firstn n l) i = nth_error l i.
Proof. revert n i. induction l as [|x l IH]; intros [|n] [|i] H; cbn [firstn nth_error]; try lia; auto. apply IH. lia. Qed.
Lemma set_firstn {A} (l : list A) n i x : i < n -> firstn n (set_nth l i x) = set_nth (firstn n l) i x.
Proof.
  revert n i. induction l as [|y l IH]; intros [|n] [|i] H; cbn [set_nth firstn]; try lia; auto. f_equal. apply IH. lia.
Qed.

(** An element of a slice. *)
Lemma simb_store_slice_f {A' B} h l n cs i v (en : venv) (f : venv -> prog A') (m : io U B) Q : base <= l ->
  nth_error h l = Some (OArr cs) -> i < n ->
  sim (f en) (set_nth h l (OArr (set_nth cs i v))) m Q ->
  sim (pbind (store (RIndex (VSlice l n) (VInt (Z.of_nat i))) v en) f) h m Q.
Proof.
  intros HF Ho Hi K. cbn [store]. rewrite (proj2 (Z.leb_le _ _)) by lia. rewrite (proj2 (Z.ltb_lt _ _)) by lia. cbn [andb].
  apply sim_assoc. eapply simb_load; [exact Ho|]. cbn beta iota. rewrite Nat2Z.id. apply sim_assoc. apply simb_update; [exact HF|]. exact K.
Qed.

(** Appending where there is room. *)
Lemma simb_append_room_f {A' B} h l n cs v (f : list gv -> prog A') (m : io U B) Q : base <= l ->
  nth_error h l = Some (OArr cs) -> n < length cs ->
  sim (f [VSlice l (S n)]) (set_nth h l (OArr (set_nth cs n v))) m Q ->
  sim (pbind (external C "append" [VSlice l n; v] false) f) h m Q.
Proof.
  intros HF Ho Hn K. unfold external. lazy [String.eqb Ascii.eqb Bool.eqb]. unfold append_builtin. apply sim_assoc.
  cbn [append_slice]. apply sim_assoc. eapply simb_load; [exact Ho|]. cbn beta iota zeta. cbn [length].
  rewrite (proj2 (Nat.leb_le _ _)) by lia. apply sim_assoc. apply simb_update; [exact HF|]. rewrite Nat.add_1_r. exact K.
Qed.

Lemma simb_make_slice {A' B} t c h (f : gv -> prog A') (m : io U B) Q :
  String.eqb (substring 0 4 t) "map[" = false ->
  sim (f (VSlice (length h) 0)) (h ++ [OArr (repeat VNil c)]) m Q ->
  sim (pbind (make t [VInt 0; VInt (Z.of_nat c)]) f) h m Q.
Proof.
  intros E K. unfold make. rewrite E. change (0 <? 0)%Z with false. rewrite (proj2 (Z.ltb_ge (Z.of_nat c) 0)) by lia. cbn [orb].
  apply sim_assoc. apply simb_alloc. rewrite Nat2Z.id. exact K.
Qed.

(** One turn of a range loop with a key. *)
Lemma sim_range_key {B} body k v h sv pre x xs en (m : io U B) Q :
  slice_is h sv (pre ++ x :: xs) -> String.eqb k "_" = false -> String.eqb v "_" = false ->
  sim (pbind (body ((v, x) :: (k, VInt (Z.of_nat (length pre))) :: en))
         (fun '(f, en2) =>
            match f with
            | FNext | FContinue => range_with body k v (slice_items sv (length (pre ++ [x])) (length xs)) (leave en en2)
            | FBreak => PRet (FNext, leave en en2)
            | FReturn vs => PRet (FReturn vs, leave en en2)
            end)) h m Q ->
  sim (range_with body k v (slice_items sv (length pre) (S (length xs))) en) h m Q.
Proof.
  intros Hs E1 E2 H. rewrite app_length, Nat.add_1_r in H. unfold slice_items in *. cbn [seq map range_with]. eapply simb_slice_item; [exact Hs| |].
  - rewrite nth_error_app2, Nat.sub_diag by lia. reflexivity.
  - cbn beta iota. cbn [push pbind]. rewrite E1, E2. exact H.
Qed.

Lemma simb_range_key {A' B} body k v h sv pre x xs en (f : flow * venv -> prog A') (m : io U B) Q :
  slice_is h sv (pre ++ x :: xs) -> String.eqb k "_" = false -> String.eqb v "_" = false ->
  sim (pbind (body ((v, x) :: (k, VInt (Z.of_nat (length pre))) :: en))
         (fun r => pbind (let '(fl, en2) := r in
            match fl with
            | FNext | FContinue => range_with body k v (slice_items sv (length (pre ++ [x])) (length xs)) (leave en en2)
            | FBreak => PRet (FNext, leave en en2)
            | FReturn vs => PRet (FReturn vs, leave en en2)
            end) f)) h m Q ->
  sim (pbind (range_with body k v (slice_items sv (length pre) (S (length xs))) en) f) h m Q.
Proof.
  intros Hs E1 E2 H. rewrite app_length, Nat.add_1_r in H. unfold slice_items in *. cbn [seq map range_with].
  apply sim_assoc. eapply simb_slice_item; [exact Hs| |].
  - rewrite nth_error_app2, Nat.sub_diag by lia. reflexivity.
  - cbn beta iota. cbn [push pbind]. rewrite E1, E2. apply sim_assoc. exact H.
Qed.

Lemma sub_one n : S n - n = 1.
Proof. lia. Qed.
Lemma sub_two n : S (S n) - n = 2.
Proof. lia. Qed.
Lemma sub_three n : S (S (S n)) - n = 3.
Proof. lia. Qed.
(** Leaving blocks when only the top of the variables is known. *)
Ltac leaves := repeat (progress (unfold leave; cbn [length]; rewrite ?Nat.sub_succ, ?Nat.sub_diag, ?sub_one, ?sub_two, ?sub_three; cbn [skipn])).

(** ** A slice that is being extended

    Its array is private, at [b] or above, or full. *)
Definition ext_ok (b : nat) (h : heap) (s : gv) : Prop := own b s \/ tight h s.
Definition priv (b : nat) (s : gv) : Prop := exists l n, s = VSlice l n /\ b <= l.
Definition grew (b : nat) (s : gv) (h : heap) (s' : gv) (h' : heap) : Prop :=
  length h <= length h' /\
  (forall l o, (priv b s -> not_at l s) -> nth_error h l = Some o -> nth_error h' l = Some o) /\
  (forall l n, s' = VSlice l n -> (exists n', s = VSlice l n') \/ (length h <= l)).
Lemma grew_refl b s h : grew b s h s h.
Proof. split; [auto|]. split; [auto|]. eauto. Qed.
Lemma grew_trans b s h s1 h1 s2 h2 : grew b s h s1 h1 -> grew b s1 h1 s2 h2 -> grew b s h s2 h2.
Proof.
  intros (L1 & K1 & P1) (L2 & K2 & P2). split; [lia|]. split.
  - intros l o Hl Ho. apply K2; [|apply K1; auto]. intros (l1 & n1 & -> & B1). cbn [not_at].
    destruct (P1 _ _ eq_refl) as [(n' & ->)|Hf].
    + apply Hl. exists l1, n'. auto.
    + intros ->. apply nth_lt in Ho. lia.
  - intros l n E. destruct (P2 _ _ E) as [(n' & E')|Hf]; [|right; lia]. apply P1 in E'. exact E'.
Qed.
Lemma simb_extend {A' B} b s v xs h (f : list gv -> prog A') (m : io U B) Q :
  slice_is h s xs -> ext_ok b h s -> base <= b -> b <= length h ->
  (forall h' s', slice_is h' s' (xs ++ [v]) -> priv b s' -> grew b s h s' h' -> sim (f [s']) h' m Q) ->
  sim (pbind (external C "append" [s; v] false) f) h m Q.
Proof.
  intros Hs [Os|(l & cs & -> & Ho)] HF Hb K.
  - eapply simb_append_f; [exact Hs|exact Os|exact HF|exact Hb|]. intros h' s' Hs' Os' (L & K1 & P & _) Nn. apply K; [exact Hs'| |].
    + destruct s'; try contradiction. eexists _, _. eauto.
    + split; [exact L|]. split; [|exact P]. intros l' o Hn. apply K1. destruct s; cbn [not_at]; auto. apply Hn. exists l, n. auto.
  - unfold external. lazy [String.eqb Ascii.eqb Bool.eqb]. unfold append_builtin. apply sim_assoc.
    cbn [append_slice]. apply sim_assoc. eapply simb_load; [exact Ho|]. cbn beta iota zeta. cbn [length].
    rewrite (proj2 (Nat.leb_gt _ _)) by lia. apply sim_assoc. apply simb_alloc.
    assert (E : xs = cs). { destruct Hs as (cs' & H1 & _ & ->). rewrite Ho in H1. inversion H1. subst. apply firstn_all. }
    subst xs. rewrite firstn_all. apply K.
    + cbn [slice_is]. eexists. split; [apply nth_app_new|]. rewrite !app_length. cbn [length]. split; [lia|].
      rewrite app_assoc, firstn_app. rewrite app_length. cbn [length]. rewrite Nat.sub_diag. cbn [firstn]. rewrite app_nil_r.
      rewrite firstn_all2; [reflexivity|]. rewrite app_length. cbn [length]. lia.
    + exists (length h), (length cs + 1). auto.
    + split; [rewrite app_length; lia|]. split; [intros; apply nth_app_old; auto|]. intros l' n' H. inversion H; subst. right. lia.
Qed.
Lemma priv_ext b h s : priv b s -> ext_ok b h s.
Proof. intros (l & n & -> & H). left. exact H. Qed.
Lemma grew_below b s h s' h' l o : grew b s h s' h' -> l < b -> nth_error h l = Some o -> nth_error h' l = Some o.
Proof. intros (_ & K & _) Hl. apply K. intros (l1 & n1 & -> & H). cbn [not_at]. lia. Qed.
Definition below (b : nat) (s : gv) : Prop := forall l n, s = VSlice l n -> l < b.
Lemma grew_slice b s h s' h' t xs : grew b s h s' h' -> below b t -> slice_is h t xs -> slice_is h' t xs.
Proof. intros G Hb Hs. eapply slice_same; [exact Hs|]. intros l o (n & E). eapply grew_below; [exact G|]. eapply Hb; eauto. Qed.
Lemma grew_length b s h s' h' : grew b s h s' h' -> length h <= length h'.
Proof. intros (L & _). exact L. Qed.

(** ** The two loops over the values of a delimited attribute *)

Definition delim_val (dv : gv) : gv :=
  VStruct "Value" [("value"%string, dv); ("dynamicFunc"%string, VNil); ("concats"%string, VNil)].
Lemma delim_rep h dv d : bytes_of dv = Some d -> val_rep M h (delim_val dv) (Val d None []).
Proof. intro H. exists dv, VNil, VNil, []. split; [reflexivity|]. split; [exact H|]. split; [reflexivity|]. split; reflexivity. Qed.

(** imperative.go 88-93 *)
Definition more_body : stmt :=
  SBlock [SIf None (EBin OGt (ECall (EExt "len") [ELoc "avs"] false) (EInt 0))
     (SBlock [SAssign [LLoc "avs"] [ECall (EExt "append") [ELoc "avs"; ELit false "Value" [("value"%string, EField (ELoc "da") "delimiter")]] false]])
     SSkip;
     SAssign [LLoc "avs"] [ECall (EExt "append") [ELoc "avs"; ELoc "dv"] false]].

Lemma append_delim_nil d (v : value U) vs : append_delim d [] (v :: vs) = append_delim d [v] vs.
Proof. reflexivity. Qed.
Lemma append_delim_cons d (a : value U) avs v vs :
  append_delim d (a :: avs) (v :: vs) = append_delim d (((a :: avs) ++ [Val d None []]) ++ [v]) vs.
Proof. reflexivity. Qed.
Lemma more_turns b ld nv dv sv d en h0 :
  assoc "da" en = Some (VPtr ld) -> bytes_of dv = Some d -> ld < b -> base <= b -> below b sv ->
  forall vs h s xs avs pre ys, 
  nth_error h ld = Some (OStruct "delimitedAttribute" [("name"%string, nv); ("delimiter"%string, dv); ("values"%string, sv)]) ->
  b <= length h -> slice_is h s xs -> all2 (val_rep M h0) xs avs -> ext_ok b h s -> slice_is h sv (pre ++ ys) -> all2 (val_rep M h0) ys vs ->
  forall A' B (f : flow * venv -> prog A') (m : io U B) Q,
  (forall h' s' xs', slice_is h' s' xs' -> all2 (val_rep M h0) xs' (append_delim d avs vs) -> (s' = s /\ h' = h /\ vs = [] \/ priv b s' /\ vs <> []) -> grew b s h s' h' ->
     sim (f (FNext, ("avs"%string, s') :: en)) h' m Q) ->
  sim (pbind (range_with (exec C more_body) "_" "dv" (slice_items sv (length pre) (length ys)) (("avs"%string, s) :: en)) f) h m Q.
Proof.
  intros Ea Hd Ld HF Hsv. induction vs as [|v vs IH]; intros h s xs avs pre ys Ho Hb Hs Hx He Hv Hy A' B f m Q K; cbn [all2] in Hy.
  - subst ys. cbn [length slice_items seq map range_with append_delim] in *. apply (K h s xs); auto using grew_refl.
  - destruct Hy as (y & ys' & -> & Hy & Hys). cbn [length]. eapply simb_range_cons; [exact Hv|]. 
    replace (pre ++ y :: ys') with ((pre ++ [y]) ++ ys') in Hv by (rewrite <- app_assoc; reflexivity).
    pose proof (all2_length _ _ _ Hx) as Ln. steps. rewrite pos_of_nat.
    destruct avs as [|a avs].
    + cbn [length] in Ln. destruct xs; [|discriminate]. cbn [length Nat.ltb Nat.leb]. steps.
      eapply simb_extend; [exact Hs|exact He|exact HF|exact Hb|]. intros h1 s1 Hs1 P1 G1. cbn [app] in Hs1. steps.
      cbn [set_assoc String.eqb Ascii.eqb Bool.eqb]. steps. leaves.
      eapply (IH h1 s1 [y] [v]).
      * eapply grew_below; eauto.
      * pose proof (grew_length _ _ _ _ _ G1). lia.
      * exact Hs1.
      * exists y, []. split; [reflexivity|]. split; [exact Hy|reflexivity].
      * apply priv_ext, P1.
      * eapply grew_slice; eauto.
      * exact Hys.
      * intros h2 s2 xs2 Hs2 Hx2 P2 G2. apply (K h2 s2 xs2); [exact Hs2|exact Hx2| |eapply grew_trans; eauto].
        right. split; [|discriminate]. destruct P2 as [(-> & _)|(P2 & _)]; assumption.
    + rewrite Ln. cbn [length Nat.ltb Nat.leb]. steps.
      eapply simb_extend; [exact Hs|exact He|exact HF|exact Hb|]. intros h1 s1 Hs1 P1 G1. steps.
      cbn [set_assoc String.eqb Ascii.eqb Bool.eqb]. steps. leaves. steps.
      pose proof (grew_length _ _ _ _ _ G1) as L1.
      eapply simb_extend; [exact Hs1|apply priv_ext, P1|exact HF|lia|]. intros h2 s2 Hs2 P2 G2. steps.
      cbn [set_assoc String.eqb Ascii.eqb Bool.eqb]. steps. leaves. pose proof (grew_trans _ _ _ _ _ _ _ G1 G2) as G12.
      eapply (IH h2 s2 _ (((a :: avs) ++ [Val d None []]) ++ [v])).
      * eapply grew_below; eauto.
      * pose proof (grew_length _ _ _ _ _ G12). lia.
      * exact Hs2.
      * apply all2_app; [apply all2_app; [exact Hx|]|].
        -- eexists _, []. split; [reflexivity|]. split; [apply (delim_rep h0 dv d Hd)|reflexivity].
        -- exists y, []. split; [reflexivity|]. split; [exact Hy|reflexivity].
      * apply priv_ext, P2.
      * eapply grew_slice; eauto.
      * exact Hys.
      * intros h3 s3 xs3 Hs3 Hx3 P3 G3. apply (K h3 s3 xs3); [exact Hs3|exact Hx3| |eapply grew_trans; eauto].
        right. split; [|discriminate]. destruct P3 as [(-> & _)|(P3 & _)]; assumption.
Qed.

(** imperative.go 105-110 *)
Definition first_body : stmt :=
  SBlock [SIf None (EBin OGt (ELoc "i") (EInt 0))
     (SBlock [SAssign [LLoc "avs"] [ECall (EExt "append") [ELoc "avs"; ELit false "Value" [("value"%string, EField (ELoc "da") "delimiter")]] false]])
     SSkip;
     SAssign [LLoc "avs"] [ECall (EExt "append") [ELoc "avs"; ELoc "v"] false]].
Lemma append_delim_more d : forall vs (avs : list (value U)), avs <> [] ->
  append_delim d avs vs = avs ++ flat_map (fun v => [Val d None []; v]) vs.
Proof.
  induction vs as [|v vs IH]; intros avs H; cbn [append_delim flat_map]; [rewrite app_nil_r; reflexivity|].
  rewrite IH by (destruct avs; discriminate). destruct avs as [|a avs]; [contradiction|]. cbn [app].
  rewrite <- !app_assoc. reflexivity.
Qed.
Lemma append_delim_interpose d vs : append_delim d [] vs = interpose d vs :> list (value U).
Proof.
  destruct vs as [|v vs]; [reflexivity|]. rewrite append_delim_nil, append_delim_more by discriminate. revert v.
  induction vs as [|v' vs IH]; intro v; [reflexivity|]. cbn [flat_map interpose app] in *. f_equal. f_equal. apply IH.
Qed.
Lemma first_turns b ld nv dv sv d en h0 :
  assoc "da" en = Some (VPtr ld) -> bytes_of dv = Some d -> ld < b -> base <= b -> below b sv ->
  forall vs h s xs avs pre ys, 
  nth_error h ld = Some (OStruct "delimitedAttribute" [("name"%string, nv); ("delimiter"%string, dv); ("values"%string, sv)]) ->
  b <= length h -> slice_is h s xs -> all2 (val_rep M h0) xs avs -> priv b s -> slice_is h sv (pre ++ ys) -> all2 (val_rep M h0) ys vs ->
  (avs = [] <-> pre = []) ->
  forall A' B (f : flow * venv -> prog A') (m : io U B) Q,
  (forall h' s' xs', slice_is h' s' xs' -> all2 (val_rep M h0) xs' (append_delim d avs vs) -> priv b s' -> grew b s h s' h' ->
     sim (f (FNext, ("avs"%string, s') :: en)) h' m Q) ->
  sim (pbind (range_with (exec C first_body) "i" "v" (slice_items sv (length pre) (length ys)) (("avs"%string, s) :: en)) f) h m Q.
Proof.
  intros Ea Hd Ld HF Hsv. induction vs as [|v vs IH]; intros h s xs avs pre ys Ho Hb Hs Hx He Hv Hy Hp A' B f m Q K; cbn [all2] in Hy.
  - subst ys. cbn [length slice_items seq map range_with append_delim] in *. apply (K h s xs); auto using grew_refl.
  - destruct Hy as (y & ys' & -> & Hy & Hys). cbn [length]. eapply simb_range_key; [exact Hv|reflexivity|reflexivity|].
    replace (pre ++ y :: ys') with ((pre ++ [y]) ++ ys') in Hv by (rewrite <- app_assoc; reflexivity).
    pose proof (all2_length _ _ _ Hx) as Ln. steps. rewrite pos_of_nat.
    destruct avs as [|a avs].
    + pose proof (proj1 Hp eq_refl) as Ep. clear Hp. subst pre. cbn [length] in Ln. destruct xs; [|discriminate]. cbn [length Nat.ltb Nat.leb]. steps.
      eapply simb_extend; [exact Hs|apply priv_ext, He|exact HF|exact Hb|]. intros h1 s1 Hs1 P1 G1. cbn [app] in Hs1. steps.
      cbn [set_assoc String.eqb Ascii.eqb Bool.eqb]. steps. leaves.
      eapply (IH h1 s1 [y] [v] [y] ys').
      * eapply grew_below; eauto.
      * pose proof (grew_length _ _ _ _ _ G1). lia.
      * exact Hs1.
      * exists y, []. split; [reflexivity|]. split; [exact Hy|reflexivity].
      * exact P1.
      * eapply grew_slice; eauto.
      * exact Hys.
      * split; discriminate.
      * intros h2 s2 xs2 Hs2 Hx2 P2 G2. apply (K h2 s2 xs2); [exact Hs2|exact Hx2|exact P2|eapply grew_trans; eauto].
    + assert (Np : 0 <? length pre = true).
      { destruct pre; [discriminate (proj2 Hp eq_refl)|reflexivity]. }
      rewrite Np. steps.
      eapply simb_extend; [exact Hs|apply priv_ext, He|exact HF|exact Hb|]. intros h1 s1 Hs1 P1 G1. steps.
      cbn [set_assoc String.eqb Ascii.eqb Bool.eqb]. steps. leaves. steps.
      pose proof (grew_length _ _ _ _ _ G1) as L1.
      eapply simb_extend; [exact Hs1|apply priv_ext, P1|exact HF|lia|]. intros h2 s2 Hs2 P2 G2. steps.
      cbn [set_assoc String.eqb Ascii.eqb Bool.eqb]. steps. leaves. pose proof (grew_trans _ _ _ _ _ _ _ G1 G2) as G12.
      eapply (IH h2 s2 _ (((a :: avs) ++ [Val d None []]) ++ [v])).
      * eapply grew_below; eauto.
      * pose proof (grew_length _ _ _ _ _ G12). lia.
      * exact Hs2.
      * apply all2_app; [apply all2_app; [exact Hx|]|].
        -- eexists _, []. split; [reflexivity|]. split; [apply (delim_rep h0 dv d Hd)|reflexivity].
        -- exists y, []. split; [reflexivity|]. split; [exact Hy|reflexivity].
      * exact P2.
      * eapply grew_slice; eauto.
      * exact Hys.
      * split; [discriminate|]. destruct pre; discriminate.
      * intros h3 s3 xs3 Hs3 Hx3 P3 G3. apply (K h3 s3 xs3); [exact Hs3|exact Hx3|exact P3|eapply grew_trans; eauto].
Qed.

(** ** The tables of Start *)

Fixpoint indices_from (k : nat) (names : list bytes) : list (bytes * nat) :=
  match names with [] => [] | n :: names' => (n, k) :: indices_from (S k) names' end.
Definition as_ints (idx : list (bytes * nat)) : list (bytes * gv) := map (fun '(n, i) => (n, VInt (Z.of_nat i))) idx.
Lemma indices_snoc names n : forall k, indices_from k (names ++ [n]) = indices_from k names ++ [(n, k + length names)].
Proof.
  induction names as [|x names IH]; intro k; cbn [app indices_from length]; [rewrite Nat.add_0_r; reflexivity|].
  rewrite IH. cbn [app]. rewrite Nat.add_succ_r. reflexivity.
Qed.
Lemma lookup_index (acc : list (bytes * option (list (value U)))) name : forall k,
  (bmem name (map fst acc) = false /\ bassoc name (as_ints (indices_from k (map fst acc))) = None) \/
  (bmem name (map fst acc) = true /\ exists i x, nth_error acc i = Some (name, x) /\
     bassoc name (as_ints (indices_from k (map fst acc))) = Some (VInt (Z.of_nat (k + i))) /\
     forall f, upd_assoc acc name f = set_nth acc i (name, f x)).
Proof.
  induction acc as [|[n x] acc IH]; intro k; cbn [map fst].
  - left. auto.
  - change (bmem name (n :: map fst acc)) with (beq name n || bmem name (map fst acc)). cbn [indices_from as_ints map bassoc upd_assoc].
    destruct (beq_spec n name) as [->|Hn].
    + right. rewrite beq_refl. split; [reflexivity|]. exists 0, x. rewrite Nat.add_0_r. auto.
    + assert (E : beq name n = false) by (destruct (beq_spec name n); congruence). rewrite E. cbn [orb].
      destruct (IH (S k)) as [(E1 & E2)|(E1 & i & y & E2 & E3 & E4)].
      * left. auto.
      * right. split; [auto|]. exists (S i), y. split; [exact E2|]. split.
        { unfold as_ints in E3. rewrite E3. do 2 f_equal. lia. }
        { intro f. cbn [set_nth]. rewrite E4. reflexivity. }
Qed.

Section Tables.
Variables (lc : loc) (fr : frame U) (e : option error) (h0 : heap) (N : nat).
Notation lv := (length h0).
Notation la := (S (length h0)).
Notation lm := (S (S (length h0))).
Notation b := (S (S (S (length h0)))).

(** An entry of attValues. *)
Definition ent (h : heap) (x : gv) (ov : option (list (value U))) : Prop :=
  match ov with
  | None => x = VNil
  | Some vs => exists l n xs, x = VSlice l n /\ slice_is h x xs /\ all2 (val_rep M h0) xs vs /\
                 (l < lv /\ tight h x \/ b <= l)
  end.
Definition apart (es : list gv) : Prop := forall i j l n n',
  nth_error es i = Some (VSlice l n) -> nth_error es j = Some (VSlice l n') -> b <= l -> i = j.
Definition tables (h : heap) (acc : list (bytes * option (list (value U)))) (cv cn : list gv) : Prop :=
  kept lc h0 h /\ ctx_at h lc fr e /\ b <= length h /\
  nth_error h lv = Some (OArr cv) /\ length cv = N /\ length acc <= N /\
  all2 (ent h) (firstn (length acc) cv) (map snd acc) /\ apart (firstn (length acc) cv) /\
  nth_error h la = Some (OArr cn) /\ length cn = N /\ firstn (length acc) cn = map VBytes (map fst acc) /\
  nth_error h lm = Some (OMap (as_ints (indices_from 0 (map fst acc)))).

Lemma ent_same h h' x ov : ent h x ov ->
  (forall l n o, x = VSlice l n -> nth_error h l = Some o -> nth_error h' l = Some o) -> ent h' x ov.
Proof.
  destruct ov as [vs|]; cbn [ent]; auto. intros (l & n & xs & -> & H1 & H2 & H3) K. exists l, n, xs. split; [auto|].
  split; [|split; [auto|]].
  - eapply slice_same; [exact H1|]. intros l' o (n' & E). inversion E; subst. eapply K. reflexivity.
  - destruct H3 as [(H3 & l1 & cs & E & H4)|H3]; [left|right; auto]. split; [auto|]. inversion E; subst. exists l1, cs. split; [auto|].
    eapply K; [reflexivity|exact H4].
Qed.
Lemma ent_loc h x ov l n : ent h x ov -> x = VSlice l n -> (l < lv \/ b <= l) /\ l < length h.
Proof.
  destruct ov as [vs|]; cbn [ent]; [|congruence]. intros (l1 & n1 & xs & -> & (cs & H1 & _) & _ & H3) E. inversion E; subst.
  split; [tauto|eapply nth_lt; eauto].
Qed.
Lemma all2_nth {X Y} (R : X -> Y -> Prop) : forall ys xs, all2 R xs ys -> forall i x y, nth_error xs i = Some x -> nth_error ys i = Some y -> R x y.
Proof.
  induction ys as [|y ys IH]; intros xs H i x' y' H1 H2; cbn [all2] in H; [destruct i; discriminate|].
  destruct H as (x & xs' & -> & Hx & H). destruct i as [|i]; cbn [nth_error] in *; [congruence|]. eapply IH; eauto.
Qed.
Lemma all2_of_nth {X Y} (R : X -> Y -> Prop) : forall ys xs, length xs = length ys ->
  (forall i x y, nth_error xs i = Some x -> nth_error ys i = Some y -> R x y) -> all2 R xs ys.
Proof.
  induction ys as [|y ys IH]; intros xs L H; cbn [all2]; [destruct xs; [auto|discriminate]|].
  destruct xs as [|x xs]; [discriminate|]. exists x, xs. split; [auto|]. split; [apply (H 0); auto|]. apply IH; [cbn in L; lia|].
  intros i. apply (H (S i)).
Qed.

(** A new value for the entry with index [i]. *)
Lemma tables_update h acc cv cn i name ov ov' s s' h' :
  tables h acc cv cn -> nth_error acc i = Some (name, ov) -> nth_error cv i = Some s ->
  grew b s h s' h' \/ h' = h -> ent h' s' ov' ->
  (forall l n, s' = VSlice l n -> b <= l -> (exists n', s = VSlice l n') \/ length h <= l) ->
  tables (set_nth h' lv (OArr (set_nth cv i s'))) (set_nth acc i (name, ov')) (set_nth cv i s') cn.
Proof.
  intros (T1 & T2 & T3 & T4 & T5 & T6 & T7 & T8 & T9 & T10 & T11 & T12) Hi Hs HG He Hl.
  pose proof (nth_lt _ _ _ Hi) as Li.
  assert (G : length h <= length h' /\ forall l o, (priv b s -> not_at l s) -> nth_error h l = Some o -> nth_error h' l = Some o).
  { destruct HG as [(G1 & G2 & _)| ->]; auto. }
  destruct G as [GL GK]. 
  assert (GB : forall l o, l < b -> nth_error h l = Some o -> nth_error h' l = Some o).
  { intros l o Hb. apply GK. intros (l1 & n1 & -> & H). cbn [not_at]. lia. }
  assert (SB : same_below lv h (set_nth h' lv (OArr (set_nth cv i s')))).
  { eapply same_trans; [|apply same_update; auto]. split; [exact GL|]. intros l o Hb. apply GB. lia. }
  assert (Ef : map fst (set_nth acc i (name, ov')) = map fst acc).
  { clear - Hi. revert i Hi. induction acc as [|[n x] acc IH]; intros [|i] Hi; cbn [set_nth map fst nth_error] in *; try congruence. rewrite IH; auto. }
  assert (Es : map snd (set_nth acc i (name, ov')) = set_nth (map snd acc) i ov').
  { clear. revert i. induction acc as [|[n x] acc IH]; intros [|i]; cbn [set_nth map snd]; congruence. }
  assert (Lf : length (firstn (length acc) cv) = length acc) by (apply firstn_length_le; lia).
  unfold tables. rewrite Ef, Es, !length_set_nth, set_firstn by exact Li.
  split; [eapply kept_same; eauto|]. split; [eapply ctx_same; [exact T2|eapply kept_lt; eauto|exact SB]|]. split; [lia|].
  split; [apply nth_set_same; lia|]. split; [auto|]. split; [auto|]. split; [|split; [|split; [|split; [auto|split; [auto|]]]]].
  - apply all2_of_nth; [rewrite !length_set_nth, map_length; lia|]. intros j x y Hx Hy. destruct (Nat.eq_dec i j) as [<-|Hj].
    + rewrite nth_set_same in Hx by lia. rewrite nth_set_same in Hy by (rewrite map_length; lia). inversion Hx; inversion Hy; subst.
      eapply ent_same; [exact He|]. intros l n o -> Ho. destruct (ent_loc _ _ _ _ _ He eq_refl) as [P _]. rewrite nth_set_other; [exact Ho|lia].
    + rewrite nth_set_other in Hx by auto. rewrite nth_set_other in Hy by auto. pose proof (all2_nth _ _ _ T7 _ _ _ Hx Hy) as E0.
      eapply ent_same; [exact E0|]. intros l n o -> Ho. destruct (ent_loc _ _ _ _ _ E0 eq_refl) as [P _]. rewrite nth_set_other by lia.
      apply GK; [|exact Ho]. intros (l1 & n1 & -> & B1). cbn [not_at]. intros ->.
      apply Hj. symmetry. eapply (T8 j i); [exact Hx| |exact B1]. rewrite nth_firstn_lt by lia. exact Hs.
  - intros j k l n n' Hx Hy Hb. destruct (Nat.eq_dec i j) as [<-|Hj], (Nat.eq_dec i k) as [<-|Hk]; auto.
    + rewrite nth_set_same in Hx by lia. rewrite nth_set_other in Hy by auto. inversion Hx; subst.
      destruct (Hl _ _ eq_refl Hb) as [(n2 & ->)|Hf].
      * exfalso. apply Hk. eapply (T8 i k); [rewrite nth_firstn_lt by lia; exact Hs|exact Hy|exact Hb].
      * destruct (nth_error (map snd acc) k) as [y|] eqn:Ey.
        { pose proof (all2_nth _ _ _ T7 _ _ _ Hy Ey) as E0. destruct (ent_loc _ _ _ _ _ E0 eq_refl). lia. }
        { apply nth_error_None in Ey. apply nth_lt in Hy. rewrite map_length in Ey. lia. }
    + rewrite nth_set_same in Hy by lia. rewrite nth_set_other in Hx by auto. inversion Hy; subst.
      destruct (Hl _ _ eq_refl Hb) as [(n2 & ->)|Hf].
      * exfalso. apply Hj. symmetry. eapply (T8 j i); [exact Hx|rewrite nth_firstn_lt by lia; exact Hs|exact Hb].
      * destruct (nth_error (map snd acc) j) as [y|] eqn:Ey.
        { pose proof (all2_nth _ _ _ T7 _ _ _ Hx Ey) as E0. destruct (ent_loc _ _ _ _ _ E0 eq_refl). lia. }
        { apply nth_error_None in Ey. apply nth_lt in Hx. rewrite map_length in Ey. lia. }
    + rewrite nth_set_other in Hx by auto. rewrite nth_set_other in Hy by auto. eapply T8; eauto.
  - rewrite nth_set_other by lia. apply GB; [lia|exact T9].
  - rewrite nth_set_other by lia. apply GB; [lia|exact T12].
Qed.

(** A new entry. *)
Lemma firstn_set_last {X} (cs : list X) n x : n < length cs -> firstn (S n) (set_nth cs n x) = firstn n cs ++ [x].
Proof. revert n. induction cs as [|c cs IH]; intros [|n] H; cbn [length] in H; try lia; cbn [set_nth firstn app]; [reflexivity|]. rewrite <- IH by lia. reflexivity. Qed.
Lemma tables_new h acc cv cn name ov s h' :
  tables h acc cv cn -> length acc < N -> bmem name (map fst acc) = false -> length h <= length h' ->
  (forall l o, l <> la -> l <> lm -> nth_error h l = Some o -> nth_error h' l = Some o) ->
  nth_error h' la = Some (OArr (set_nth cn (length acc) (VBytes name))) ->
  nth_error h' lm = Some (OMap (bstore name (VInt (Z.of_nat (length acc))) (as_ints (indices_from 0 (map fst acc))))) ->
  ent h' s ov -> (forall l n, s = VSlice l n -> b <= l -> length h <= l) ->
  tables (set_nth h' lv (OArr (set_nth cv (length acc) s))) (acc ++ [(name, ov)]) (set_nth cv (length acc) s) (set_nth cn (length acc) (VBytes name)).
Proof.
  intros (T1 & T2 & T3 & T4 & T5 & T6 & T7 & T8 & T9 & T10 & T11 & T12) HN Hm HL HK Hla Hlm He Hf.
  assert (SB : same_below lv h (set_nth h' lv (OArr (set_nth cv (length acc) s)))).
  { eapply same_trans; [|apply same_update; auto]. split; [exact HL|]. intros l o Hb. apply HK; lia. }
  assert (Lf : length (firstn (length acc) cv) = length acc) by (apply firstn_length_le; lia).
  unfold tables. rewrite !map_app, app_length. cbn [length map fst snd]. rewrite Nat.add_1_r, !length_set_nth, !firstn_set_last by lia.
  split; [eapply kept_same; eauto|]. split; [eapply ctx_same; [exact T2|eapply kept_lt; eauto|exact SB]|]. split; [lia|].
  split; [apply nth_set_same; lia|]. split; [auto|]. split; [lia|]. split; [|split; [|split; [|split; [auto|split; [rewrite T11; reflexivity|]]]]].
  - apply all2_app.
    + apply all2_of_nth; [rewrite map_length; lia|]. intros j x y Hx Hy. pose proof (all2_nth _ _ _ T7 _ _ _ Hx Hy) as E0.
      eapply ent_same; [exact E0|]. intros l n o -> Ho. destruct (ent_loc _ _ _ _ _ E0 eq_refl) as [P _]. rewrite nth_set_other by lia. apply HK; [lia|lia|exact Ho].
    + exists s, []. split; [auto|]. split; [|reflexivity]. eapply ent_same; [exact He|]. intros l n o -> Ho.
      destruct (ent_loc _ _ _ _ _ He eq_refl) as [P _]. rewrite nth_set_other by lia. exact Ho.
  - assert (Q : forall j l n, nth_error (firstn (length acc) cv) j = Some (VSlice l n) -> l < length h).
    { intros j l n Hx. destruct (nth_error (map snd acc) j) as [y|] eqn:Ey.
      - pose proof (all2_nth _ _ _ T7 _ _ _ Hx Ey) as E0. destruct (ent_loc _ _ _ _ _ E0 eq_refl). lia.
      - apply nth_error_None in Ey. apply nth_lt in Hx. rewrite map_length in Ey. lia. }
    assert (Q' : forall j x, nth_error (firstn (length acc) cv ++ [s]) j = Some x -> j < length acc /\ nth_error (firstn (length acc) cv) j = Some x \/ j = length acc /\ x = s).
    { intros j x Hx. destruct (Nat.lt_ge_cases j (length acc)) as [Hj|Hj].
      - left. rewrite nth_error_app1 in Hx by lia. auto.
      - right. pose proof (nth_lt _ _ _ Hx) as Lj. rewrite app_length in Lj. cbn [length] in Lj. assert (j = length acc) as -> by lia.
        rewrite nth_error_app2, Lf, Nat.sub_diag in Hx by lia. inversion Hx. auto. }
    intros j k l n n' Hx Hy Hb. apply Q' in Hx, Hy. destruct Hx as [(Jx & Hx)|(-> & Ex)], Hy as [(Jy & Hy)|(-> & Ey)]; auto.
    + eapply T8; eauto.
    + apply Q in Hx. symmetry in Ey. pose proof (Hf _ _ Ey Hb). lia.
    + apply Q in Hy. symmetry in Ex. pose proof (Hf _ _ Ex Hb). lia.
  - rewrite nth_set_other by lia. exact Hla.
  - rewrite nth_set_other by lia. rewrite Hlm, indices_snoc, map_length, Nat.add_0_l. unfold as_ints. rewrite map_app. cbn [map].
    do 2 f_equal. apply bstore_new. destruct (lookup_index acc name 0) as [(_ & E)|(E & _)]; [exact E|congruence].
Qed.

Lemma tight_grown h h' s : grown h h' -> tight h s -> tight h' s.
Proof. intro G. apply tight_keeps, grown_keeps, G. Qed.
Lemma simb_getValues_tight {A' B} v n vs h (f : list gv -> prog A') (m : io U B) Q :
  tight_attr M h0 v (APlain n vs) -> keeps h0 h ->
  (forall sv xs, slice_is h0 sv xs -> all2 (val_rep M h0) xs vs -> tight h0 sv -> sim (f [sv]) h m Q) ->
  sim (pbind (invoke v "getValues" [] false) f) h m Q.
Proof.
  intros (Ha & Ht) Kp K. cbn [attr_rep] in *;
    unfold vals_rep in *; destruct Ht as (l1 & t1 & fs1 & s1 & -> & E1 & E2 & _ & E4); split_all;
    match goal with H : VPtr _ = VPtr _ |- _ => inversion H; subst; clear H end;
    match goal with H : nth_error h0 ?l = Some (OStruct ?t _), H' : nth_error h0 ?l = Some (OStruct ?t' [_]) |- _ => idtac | _ => idtac end;
    match goal with H : nth_error h0 ?l = Some ?o, H' : nth_error h0 ?l = Some ?o' |- _ => rewrite H in H'; inversion H'; subst; clear H' end;
    lazy [assoc String.eqb Ascii.eqb Bool.eqb] in E2; inversion E2; subst;
    match goal with H : nth_error _ _ = Some (OStruct _ _) |- _ => apply Kp in H; [|discriminate] end;
    (eapply simb_method; [eassumption|reflexivity|reflexivity|]; enter; steps; eapply K; eassumption).
Qed.

Definition start_env (k : nat) (sa bv nv : gv) (li : loc) : venv :=
  [("attIndices"%string, VMap lm); ("attNames"%string, VSlice la k); ("attValues"%string, VSlice lv k);
   ("attrs"%string, sa); ("isVoid"%string, bv); ("elementName"%string, nv); ("ic"%string, VPtr li)].

(** imperative.go 86-101: a name that has been seen. *)
Definition seen_body : stmt :=
  SBlock [SIf (Some (SDefine ["da"%string; "ok"%string] [EAssert (ELoc "attr") "*delimitedAttribute"])) (ELoc "ok")
     (SBlock [SDefine ["avs"%string] [EIndex (ELoc "attValues") (ELoc "idx")];
     SRange "_" "dv" (EField (ELoc "da") "values") more_body;
     SAssign [LIndex (ELoc "attValues") (ELoc "idx")] [ELoc "avs"]])
     (SIf (Some (SDefine ["va"%string; "ok"%string] [EAssert (ELoc "attr") "valuesNode"])) (ELoc "ok")
     (SBlock [SAssign [LIndex (ELoc "attValues") (ELoc "idx")] [EMethod (ELoc "va") "getValues" [] false]])
     (SBlock [SAssign [LIndex (ELoc "attValues") (ELoc "idx")] [ENil]]))].
(** imperative.go 102-119: a new name. *)
Definition fresh_body : stmt :=
  SBlock [SAssign [LIndex (ELoc "attIndices") (EMethod (ELoc "attr") "Name" [] false)] [ECall (EExt "len") [ELoc "attNames"] false];
     SAssign [LLoc "attNames"] [ECall (EExt "append") [ELoc "attNames"; EConv "[]byte" (EMethod (ELoc "attr") "Name" [] false)] false];
     SIf (Some (SDefine ["da"%string; "ok"%string] [EAssert (ELoc "attr") "*delimitedAttribute"])) (ELoc "ok")
     (SBlock [SDefine ["avs"%string] [EMake "[]Value" [EInt 0; EBin OMul (ECall (EExt "len") [EField (ELoc "da") "values"] false) (EInt 2)]];
     SRange "i" "v" (EField (ELoc "da") "values") first_body;
     SAssign [LLoc "attValues"] [ECall (EExt "append") [ELoc "attValues"; ELoc "avs"] false]])
     (SIf (Some (SDefine ["vn"%string; "ok"%string] [EAssert (ELoc "attr") "valuesNode"])) (ELoc "ok")
     (SBlock [SAssign [LLoc "attValues"] [ECall (EExt "append") [ELoc "attValues"; EMethod (ELoc "vn") "getValues" [] false] false]])
     (SBlock [SAssign [LLoc "attValues"] [ECall (EExt "append") [ELoc "attValues"; ENil] false]]))].
Definition start_body : stmt :=
  SBlock [SIf None (EAnd (EBin ONe (ELoc "attr") ENil) (EBin OEq (EMethod (ELoc "attr") "Type" [] false) (EInt 1)))
     (SBlock [SIf (Some (SDefine ["idx"%string; "ok"%string] [EIndex (ELoc "attIndices") (EMethod (ELoc "attr") "Name" [] false)])) (ELoc "ok")
       seen_body fresh_body])
     SSkip].

Lemma base_ent h s xs vs : kept lc h0 h -> slice_is h0 s xs -> all2 (val_rep M h0) xs vs -> tight h0 s -> ent h s (Some vs).
Proof.
  intros K Hs Hx Ht. pose proof (tight_keeps _ _ _ (kept_keeps _ _ _ K) Ht) as Ht1. destruct Ht as (l & cs & -> & Ho).
  exists l, (length cs), xs. split; [auto|]. split; [eapply slice_kept; eauto|]. split; [auto|]. left. split; [eapply nth_lt; eauto|exact Ht1].
Qed.
Lemma seen_turn {A' B} h acc cv cn i name ov a v en sa bv nv li (f : flow * venv -> prog A') (m : io U B) Q :
  tables h acc cv cn -> tight_attr M h0 v a -> nth_error acc i = Some (name, ov) ->
  en = ("ok"%string, VBool true) :: ("idx"%string, VInt (Z.of_nat i)) :: ("attr"%string, v) :: start_env (length acc) sa bv nv li ->
  (forall h' acc' cv', 
     acc' = set_nth acc i (name, match a with
         | ADelim _ delim vs => match vs with [] => ov | _ => Some (append_delim delim (match ov with Some avs => avs | None => [] end) vs) end
         | APlain _ vs => Some vs
         | ABool _ => None
         end) -> tables h' acc' cv' cn -> sim (f (FNext, en)) h' m Q) ->
  sim (pbind (exec C seen_body en) f) h m Q.
Proof.
  intros T Ta Hi -> K. unfold start_env. 
  pose proof T as (T1 & T2 & T3 & T4 & T5 & T6 & T7 & T8 & T9 & T10 & T11 & T12). pose proof Ta as (Ra & _).
  pose proof (attr_keeps M _ _ _ _ (kept_keeps _ _ _ T1) Ra) as Ra1.
  assert (Sv : slice_is h (VSlice lv (length acc)) (firstn (length acc) cv)) by (exists cv; split; [exact T4|]; split; [lia|reflexivity]).
  destruct (nth_error cv i) as [s|] eqn:Ec; [|apply nth_error_None in Ec; apply nth_lt in Hi; lia].
  steps. eapply simb_assert_ok; [apply is_delimited; exact Ra1|].
  destruct a as [n vs|n|n d vs].
  - steps. eapply simb_assert_ok; [apply is_values_node; exact Ra1|]. cbn [attr_values]. steps.
    eapply simb_getValues_tight; [exact Ta|eapply kept_keeps; eauto|]. intros s1 xs Hs Hx Ht. steps.
    eapply simb_store_slice_f; [floored|exact T4|eapply nth_lt; exact Hi|]. steps.
    eapply K; [reflexivity|]. eapply tables_update; [exact T|exact Hi|exact Ec|right; reflexivity| |].
    + eapply base_ent; eauto.
    + intros l n0 -> Hb. destruct Ht as (l1 & cs & E & Ho). inversion E; subst. apply nth_lt in Ho. lia.
  - steps. eapply simb_assert_ok; [apply is_values_node; exact Ra1|]. cbn [attr_values]. steps.
    eapply simb_store_slice_f; [floored|exact T4|eapply nth_lt; exact Hi|]. steps.
    eapply K; [reflexivity|]. eapply tables_update; [exact T|exact Hi|exact Ec|right; reflexivity|reflexivity|discriminate].
  - destruct Ra as (ld & nv' & dv & sv & -> & Ho & Hn & Hd & ys & Hsv & Hys). pose proof (kept_nth _ _ _ _ _ T1 Ho ltac:(discriminate)) as Ho1.
    pose proof (slice_kept _ _ _ _ _ T1 Hsv) as Hsv1. pose proof (nth_lt _ _ _ Ho) as Ld.
    assert (Bs : below b sv). { intros l n1 ->. destruct Hsv as (cs & X & _). apply nth_lt in X. lia. }
    steps. eapply simb_index_slice; [exact Sv|lia|rewrite Nat2Z.id, nth_firstn_lt by (eapply nth_lt; exact Hi); exact Ec|]. cbn [fst]. steps.
    pose proof (all2_nth _ _ _ T7 i s ov) as Es. rewrite nth_firstn_lt in Es by (eapply nth_lt; exact Hi).
    specialize (Es Ec). rewrite nth_error_map, Hi in Es. specialize (Es eq_refl).
    assert (Ex : exists xs, slice_is h s xs /\ all2 (val_rep M h0) xs (match ov with Some avs => avs | None => [] end) /\ ext_ok b h s).
    { destruct ov as [avs|]; cbn [ent] in Es.
      - destruct Es as (l & n1 & xs & -> & X1 & X2 & X3). exists xs. split; [auto|]. split; [auto|]. destruct X3 as [(_ & X3)|X3]; [right; exact X3|left; exact X3].
      - subst s. exists []. split; [reflexivity|]. split; [reflexivity|]. left. exact I. }
    destruct Ex as (xs & X1 & X2 & X3).
    eapply (more_turns b ld nv' dv sv d _ h0) with (pre := []) (avs := match ov with Some avs => avs | None => [] end);
      [reflexivity|exact Hd|lia|floored|exact Bs|exact Ho1|exact T3|exact X1|exact X2|exact X3|exact Hsv1|exact Hys|].
    intros h1 s1 xs1 Hs1 Hx1 P1 G1. assert (T4' : nth_error h1 lv = Some (OArr cv)) by (eapply grew_below; [exact G1|lia|exact T4]). steps.
    eapply simb_store_slice_f; [floored|exact T4'|eapply nth_lt; exact Hi|]. steps.
    eapply K; [reflexivity|]. destruct vs as [|v vs].
    + destruct P1 as [(-> & -> & _)|(_ & P1)]; [|contradiction]. eapply tables_update; [exact T|exact Hi|exact Ec|right; reflexivity|exact Es|].
      intros l n1 -> _. eauto.
    + destruct P1 as [(_ & _ & P1)|(P1 & _)]; [discriminate|]. eapply tables_update; [exact T|exact Hi|exact Ec|left; exact G1| |].
      * destruct P1 as (l & n1 & -> & P1). exists l, n1, xs1. auto.
      * intros l n1 E _. destruct G1 as (_ & _ & G1). exact (G1 _ _ E).
Qed.

Lemma fresh_turn {A' B} h acc cv cn a v sa bv nv li x y (f : flow * venv -> prog A') (m : io U B) Q :
  tables h acc cv cn -> tight_attr M h0 v a -> length acc < N -> bmem (attr_name a) (map fst acc) = false ->
  (forall h' acc' cv' cn', 
     acc' = acc ++ [(attr_name a, match a with
             | ADelim _ delim vs => Some (interpose delim vs)
             | APlain _ vs => Some vs
             | ABool _ => None
             end)] -> tables h' acc' cv' cn' ->
     sim (f (FNext, ("ok"%string, x) :: ("idx"%string, y) :: ("attr"%string, v) :: start_env (S (length acc)) sa bv nv li)) h' m Q) ->
  sim (pbind (exec C fresh_body (("ok"%string, x) :: ("idx"%string, y) :: ("attr"%string, v) :: start_env (length acc) sa bv nv li)) f) h m Q.
Proof.
  intros T Ta HN Hm K. unfold start_env. 
  pose proof T as (T1 & T2 & T3 & T4 & T5 & T6 & T7 & T8 & T9 & T10 & T11 & T12). pose proof Ta as (Ra & _).
  assert (Sn : slice_is h (VSlice la (length acc)) (firstn (length acc) cn)) by (exists cn; split; [exact T9|]; split; [lia|reflexivity]).
  assert (Ln : length (firstn (length acc) cn) = length acc) by (apply firstn_length_le; lia).
  pose proof (attr_keeps M _ _ _ _ (kept_keeps _ _ _ T1) Ra) as Ra1.
  steps. eapply simb_attr_name; [exact Ra1|]. steps. rewrite Ln.
  eapply simb_store_map_f; [floored|exact T12|].
  lazymatch goal with |- @GoRun.sim _ _ _ _ _ _ _ ?h' _ _ => set (h1 := h') end.
  assert (SB1 : same_below lv h h1) by (apply same_update; lia).
  assert (K1 : kept lc h0 h1) by (eapply kept_same; eauto).
  pose proof (attr_keeps M _ _ _ _ (kept_keeps _ _ _ K1) Ra) as Ra2. steps.
  eapply simb_attr_name; [exact Ra2|]. steps.
  assert (N1 : nth_error h1 la = Some (OArr cn)) by (subst h1; rewrite nth_set_other by lia; exact T9).
  eapply simb_append_room_f; [floored|exact N1|lia|].
  lazymatch goal with |- @GoRun.sim _ _ _ _ _ _ _ ?h' _ _ => remember h' as h2 eqn:E2 end.
  assert (SB2 : same_below lv h h2) by (subst h2; eapply same_trans; [exact SB1|apply same_update; lia]).
  assert (K2 : kept lc h0 h2) by (eapply kept_same; [exact T1|exact SB2]).
  assert (L2 : length h2 = length h) by (subst h2 h1; rewrite !length_set_nth; reflexivity).
  assert (O2 : forall l o, l <> la -> l <> lm -> nth_error h l = Some o -> nth_error h2 l = Some o).
  { intros l o Ha Hb Ho. subst h2 h1. rewrite !nth_set_other by auto. exact Ho. }
  assert (A2 : nth_error h2 la = Some (OArr (set_nth cn (length acc) (VBytes (attr_name a))))).
  { subst h2. apply nth_set_same. subst h1. rewrite length_set_nth. lia. }
  assert (M2 : nth_error h2 lm = Some (OMap (bstore (attr_name a) (VInt (Z.of_nat (length acc))) (as_ints (indices_from 0 (map fst acc)))))).
  { subst h2. rewrite nth_set_other by lia. subst h1. apply nth_set_same. lia. }
  assert (V2 : nth_error h2 lv = Some (OArr cv)) by (apply O2; [lia|lia|exact T4]).
  clearbody h1. clear E2 Ra2 N1 K1 SB1 h1. steps. 
  pose proof (attr_keeps M _ _ _ _ (kept_keeps _ _ _ K2) Ra) as Ra2.
  eapply simb_assert_ok; [apply is_delimited; exact Ra2|].
  destruct a as [n vs|n|n d vs].
  - steps. eapply simb_assert_ok; [apply is_values_node; exact Ra2|]. cbn [attr_values]. steps.
    eapply simb_getValues_tight; [exact Ta|eapply kept_keeps; eauto|]. intros s1 xs Hs Hx Ht. steps.
    eapply simb_append_room_f; [floored|exact V2|lia|]. steps.
    eapply K; [reflexivity|]. eapply tables_new; [exact T|exact HN|exact Hm|lia|exact O2|exact A2|exact M2| |].
    + eapply base_ent; eauto.
    + intros l n0 -> Hb. destruct Ht as (l1 & cs & E & Ho). inversion E; subst. apply nth_lt in Ho. lia.
  - steps. eapply simb_assert_ok; [apply is_values_node; exact Ra2|]. cbn [attr_values]. steps.
    eapply simb_append_room_f; [floored|exact V2|lia|]. steps.
    eapply K; [reflexivity|]. eapply tables_new; [exact T|exact HN|exact Hm|lia|exact O2|exact A2|exact M2|reflexivity|discriminate].
  - destruct Ra as (ld & nv' & dv & sv & -> & Ho & Hn & Hd & ys & Hsv & Hys). pose proof (kept_nth _ _ _ _ _ K2 Ho ltac:(discriminate)) as Ho1.
    pose proof (slice_kept _ _ _ _ _ K2 Hsv) as Hsv1. pose proof (nth_lt _ _ _ Ho) as Ld.
    assert (Bs : below b sv). { intros l n1 ->. destruct Hsv as (cs & X & _). apply nth_lt in X. lia. }
    steps. replace (Z.of_nat (length ys) * 2)%Z with (Z.of_nat (length ys * 2)) by lia.
    eapply simb_make_slice; [reflexivity|]. steps.
    pose proof (slice_grown _ _ _ _ (grown_app h2 [OArr (repeat VNil (length ys * 2))]) Hsv1) as Hsv2.
    pose proof (grown_nth _ _ _ _ (grown_app h2 [OArr (repeat VNil (length ys * 2))]) Ho1) as Ho2. steps.
    eapply (first_turns b ld nv' dv sv d _ h0) with (pre := []) (avs := []) (xs := []);
      [reflexivity|exact Hd|lia|floored|exact Bs|exact Ho2|rewrite app_length; lia| |reflexivity| |exact Hsv2|exact Hys|tauto|].
    { exists (repeat VNil (length ys * 2)). split; [apply nth_app_new|]. split; [lia|reflexivity]. }
    { exists (length h2), 0. split; [auto|lia]. }
    intros h3 s3 xs3 Hs3 Hx3 P3 G3. rewrite append_delim_interpose in Hx3.
    assert (O3 : forall l o, nth_error h2 l = Some o -> nth_error h3 l = Some o).
    { intros l o Hl. destruct G3 as (_ & G3 & _). apply G3; [|apply nth_app_old; exact Hl]. intros _. cbn [not_at]. apply nth_lt in Hl. lia. }
    pose proof (O3 _ _ V2) as V3. steps.
    eapply simb_append_room_f; [floored|exact V3|lia|]. steps.
    eapply K; [reflexivity|]. eapply tables_new; [exact T|exact HN|exact Hm| |intros l o X1 X2 X3; apply O3, O2; auto|apply O3, A2|apply O3, M2| |].
    + pose proof (grew_length _ _ _ _ _ G3) as X. rewrite app_length in X. lia.
    + destruct P3 as (l & n1 & -> & P3). exists l, n1, xs3. auto.
    + intros l n1 E _. destruct G3 as (_ & _ & G3). destruct (G3 _ _ E) as [(n2 & X)|X]; [inversion X; lia|rewrite app_length in X; lia].
Qed.

(** A node given to Start. *)
Definition tight_opt (h : heap) (v : gv) (n : option (node U)) : Prop :=
  opt_rep M h v n /\ match n with Some (NAttr a) => tight_attr M h v a | _ => True end.
Lemma start_add_seen acc a i ov :
  bmem (attr_name a) (map fst acc) = true ->
  (forall f, upd_assoc acc (attr_name a) f = set_nth acc i (attr_name a, f ov)) ->
  start_add acc a = set_nth acc i (attr_name a, match a with
         | ADelim _ delim vs => match vs with [] => ov | _ => Some (append_delim delim (match ov with Some avs => avs | None => [] end) vs) end
         | APlain _ vs => Some vs
         | ABool _ => None
         end) :> list (bytes * option (list (value U))).
Proof. intros Hm H. unfold start_add. rewrite Hm, H. destruct a; reflexivity. Qed.
Ltac upto :=
  red_head; repeat (lazymatch goal with
    | |- @GoRun.sim _ _ _ _ _ _ (pbind (exec _ fresh_body _) _) _ _ _ => fail
    | |- @GoRun.sim _ _ _ _ _ _ (pbind (exec _ seen_body _) _) _ _ _ => fail
    | _ => step
    end).
Lemma start_turns sa bv nv li : forall attrs h acc cv cn pre xs,
  tables h acc cv cn -> slice_is h0 sa (pre ++ xs) -> all2 (tight_opt h0) xs attrs -> length acc + length xs <= N ->
  forall A' B (f : flow * venv -> prog A') (m : io U B) Q,
  (forall h' cv' cn', tables h' (start_attrs attrs acc) cv' cn' ->
     sim (f (FNext, start_env (length (start_attrs attrs acc)) sa bv nv li)) h' m Q) ->
  sim (pbind (range_with (exec C start_body) "_" "attr" (slice_items sa (length pre) (length xs)) (start_env (length acc) sa bv nv li)) f) h m Q.
Proof.
  induction attrs as [|n attrs IH]; intros h acc cv cn pre xs T Hs Hx HN A' B f m Q K; cbn [all2] in Hx.
  - subst xs. cbn [length slice_items seq map range_with start_attrs] in *. apply (K h cv cn T).
  - destruct Hx as (x & xs' & -> & (Rx & Tx) & Hx). pose proof T as (T1 & _ & _ & _ & _ & _ & _ & _ & _ & _ & _ & T12).
    pose proof (slice_kept _ _ _ _ _ T1 Hs) as Hs1. cbn [length]. eapply simb_range_cons; [exact Hs1|].
    replace (pre ++ x :: xs') with ((pre ++ [x]) ++ xs') in Hs by (rewrite <- app_assoc; reflexivity). cbn [length] in HN.
    cbn [String.eqb Ascii.eqb Bool.eqb].
    destruct n as [n|]; cbn [opt_rep] in Rx.
    + pose proof (node_keeps M _ _ (kept_keeps _ _ _ T1) _ _ Rx) as Rx1. unfold start_env at 1. steps.
      rewrite (equal_nil x) by (eapply node_not_nil; eauto). steps.
      eapply simb_type; [exact Rx1|]. intros z Hz. steps. rewrite Hz.
      destruct n as [a| | | | | | | | | | | | | ]; cbn [is_attr];
        try (steps; eapply IH; [exact T|exact Hs|exact Hx|lia|exact K]).
      steps. eapply simb_attr_name; [exact Rx1|]. steps.
      eapply simb_index_map; [exact T12|].
      destruct (lookup_index acc (attr_name a) 0) as [(E1 & E2)|(E1 & i & ov & E2 & E3 & E4)].
      * rewrite E2. upto. eapply (fresh_turn h acc cv cn a x sa bv nv li); [exact T|exact Tx|lia|exact E1|].
        intros h1 acc1 cv1 cn1 Ea T'. unfold start_env at 1. steps. cbn [start_env length skipn].
        assert (Ea' : acc1 = start_add acc a) by (unfold start_add; rewrite E1; exact Ea).
        assert (El : S (length acc) = length acc1) by (rewrite Ea, app_length; cbn [length]; lia).
        rewrite El. clear Ea. subst acc1. apply (IH h1 _ cv1 cn1 (pre ++ [x]) xs'); [exact T'|exact Hs|exact Hx|lia|exact K].
      * cbn [Nat.add] in E3. rewrite E3. upto. eapply (seen_turn h acc cv cn i _ ov a x); [exact T|exact Tx|exact E2|reflexivity|].
        intros h1 acc1 cv1 Ea T'. unfold start_env at 1. steps. cbn [start_env length skipn].
        assert (Ea' : acc1 = start_add acc a) by (rewrite (start_add_seen _ _ i ov E1 E4); exact Ea).
        assert (El : length acc = length acc1) by (rewrite Ea, length_set_nth; reflexivity).
        rewrite El. clear Ea. subst acc1. apply (IH h1 _ cv1 cn (pre ++ [x]) xs'); [exact T'|exact Hs|exact Hx|lia|exact K].
    + subst x. steps. eapply IH; [exact T|exact Hs|exact Hx|lia|exact K].
Qed.

(** ** Writing the attributes *)

(** imperative.go 125-127 *)
Definition vv_body : stmt :=
  SBlock [SAssign [LBlank; LBlank] [EMethod (ELoc "vv") "render" [EField (ELoc "ic") "ctx"] false]].
Lemma vv_loop li st sv en : assoc "ic" en = Some (VPtr li) ->
  forall vs h e pre xs, nth_error h li = Some (ic_obj lc st) -> ctx_at h lc fr e -> slice_is h sv (pre ++ xs) -> all2 (val_rep M h) xs vs ->
  sim (range_with (exec C vv_body) "_" "vv" (slice_items sv (length pre) (length xs)) en)
    h (values_render fr vs e) (fun r h' e' => r = (FNext, en) /\ went lc fr h h' e').
Proof.
  intros He vs. induction vs as [|v vs IH]; intros h e' pre xs Hi HC Hs Hv; cbn [all2] in Hv.
  - subst xs. cbn [length slice_items seq map range_with]. apply sim_ret. split; [auto|]. split; [kept_chain|exact HC].
  - destruct Hv as (x & xs' & -> & Hx & Hv). cbn [length]. eapply sim_range_cons; [exact Hs|]. steps.
    cbn [values_render]. eapply simb_value; [exact HC|exact Hx|]. intros h1 w1 e1 K1 HC1. carry K1. steps.
    next_turn Hs IH; auto. intros r h' b' (H1 & H3 & H4). split; [auto|]. split; [kept_chain|exact H4].
Qed.


(** imperative.go 121-131 *)
Definition name_body : stmt :=
  SBlock [SExpr (EMethod (EField (ELoc "ic") "ctx") "Write" [EGlob "aitch.space"] false);
     SExpr (EMethod (EField (ELoc "ic") "ctx") "Write" [ELoc "attName"] false);
     SIf (Some (SDefine ["vs"%string] [EIndex (ELoc "attValues") (ELoc "a")])) (EBin ONe (ELoc "vs") ENil)
     (SBlock [SExpr (EMethod (EField (ELoc "ic") "ctx") "Write" [EGlob "aitch.attStart"] false);
     SRange "_" "vv" (ELoc "vs") vv_body;
     SExpr (EMethod (EField (ELoc "ic") "ctx") "Write" [EGlob "aitch.attEnd"] false)])
     SSkip].
Definition shows (h : heap) (x : gv) (ov : option (list (value U))) : Prop :=
  match ov with None => x = VNil | Some vs => x <> VNil /\ vals_rep M h x vs end.
Lemma shows_keeps h h' x ov : keeps h h' -> shows h x ov -> shows h' x ov.
Proof. destruct ov as [vs|]; cbn [shows]; auto. intros K (H1 & H2). split; [auto|]. eapply vals_keeps; eauto. Qed.
Lemma name_turns li st sa bv nv k : forall acc h e pre es names xs,
  nth_error h li = Some (ic_obj lc st) -> ctx_at h lc fr e ->
  slice_is h (VSlice la k) (names ++ map VBytes (map fst acc)) -> slice_is h (VSlice lv k) (pre ++ xs) -> length names = length pre ->
  es = map snd acc -> all2 (shows h) xs es ->
  forall A' B (f : flow * venv -> prog A') (g : option error -> io U B) Q,
  (forall h' e', kept lc h h' -> ctx_at h' lc fr e' -> sim (f (FNext, start_env k sa bv nv li)) h' (g e') Q) ->
  sim (pbind (range_with (exec C name_body) "a" "attName" (slice_items (VSlice la k) (length names) (length acc)) (start_env k sa bv nv li)) f)
    h (bind (start_render fr acc e) g) Q.
Proof.
  induction acc as [|[name ov] acc IH]; intros h e' pre es names xs Hi HC Hn Hv Hl Ee Hx A' B f g Q K.
  - cbn [length slice_items seq map range_with start_render bind]. apply K; [eapply kept_refl; eauto|exact HC].
  - cbn [map snd] in Ee. subst es. cbn [all2] in Hx. destruct Hx as (x & xs' & -> & Hx & Hxs). cbn [map fst] in Hn.
    assert (E : slice_items (VSlice la k) (length names) (length ((name, ov) :: acc)) = slice_items (VSlice la k) (length names) (S (length (map VBytes (map fst acc)))))
      by (rewrite !map_length; reflexivity).
    rewrite E. clear E. eapply simb_range_key; [exact Hn|reflexivity|reflexivity|].
    replace (names ++ VBytes name :: map VBytes (map fst acc)) with ((names ++ [VBytes name]) ++ map VBytes (map fst acc)) in Hn by (rewrite <- app_assoc; reflexivity).
    replace (pre ++ x :: xs') with ((pre ++ [x]) ++ xs') in Hv by (rewrite <- app_assoc; reflexivity).
    cbn [start_render]. unfold start_env at 1. steps.
    repeat apply sim_model_assoc. wr h1 e1 K1 HC1. repeat apply sim_model_assoc. wr h2 e2 K2 HC2.
    eapply simb_index_slice; [exact Hv|lia| |].
    { rewrite Nat2Z.id, Hl. rewrite <- app_assoc, nth_error_app2, Nat.sub_diag by lia. reflexivity. }
    cbn [fst]. steps.
    destruct ov as [vs|]; cbn [shows] in Hx.
    + destruct Hx as (Nx & ys & Hy1 & Hy2). rewrite (equal_nil x Nx). steps. carry K1. carry K2.
      repeat apply sim_model_assoc. wr h3 e3 K3 HC3. repeat apply sim_model_assoc.
      eapply sim_bind; [eapply (fun H => vv_loop li st x _ H vs h3 e3 [] ys); eauto|]. intros r h4 e4 (-> & K4 & HC4). carry K4. steps.
      wr h5 e5 K5 HC5. cbn [start_env length skipn].
      assert (K15 : kept lc h h5) by (repeat (eapply kept_trans; [eassumption|]); eapply kept_refl; eauto).
      rewrite map_length, map_length. apply (IH h5 e5 (pre ++ [x]) (map snd acc) (names ++ [VBytes name]) xs'); auto.
      * rewrite !app_length. cbn [length]. lia.
      * eapply all2_mono; [|exact Hxs]. intros x0 y0. apply shows_keeps. eapply kept_keeps; eauto.
      * intros h6 e6 K6 HC6. apply K; [eapply kept_trans; eauto|exact HC6].
    + subst x. steps. cbn [bind start_env length skipn]. 
      assert (K12 : kept lc h h2) by (eapply kept_trans; eauto).
      rewrite map_length, map_length. apply (IH h2 e2 (pre ++ [VNil]) (map snd acc) (names ++ [VBytes name]) xs'); auto.
      * rewrite !app_length. cbn [length]. lia.
      * eapply all2_mono; [|exact Hxs]. intros x0 y0. apply shows_keeps. eapply kept_keeps; eauto.
      * intros h6 e6 K6 HC6. apply K; [eapply kept_trans; eauto|exact HC6].
Qed.
End Tables.

Lemma tight_opt_keeps h h' v n : keeps h h' -> tight_opt h v n -> tight_opt h' v n.
Proof.
  intros K (H1 & H2). split; [eapply opt_keeps; eauto|]. destruct n as [[a| | | | | | | | | | | | | ]|]; auto. eapply tight_attr_keeps; eauto.
Qed.
Ltac enter_call := unfold call; cbn [pbind]; enter.

Lemma simb_start {A' B} hb h li lc fr e stack name (isVoid : bool) s xs attrs (f : list gv -> prog A') (g : option error -> io U B) Q :
  ic_at hb h li lc fr e stack -> slice_is h s xs -> all2 (tight_opt h) xs attrs ->
  (forall h' e' vs, ic_at hb h' li lc fr e' (if isVoid then stack else name :: stack) -> sim (f vs) h' (g e') Q) ->
  sim (pbind (call "imperativeContext.Start" [VPtr li; VBytes name; VBool isVoid; s] true) f) h (bind (start_tag fr name attrs e) g) Q.
Proof.
  intros I Hs Hx K. pose proof I as (K0 & HC & L & sv & H1 & H2 & H3). enter_call. steps. unfold start_tag.
  repeat apply sim_model_assoc. wr h1 e1 K1 HC1. repeat apply sim_model_assoc. wr h2 e2 K2 HC2.
  pose proof (ic_kept _ _ _ _ _ _ _ _ _ (ic_kept _ _ _ _ _ _ _ _ _ I K1 HC1) K2 HC2) as I2.
  assert (Hx2 : all2 (tight_opt h2) xs attrs).
  { eapply all2_mono; [|exact Hx]. intros x y. apply tight_opt_keeps. eapply kept_keeps. eapply kept_trans; eauto. }
  clear Hx I K1 K2 HC HC1 h1 e1.
  eapply simb_make_slice; [reflexivity|]. steps. 
  pose proof (slice_grown _ _ _ _ (grown_app h2 [OArr (repeat (@VNil W) (length xs))]) Hs) as Hs1. steps.
  eapply simb_make_slice; [reflexivity|]. steps.
  rewrite !app_length. cbn [length]. replace (length h2 + 1) with (S (length h2)) by lia.
  replace (S (length h2) + 1) with (S (S (length h2))) by lia.
  lazymatch goal with |- @GoRun.sim _ _ _ _ _ _ _ ?h' _ _ => remember h' as h3 eqn:E3 end.
  assert (G3 : grown h2 h3) by (subst h3; rewrite <- !app_assoc; apply grown_app).
  assert (T : tables lc fr e2 h2 (length xs) h3 [] (repeat VNil (length xs)) (repeat VNil (length xs))).
  { split; [eapply grown_kept; eauto|]. split; [eapply ctx_grown; eauto|]. subst h3. split; [rewrite !app_length; cbn [length]; lia|].
    rewrite <- !app_assoc. cbn [app]. rewrite !nth_error_app2 by lia. rewrite Nat.sub_diag.
    replace (S (length h2) - length h2) with 1 by lia. replace (S (S (length h2)) - length h2) with 2 by lia.
    cbn [length]. repeat (split; [first [reflexivity|apply repeat_length|lia]|]).
    split; [intros i j l n n' X; destruct i; discriminate|]. repeat (split; [first [reflexivity|apply repeat_length]|]). reflexivity. }
  pose proof (slice_grown _ _ _ _ G3 Hs) as Hs3. eapply simb_range; [exact Hs3|].
  clear E3. eapply (start_turns lc fr e2 h2 (length xs) s (VBool isVoid) (VBytes name) li attrs h3 [] _ _ [] xs T Hs Hx2); [cbn [length]; lia|].
  intros h4 cv cn T4. pose proof T4 as (T41 & T42 & T43 & T44 & T45 & T46 & T47 & T48 & T49 & T410 & T411 & T412).
  set (acc := start_attrs attrs []) in *. unfold start_env. steps. repeat apply sim_model_assoc.
  pose proof (ic_kept _ _ _ _ _ _ _ _ _ I2 T41 T42) as I4. pose proof I4 as (K04 & _ & _ & sv4 & Hi4 & _).
  assert (Sn : slice_is h4 (VSlice (S (length h2)) (length acc)) (map VBytes (map fst acc))).
  { exists cn. split; [exact T49|]. split; [lia|]. symmetry. exact T411. }
  assert (Sv : slice_is h4 (VSlice (length h2) (length acc)) (firstn (length acc) cv)).
  { exists cv. split; [exact T44|]. split; [lia|reflexivity]. }
  eapply simb_range; [exact Sn|]. rewrite !map_length.
  eapply (name_turns lc fr h2 li sv4 s (VBool isVoid) (VBytes name) (length acc) acc h4 e2 [] (map snd acc) [] (firstn (length acc) cv));
    [exact Hi4|exact T42|exact Sn|exact Sv|reflexivity|reflexivity| |].
  { eapply all2_mono; [|exact T47]. intros x [vs|]; cbn [ent shows]; auto.
    intros (l & n & ys & -> & X1 & X2 & _). split; [discriminate|]. exists ys. split; [exact X1|]. eapply all2_mono; [|exact X2].
    intros y z. apply val_keeps. eapply kept_keeps; eauto. }
  intros h5 e5 K5 HC5. pose proof (ic_kept _ _ _ _ _ _ _ _ _ I4 K5 HC5) as I5. pose proof I5 as (_ & _ & _ & sv5 & Hi5 & _). unfold start_env. steps.
  eapply simb_ctx_write; [exact HC5|reflexivity|]. intros h6 e6 K6 HC6. pose proof (ic_kept _ _ _ _ _ _ _ _ _ I5 K6 HC6) as I6. steps.
  destruct isVoid; steps.
  - apply K. exact I6.
  - pose proof I6 as (K06 & _ & _ & sv6 & Hi6 & Hs6 & Ho6). steps.
    eapply simb_append_f; [exact Hs6|exact Ho6|floored|eapply kept_length; eauto|]. intros h7 s7 Hs7 Ho7 A7 _.
    assert (Hi7 : nth_error h7 li = Some (ic_obj lc sv6)).
    { destruct A7 as (_ & A7 & _). apply A7; [|exact Hi6]. destruct sv6; cbn [not_at]; auto. intros ->.
      destruct Hs6 as (cs & X & _). rewrite Hi6 in X. discriminate. }
    steps. eapply simb_set_field_f; [floored|exact Hi7|reflexivity|]. lazy [set_assoc String.eqb Ascii.eqb Bool.eqb]. steps.
    apply K. eapply (ic_stack hb h6); eauto. cbn [rev]. rewrite map_app. exact Hs7.
Qed.
End Start.

Section Ground.
Context {W : UserWorld}.
Variable M : go_mode.
Notation C := (go_config M).
Notation sim := (sim C).
Lemma simb_store_slice {A' B} h l n cs i v (en : venv) (f : venv -> prog A') (m : io U B) Q :
  nth_error h l = Some (OArr cs) -> i < n ->
  sim (f en) (set_nth h l (OArr (set_nth cs i v))) m Q ->
  sim (pbind (store (RIndex (VSlice l n) (VInt (Z.of_nat i))) v en) f) h m Q.
Proof. exact (simb_store_slice_f M h l n cs i v en f m Q (Nat.le_0_l _)). Qed.
Lemma simb_append_room {A' B} h l n cs v (f : list gv -> prog A') (m : io U B) Q :
  nth_error h l = Some (OArr cs) -> n < length cs ->
  sim (f [VSlice l (S n)]) (set_nth h l (OArr (set_nth cs n v))) m Q ->
  sim (pbind (external C "append" [VSlice l n; v] false) f) h m Q.
Proof. exact (simb_append_room_f M h l n cs v f m Q (Nat.le_0_l _)). Qed.
End Ground.
