(** FieldByName finds what Go's selector rule selects. *)
From Coq Require Import Lia ListDec.
From Verif Require Import Bytes IO Reflect SpecGet.

Local Open Scope nat_scope.

Lemma embedded_struct_spec f t : embedded_struct f = Some t <->
  fl_embedded f = true /\ (fl_type f = TStruct t \/ exists n, fl_type f = TPtr n (TStruct t)).
Proof.
  unfold embedded_struct. destruct (fl_embedded f); [|split; [discriminate|intros [X _]; discriminate]].
  destruct (fl_type f) as [| |n e| |s|] eqn:E; try (split; [discriminate|]; intros [_ [X|[m X]]]; discriminate).
  - destruct e; try (split; [discriminate|]; intros [_ [X|[m X]]]; discriminate).
    split; [intro X; inversion X; split; [auto|right; exists n; auto]|].
    intros [_ [X|[m X]]]; inversion X; reflexivity.
  - split; [intro X; inversion X; auto|]. intros [_ [X|[m X]]]; inversion X; reflexivity.
Qed.

Lemma through_snoc D s p j u : through D s (p ++ [j]) u <->
  exists t f, through D s p t /\ nth_error (fields_of D t) j = Some f /\ embedded_struct f = Some u.
Proof.
  revert s. induction p as [|i p IH]; intro s; cbn [app].
  - split.
    + intro H. inversion H; subst. match goal with K : through _ _ [] _ |- _ => inversion K; subst end.
      exists s, f. split; [constructor|]. split; auto. apply embedded_struct_spec. auto.
    + intros (t & f & H & Hf & He). inversion H; subst. apply embedded_struct_spec in He. destruct He.
      econstructor; eauto. constructor.
  - split.
    + intro H. inversion H; subst. match goal with K : through _ _ (p ++ [j]) _ |- _ => apply IH in K; destruct K as (t' & f' & K1 & K2) end.
      exists t', f'. split; [econstructor; eauto|auto].
    + intros (t & f & H & Hf & He). inversion H; subst. econstructor; eauto. apply IH. eauto.
Qed.

Lemma number_in {A} (l : list A) i j x : In (j, x) (number i l) <-> i <= j /\ nth_error l (j - i) = Some x.
Proof.
  revert i. induction l as [|y l IH]; intro i; cbn [number].
  - split; [intros []|]. intros [_ X]. destruct (j - i); discriminate.
  - cbn [In]. rewrite IH. split.
    + intros [E|[L H]].
      * inversion E; subst. split; auto. rewrite Nat.sub_diag. reflexivity.
      * split; [lia|]. replace (j - i) with (S (j - S i)) by lia. exact H.
    + intros [L H]. destruct (Nat.eq_dec i j) as [->|N].
      * left. rewrite Nat.sub_diag in H. cbn in H. congruence.
      * right. split; [lia|]. replace (j - i) with (S (j - S i)) in H by lia. exact H.
Qed.
Lemma number_nodup {A} (l : list A) i : NoDup (map fst (number i l)).
Proof.
  revert i. induction l as [|y l IH]; intro i; cbn; constructor; auto.
  intro H. apply in_map_iff in H. destruct H as ([j x] & E & H). cbn in E. subst j.
  apply number_in in H. lia.
Qed.

(** The levels. *)
Definition level (D : decls) (s d : nat) : list (nat * list nat) := Nat.iter d (deeper D) [(s, [])].

Lemma level_spec D s d t p : In (t, p) (level D s d) <-> through D s p t /\ length p = d.
Proof.
  revert t p. induction d as [|d IH]; intros t p.
  - cbn. split.
    + intros [E|[]]. inversion E; subst. split; [constructor|reflexivity].
    + intros [H L]. destruct p; [|discriminate]. inversion H; subst. auto.
  - change (level D s (S d)) with (deeper D (level D s d)). unfold deeper. rewrite in_flat_map. split.
    + intros ([u q] & H1 & H2). apply IH in H1. destruct H1 as [H1 L]. cbn [fst snd] in H2.
      apply in_flat_map in H2. destruct H2 as ([j f] & H2 & H3). cbn [fst snd] in H3.
      apply number_in in H2. destruct H2 as [_ H2]. rewrite Nat.sub_0_r in H2.
      destruct (embedded_struct f) as [t'|] eqn:E; [|destruct H3]. destruct H3 as [E'|[]]. inversion E'; subst.
      split; [apply through_snoc; eauto|rewrite app_length; cbn; lia].
    + intros [H L]. destruct p as [|j p] using rev_ind; [discriminate|]. clear IHp.
      rewrite app_length in L. cbn in L. apply through_snoc in H. destruct H as (u & f & H1 & H2 & H3).
      exists (u, p). split; [apply IH; split; [auto|lia]|]. cbn [fst snd]. apply in_flat_map.
      exists (j, f). split; [apply number_in; rewrite Nat.sub_0_r; split; [lia|auto]|].
      cbn [fst snd]. rewrite H3. left. reflexivity.
Qed.
Lemma matches_spec D s k d p : In p (matches D k (level D s d)) <-> field_at D s k p /\ length p = S d.
Proof.
  unfold matches. rewrite in_flat_map. split.
  - intros ([u q] & H1 & H2). apply level_spec in H1. destruct H1 as [H1 L]. cbn [fst snd] in H2.
    apply in_flat_map in H2. destruct H2 as ([j f] & H2 & H3). cbn [fst snd] in H3.
    apply number_in in H2. destruct H2 as [_ H2]. rewrite Nat.sub_0_r in H2.
    destruct (beq_spec (fl_name f) k) as [E|]; [|destruct H3]. destruct H3 as [<-|[]].
    split; [exists q, j, u, f; auto|rewrite app_length; cbn; lia].
  - intros [(q & j & t & f & -> & H1 & H2 & H3) L]. rewrite app_length in L. cbn in L.
    exists (t, q). split; [apply level_spec; split; [auto|lia]|]. cbn [fst snd]. apply in_flat_map.
    exists (j, f). split; [apply number_in; rewrite Nat.sub_0_r; split; [lia|auto]|].
    cbn [fst snd]. rewrite H3, beq_refl. left. reflexivity.
Qed.

(** No path is listed twice. *)
Lemma nodup_paths (F : nat -> list field) (c : field -> bool) : forall L,
  NoDup (map snd L) ->
  NoDup (flat_map (fun sp : nat * list nat => flat_map (fun jf => if c (snd jf) then [snd sp ++ [fst jf]] else [])
           (number 0 (F (fst sp)))) L).
Proof.
  assert (Inner : forall (q : list nat) (l : list (nat * field)), NoDup (map fst l) ->
    NoDup (flat_map (fun jf => if c (snd jf) then [q ++ [fst jf]] else []) l)).
  { intros q l. induction l as [|[j f] l IH]; intro H; cbn [flat_map]; [constructor|].
    cbn [map fst] in H. inversion H; subst. cbn [snd fst]. destruct (c f); cbn [app]; auto.
    constructor; auto. intro X. apply in_flat_map in X. destruct X as ([j' f'] & X1 & X2). cbn [fst snd] in X2.
    destruct (c f'); [|destruct X2]. destruct X2 as [E|[]]. apply app_inj_tail in E. destruct E as [_ ->].
    apply H2. apply (in_map fst) in X1. exact X1. }
  induction L as [|[s q] L IH]; intro H; cbn [flat_map]; [constructor|].
  cbn [map snd] in H. inversion H; subst. cbn [fst snd].
  assert (A : forall l1 l2 : list (list nat), NoDup l1 -> NoDup l2 -> (forall x, In x l1 -> ~ In x l2) -> NoDup (l1 ++ l2)).
  { induction l1 as [|x l1 IHl]; intros l2 N1 N2 X; cbn; auto. inversion N1; subst. constructor.
    - rewrite in_app_iff. intros [Y|Y]; [auto|]. apply (X x); [left; auto|auto].
    - apply IHl; auto. intros y Hy. apply X. right. auto. }
  apply A; auto.
  - apply Inner, number_nodup.
  - intros x X1 X2. apply in_flat_map in X1. destruct X1 as ([j f] & _ & X1). cbn [fst snd] in X1.
    destruct (c f); [|destruct X1]. destruct X1 as [<-|[]].
    apply in_flat_map in X2. destruct X2 as ([s' q'] & X2 & X3). apply in_flat_map in X3.
    destruct X3 as ([j' f'] & _ & X3). cbn [fst snd] in X3. destruct (c f'); [|destruct X3].
    destruct X3 as [E|[]]. apply app_inj_tail in E. destruct E as [-> _].
    apply H2. apply (in_map snd) in X2. exact X2.
Qed.
Lemma level_nodup D s d : NoDup (map snd (level D s d)).
Proof.
  induction d as [|d IH]; [cbn; constructor; [intros []|constructor]|].
  change (level D s (S d)) with (deeper D (level D s d)).
  assert (E : map snd (deeper D (level D s d)) =
    flat_map (fun sp : nat * list nat => flat_map (fun jf =>
        if (match embedded_struct (snd jf) with Some _ => true | None => false end) then [snd sp ++ [fst jf]] else [])
           (number 0 (fields_of D (fst sp)))) (level D s d)).
  { clear IH. unfold deeper. induction (level D s d) as [|[t q] L IHL]; [reflexivity|]. cbn [flat_map]. rewrite map_app, IHL.
    f_equal. cbn [fst snd]. induction (number 0 (fields_of D t)) as [|[j f] l IHl]; [reflexivity|].
    cbn [flat_map]. rewrite map_app, IHl. cbn [fst snd]. destruct (embedded_struct f); reflexivity. }
  rewrite E. apply (nodup_paths (fields_of D) (fun f => match embedded_struct f with Some _ => true | None => false end)). exact IH.
Qed.
Lemma matches_nodup D s k d : NoDup (matches D k (level D s d)).
Proof.
  unfold matches. apply (nodup_paths (fields_of D) (fun f => beq (fl_name f) k)). apply level_nodup.
Qed.

(** There is no need to look deeper than there are struct types. *)
Fixpoint nodes (D : decls) (s : nat) (q : list nat) : list nat :=
  s :: match q with
       | [] => []
       | j :: q' => match nth_error (fields_of D s) j with
                    | Some f => match embedded_struct f with Some t => nodes D t q' | None => [] end
                    | None => []
                    end
       end.
Lemma nodes_suffix D s q t x : through D s q t -> In x (nodes D s q) ->
  exists q2, length q2 <= length q /\ through D x q2 t.
Proof.
  intro H. induction H as [s|s j f t p u Hf He Ht H IH]; cbn [nodes].
  - intros [->|[]]. exists []. split; [auto|constructor].
  - assert (E : embedded_struct f = Some t) by (apply embedded_struct_spec; auto). rewrite Hf, E.
    intros [->|X].
    + exists (j :: p). split; auto. econstructor; eauto.
    + destruct (IH X) as (q2 & L & T). exists q2. split; [cbn; lia|auto].
Qed.
Lemma cut_loop D s q t : through D s q t -> ~ NoDup (nodes D s q) ->
  exists q2, length q2 < length q /\ through D s q2 t.
Proof.
  intro H. induction H as [s|s j f t p u Hf He Ht H IH]; cbn [nodes]; intro N.
  - exfalso. apply N. constructor; [intros []|constructor].
  - assert (E : embedded_struct f = Some t) by (apply embedded_struct_spec; auto). rewrite Hf, E in N.
    destruct (in_dec Nat.eq_dec s (nodes D t p)) as [I|I].
    + destruct (nodes_suffix D t p u s H I) as (q2 & L & T). exists q2. split; [cbn; lia|auto].
    + destruct IH as (q2 & L & T).
      { intro X. apply N. constructor; auto. }
      exists (j :: q2). split; [cbn; lia|]. econstructor; eauto.
Qed.
Lemma fields_bound D s j f : nth_error (fields_of D s) j = Some f -> s < length D.
Proof.
  unfold fields_of. intro H. destruct (Nat.lt_ge_cases s (length D)); auto.
  rewrite nth_overflow in H by auto. destruct j; discriminate.
Qed.
Lemma nodes_bound D s q t : through D s q t -> t < length D -> forall x, In x (nodes D s q) -> x < length D.
Proof.
  intro H. induction H as [s|s j f t p u Hf He Ht H IH]; cbn [nodes]; intros L x.
  - intros [<-|[]]. exact L.
  - assert (E : embedded_struct f = Some t) by (apply embedded_struct_spec; auto). rewrite Hf, E.
    intros [<-|X]; [eapply fields_bound; eauto|auto].
Qed.
Lemma nodes_length D s q t : through D s q t -> length (nodes D s q) = S (length q).
Proof.
  intro H. induction H as [s|s j f t p u Hf He Ht H IH]; cbn [nodes]; auto.
  assert (E : embedded_struct f = Some t) by (apply embedded_struct_spec; auto). rewrite Hf, E. cbn. lia.
Qed.
Lemma shallow D s k p : field_at D s k p -> exists p', field_at D s k p' /\ length p' <= length D.
Proof.
  intros (q & j & t & f & -> & H1 & H2 & H3).
  remember (length q) as n eqn:En. revert q En H1. induction n as [n IH] using lt_wf_ind. intros q En H1.
  destruct (NoDup_dec Nat.eq_dec (nodes D s q)) as [N|N].
  - exists (q ++ [j]). split; [exists q, j, t, f; auto|].
    rewrite app_length. cbn. replace (length q + 1) with (length (nodes D s q)) by (rewrite (nodes_length D s q t); auto; lia).
    rewrite <- (seq_length (length D) 0). apply NoDup_incl_length; auto. intros x X. apply in_seq. split; [lia|].
    cbn. eapply nodes_bound; eauto. eapply fields_bound; eauto.
  - destruct (cut_loop D s q t H1 N) as (q2 & L & T). apply (IH (length q2)) with (q := q2); auto. lia.
Qed.

(** The search by levels. *)
Lemma by_level_spec D s k : forall fuel d p,
  by_level D k fuel (level D s d) = Some p <->
  exists e, d <= e < d + fuel /\ matches D k (level D s e) = [p] /\
            forall e', d <= e' < e -> matches D k (level D s e') = [].
Proof.
  induction fuel as [|fuel IH]; intros d p; cbn [by_level].
  - split; [discriminate|]. intros (e & H & _). lia.
  - destruct (matches D k (level D s d)) as [|x [|y l]] eqn:M.
    + change (deeper D (level D s d)) with (level D s (S d)). rewrite IH. split.
      * intros (e & H1 & H2 & H3). exists e. split; [lia|]. split; auto. intros e' He.
        destruct (Nat.eq_dec e' d) as [->|]; auto. apply H3. lia.
      * intros (e & H1 & H2 & H3). destruct (Nat.eq_dec e d) as [->|]; [congruence|].
        exists e. split; [lia|]. split; auto. intros e' He. apply H3. lia.
    + split.
      * intro E. inversion E; subst. exists d. split; [lia|]. split; auto. intros; lia.
      * intros (e & H1 & H2 & H3). destruct (Nat.eq_dec e d) as [->|N]; [congruence|].
        rewrite H3 in M by lia. discriminate.
    + split; [discriminate|]. intros (e & H1 & H2 & H3). destruct (Nat.eq_dec e d) as [->|N]; [congruence|].
      rewrite H3 in M by lia. discriminate.
Qed.

Lemma no_matches D s k d : matches D k (level D s d) = [] <-> forall p, field_at D s k p -> length p <> S d.
Proof.
  split.
  - intros M p H L. assert (X : In p (matches D k (level D s d))) by (apply matches_spec; auto).
    rewrite M in X. destruct X.
  - intro H. destruct (matches D k (level D s d)) as [|p l] eqn:M; auto. exfalso.
    assert (X : In p (matches D k (level D s d))) by (rewrite M; left; auto).
    apply matches_spec in X. destruct X. eapply H; eauto.
Qed.
Lemma field_at_len D s k p : field_at D s k p -> 1 <= length p.
Proof. intros (q & j & t & f & -> & _). rewrite app_length. cbn. lia. Qed.

Lemma one_match D s k d p : matches D k (level D s d) = [p] <->
  field_at D s k p /\ length p = S d /\ forall p', field_at D s k p' -> length p' = S d -> p' = p.
Proof.
  split.
  - intro M. assert (X : In p (matches D k (level D s d))) by (rewrite M; left; auto).
    apply matches_spec in X. destruct X as [X1 X2]. split; auto. split; auto. intros p' H L.
    assert (Y : In p' (matches D k (level D s d))) by (apply matches_spec; auto).
    rewrite M in Y. destruct Y as [<-|[]]. reflexivity.
  - intros (H1 & H2 & H3). pose proof (matches_nodup D s k d) as N.
    assert (X : In p (matches D k (level D s d))) by (apply matches_spec; auto).
    assert (All : forall q, In q (matches D k (level D s d)) -> q = p).
    { intros q Hq. apply matches_spec in Hq. destruct Hq. auto. }
    destruct (matches D k (level D s d)) as [|a [|b l]]; [destruct X| |].
    + rewrite (All a); [reflexivity|left; auto].
    + exfalso. inversion N; subst. apply H4. rewrite (All a) by (left; auto). rewrite (All b) by (right; left; auto).
      left. reflexivity.
Qed.

Theorem by_level_selects D s k p : by_level D k (S (length D)) (level D s 0) = Some p <-> selects D s k p.
Proof.
  rewrite by_level_spec. split.
  - intros (e & H1 & H2 & H3). apply one_match in H2. destruct H2 as (F & L & U). split; auto.
    intros p' F' N. destruct (Nat.lt_ge_cases (length p) (length p')) as [|G]; auto. exfalso.
    destruct (Nat.eq_dec (length p') (length p)) as [E|E]; [apply N, U; [auto|lia]|].
    pose proof (field_at_len _ _ _ _ F').
    assert (M : matches D k (level D s (length p' - 1)) = []) by (apply H3; lia).
    rewrite no_matches in M. apply (M p' F'). lia.
  - intros [F U]. pose proof (field_at_len _ _ _ _ F).
    exists (length p - 1). split; [|split].
    + split; [lia|]. destruct (shallow D s k p F) as (p' & F' & L).
      destruct (list_eq_dec Nat.eq_dec p' p) as [->|N]; [lia|]. specialize (U p' F' N). lia.
    + apply one_match. split; auto. split; [lia|]. intros p' F' L.
      destruct (list_eq_dec Nat.eq_dec p' p) as [->|N]; auto. specialize (U p' F' N). lia.
    + intros e' He. apply no_matches. intros p' F' L.
      destruct (list_eq_dec Nat.eq_dec p' p) as [->|N]; [lia|]. specialize (U p' F' N). lia.
Qed.

(** Names in one struct are distinct. *)
Lemma name_once fds k i j f g :
  NoDup (filter (fun n => negb (beq n (B "_"))) (map fl_name fds)) -> k <> B "_" ->
  nth_error fds i = Some f -> nth_error fds j = Some g -> fl_name f = k -> fl_name g = k -> i = j.
Proof.
  intros N K. revert i j. induction fds as [|x fds IH]; intros [|i] [|j] Hi Hj Ef Eg; cbn in Hi, Hj; try discriminate; auto.
  - inversion Hi; subst x. exfalso. cbn [map filter] in N.
    assert (B1 : negb (beq (fl_name f) (B "_")) = true) by (destruct (beq_spec (fl_name f) (B "_")); [congruence|reflexivity]).
    rewrite B1 in N. inversion N as [|? ? N1 N2]. apply N1. apply filter_In. split; [|exact B1].
    rewrite Ef, <- Eg. apply in_map. eapply nth_error_In; eauto.
  - inversion Hj; subst x. exfalso. cbn [map filter] in N.
    assert (B1 : negb (beq (fl_name g) (B "_")) = true) by (destruct (beq_spec (fl_name g) (B "_")); [congruence|reflexivity]).
    rewrite B1 in N. inversion N as [|? ? N1 N2]. apply N1. apply filter_In. split; [|exact B1].
    rewrite Eg, <- Ef. apply in_map. eapply nth_error_In; eauto.
  - f_equal. apply IH; auto. cbn [map filter] in N. destruct (negb (beq (fl_name x) (B "_"))); auto. inversion N; auto.
Qed.
Lemma decls_at D s : decls_ok D ->
  NoDup (filter (fun n => negb (beq n (B "_"))) (map fl_name (fields_of D s))) /\
  Forall (fun f => fl_name f = B "_" -> fl_exported f = false) (fields_of D s).
Proof.
  intro H. unfold fields_of. destruct (Nat.lt_ge_cases s (length D)) as [L|L].
  - unfold decls_ok in H. rewrite Forall_forall in H. apply H. apply nth_In. exact L.
  - rewrite nth_overflow by auto. split; constructor.
Qed.
Lemma depth1 D s k p : field_at D s k p -> length p = 1 ->
  exists j f, p = [j] /\ nth_error (fields_of D s) j = Some f /\ fl_name f = k.
Proof.
  intros (q & j & t & f & -> & H1 & H2 & H3) L. rewrite app_length in L. cbn in L. destruct q; [|cbn in L; lia].
  inversion H1; subst. exists j, f. auto.
Qed.

Theorem field_by_name_selects D s k p : decls_ok D -> k <> B "_" ->
  (field_by_name D s k = Some p <-> selects D s k p).
Proof.
  intros OK K. unfold field_by_name. change [(s, [])] with (level D s 0).
  destruct (matches D k (level D s 0)) as [|q l] eqn:M; [apply by_level_selects|].
  assert (X : In q (matches D k (level D s 0))) by (rewrite M; left; auto).
  apply matches_spec in X. destruct X as [X1 X2].
  assert (S1 : selects D s k q).
  { split; auto. intros p' F N. pose proof (field_at_len _ _ _ _ F).
    destruct (Nat.eq_dec (length p') 1) as [E|]; [|lia]. exfalso. apply N.
    destruct (depth1 _ _ _ _ X1 X2) as (i & f & -> & Hf & Ef).
    destruct (depth1 _ _ _ _ F E) as (j & g & -> & Hg & Eg). f_equal.
    eapply name_once; eauto. apply decls_at. auto. }
  split.
  - intro E. inversion E; subst. exact S1.
  - intros [F U]. destruct (list_eq_dec Nat.eq_dec q p) as [->|N]; [reflexivity|]. exfalso.
    destruct S1 as [_ U']. specialize (U q X1 N). specialize (U' p F (not_eq_sym N)). lia.
Qed.

(** ** Values *)

Lemma exported_at_spec D s p : exported_at D s p = true <-> exported D s p.
Proof.
  revert s. induction p as [|j p IH]; intro s; cbn [exported_at].
  - split; [discriminate|]. intros (q & j & t & f & E & _). destruct q; discriminate.
  - destruct (nth_error (fields_of D s) j) as [f|] eqn:Hf.
    + destruct p as [|i p].
      * split.
        -- intro E. exists [], j, s, f. repeat split; auto. constructor.
        -- intros (q & j' & t & f' & E & H1 & H2 & H3). destruct q as [|a q]; [|destruct q; discriminate].
           cbn in E. inversion E; subst. inversion H1; subst. congruence.
      * destruct (embedded_struct f) as [t|] eqn:Ef.
        -- rewrite IH. apply embedded_struct_spec in Ef. destruct Ef as [Ef1 Ef2]. split.
           ++ intros (q & j' & u & f' & E & H1 & H2 & H3). exists (j :: q), j', u, f'. rewrite E.
              repeat split; auto. econstructor; eauto.
           ++ intros (q & j' & u & f' & E & H1 & H2 & H3). destruct q as [|a q]; [discriminate|].
              cbn in E. inversion E; subst. inversion H1; subst.
              match goal with K : nth_error (fields_of D s) a = Some ?x |- _ => rewrite Hf in K; inversion K; subst x end.
              exists q, j', u, f'. repeat split; auto.
              assert (t0 = t); [|subst; auto].
              assert (Q : Some t0 = Some t); [|congruence].
              transitivity (embedded_struct f); [symmetry|]; apply embedded_struct_spec; auto.
        -- split; [discriminate|]. intros (q & j' & u & f' & E & H1 & H2 & H3). destruct q as [|a q]; [discriminate|].
           cbn in E. inversion E; subst. inversion H1; subst.
           match goal with K : nth_error (fields_of D s) a = Some ?x |- _ => rewrite Hf in K; inversion K; subst x end.
           assert (Q : embedded_struct f = Some t) by (apply embedded_struct_spec; auto). congruence.
    + split; [discriminate|]. intros (q & j' & u & f' & E & H1 & H2 & H3). destruct q as [|a q]; cbn in E; inversion E; subst.
      * inversion H1; subst. congruence.
      * inversion H1; subst. congruence.
Qed.

Definition into (j : nat) (path' : list nat) (w : rval) : outcome (option rval) :=
  match w with
  | RStruct _ fs =>
      match nth_error fs j with
      | Some x => field_by_index x path' false
      | None => Returns None
      end
  | _ => Returns None
  end.
Lemma fbi_cons v j p first : field_by_index v (j :: p) first =
  if first then into j p v
  else match v with
       | RPtr _ (TStruct _) (Some w) => into j p w
       | RPtr _ (TStruct _) None => Panics
       | _ => into j p v
       end.
Proof. reflexivity. Qed.

Lemma into_value p : forall j w x, into j p w = Returns (Some x) <-> value_at w (j :: p) x.
Proof.
  induction p as [|i p IH]; intros j w x.
  - destruct w as [| | | | |s fs]; cbn [into]; try (split; [discriminate|intro H; inversion H]).
    split.
    + destruct (nth_error fs j) as [v|] eqn:E; [|discriminate]. cbn. intro H. inversion H; subst. constructor. exact E.
    + intro H. inversion H; subst; try contradiction. match goal with K : nth_error _ _ = _ |- _ => rewrite K end. reflexivity.
  - destruct w as [| | | | |s fs]; cbn [into]; try (split; [discriminate|intro H; inversion H]).
    split.
    + destruct (nth_error fs j) as [v|] eqn:E; [|discriminate]. rewrite fbi_cons.
      destruct v as [| | |n e [w|]| |t gs]; cbn [into]; try discriminate.
      * destruct e; try discriminate. intro H. apply IH in H. eapply value_ptr; eauto. discriminate.
      * destruct e; discriminate.
      * intro H. change (into i p (RStruct t gs) = Returns (Some x)) in H. apply IH in H.
        eapply value_struct; eauto. discriminate.
    + intro H. inversion H; subst; match goal with K : nth_error _ _ = _ |- _ => rewrite K end; rewrite fbi_cons.
      * apply (IH i (RStruct t gs)). assumption.
      * apply IH. assumption.
Qed.
Lemma fbi_value w p x : p <> [] -> (field_by_index w p true = Returns (Some x) <-> value_at w p x).
Proof. destruct p as [|j p]; [congruence|]. intros _. rewrite fbi_cons. apply into_value. Qed.

Lemma value_at_fun v p x : value_at v p x -> forall y, value_at v p y -> x = y.
Proof.
  intros H y K. assert (p <> []) by (inversion H; discriminate).
  apply fbi_value in H; auto. apply fbi_value in K; auto. congruence.
Qed.

Lemma gtype_eqb_spec a : forall b, gtype_eqb a b = true <-> a = b.
Proof.
  assert (O : forall x y : option nat, (match x, y with Some n, Some m => Nat.eqb n m | None, None => true | _, _ => false end) = true <-> x = y).
  { intros [n|] [m|]; try (split; [discriminate|intro E; discriminate]); [|tauto].
    rewrite Nat.eqb_eq. split; [intros ->; auto|intro E; inversion E; auto]. }
  induction a as [x|x|x a IH|x k IHk e IHe|x|x]; intros [y|y|y b|y k' e'|y|y]; cbn [gtype_eqb];
    try (split; [discriminate|intro E; discriminate]).
  - rewrite Nat.eqb_eq. split; [intros ->; auto|intro E; inversion E; auto].
  - rewrite O. split; [intros ->; auto|intro E; inversion E; auto].
  - rewrite andb_true_iff, O, IH. split; [intros [-> ->]; auto|intro E; inversion E; auto].
  - rewrite !andb_true_iff, O, IHk, IHe. split; [intros [[-> ->] ->]; auto|intro E; inversion E; auto].
  - rewrite Nat.eqb_eq. split; [intros ->; auto|intro E; inversion E; auto].
  - rewrite Nat.eqb_eq. split; [intros ->; auto|intro E; inversion E; auto].
Qed.
Lemma assert_type_spec M T v : assert_type M T v = true <-> is_a M T v.
Proof.
  unfold assert_type, is_a. destruct (type_of v) as [t|] eqn:E.
  - destruct T as [x|x|x a|x k e|x|i]; try (rewrite gtype_eqb_spec; split; [intros ->; auto|intro Q; inversion Q; auto]).
    split; [intro H; exists t; auto|]. intros (u & Q & H). inversion Q; subst; auto.
  - destruct T; split; try discriminate. intros (u & Q & _). discriminate.
Qed.
