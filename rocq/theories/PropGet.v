(** C42, C43: context.Get and context.MustGet. *)
From Coq Require Import Lia.
From Verif Require Import Bytes IO Reflect SpecGet GetFacts.

Local Open Scope nat_scope.

Section Props.
Variables (D : decls) (M : implements) (T : gtype).
Hypothesis OK : decls_ok D.

Lemma blank_panics s path : decls_ok D -> field_by_name D s (B "_") = Some path ->
  exported_at D s path = false.
Proof.
  intros H E. destruct (exported_at D s path) eqn:X; auto. exfalso.
  apply exported_at_spec in X. destruct X as (q & j & t & f & -> & H1 & H2 & H3).
  assert (F : field_at D s (B "_") (q ++ [j])).
  { unfold field_by_name in E. change [(s, [])] with (level D s 0) in E.
    destruct (matches D (B "_") (level D s 0)) as [|p l] eqn:Ms.
    - apply by_level_selects in E. apply E.
    - inversion E; subst p. apply (matches_spec D s (B "_") 0). rewrite Ms. left. reflexivity. }
  destruct F as (q' & j' & t' & f' & Eq & G1 & G2 & G3). apply app_inj_tail in Eq. destruct Eq as [-> ->].
  assert (t' = t).
  { clear - H1 G1. revert t G1 H1. induction 1 as [s|s j f t0 p u Hf He Ht H IH]; intro H1; inversion H1; subst; auto.
    apply IH. rewrite Hf in *. match goal with K : Some _ = Some _ |- _ => inversion K; subst end.
    match goal with K : through D ?x p t |- _ => assert (x = t0); [|subst; auto] end.
    match goal with |- ?x = ?y => assert (Q : Some x = Some y); [|congruence] end.
    transitivity (embedded_struct f0); [symmetry|]; apply embedded_struct_spec; auto. }
  subst t'. rewrite H2 in G2. inversion G2; subst f'.
  destruct (decls_at D t H) as [_ Ex]. rewrite Forall_forall in Ex.
  rewrite (Ex f) in H3; [discriminate|eapply nth_error_In; eauto|auto].
Qed.

(** What the cargo part returns, when it returns. *)
Lemma from_cargo_spec c k r : from_cargo D M T (g_cargo c) k = Returns r ->
  match r with
  | Some v => is_a M T v /\ in_cargo D c k v
  | None => forall v, is_a M T v -> ~ in_cargo D c k v
  end.
Proof.
  intro H.
  assert (Ent : forall w r, 
     look_in D M T w k = Returns r ->
     match r with
     | Some v => is_a M T v /\ entry_of D w k v
     | None => forall v, is_a M T v -> ~ entry_of D w k v
     end).
  { clear H r. intros w r H. unfold look_in in H.
    destruct w as [|id p|n s|n e t|n kt e entries|s fs].
    1-4: inversion H; subst; intros v _ X; inversion X.
    - destruct kt as [x|[x|]|x y|x y z|x|x]; try discriminate;
        try (inversion H; subst; intros v _ X; inversion X; fail).
      destruct (lookup entries k) as [x|] eqn:L.
      + unfold typed in H. inversion H; subst r. clear H. destruct (assert_type M T x) eqn:A.
        * split; [apply assert_type_spec; auto|constructor; auto].
        * intros v Hv X. inversion X; subst. rewrite L in *. match goal with K : Some _ = Some _ |- _ => inversion K; subst end.
          apply assert_type_spec in Hv. congruence.
      + inversion H; subst. intros v _ X. inversion X; subst. congruence.
    - destruct (beq_spec k (B "_")) as [->|K].
      + destruct (field_by_name D s (B "_")) as [path|] eqn:F.
        * rewrite (blank_panics s path OK F) in H.
          destruct (field_by_index (RStruct s fs) path true) as [[x|]|] eqn:I; try discriminate.
          inversion H; subst. intros v _ X. inversion X; subst.
          (* the path found is not the selected one, or there is no value *)
          unfold field_by_name in F. change [(s, [])] with (level D s 0) in F.
          assert (p = path).
          { destruct (matches D (B "_") (level D s 0)) as [|q l] eqn:Ms.
            - match goal with K : selects _ _ _ p |- _ => apply by_level_selects in K end. congruence.
            - inversion F; subst q. assert (X1 : In path (matches D (B "_") (level D s 0))) by (rewrite Ms; left; auto).
              apply matches_spec in X1. destruct X1 as [X1 X2].
              match goal with K : selects _ _ _ p |- _ => destruct K as [K1 K2] end.
              destruct (list_eq_dec Nat.eq_dec path p) as [->|N]; auto. exfalso.
              specialize (K2 path X1 N). apply field_at_len in K1. lia. }
          subst p. match goal with K : value_at _ path v |- _ => apply fbi_value in K; [congruence|inversion K; discriminate] end.
        * inversion H; subst. intros v _ X. inversion X; subst.
          match goal with K : selects _ _ _ p |- _ => apply by_level_selects in K; change (level D s 0) with [(s, @nil nat)] in K end.
          unfold field_by_name in F. destruct (matches D (B "_") [(s, [])]); congruence.
      + destruct (field_by_name D s k) as [path|] eqn:F.
        * apply field_by_name_selects in F; auto.
          assert (P : path <> []). { destruct F as [F _]. apply field_at_len in F. destruct path; [cbn in F; lia|discriminate]. }
          assert (Same : forall p, selects D s k p -> p = path).
          { intros p Hp. apply (field_by_name_selects D s k p OK K) in Hp. apply (field_by_name_selects D s k path OK K) in F. congruence. }
          destruct (field_by_index (RStruct s fs) path true) as [[x|]|] eqn:I; try discriminate.
          -- destruct (exported_at D s path); [|discriminate]. apply fbi_value in I; auto.
             unfold typed in H. inversion H; subst r. clear H. destruct (assert_type M T x) eqn:A.
             ++ split; [apply assert_type_spec; auto|]. econstructor; eauto.
             ++ intros v Hv X. inversion X; subst.
                match goal with K1 : selects _ _ _ ?p, K2 : value_at _ ?p v |- _ => rewrite (Same p K1) in K2; pose proof (value_at_fun _ _ _ I _ K2) end.
                subst x. apply assert_type_spec in Hv. congruence.
          -- inversion H; subst. intros v _ X. inversion X; subst.
             match goal with K1 : selects _ _ _ ?p, K2 : value_at _ ?p v |- _ => rewrite (Same p K1) in K2; apply fbi_value in K2; [congruence|auto] end.
        * inversion H; subst. intros v _ X. inversion X; subst.
          match goal with K1 : selects _ _ _ ?p |- _ => apply (field_by_name_selects D s k p OK K) in K1 end. congruence. }
  unfold from_cargo in H.
  destruct (g_cargo c) as [|id p|n s|n e [t|]|n kt e entries|s fs] eqn:Ec.
  1-3,6-7: match goal with K : look_in _ _ _ ?w _ = _ |- _ => specialize (Ent w r K) end; destruct r as [v|];
    [destruct Ent as [E1 E2]; split; auto; eexists; rewrite Ec; split; [constructor|exact E2]
    |intros v Hv (x & C & E); rewrite Ec in C; inversion C; subst; eapply Ent; eauto].
  - assert (Ptr : (forall i, e <> TIface i) -> match r with
        | Some v => is_a M T v /\ in_cargo D c k v
        | None => forall v, is_a M T v -> ~ in_cargo D c k v end).
    { intro Ne. assert (H' := Ent t r). destruct e; try (exfalso; eapply Ne; reflexivity);
      (specialize (H' H); destruct r as [v|];
      [destruct H' as [E1 E2]; split; auto; exists t; rewrite Ec; split; [constructor; auto|exact E2]
      |intros v Hv (x & C & E); rewrite Ec in C; inversion C; subst; [inversion E|eapply H'; eauto]]). }
    destruct e; try (apply Ptr; intros i X; discriminate).
    inversion H; subst. intros v _ (x & C & E). rewrite Ec in C. inversion C; subst; [inversion E|].
    match goal with K : forall i, TIface _ <> TIface i |- _ => eapply K; reflexivity end.
  - assert (r = None) by (destruct e; inversion H; auto). subst r.
    intros v _ (x & C & E). rewrite Ec in C. inversion C; subst. inversion E.
Qed.

(** C42.  What Get returns: a value of type T under that key in Data if there
    is one; otherwise one in Cargo if there is one; otherwise nothing. *)
Theorem C42_get c k r : get D M T (Some c) k = Returns r ->
  match r with
  | Some v =>
      is_a M T v /\
      (in_data c k v \/ ((forall w, in_data c k w -> ~ is_a M T w) /\ in_cargo D c k v))
  | None => forall v, is_a M T v -> ~ in_data c k v /\ ~ in_cargo D c k v
  end.
Proof.
  unfold get. intro H.
  set (later := match g_cargo c with RNil => Returns None | cargo => from_cargo D M T cargo k end) in *.
  assert (L : forall r, later = Returns r -> match r with
     | Some v => is_a M T v /\ in_cargo D c k v
     | None => forall v, is_a M T v -> ~ in_cargo D c k v end).
  { intros r' Hr. apply from_cargo_spec. unfold later in Hr. destruct (g_cargo c); auto. }
  destruct (g_data c) as [data|] eqn:Ed.
  - destruct (lookup data k) as [x|] eqn:Lk.
    + destruct (assert_type M T x) eqn:A.
      * inversion H; subst r. apply assert_type_spec in A. split; auto. left. exists data. auto.
      * assert (N : forall w, in_data c k w -> ~ is_a M T w).
        { intros w (d & E1 & E2) Q. apply assert_type_spec in Q. rewrite Ed in E1. inversion E1; subst. congruence. }
        specialize (L r H). destruct r as [v|]; [destruct L; auto|]. intros v Hv. split; [intro Q; eapply N; eauto|auto].
    + assert (N : forall w, ~ in_data c k w).
      { intros w (d & E1 & E2). rewrite Ed in E1. inversion E1; subst. congruence. }
      specialize (L r H). destruct r as [v|]; [destruct L; split; auto; right; split; auto; intros w Q; destruct (N w Q)|].
      intros v Hv. split; [apply N|auto].
  - assert (N : forall w, ~ in_data c k w).
    { intros w (d & E1 & E2). rewrite Ed in E1. discriminate. }
    specialize (L r H). destruct r as [v|]; [destruct L; split; auto; right; split; auto; intros w Q; destruct (N w Q)|].
    intros v Hv. split; [apply N|auto].
Qed.

(** C42.  Without a context nothing is found. *)
Theorem C42_no_context k : get D M T None k = Returns None.
Proof. reflexivity. Qed.

(** C42.  MustGet returns what Get returns, and panics exactly when Get reports
    that there is nothing (or panics itself). *)
Theorem C42_must_get c k :
  (forall v, must_get D M T c k = Returns v <-> get D M T c k = Returns (Some v)) /\
  (must_get D M T c k = Panics <-> get D M T c k = Returns None \/ get D M T c k = Panics).
Proof.
  unfold must_get. destruct (get D M T c k) as [[v|]|]; split; try (intro w); split; intro H;
    try discriminate; try (inversion H; subst; auto; fail); auto; destruct H; discriminate.
Qed.

(** C43, partial.  Get does not panic when Cargo is [harmless].  What is
    missing: other cargo can make it panic ([C43_refuted]). *)
Theorem C43_no_panic_partial c k :
  (forall c', c = Some c' -> harmless D (g_cargo c') k) ->
  get D M T c k <> Panics.
Proof.
  intros H. destruct c as [c|]; [|discriminate]. specialize (H c eq_refl). unfold get.
  assert (L : match g_cargo c with RNil => Returns None | cargo => from_cargo D M T cargo k end <> Panics).
  { assert (G : from_cargo D M T (g_cargo c) k <> Panics).
    { assert (Look : forall w, carried (g_cargo c) w ->
         look_in D M T w k <> Panics).
      { intros w C. specialize (H w C). unfold look_in. destruct w as [|id p|n s|n e t|n kt e entries|s fs]; try discriminate.
        - destruct kt as [x|[x|]|x y|x y z|x|x]; try discriminate; [contradiction|].
          destruct (lookup entries k); discriminate.
        - destruct H as [Hk H]. destruct (field_by_name D s k) as [path|] eqn:F; [|discriminate].
          apply (field_by_name_selects D s k path OK Hk) in F. destruct (H path F) as [Ex (v & Hv)].
          apply fbi_value in Hv; [|destruct F as [F _]; apply field_at_len in F; destruct path; [cbn in F; lia|discriminate]].
          rewrite Hv. apply exported_at_spec in Ex. rewrite Ex. discriminate. }
      unfold from_cargo. destruct (g_cargo c) as [|id p|n s|n e [t|]|n kt e entries|s fs] eqn:Ec;
        try (apply (Look _ (carried_self _))).
      - assert (P : (forall i, e <> TIface i) -> carried (RPtr n e (Some t)) t) by (intro; constructor; auto).
        destruct e; try discriminate; apply Look, P; intros i X; discriminate.
      - destruct e; discriminate. }
    destruct (g_cargo c); auto; discriminate. }
  destruct (g_data c) as [data|]; [|exact L]. destruct (lookup data k) as [x|]; [|exact L].
  destruct (assert_type M T x); [discriminate|exact L].
Qed.

Lemma into_panics p : forall j w, into j p w = Panics <->
  exists q r n t, j :: p = q ++ r /\ r <> [] /\ value_at w q (RPtr n (TStruct t) None).
Proof.
  assert (V : forall w v, ~ value_at w [] v) by (intros w v H; inversion H).
  induction p as [|i p IH]; intros j w.
  - split.
    + destruct w as [| | | | |s fs]; cbn [into]; try discriminate. destruct (nth_error fs j); discriminate.
    + intros (q & r & n & t & E & R & H). destruct q as [|x q]; [destruct (V _ _ H)|].
      cbn in E. injection E as _ E. destruct q; [cbn in E; congruence|discriminate].
  - split.
    + destruct w as [| | | | |s fs]; cbn [into]; try discriminate.
      destruct (nth_error fs j) as [v|] eqn:E; [|discriminate]. rewrite fbi_cons.
      destruct v as [| | |n e [w|]| |t gs]; cbn [into]; try discriminate.
      * destruct e; try discriminate. intro H. apply IH in H as (q & r & n' & t & Q & R & H).
        exists (j :: q), r, n', t. rewrite Q. repeat split; auto. eapply value_ptr; eauto.
        intros ->. inversion H.
      * destruct e; try discriminate. intros _. exists [j], (i :: p), n, s0. repeat split; [discriminate|]. constructor. exact E.
      * intro H. change (into i p (RStruct t gs) = Panics) in H. apply IH in H as (q & r & n' & t' & Q & R & H).
        exists (j :: q), r, n', t'. rewrite Q. repeat split; auto. eapply value_struct; eauto.
        intros ->. inversion H.
    + intros (q & r & n & t & E & R & H). destruct q as [|x q]; [destruct (V _ _ H)|].
      cbn in E. injection E as <- E. inversion H; subst.
      * cbn [app] in E. subst r. cbn [into]. match goal with K : nth_error _ _ = _ |- _ => rewrite K end. reflexivity.
      * cbn [into]. match goal with K : nth_error _ _ = _ |- _ => rewrite K end. rewrite fbi_cons.
        apply IH. eauto 8.
      * cbn [into]. match goal with K : nth_error _ _ = _ |- _ => rewrite K end. rewrite fbi_cons.
        apply IH. eauto 8.
Qed.
Lemma fits_field s fs j f : fits D (TStruct s) (RStruct s fs) -> nth_error (fields_of D s) j = Some f ->
  exists v, nth_error fs j = Some v /\ fits D (fl_type f) v.
Proof.
  intro H. inversion H as [ | | | | |s' vs F| | ]; subst. clear H. revert j.
  induction F as [|f' v l l' Hv _ IH]; intros [|j] E; cbn in E; try discriminate.
  - injection E as <-. exists v. split; [reflexivity|exact Hv].
  - apply IH in E. exact E.
Qed.
Lemma fits_dyn t v : fits D t v -> forall u, type_of v = Some u -> fits D u v.
Proof.
  intro H. assert (K : forall t v, (forall j, t <> TIface j) -> fits D t v -> forall u, type_of v = Some u -> fits D u v).
  { clear t v H. intros t v N H u E. inversion H; subst; cbn in E; try (injection E as <-); auto;
      try (exfalso; eapply N; reflexivity); discriminate. }
  intros u E. inversion H; subst; cbn in E; try (injection E as <-); auto; try discriminate.
  eapply K; eauto.
Qed.
Lemma fits_reaches k : forall p j s w, fits D (TStruct s) w -> field_at D s k (j :: p) -> into j p w <> Returns None.
Proof.
  induction p as [|i p IH]; intros j s w Fw (q & j' & t & f & E & Th & Hf & Hn).
  - destruct q as [|x q]; [|destruct q; discriminate]. injection E as <-. inversion Th; subst.
    inversion Fw; subst. destruct (fits_field _ _ _ _ Fw Hf) as (v & Hv & _). cbn [into]. rewrite Hv. discriminate.
  - destruct q as [|x q]; [discriminate|]. cbn in E. injection E as <- E. inversion Th as [|? ? g u ? ? Hg He Hu Th']; subst.
    assert (F : field_at D u (fl_name f) (i :: p)) by (exists q, j', t, f; auto).
    inversion Fw; subst. destruct (fits_field _ _ _ _ Fw Hg) as (v & Hv & Fv). cbn [into]. rewrite Hv, fbi_cons.
    destruct Hu as [Hu|[n Hu]]; rewrite Hu in Fv; inversion Fv; subst.
    + apply (IH i u). exact Fv. exact F.
    + discriminate.
    + apply (IH i u); assumption.
Qed.

(** C43, exactly: Get panics if there is no value of the right type in Data, and
    Cargo is a map whose keys have a defined string type, or a struct whose field
    of that name is unexported or behind a nil embedded pointer. *)
Theorem C43_exact c k ct :
  k <> B "_" -> fits D ct (g_cargo c) ->
  get D M T (Some c) k = Panics <->
  (forall v, in_data c k v -> ~ is_a M T v) /\ exists w, carried (g_cargo c) w /\ trap D k w.
Proof.
  intros K Fc.
  assert (Look : forall w ct, fits D ct w -> (look_in D M T w k = Panics <-> trap D k w)).
  { intros w wt Fw. unfold look_in. destruct w as [|id p|n s|n e t|n kt e entries|s fs];
      try (split; [discriminate|intro X; inversion X]).
    - destruct kt as [x|[x|]|x y|x y z|x|x]; try (split; [discriminate|intro X; inversion X]).
      + split; [constructor|reflexivity].
      + destruct (lookup entries k); split; try discriminate; intro X; inversion X.
    - assert (Fs := fits_dyn wt _ Fw (TStruct s) eq_refl).
      destruct (field_by_name D s k) as [path|] eqn:F.
      + apply (field_by_name_selects D s k path OK K) in F.
        assert (Same : forall p, selects D s k p -> p = path).
        { intros p Hp. apply (field_by_name_selects D s k p OK K) in Hp. apply (field_by_name_selects D s k path OK K) in F. congruence. }
        assert (P : path <> []). { destruct F as [F _]. apply field_at_len in F. destruct path; [cbn in F; lia|discriminate]. }
        destruct path as [|j p]; [contradiction|]. rewrite fbi_cons.
        assert (R := fits_reaches k p j s (RStruct s fs) Fs (proj1 F)).
        destruct (into j p (RStruct s fs)) as [[x|]|] eqn:I; [|contradiction|].
        * destruct (exported_at D s (j :: p)) eqn:Ex; split; try discriminate; try reflexivity.
          -- intro X. inversion X as [|s1 fs1 p1 S1 N1|s1 fs1 q r n t S1 R1 V1]; subst.
             ++ rewrite (Same _ S1) in N1. apply exported_at_spec in Ex. contradiction.
             ++ assert (Z : into j p (RStruct s fs) = Panics); [|congruence].
                apply into_panics. exists q, r, n, t. rewrite (Same _ S1). auto.
          -- intros _. apply trap_unexported with (p := j :: p); auto. intro Q. apply exported_at_spec in Q. congruence.
        * split; [intros _|reflexivity]. apply into_panics in I as (q & r & n & t & E & H1 & H2).
          apply trap_nil with (q := q) (r := r) (n := n) (t := t); auto. rewrite <- E. exact F.
      + split; [discriminate|]. intro X.
        assert (N : forall p, ~ selects D s k p).
        { intros p Hp. apply (field_by_name_selects D s k p OK K) in Hp. congruence. }
        inversion X; subst; exfalso; eapply N; eauto. }
  assert (Fr : from_cargo D M T (g_cargo c) k = Panics <-> exists w, carried (g_cargo c) w /\ trap D k w).
  { assert (Self : forall w, (forall n e t, w <> RPtr n e t) -> forall ct, fits D ct w ->
      (look_in D M T w k = Panics <-> exists x, carried w x /\ trap D k x)).
    { intros w Np wt Fw. rewrite (Look w wt Fw). split.
      - intro X. exists w. split; [constructor|exact X].
      - intros (x & C & X). inversion C; subst; [exact X|]. exfalso. eapply Np. reflexivity. }
    unfold from_cargo. destruct (g_cargo c) as [|id p|n s|n e [t|]|n kt e entries|s fs] eqn:Ec;
      try (refine (Self _ _ ct Fc); intros; discriminate).
    - assert (Ft : fits D e t).
      { assert (Q := fits_dyn ct _ Fc (TPtr n e) eq_refl). inversion Q; subst. assumption. }
      assert (Tr : (forall i, e <> TIface i) -> (look_in D M T t k = Panics <-> exists w, carried (RPtr n e (Some t)) w /\ trap D k w)).
      { intro Ne. rewrite (Look t e Ft). split.
        - intro X. exists t. split; [constructor; exact Ne|exact X].
        - intros (x & C & X). inversion C; subst; [inversion X|exact X]. }
      destruct e; try (apply Tr; intros; discriminate).
      split; [discriminate|]. intros (x & C & X). inversion C as [|? ? ? Ne]; subst; [inversion X|]. exfalso. eapply Ne. reflexivity.
    - split; [destruct e; discriminate|]. intros (x & C & X). inversion C; subst. inversion X. }
  unfold get.
  assert (L : match g_cargo c with RNil => Returns None | cargo => from_cargo D M T cargo k end = Panics <->
              exists w, carried (g_cargo c) w /\ trap D k w).
  { rewrite <- Fr. destruct (g_cargo c); reflexivity. }
  destruct (g_data c) as [data|] eqn:Ed.
  - destruct (lookup data k) as [x|] eqn:Lk.
    + destruct (assert_type M T x) eqn:A.
      * split; [discriminate|]. intros [N _]. exfalso. apply (N x); [exists data; auto|]. apply assert_type_spec. exact A.
      * rewrite L. split; [|tauto]. intro X. split; [|exact X]. intros w (d & E1 & E2) Q. rewrite Ed in E1. injection E1 as <-.
        rewrite Lk in E2. injection E2 as <-. apply assert_type_spec in Q. congruence.
    + rewrite L. split; [|tauto]. intro X. split; [|exact X]. intros w (d & E1 & E2). rewrite Ed in E1. injection E1 as <-. congruence.
  - rewrite L. split; [|tauto]. intro X. split; [|exact X]. intros w (d & E1 & E2). congruence.
Qed.

(** C43.  A value of the right type in Data is returned whatever Cargo is. *)
Theorem C43_data_never_panics c k v : in_data c k v -> is_a M T v ->
  get D M T (Some c) k = Returns (Some v).
Proof.
  intros (d & E1 & E2) A. unfold get. rewrite E1, E2. apply assert_type_spec in A. rewrite A. reflexivity.
Qed.

End Props.

(** ** Cases *)

(** type Base struct { Name string; ID int }
    type Page struct { Base; *Meta; Title string; secret string }
    type Meta struct { ID int; *Page }  *)
Definition t_int := TOther 0.
Definition t_string := TString None.
Definition table : decls :=
  [ [Field (B "Name") true false t_string; Field (B "ID") true false t_int];
    [Field (B "Base") true true (TStruct 0); Field (B "Meta") true true (TPtr None (TStruct 2));
     Field (B "Title") true false t_string; Field (B "secret") false false t_string];
    [Field (B "ID") true false t_int; Field (B "Note") true false t_string;
     Field (B "Page") true true (TPtr None (TStruct 1))] ].
Definition none : implements := fun _ _ => false.
Definition text s := RString None (B s).
Definition page_value (m : option rval) : rval :=
  RStruct 1 [RStruct 0 [text "n"; ROther 0 7]; RPtr None (TStruct 2) m; text "t"; text "s"].
Definition meta := RStruct 2 [ROther 0 8; text "note"; RPtr None (TStruct 1) None].
Definition on (cargo : rval) := Some (GCtx (Some [(B "Title", ROther 0 1)]) cargo).

Example table_ok : decls_ok table.
Proof.
  unfold decls_ok, table. repeat apply Forall_cons; try apply Forall_nil; (split;
    [vm_compute; repeat constructor; cbn; intro X; repeat destruct X as [X|X]; discriminate X || exact X
    |repeat constructor; intro E; discriminate E]).
Qed.
(** Title is in Data with another type, so the field of the struct is used;
    Name is promoted from Base; Note through the pointer; ID is ambiguous. *)
Example gets :
  get table none t_string (on (RPtr None (TStruct 1) (Some (page_value (Some meta))))) (B "Title") = Returns (Some (text "t")) /\
  get table none t_int (on (page_value (Some meta))) (B "Title") = Returns (Some (ROther 0 1)) /\
  get table none t_string (on (page_value (Some meta))) (B "Name") = Returns (Some (text "n")) /\
  get table none t_string (on (page_value (Some meta))) (B "Note") = Returns (Some (text "note")) /\
  get table none t_int (on (page_value (Some meta))) (B "ID") = Returns None /\
  get table none t_int (on (RMap None t_string t_int [(B "k", ROther 0 5)])) (B "k") = Returns (Some (ROther 0 5)) /\
  must_get table none t_int (on RNil) (B "k") = Panics.
Proof. repeat split; vm_compute; reflexivity. Qed.
(** [harmless] holds of a struct and a promoted field. *)
Example harmless_case : harmless table (page_value None) (B "Name").
Proof.
  intros w C. inversion C; subst. cbn. split; [discriminate|].
  intros p Hp. apply (field_by_name_selects table 1 (B "Name") p table_ok) in Hp; [|discriminate].
  vm_compute in Hp. inversion Hp; subst. split.
  - apply exported_at_spec. reflexivity.
  - exists (text "n"). apply fbi_value; [discriminate|]. reflexivity.
Qed.

Example fits_case : fits table (TStruct 1) (page_value None) /\ fits table (TStruct 1) (page_value (Some meta)).
Proof. split; repeat constructor. Qed.

(** C43 as stated is false: a map with a defined string type as key, an
    unexported field, a nil embedded pointer. *)
Theorem C43_refuted : exists D M T n d e entries k,
  fits D (TMap n (TString (Some d)) e) (RMap n (TString (Some d)) e entries) /\
  get D M T (new_context None (RMap n (TString (Some d)) e entries)) k = Panics.
Proof.
  exists table, none, t_string, None, 5, t_string, [(B "k", text "v")], (B "k").
  split; [repeat constructor|]. vm_compute. reflexivity.
Qed.
Theorem C43_unexported_refuted : exists D M T s fs k p,
  decls_ok D /\ fits D (TStruct s) (RStruct s fs) /\ selects D s k p /\ ~ exported D s p /\
  get D M T (new_context None (RStruct s fs)) k = Panics.
Proof.
  exists table, none, t_string, 1, [RStruct 0 [text "n"; ROther 0 7]; RPtr None (TStruct 2) None; text "t"; text "s"], (B "secret"), [3].
  split; [apply table_ok|]. split; [apply fits_case|]. split; [|split; [|vm_compute; reflexivity]].
  - apply field_by_name_selects; [apply table_ok|discriminate|reflexivity].
  - intro X. apply exported_at_spec in X. discriminate X.
Qed.
Theorem C43_nil_embedded_refuted : exists D M T s fs k p,
  decls_ok D /\ fits D (TStruct s) (RStruct s fs) /\ selects D s k p /\ exported D s p /\
  get D M T (new_context None (RStruct s fs)) k = Panics.
Proof.
  exists table, none, t_string, 1, [RStruct 0 [text "n"; ROther 0 7]; RPtr None (TStruct 2) None; text "t"; text "s"], (B "Note"), [1; 1].
  split; [apply table_ok|]. split; [apply fits_case|]. split; [|split; [|vm_compute; reflexivity]].
  - apply field_by_name_selects; [apply table_ok|discriminate|reflexivity].
  - apply exported_at_spec. reflexivity.
Qed.
