(** Tokenizing after the preprocessing of newlines is tokenizing followed by the
    same preprocessing of the tokens. *)
From Verif Require Import Bytes SpecEscape SpecHtml SpecReader.

Notation nl := (newlines false).

(** Whether the last byte, or character token, is a CR. *)
Fixpoint ends (cr : bool) (b : bytes) : bool :=
  match b with [] => cr | c :: b' => ends (is c CR) b' end.
Definition tcr (t : token) : bool := match t with TChar c => is c CR | _ => false end.
Fixpoint tends (cr : bool) (ts : list token) : bool :=
  match ts with [] => cr | t :: ts' => tends (tcr t) ts' end.

Lemma newlines_app cr a b : newlines cr (a ++ b) = newlines cr a ++ newlines (ends cr a) b.
Proof.
  revert cr; induction a as [|c a IH]; intro cr; [reflexivity|]. cbn [app newlines ends].
  destruct (is c CR); [cbn [app]; rewrite IH; reflexivity|].
  destruct (cr && is c LF); cbn [app]; rewrite IH; reflexivity.
Qed.
Lemma ends_app cr a b : ends cr (a ++ b) = ends (ends cr a) b.
Proof. revert cr; induction a as [|c a IH]; intro cr; [reflexivity|]. apply IH. Qed.
Lemma token_newlines_app cr a b : token_newlines cr (a ++ b) = token_newlines cr a ++ token_newlines (tends cr a) b.
Proof.
  revert cr; induction a as [|t a IH]; intro cr; [reflexivity|]. cbn [app token_newlines tends].
  destruct t; cbn [tcr app]; try (rewrite IH; reflexivity).
  destruct (is c CR); [cbn [app]; rewrite IH; reflexivity|].
  destruct (cr && is c LF); cbn [app]; rewrite IH; reflexivity.
Qed.
Lemma tends_app cr a b : tends cr (a ++ b) = tends (tends cr a) b.
Proof. revert cr; induction a as [|c a IH]; intro cr; [reflexivity|]. apply IH. Qed.
Lemma tn_chars cr b : token_newlines cr (map TChar b) = map TChar (newlines cr b).
Proof.
  revert cr; induction b as [|c b IH]; intro cr; [reflexivity|]. cbn [map token_newlines newlines].
  destruct (is c CR); [cbn [map]; rewrite IH; reflexivity|].
  destruct (cr && is c LF); cbn [map]; rewrite IH; reflexivity.
Qed.
Lemma tends_chars cr b : tends cr (map TChar b) = ends cr b.
Proof. revert cr; induction b as [|c b IH]; intro cr; [reflexivity|]. apply IH. Qed.

(** Bytes that newlines leaves alone. *)
Definition plainly (b : bytes) : Prop := forallb (fun c => negb (is c CR) && negb (is c LF)) b = true.
Lemma newlines_plain b : plainly b -> newlines false b = b /\ ends false b = false.
Proof.
  unfold plainly. induction b as [|c b IH]; [auto|]. cbn [forallb newlines ends]. rewrite !andb_true_iff, !negb_true_iff.
  intros [[H1 H2] H3]. rewrite H1, H2. cbn [andb]. destruct (IH H3) as [-> ->]. auto.
Qed.
Lemma plainly_app a b : plainly a -> plainly b -> plainly (a ++ b).
Proof. unfold plainly. rewrite forallb_app. intros -> ->. reflexivity. Qed.
Lemma plainly_alpha c : is_alpha c = true -> plainly [c].
Proof. destruct c as [[] [] [] [] [] [] [] []]; try discriminate; reflexivity. Qed.
Lemma plainly_ref c : ref_char c = true -> plainly [c].
Proof. destruct c as [[] [] [] [] [] [] [] []]; try discriminate; reflexivity. Qed.

(** ** The states *)

Definition nt (t : tag) : tag := Tag (t_end t) (t_name t) (map attr_newlines (t_attrs t)).
Definition nst (s : state) : state :=
  match s with
  | TagName t => TagName (nt t)
  | BeforeAttr t => BeforeAttr (nt t)
  | AttrName t n => AttrName (nt t) n
  | AfterAttrName t n => AfterAttrName (nt t) n
  | BeforeValue t n => BeforeValue (nt t) n
  | Value q t n v => Value q (nt t) n (nl v)
  | AfterValue t => AfterValue (nt t)
  | SelfClose t => SelfClose (nt t)
  | Bogus d => Bogus (nl d)
  | InComment d => InComment (nl d)
  | CommentEndDash d => CommentEndDash (nl d)
  | CommentEnd d => CommentEnd (nl d)
  | CommentBang d => CommentBang (nl d)
  | RefValue buf q t n v => RefValue buf q (nt t) n (nl v)
  | _ => s
  end.

(** [p]: the byte before was a CR; [q]: the last token was. *)
Definition quote_ok (q : option ascii) : Prop := q = None \/ q = Some """"%char \/ q = Some "'"%char.
Definition inv (p q : bool) (s : state) : Prop :=
  match s with
  | Data | RawData _ _ | PlainText => q = p
  | Value k _ _ v => quote_ok k /\ ends false v = p /\ (k = None -> p = false)
  | Bogus v | InComment v => ends false v = p
  | BeforeAttr _ | AfterAttrName _ _ | BeforeValue _ _ => True
  | RefData buf | RefRaw buf _ | RawEndName _ _ buf => p = false /\ plainly buf
  | RefValue buf k _ _ _ => quote_ok k /\ p = false /\ plainly buf
  | _ => p = false
  end.

Lemma nt_names t : map fst (t_attrs (nt t)) = map fst (t_attrs t).
Proof. cbn. rewrite map_map. reflexivity. Qed.
Lemma nt_add t n v : nt (add_attr t n v) = add_attr (nt t) n (nl v).
Proof.
  unfold add_attr. rewrite nt_names. destruct (bmem n _); [reflexivity|]. unfold nt. cbn [t_end t_name t_attrs].
  rewrite map_app. reflexivity.
Qed.
Lemma nt_emit q t s : token_newlines q [emit t s] = [emit (nt t) s].
Proof. unfold emit. cbn [t_end nt]. destruct (t_end t); reflexivity. Qed.
Lemma tends_emit q t s : tends q [emit t s] = false.
Proof. unfold emit. destruct (t_end t); reflexivity. Qed.
Lemma nt_after t : nst (after t) = after (nt t) /\ inv false false (after t).
Proof.
  unfold after, content_state. cbn [t_end t_name nt]. destruct (t_end t); [split; reflexivity|].
  destruct (bmem _ _); [split; reflexivity|]. destruct (bmem _ _); [split; reflexivity|].
  destruct (beq _ _); split; reflexivity.
Qed.

Lemma nl_snoc v c : is c CR = false -> (is c LF = true -> ends false v = false) ->
  nl (v ++ [c]) = nl v ++ [c] /\ ends false (v ++ [c]) = false.
Proof.
  intros H1 H2. rewrite newlines_app, ends_app. cbn [newlines ends]. rewrite H1.
  destruct (is c LF); [rewrite H2 by reflexivity; auto|]. rewrite andb_false_r. auto.
Qed.
Lemma nl_plain v b : plainly b -> b <> [] -> nl (v ++ b) = nl v ++ b /\ ends false (v ++ b) = false.
Proof.
  intros H N. rewrite newlines_app, ends_app. destruct b as [|c b]; [congruence|].
  unfold plainly in H. cbn [forallb] in H. rewrite !andb_true_iff, !negb_true_iff in H. destruct H as [[H1 H2] H3].
  cbn [newlines ends]. rewrite H1, H2, andb_false_r. destruct (newlines_plain b H3) as [-> ->]. auto.
Qed.
Lemma nl_declaration q d :
  token_newlines q [declaration d] = [declaration (nl d)] /\ tends q [declaration d] = false.
Proof.
  assert (G : forall k b, k <= length b -> plainly (firstn k b) \/ ~ plainly (firstn k b)) by
    (intros; unfold plainly; destruct (forallb _ _); auto).
  assert (F : forall k b, plainly (firstn k b) -> firstn k (nl b) = firstn k b /\ skipn k (nl b) = nl (skipn k b)).
  { induction k as [|k IH]; intros b H; [auto|]. destruct b as [|c b]; [auto|]. unfold plainly in H. cbn [firstn forallb] in H.
    rewrite !andb_true_iff, !negb_true_iff in H. destruct H as [[H1 H2] H3]. cbn [newlines]. rewrite H1, H2. cbn [andb firstn skipn].
    destruct (IH b H3) as [-> ->]. auto. }
  assert (L : forall b : bytes, plainly (map lower b) -> plainly b).
  { intros b. unfold plainly. induction b as [|c b IH]; [auto|]. cbn [map forallb]. rewrite !andb_true_iff.
    intros [H1 H2]. split; [|auto]. clear - H1. destruct c as [[] [] [] [] [] [] [] []]; try exact H1; reflexivity. }
  assert (R : forall k b, plainly (firstn k (nl b)) -> plainly (firstn k b)).
  { induction k as [|k IH]; intros b H; [reflexivity|]. destruct b as [|c b]; [reflexivity|]. unfold plainly in *.
    cbn [newlines] in H. destruct (is c CR) eqn:E1; [discriminate H|]. cbn [andb firstn forallb] in *.
    rewrite !andb_true_iff in *. destruct H as [[H1 H2] H3]. auto. }
  unfold declaration.
  destruct (beq_spec (map lower (firstn 7 d)) (B "doctype")) as [E|E].
  - assert (P : plainly (firstn 7 d)) by (apply L; rewrite E; reflexivity).
    destruct (F 7 d P) as [F1 F2]. rewrite F1, E, F2. split; reflexivity.
  - destruct (beq_spec (map lower (firstn 7 (nl d))) (B "doctype")) as [E'|E']; [exfalso|split; reflexivity].
    assert (P : plainly (firstn 7 d)) by (apply R, L; rewrite E'; reflexivity).
    destruct (F 7 d P) as [F1 _]. rewrite F1 in E'. contradiction.
Qed.

(** ** One step *)

Definition follows (q : bool) (r : list token * state) (r' : list token * state) (p : bool) : Prop :=
  fst r' = token_newlines q (fst r) /\ snd r' = nst (snd r) /\ inv p (tends q (fst r)) (snd r).

Ltac chars :=
  cbn [step nst inv]; unfold in_value, in_comment;
  repeat match goal with
  | |- context [is ?a ?b] =>
      let r := eval vm_compute in (is a b) in
      match r with true => change (is a b) with true | false => change (is a b) with false end
  | |- context [is_ws ?a] =>
      let r := eval vm_compute in (is_ws a) in
      match r with true => change (is_ws a) with true | false => change (is_ws a) with false end
  | |- context [ref_char ?a] =>
      let r := eval vm_compute in (ref_char a) in
      match r with true => change (ref_char a) with true | false => change (ref_char a) with false end
  end; cbn iota; cbn [fst snd nst inv token_newlines tends andb].

Lemma nl_cr v : nl (v ++ [CR]) = nl v ++ [LF] /\ ends false (v ++ [CR]) = true.
Proof. rewrite newlines_app, ends_app. auto. Qed.
Lemma nl_plain_cr v b : plainly b -> b <> [] ->
  nl (v ++ b ++ [CR]) = nl v ++ b ++ [LF] /\ ends false (v ++ b ++ [CR]) = true.
Proof.
  intros H N. rewrite !app_assoc. destruct (nl_cr (v ++ b)) as [-> ->]. destruct (nl_plain v b H N) as [-> _]. auto.
Qed.
Lemma amp_plain buf : plainly buf -> plainly (B "&" ++ buf) /\ B "&" ++ buf <> [].
Proof. intro H. split; [apply plainly_app; [reflexivity|auto]|discriminate]. Qed.

Lemma flush_cr q b r r' : plainly b -> b <> [] -> follows false r r' true ->
  follows q (flush b r) (flush b r') true.
Proof.
  intros P N (H1 & H2 & H3). unfold follows, flush in *. cbn [fst snd]. rewrite token_newlines_app, tends_app, tn_chars, tends_chars.
  assert (E : newlines q b = b /\ ends q b = false).
  { destruct b as [|c b]; [congruence|]. unfold plainly in P. cbn [forallb] in P. rewrite !andb_true_iff, !negb_true_iff in P.
    destruct P as [[P1 P2] P3]. cbn [newlines ends]. rewrite P1, P2, andb_false_r. destruct (newlines_plain b P3) as [-> ->]. auto. }
  destruct E as [-> ->]. rewrite H1. auto.
Qed.

Lemma step_cr p q s : inv p q s -> follows q (step s CR) (step (nst s) LF) true.
Proof.
  intro I. destruct s as [| | |t|t|t n|t n|t n|qu t n v|t|t| | |d| | |d|d|d|d|refs name|refs name|refs name|refs name buf|buf name| |buf|buf qu t n v];
    try (split; [|split]; reflexivity).
  - apply (flush_cr q (B "<") (in_data CR) (in_data LF)); [reflexivity|discriminate|]. repeat split.
  - destruct (nl_cr v) as [E1 E2]. destruct I as [[->|[->| ->]] I]; unfold follows; chars;
      rewrite ?nt_add, ?E1, ?E2; repeat split; unfold quote_ok; auto; try discriminate.
  - destruct (nl_cr d) as [E1 E2]. unfold follows. chars. rewrite E1, E2. auto.
  - destruct (nl_cr d) as [E1 E2]. unfold follows. chars. rewrite E1, E2. auto.
  - destruct (nl_plain_cr d (B "-")) as [E1 E2]; [reflexivity|discriminate|]. unfold follows. chars.
    rewrite <- !app_assoc, E1, E2. auto.
  - destruct (nl_plain_cr d (B "--")) as [E1 E2]; [reflexivity|discriminate|]. unfold follows. chars.
    rewrite <- !app_assoc, E1, E2. auto.
  - destruct (nl_plain_cr d (B "--!")) as [E1 E2]; [reflexivity|discriminate|]. unfold follows. chars.
    rewrite <- !app_assoc, E1, E2. auto.
  - apply (flush_cr q (B "<") (in_raw refs name CR) (in_raw refs name LF)); [reflexivity|discriminate|]. repeat split.
  - apply (flush_cr q (B "</") (in_raw refs name CR) (in_raw refs name LF)); [reflexivity|discriminate|]. repeat split.
  - cbn [step nst]. change (is_ws CR) with true. change (is_ws LF) with true. cbn [andb].
    destruct (beq (map lower buf) name); [repeat split|].
    apply (flush_cr q (B "</" ++ buf) (in_raw refs name CR) (in_raw refs name LF)); [|discriminate|repeat split].
    apply plainly_app; [reflexivity|apply I].
  - apply (flush_cr q (B "&" ++ buf) (in_raw true name CR) (in_raw true name LF)); [|discriminate|repeat split].
    apply plainly_app; [reflexivity|apply I].
  - apply (flush_cr q (B "&" ++ buf) (in_data CR) (in_data LF)); [|discriminate|repeat split].
    apply plainly_app; [reflexivity|apply I].
  - destruct I as (K & _ & I). destruct (amp_plain buf I) as [A1 A2].
    destruct (nl_plain_cr v _ A1 A2) as [E1 E2]. destruct (nl_plain v _ A1 A2) as [E3 E4].
    destruct K as [->|[->| ->]]; unfold follows; chars; rewrite <- ?app_assoc, ?E1, ?E2, ?nt_add, ?E3;
      repeat split; unfold quote_ok; auto; try discriminate; rewrite <- ?app_assoc in *; auto;
      rewrite E1; reflexivity.
Qed.

(** An LF after a CR. *)
Lemma step_crlf q s : inv true q s ->
  token_newlines q (fst (step s LF)) = [] /\ nst (snd (step s LF)) = nst s /\
  inv false (tends q (fst (step s LF))) (snd (step s LF)).
Proof.
  intro I. destruct s as [| | |t|t|t n|t n|t n|qu t n v|t|t| | |d| | |d|d|d|d|refs name|refs name|refs name|refs name buf|buf name| |buf|buf qu t n v];
    try (exfalso; cbn in I; intuition discriminate); try (cbn in I; subst q; repeat split; reflexivity); try (repeat split; reflexivity).
  - destruct I as (K & I & NK).
    assert (E : nl (v ++ [LF]) = nl v /\ ends false (v ++ [LF]) = false).
    { rewrite newlines_app, ends_app, I. cbn. rewrite app_nil_r. auto. }
    destruct E as [E1 E2]. destruct K as [->|[->| ->]]; [discriminate NK; auto| |]; chars; rewrite ?E1; repeat split; unfold quote_ok; auto.
  - assert (E : nl (d ++ [LF]) = nl d /\ ends false (d ++ [LF]) = false).
    { cbn [inv] in I. rewrite newlines_app, ends_app, I. cbn. rewrite app_nil_r. auto. }
    destruct E as [E1 E2]. chars. rewrite E1. auto.
  - assert (E : nl (d ++ [LF]) = nl d /\ ends false (d ++ [LF]) = false).
    { cbn [inv] in I. rewrite newlines_app, ends_app, I. cbn. rewrite app_nil_r. auto. }
    destruct E as [E1 E2]. chars. rewrite E1. auto.
Qed.

(** Any other byte. *)
Lemma flush_other q b r r' : plainly b -> b <> [] -> follows false r r' false ->
  follows q (flush b r) (flush b r') false.
Proof.
  intros P N (H1 & H2 & H3). unfold follows, flush in *. cbn [fst snd]. rewrite token_newlines_app, tends_app, tn_chars, tends_chars.
  assert (E : newlines q b = b /\ ends q b = false).
  { destruct b as [|c b]; [congruence|]. unfold plainly in P. cbn [forallb] in P. rewrite !andb_true_iff, !negb_true_iff in P.
    destruct P as [[P1 P2] P3]. cbn [newlines ends]. rewrite P1, P2, andb_false_r. destruct (newlines_plain b P3) as [-> ->]. auto. }
  destruct E as [-> ->]. rewrite H1. auto.
Qed.

Lemma reference_plain buf x : reference buf = Some x -> plainly [x].
Proof.
  unfold reference. destruct (find _ entities) as [[e y]|] eqn:F; [|discriminate]. intro E. injection E as ->.
  apply find_some in F as [F _].
  assert (A : forallb (fun p => negb (is (snd p) CR) && negb (is (snd p) LF)) entities = true) by reflexivity.
  rewrite forallb_forall in A. specialize (A _ F). unfold plainly. cbn [forallb snd] in *. rewrite A. reflexivity.
Qed.
Lemma plain_tokens q b : plainly b -> b <> [] ->
  token_newlines q (map TChar b) = map TChar b /\ tends q (map TChar b) = false.
Proof.
  intros P N. rewrite tn_chars, tends_chars. destruct b as [|c b]; [congruence|]. unfold plainly in P. cbn [forallb] in P.
  rewrite !andb_true_iff, !negb_true_iff in P. destruct P as [[P1 P2] P3]. cbn [newlines ends].
  rewrite P1, P2, andb_false_r. destruct (newlines_plain b P3) as [-> ->]. auto.
Qed.

Section Other.
Variable c : ascii.
Hypothesis NC : is c CR = false.

Lemma data_other q : (is c LF = true -> q = false) -> follows q (in_data c) (in_data c) false.
Proof.
  intro L. unfold in_data. destruct (is c "&"); [repeat split|]. destruct (is c "<"); [repeat split|].
  unfold follows. cbn [fst snd token_newlines tends tcr nst inv]. rewrite NC.
  destruct (is c LF); [rewrite L by reflexivity|]; rewrite ?andb_false_r; auto.
Qed.
Lemma raw_other q refs name : (is c LF = true -> q = false) -> follows q (in_raw refs name c) (in_raw refs name c) false.
Proof.
  intro L. unfold in_raw. destruct (is c "&" && refs); [repeat split|]. destruct (is c "<"); [repeat split|].
  unfold follows. cbn [fst snd token_newlines tends tcr nst inv]. rewrite NC.
  destruct (is c LF); [rewrite L by reflexivity|]; rewrite ?andb_false_r; auto.
Qed.
Lemma emit_follows q t t' sc : t' = nt t -> follows q ([emit t sc], after t) ([emit t' sc], after t') false.
Proof.
  intros ->. unfold follows. cbn [fst snd]. rewrite nt_emit, tends_emit. destruct (nt_after t) as [-> H]. auto.
Qed.
Lemma attr_name_other q t n : follows q (in_attr_name t n c) (in_attr_name (nt t) n c) false.
Proof.
  unfold in_attr_name. destruct (is_ws c); [repeat split|].
  destruct (is c "/"); [unfold follows; cbn [fst snd nst]; rewrite nt_add; repeat split|].
  destruct (is c ">"); [apply emit_follows; rewrite nt_add; reflexivity|].
  destruct (is c "="); repeat split.
Qed.
Lemma before_attr_other q t : follows q (in_before_attr t c) (in_before_attr (nt t) c) false.
Proof.
  unfold in_before_attr. destruct (is_ws c); [repeat split|]. destruct (is c "/"); [repeat split|].
  destruct (is c ">"); [apply emit_follows; reflexivity|]. destruct (is c "="); [repeat split|]. apply attr_name_other.
Qed.
Lemma value_other q k t n v v' : quote_ok k -> (is c LF = true -> ends false v = false) -> v' = nl v ->
  follows q (in_value k t n v c) (in_value k (nt t) n v' c) false.
Proof.
  intros K L ->. unfold in_value. destruct (is c "&"); [repeat split; auto|].
  destruct (nl_snoc v c NC L) as [E1 E2].
  destruct k as [x|].
  - destruct (is c x); unfold follows; cbn [fst snd nst inv]; rewrite ?nt_add, ?E1; repeat split; auto.
  - destruct (is_ws c) eqn:Ws; [unfold follows; cbn [fst snd nst inv]; rewrite ?nt_add; repeat split|].
    destruct (is c ">"); [apply emit_follows; rewrite nt_add; reflexivity|].
    unfold follows; cbn [fst snd nst inv]; rewrite ?E1; repeat split; auto.
Qed.
Lemma comment_other q d d' : (is c LF = true -> ends false d = false) -> d' = nl d ->
  follows q (in_comment d c) (in_comment d' c) false.
Proof.
  intros L ->. unfold in_comment. destruct (is c "-"); [repeat split|].
  destruct (nl_snoc d c NC L) as [E1 E2]. unfold follows; cbn [fst snd nst inv]; rewrite ?E1; repeat split; auto.
Qed.

Lemma step_other p q s : (is c LF = true -> p = false) -> inv p q s -> follows q (step s c) (step (nst s) c) false.
Proof.
  intros L I. destruct s as [| | |t|t|t n|t n|t n|qu t n v|t|t| | |d| | |d|d|d|d|refs name|refs name|refs name|refs name buf|buf name| |buf|buf qu t n v];
    cbn [step nst inv] in *.
  - subst p. apply data_other. auto.
  - destruct (is c "!"); [repeat split|]. destruct (is c "/"); [repeat split|]. destruct (is_alpha c); [repeat split|].
    destruct (is c "?") eqn:Q; [|apply flush_other; [reflexivity|discriminate|apply data_other; auto]].
    apply Ascii.eqb_eq in Q. subst c. repeat split.
  - destruct (is_alpha c); [repeat split|]. destruct (is c ">"); [repeat split|].
    unfold follows. cbn [fst snd nst inv newlines ends]. rewrite NC. repeat split.
  - destruct (is_ws c); [repeat split|]. destruct (is c "/"); [repeat split|].
    destruct (is c ">"); [apply emit_follows; reflexivity|]. repeat split.
  - apply before_attr_other.
  - apply attr_name_other.
  - destruct (is_ws c); [repeat split|].
    destruct (is c "/"); [unfold follows; cbn [fst snd nst]; rewrite nt_add; repeat split|].
    destruct (is c "="); [repeat split|].
    destruct (is c ">"); [apply emit_follows; rewrite nt_add; reflexivity|].
    change [] with (nl []). rewrite <- nt_add. apply attr_name_other.
  - destruct (is_ws c); [repeat split|].
    destruct (is c """"); [repeat split; unfold quote_ok; auto; discriminate|].
    destruct (is c "'"); [repeat split; unfold quote_ok; auto; discriminate|].
    destruct (is c ">"); [apply emit_follows; rewrite nt_add; reflexivity|].
    apply value_other; unfold quote_ok; auto.
  - destruct I as (K & I & _). apply value_other; auto. intro H. rewrite I. auto.
  - destruct (is_ws c); [repeat split|]. destruct (is c "/"); [repeat split|].
    destruct (is c ">"); [apply emit_follows; reflexivity|]. apply before_attr_other.
  - destruct (is c ">"); [apply emit_follows; reflexivity|]. apply before_attr_other.
  - destruct (is c "-"); [repeat split|]. destruct (is c ">"); [repeat split|].
    unfold follows. cbn [fst snd nst inv newlines ends]. rewrite NC. repeat split.
  - destruct (is c "-"); [repeat split|]. destruct (is c ">"); [repeat split|].
    unfold follows. cbn [fst snd nst]. destruct (nl_snoc (B "-") c NC) as [E1 E2]; [reflexivity|].
    cbn [inv]. rewrite E1. auto.
  - destruct (is c ">").
    + unfold follows. cbn [fst snd nst inv]. destruct (nl_declaration q d) as [-> ->]. auto.
    + unfold follows. cbn [fst snd nst inv]. destruct (nl_snoc d c NC) as [E1 E2]; [rewrite I; auto|]. rewrite E1. auto.
  - destruct (is c "-"); [repeat split|]. destruct (is c ">"); [repeat split|]. apply comment_other; auto.
  - destruct (is c "-"); [repeat split|]. destruct (is c ">"); [repeat split|]. apply comment_other; auto.
  - apply comment_other; auto. rewrite I. auto.
  - destruct (is c "-"); [repeat split|]. destruct (nl_plain d (B "-")) as [E1 E2]; [reflexivity|discriminate|].
    apply comment_other; auto.
  - destruct (is c ">"); [repeat split|]. destruct (is c "!"); [repeat split|].
    destruct (nl_plain d (B "-")) as [E1 E2]; [reflexivity|discriminate|].
    destruct (is c "-"); [unfold follows; cbn [fst snd nst]; rewrite E1; repeat split|].
    destruct (nl_plain d (B "--")) as [E3 E4]; [reflexivity|discriminate|]. apply comment_other; auto.
  - destruct (nl_plain d (B "--!")) as [E1 E2]; [reflexivity|discriminate|].
    destruct (is c "-"); [unfold follows; cbn [fst snd nst]; rewrite E1; repeat split|].
    destruct (is c ">"); [repeat split|]. apply comment_other; auto.
  - subst p. apply raw_other. auto.
  - destruct (is c "/"); [repeat split|].
    destruct (is c "!" && beq name (B "script")) eqn:Sc.
    + apply andb_true_iff in Sc as [Sc _]. apply Ascii.eqb_eq in Sc. subst c.
      unfold follows. cbn [fst snd nst inv]. destruct q; repeat split.
    + apply flush_other; [reflexivity|discriminate|apply raw_other; auto].
  - destruct (is_alpha c) eqn:Al; [repeat split; apply plainly_alpha; auto|].
    apply flush_other; [reflexivity|discriminate|apply raw_other; auto].
  - destruct I as [-> I].
    destruct (is_ws c && _); [repeat split|]. destruct (is c "/" && _); [repeat split|].
    destruct (is c ">" && _); [repeat split|].
    destruct (is_alpha c) eqn:Al; [repeat split; apply plainly_app; auto; apply plainly_alpha; auto|].
    apply flush_other; [apply plainly_app; [reflexivity|auto]|discriminate|apply raw_other; auto].
  - destruct I as [-> I]. destruct (is c ";") eqn:Sc.
    + apply Ascii.eqb_eq in Sc. subst c. destruct (reference buf) as [x|] eqn:R.
      * unfold follows. cbn [fst snd nst inv]. destruct (plain_tokens q [x]) as [E1 E2]; [eapply reference_plain; eauto|discriminate|].
        change [TChar x] with (map TChar [x]). rewrite E1, E2. auto.
      * unfold follows. cbn [fst snd nst inv]. destruct (plain_tokens q (B "&" ++ buf ++ [";"%char])) as [E1 E2];
          [repeat apply plainly_app; auto; reflexivity|discriminate|]. rewrite E1, E2. auto.
    + destruct (ref_char c) eqn:Rc; [repeat split; apply plainly_app; auto; apply plainly_ref; auto|].
      apply flush_other; [apply plainly_app; [reflexivity|auto]|discriminate|apply raw_other; auto].
  - subst p. unfold follows. cbn [fst snd token_newlines tends tcr nst inv]. rewrite NC.
    destruct (is c LF); [rewrite L by reflexivity|]; rewrite ?andb_false_r; auto.
  - destruct I as [-> I]. destruct (is c ";") eqn:Sc.
    + apply Ascii.eqb_eq in Sc. subst c. destruct (reference buf) as [x|] eqn:R.
      * unfold follows. cbn [fst snd nst inv]. destruct (plain_tokens q [x]) as [E1 E2]; [eapply reference_plain; eauto|discriminate|].
        change [TChar x] with (map TChar [x]). rewrite E1, E2. auto.
      * unfold follows. cbn [fst snd nst inv]. destruct (plain_tokens q (B "&" ++ buf ++ [";"%char])) as [E1 E2];
          [repeat apply plainly_app; auto; reflexivity|discriminate|]. rewrite E1, E2. auto.
    + destruct (ref_char c) eqn:Rc; [repeat split; apply plainly_app; auto; apply plainly_ref; auto|].
      apply flush_other; [apply plainly_app; [reflexivity|auto]|discriminate|apply data_other; auto].
  - destruct I as (K & -> & I). destruct (is c ";") eqn:Sc.
    + apply Ascii.eqb_eq in Sc. subst c. destruct (reference buf) as [x|] eqn:R.
      * destruct (nl_plain v [x]) as [E1 E2]; [eapply reference_plain; eauto|discriminate|].
        unfold follows. cbn [fst snd nst inv]. rewrite E1. auto.
      * destruct (nl_plain v (B "&" ++ buf ++ [";"%char])) as [E1 E2]; [repeat apply plainly_app; auto; reflexivity|discriminate|].
        unfold follows. cbn [fst snd nst inv]. rewrite E1. auto.
    + destruct (ref_char c) eqn:Rc; [repeat split; auto; apply plainly_app; auto; apply plainly_ref; auto|].
      destruct (amp_plain buf I) as [A1 A2]. destruct (nl_plain v _ A1 A2) as [E1 E2].
      apply value_other; auto.
Qed.
End Other.

(** ** Whole inputs *)

Lemma feed_newlines b : forall p q s ts s', inv p q s -> feed s b = (ts, s') ->
  feed (nst s) (newlines p b) = (token_newlines q ts, nst s').
Proof.
  induction b as [|c b IH]; intros p q s ts s' I F.
  - injection F as <- <-. reflexivity.
  - cbn [feed newlines] in *. destruct (step s c) as [t1 s1] eqn:S. destruct (feed s1 b) as [t2 s2] eqn:F2.
    injection F as <- <-. rewrite token_newlines_app.
    destruct (is c CR) eqn:C.
    + apply Ascii.eqb_eq in C. subst c. destruct (step_cr p q s I) as (H1 & H2 & H3). rewrite S in *. cbn [fst snd] in *.
      cbn [feed]. destruct (step (nst s) LF) as [t1' s1']. cbn [fst snd] in *. subst.
      rewrite (IH _ _ _ _ _ H3 F2). reflexivity.
    + destruct (p && is c LF) eqn:D.
      * apply andb_true_iff in D as [-> D]. apply Ascii.eqb_eq in D. subst c.
        destruct (step_crlf q s I) as (H1 & H2 & H3). rewrite S in *. cbn [fst snd] in *. rewrite H1, <- H2.
        rewrite (IH _ _ _ _ _ H3 F2). reflexivity.
      * assert (L : is c LF = true -> p = false) by (intro E; rewrite E, andb_true_r in D; exact D).
        destruct (step_other c C p q s L I) as (H1 & H2 & H3). rewrite S in *. cbn [fst snd] in *.
        cbn [feed]. destruct (step (nst s) c) as [t1' s1']. cbn [fst snd] in *. subst.
        rewrite (IH _ _ _ _ _ H3 F2). reflexivity.
Qed.

Theorem tokenizes_newlines b ts : tokenizes b ts -> tokenizes (newlines false b) (token_newlines false ts).
Proof. intro H. apply (feed_newlines b false false Data ts Data); [reflexivity|exact H]. Qed.

