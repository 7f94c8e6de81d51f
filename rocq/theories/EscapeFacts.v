(** Proofs about escaping and scalar conversion. *)
From Coq Require Import ZArith Decimal DecimalFacts DecimalN DecimalPos.
From Verif Require Import Bytes Escape SpecEscape Values.

(** The escape of one character. *)
Definition esc1 (c : ascii) : bytes :=
  match html_of c with Some h => h | None => [c] end.

Lemma special_html c :
  existsb (Ascii.eqb c) [c_apos; c_quot; c_amp; c_lt; c_gt; c_nul] = false ->
  html_of c = None.
Proof.
  simpl. unfold html_of. intro H.
  repeat (apply orb_false_iff in H; destruct H as [? H]).
  repeat match goal with E : Ascii.eqb c _ = false |- _ => rewrite E; clear E end.
  reflexivity.
Qed.

Lemma no_special_flat s :
  contains_special s = false -> flat_map esc1 s = s.
Proof.
  unfold contains_special. induction s as [|c s IH]; simpl; auto.
  intro H. apply orb_false_iff in H as [H1 H2].
  unfold esc1 at 1. rewrite special_html by (simpl; exact H1).
  simpl. rewrite IH; auto.
Qed.

Lemma subslice_skip sb last i :
  last <= i -> i <= length sb -> subslice sb last i ++ skipn i sb = skipn last sb.
Proof.
  intros H1 H2. unfold subslice.
  rewrite <- (firstn_skipn (i - last) (skipn last sb)) at 2. f_equal.
  revert sb i H1 H2; induction last as [|last IH]; intros sb i H1 H2.
  - simpl. rewrite Nat.sub_0_r. reflexivity.
  - destruct i as [|i]; [lia|]. destruct sb as [|c sb]; simpl in *; [lia|].
    apply IH; lia.
Qed.

Lemma esc_loop_flat sb pre rest last b :
  sb = pre ++ rest -> last <= length pre ->
  flat_map esc1 (skipn last pre) = skipn last pre ->
  esc_loop sb rest (length pre) last b = b ++ skipn last pre ++ flat_map esc1 rest.
Proof.
  revert pre last b; induction rest as [|c rest IH]; intros pre last b Hsb Hl Hp; simpl.
  - subst sb. rewrite !app_nil_r. reflexivity.
  - assert (Hsb' : sb = (pre ++ [c]) ++ rest) by (rewrite <- app_assoc; exact Hsb).
    assert (Hlen : length (pre ++ [c]) = S (length pre)) by (rewrite app_length; simpl; lia).
    unfold esc1 at 1. destruct (html_of c) as [h|] eqn:Hc.
    + rewrite <- Hlen. rewrite IH; auto.
      * rewrite skipn_all. simpl.
        assert (Hs : subslice sb last (length pre) = skipn last pre).
        { unfold subslice. subst sb. rewrite skipn_app.
          replace (last - length pre) with 0 by lia. simpl.
          rewrite firstn_app, skipn_length, Nat.sub_diag. simpl. rewrite app_nil_r.
          apply firstn_all2. rewrite skipn_length. lia. }
        rewrite Hs. rewrite <- !app_assoc. reflexivity.
      * rewrite skipn_all. reflexivity.
    + rewrite <- Hlen. rewrite IH; auto.
      * rewrite skipn_app. replace (last - length pre) with 0 by lia. simpl.
        rewrite <- !app_assoc. reflexivity.
      * rewrite app_length. simpl. lia.
      * rewrite skipn_app. replace (last - length pre) with 0 by lia. simpl.
        rewrite flat_map_app, Hp. simpl. unfold esc1. rewrite Hc. reflexivity.
Qed.

Theorem escape_flat s : html_escape_string s = flat_map esc1 s.
Proof.
  unfold html_escape_string. destruct (contains_special s) eqn:E; simpl.
  - apply (esc_loop_flat s [] s 0 []); auto.
  - symmetry. apply no_special_flat; auto.
Qed.

Lemma escape_app s t :
  html_escape_string (s ++ t) = html_escape_string s ++ html_escape_string t.
Proof. rewrite !escape_flat. apply flat_map_app. Qed.

(** Case analysis on the six special characters. *)
Lemma html_of_cases c :
  (c = Ascii.zero /\ html_of c = Some []) \/
  (c = "034"%char /\ html_of c = Some (B "&quot;")) \/
  (c = "039"%char /\ html_of c = Some (B "&apos;")) \/
  (c = "&"%char /\ html_of c = Some (B "&amp;")) \/
  (c = "<"%char /\ html_of c = Some (B "&lt;")) \/
  (c = ">"%char /\ html_of c = Some (B "&gt;")) \/
  (html_of c = None /\ ~ markup_char c /\ c <> "&"%char).
Proof.
  unfold html_of, c_nul, c_quot, c_apos, c_amp, c_lt, c_gt.
  destruct (Ascii.eqb_spec c Ascii.zero); [left; auto|].
  destruct (Ascii.eqb_spec c "034"); [right; left; auto|].
  destruct (Ascii.eqb_spec c "039"); [do 2 right; left; auto|].
  destruct (Ascii.eqb_spec c "&"); [do 3 right; left; auto|].
  destruct (Ascii.eqb_spec c "<"); [do 4 right; left; auto|].
  destruct (Ascii.eqb_spec c ">"); [do 5 right; left; auto|].
  do 6 right. split; [reflexivity|]. split; [|assumption].
  unfold markup_char. simpl. intuition congruence.
Qed.

(** ** Inert output *)

Definition markup_charb (c : ascii) : bool :=
  existsb (Ascii.eqb c) ["<"%char; ">"%char; "034"%char; "039"%char; Ascii.zero].

Lemma markup_charb_spec c : markup_charb c = true <-> markup_char c.
Proof.
  unfold markup_charb, markup_char. rewrite existsb_exists. split.
  - intros (x & Hx & E). apply Ascii.eqb_eq in E. subst; auto.
  - intro H. exists c. split; auto. apply Ascii.eqb_refl.
Qed.

Lemma no_markup_b b : existsb markup_charb b = false -> forall x, In x b -> ~ markup_char x.
Proof.
  intros H x Hx Hm. apply markup_charb_spec in Hm.
  assert (existsb markup_charb b = true) by (apply existsb_exists; eauto). congruence.
Qed.

Lemma esc1_no_markup c x : In x (esc1 c) -> ~ markup_char x.
Proof.
  unfold esc1.
  destruct (html_of_cases c) as [(_ & ->)|[(_ & ->)|[(_ & ->)|[(_ & ->)|[(_ & ->)|[(_ & ->)|(-> & Hm & _)]]]]]];
    try (apply no_markup_b; reflexivity).
  simpl. intros [<-|[]]. exact Hm.
Qed.

(** An ampersand can only be the first byte of an entity. *)
Lemma amp_head e p q :
  existsb (Ascii.eqb "&") (tl e) = false -> e = p ++ "&"%char :: q -> e = "&"%char :: q.
Proof.
  intros H E. destruct p as [|x p]; auto. subst e. simpl in H.
  rewrite existsb_app in H. simpl in H. rewrite orb_true_r in H. discriminate.
Qed.

(** [inert] is closed under appending after an inert prefix. *)
Lemma inert_nil : inert [].
Proof. split; simpl; [tauto|]. intros p q H. destruct p; discriminate. Qed.

Lemma has_prefix_app e s t : has_prefix e s = true -> has_prefix e (s ++ t) = true.
Proof.
  intro H. apply has_prefix_spec in H as (r & ->). apply has_prefix_spec.
  exists (r ++ t). rewrite app_assoc. reflexivity.
Qed.

Lemma inert_app a b : inert a -> inert b -> inert (a ++ b).
Proof.
  intros [A1 A2] [B1 B2]. split.
  - intros c H. apply in_app_iff in H as [H|H]; auto.
  - intros p q E.
    destruct (Nat.le_gt_cases (length a) (length p)) as [L|L].
    + assert (Hp : p = a ++ skipn (length a) p).
      { rewrite <- (firstn_skipn (length a) p) at 1. f_equal.
        assert (firstn (length a) (a ++ b) = firstn (length a) (p ++ "&"%char :: q)) by congruence.
        rewrite !firstn_app, Nat.sub_diag, firstn_all in H. simpl in H.
        replace (length a - length p) with 0 in H by lia. simpl in H.
        rewrite !app_nil_r in H. congruence. }
      rewrite Hp, <- app_assoc in E. apply app_inv_head in E. eapply B2; eauto.
    + assert (Ha : a = p ++ skipn (length p) a).
      { rewrite <- (firstn_skipn (length p) a) at 1. f_equal.
        assert (firstn (length p) (a ++ b) = firstn (length p) (p ++ "&"%char :: q)) by congruence.
        rewrite !firstn_app, Nat.sub_diag, firstn_all in H. simpl in H.
        replace (length p - length a) with 0 in H by lia. simpl in H.
        rewrite !app_nil_r in H. congruence. }
      destruct (skipn (length p) a) as [|x r] eqn:Er.
      { rewrite app_nil_r in Ha. rewrite Ha in L. lia. }
      rewrite Ha, <- app_assoc in E. apply app_inv_head in E. simpl in E.
      injection E as -> Eq. destruct (A2 p r Ha) as (e & He & Hp).
      exists e. split; auto. rewrite <- Eq.
      change ("&"%char :: r ++ b) with (("&"%char :: r) ++ b). apply has_prefix_app; auto.
Qed.

Lemma esc1_inert c : inert (esc1 c).
Proof.
  split; [apply esc1_no_markup|].
  intros p q E. unfold esc1 in E.
  destruct (html_of_cases c) as [(_ & H)|[(_ & H)|[(_ & H)|[(_ & H)|[(_ & H)|[(_ & H)|(H & Hm & Ha)]]]]]];
    rewrite H in E.
  - destruct p; discriminate.
  - exists (B "&quot;"). split; [simpl; auto 6|].
    apply amp_head in E; [|reflexivity]. rewrite <- E. reflexivity.
  - exists (B "&apos;"). split; [simpl; auto 6|].
    apply amp_head in E; [|reflexivity]. rewrite <- E. reflexivity.
  - exists (B "&amp;"). split; [simpl; auto 6|].
    apply amp_head in E; [|reflexivity]. rewrite <- E. reflexivity.
  - exists (B "&lt;"). split; [simpl; auto 6|].
    apply amp_head in E; [|reflexivity]. rewrite <- E. reflexivity.
  - exists (B "&gt;"). split; [simpl; auto 6|].
    apply amp_head in E; [|reflexivity]. rewrite <- E. reflexivity.
  - destruct p as [|x p]; [|destruct p; discriminate]. injection E as Hc _. congruence.
Qed.

Theorem escape_inert s : inert (html_escape_string s).
Proof.
  rewrite escape_flat. induction s as [|c s IH]; simpl.
  - apply inert_nil.
  - apply inert_app; auto. apply esc1_inert.
Qed.

(** ** Decoding *)

Lemma entity_at_other c s : c <> "&"%char -> entity_at (c :: s) = None.
Proof.
  intro H. unfold entity_at. simpl.
  assert (Ascii.eqb "&" c = false) as -> by (apply Ascii.eqb_neq; congruence). reflexivity.
Qed.

Lemma decode_skip e s : decode_from (length e) (e ++ s) = decode_from 0 s.
Proof. induction e as [|c e IH]; simpl; auto. Qed.

Lemma decode_esc1 c s :
  decode_from 0 (esc1 c ++ s) =
  (if Ascii.eqb c Ascii.zero then [] else [c]) ++ decode_from 0 s.
Proof.
  unfold esc1.
  destruct (html_of_cases c) as [(-> & ->)|[(-> & ->)|[(-> & ->)|[(-> & ->)|[(-> & ->)|[(-> & ->)|(-> & Hm & Ha)]]]]]];
    try reflexivity.
  destruct (Ascii.eqb_spec c Ascii.zero) as [->|Hz].
  - exfalso. apply Hm. unfold markup_char. simpl. tauto.
  - simpl app. cbn [decode_from]. rewrite entity_at_other by assumption. reflexivity.
Qed.

Theorem decode_escape s : decode (html_escape_string s) = strip_nul s.
Proof.
  rewrite escape_flat. unfold decode. induction s as [|c s IH]; simpl; auto.
  rewrite decode_esc1, IH. destruct (Ascii.eqb c Ascii.zero); reflexivity.
Qed.

Lemma strip_nul_id s : ~ In Ascii.zero s -> strip_nul s = s.
Proof.
  unfold strip_nul. induction s as [|c s IH]; simpl; auto. intro H.
  destruct (Ascii.eqb_spec c Ascii.zero) as [->|]; simpl.
  - tauto.
  - rewrite IH; tauto.
Qed.

(** ** Numerals *)

Lemma read_digits_pos d acc :
  read_digits (uint_bytes d) (Npos acc) = Some (Npos (Pos.of_uint_acc d acc)).
Proof.
  revert acc; induction d; intro acc; cbn [uint_bytes read_digits Pos.of_uint_acc]; auto.
  all: match goal with |- context [digit_value ?c] =>
         let v := eval vm_compute in (digit_value c) in change (digit_value c) with v end.
  all: cbv iota beta; rewrite <- IHd; f_equal; lia.
Qed.

Lemma read_digits_zero d : read_digits (uint_bytes d) 0 = Some (N.of_uint d).
Proof.
  induction d; cbn [uint_bytes read_digits]; auto.
  all: match goal with |- context [digit_value ?c] =>
         let v := eval vm_compute in (digit_value c) in change (digit_value c) with v end.
  all: cbv iota beta; first [exact IHd | apply read_digits_pos].
Qed.

Lemma to_uint_norm n : N.to_uint n = unorm (N.to_uint n).
Proof. rewrite <- DecimalN.Unsigned.to_of, DecimalN.Unsigned.of_to. reflexivity. Qed.

Lemma nzhead_not_D0 d x : nzhead d = Decimal.D0 x -> False.
Proof. induction d; simpl; try discriminate. exact IHd. Qed.

Lemma format_uint_nonempty n : format_uint n <> [].
Proof.
  unfold format_uint. rewrite to_uint_norm. unfold unorm.
  destruct (nzhead (N.to_uint n)); discriminate.
Qed.

Theorem read_format_uint n : read_uint (format_uint n) = Some n.
Proof.
  unfold read_uint. pose proof (format_uint_nonempty n).
  destruct (format_uint n) eqn:E; [congruence|]. rewrite <- E.
  unfold format_uint. rewrite read_digits_zero, DecimalN.Unsigned.of_to. reflexivity.
Qed.

Theorem format_uint_canonical n : canonical_uint (format_uint n).
Proof.
  unfold canonical_uint. unfold format_uint at 1. rewrite to_uint_norm. unfold unorm.
  destruct (nzhead (N.to_uint n)) eqn:E; [left; reflexivity|exfalso; eapply nzhead_not_D0; eauto|..].
  all: right; split; [|rewrite read_format_uint; discriminate].
  all: unfold format_uint; rewrite to_uint_norm; unfold unorm; rewrite E; simpl.
  all: do 2 eexists; split; [reflexivity|discriminate].
Qed.

(** The first character of an unsigned numeral is not a minus sign. *)
Lemma format_uint_digits n : Forall (fun c => digit_value c <> None) (format_uint n).
Proof.
  unfold format_uint. induction (N.to_uint n); simpl; constructor; auto; discriminate.
Qed.

Theorem read_format_int z : read_int (format_int z) = Some z.
Proof.
  assert (H : forall n, read_int (format_uint n) = Some (Z.of_N n)).
  { intro n. unfold read_int. pose proof (read_format_uint n) as R.
    pose proof (format_uint_digits n) as D.
    destruct (format_uint n) as [|c s]; [discriminate R|].
    destruct (Ascii.eqb_spec c "-") as [->|_].
    - inversion D; subst. exfalso. apply H1. reflexivity.
    - rewrite R. reflexivity. }
  destruct z as [|p|p]; simpl format_int.
  - apply (H 0%N).
  - apply (H (Npos p)).
  - unfold read_int. simpl Ascii.eqb. cbv iota. rewrite read_format_uint. reflexivity.
Qed.

Lemma digit_not_markup c : digit_value c <> None -> ~ markup_char c /\ c <> "&"%char.
Proof.
  intro H. split.
  - unfold markup_char. intro M. simpl in M.
    repeat (destruct M as [<-|M]; [apply H; reflexivity|]). exact M.
  - intros ->. apply H. reflexivity.
Qed.

Lemma plain_inert b :
  Forall (fun c => ~ markup_char c /\ c <> "&"%char) b -> inert b.
Proof.
  intro F. rewrite Forall_forall in F. split.
  - intros c H. apply F; auto.
  - intros p q ->. exfalso.
    destruct (F "&"%char) as [_ H]; [apply in_app_iff; right; left; reflexivity|congruence].
Qed.

Lemma plain_decode b :
  Forall (fun c => ~ markup_char c /\ c <> "&"%char) b -> decode b = b.
Proof.
  unfold decode. induction 1 as [|c b [_ H] F IH]; auto.
  cbn [decode_from]. rewrite entity_at_other by assumption. rewrite IH. reflexivity.
Qed.

Lemma format_uint_plain n :
  Forall (fun c => ~ markup_char c /\ c <> "&"%char) (format_uint n).
Proof. eapply Forall_impl; [|apply format_uint_digits]. apply digit_not_markup. Qed.

Lemma format_int_plain z :
  Forall (fun c => ~ markup_char c /\ c <> "&"%char) (format_int z).
Proof.
  destruct z; simpl format_int; try apply format_uint_plain.
  constructor; [|apply format_uint_plain]. split; [|discriminate].
  unfold markup_char. simpl. intuition discriminate.
Qed.
