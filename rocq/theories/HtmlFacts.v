(** Facts about the tokenizer on the pieces of output. *)
From Coq Require Import ZArith.
From Verif Require Import Bytes Escape SpecEscape EscapeFacts SpecHtml Nodes Values Build.

Lemma feed_app s a b :
  feed s (a ++ b) = let '(t1, s1) := feed s a in let '(t2, s2) := feed s1 b in (t1 ++ t2, s2).
Proof.
  revert s; induction a as [|c a IH]; intro s; cbn [feed app].
  - destruct (feed s b). reflexivity.
  - destruct (step s c) as [t1 s1]. rewrite IH. destruct (feed s1 a) as [t2 s2].
    destruct (feed s2 b) as [t3 s3]. rewrite app_assoc. reflexivity.
Qed.

Lemma feed_seq s a b t1 s1 t2 s2 :
  feed s a = (t1, s1) -> feed s1 b = (t2, s2) -> feed s (a ++ b) = (t1 ++ t2, s2).
Proof. intros H1 H2. rewrite feed_app, H1, H2. reflexivity. Qed.

(** ** Inert bytes *)

Lemma inert_suffix p q : inert (p ++ q) -> inert q.
Proof.
  intros [H1 H2]. split.
  - intros c Hc. apply H1. apply in_app_iff. auto.
  - intros p' q' ->. apply (H2 (p ++ p') q'). rewrite app_assoc. reflexivity.
Qed.

Lemma decode_entity e x r : In (e, x) entities -> decode (e ++ r) = x :: decode r.
Proof.
  intro H. unfold entities in H.
  repeat (destruct H as [H|H]; [injection H as <- <-; reflexivity|]). destruct H.
Qed.
Lemma decode_other c r : c <> "&"%char -> decode (c :: r) = c :: decode r.
Proof. intro H. unfold decode. cbn [decode_from]. rewrite entity_at_other by auto. reflexivity. Qed.

(** Every inert string is a sequence of ordinary characters and entities. *)
Inductive pieces : bytes -> bytes -> Prop :=
| p_nil : pieces [] []
| p_char c b d : ~ markup_char c -> c <> "&"%char -> pieces b d -> pieces (c :: b) (c :: d)
| p_entity e x b d : In (e, x) entities -> pieces b d -> pieces (e ++ b) (x :: d).

Lemma inert_pieces b : inert b -> pieces b (decode b).
Proof.
  remember (length b) as n eqn:L. assert (Le : length b <= n) by lia. clear L.
  revert b Le; induction n as [|n IH]; intros b Le H.
  - destruct b; [constructor|simpl in Le; lia].
  - destruct b as [|c b]; [constructor|]. simpl in Le.
    destruct (Ascii.eqb_spec c "&") as [->|N].
    + destruct (proj2 H [] b eq_refl) as (e & He & P).
      apply in_map_iff in He as ([e' x] & Ee & He). cbn [fst] in Ee. subst e'.
      apply has_prefix_spec in P as (r & P). rewrite P in *.
      rewrite (decode_entity e x r He). apply p_entity; auto. apply IH.
      * apply (f_equal (@length ascii)) in P. rewrite app_length in P. cbn [length] in P.
        assert (0 < length e); [|lia].
        unfold entities in He. repeat (destruct He as [He|He]; [injection He as <- <-; simpl; lia|]). destruct He.
      * eapply inert_suffix. eauto.
    + rewrite decode_other by auto. apply p_char; auto.
      * apply (proj1 H). left. auto.
      * apply IH; [lia|]. apply (inert_suffix [c]). exact H.
Qed.

Lemma not_markup c : ~ markup_char c ->
  is c "<" = false /\ is c ">" = false /\ is c """" = false /\ is c "'" = false.
Proof.
  unfold is, markup_char. intro H. repeat split; apply Ascii.eqb_neq; intros ->; apply H; simpl; auto.
Qed.

Lemma feed_data b d : pieces b d -> feed Data b = (map TChar d, Data).
Proof.
  induction 1 as [|c b d M N P IH|e x b d E P IH]; [reflexivity| |].
  - cbn [feed step]. unfold in_data. destruct (not_markup c M) as (L & _ & _ & _). rewrite L.
    assert (is c "&" = false) as -> by (apply Ascii.eqb_neq; auto). rewrite IH. reflexivity.
  - rewrite (feed_seq Data e b [TChar x] Data (map TChar d) Data); auto. unfold entities in E.
    repeat (destruct E as [E|E]; [injection E as <- <-; vm_compute; reflexivity|]). destruct E.
Qed.
Lemma feed_inert b : inert b -> feed Data b = (map TChar (decode b), Data).
Proof. intro H. apply feed_data. apply inert_pieces. auto. Qed.

Lemma feed_value_pieces b d : pieces b d -> forall t n v,
  feed (Value (Some """"%char) t n v) b = ([], Value (Some """"%char) t n (v ++ d)).
Proof.
  induction 1 as [|c b d M N P IH|e x b d E P IH]; intros t n v.
  - rewrite app_nil_r. reflexivity.
  - cbn [feed step]. unfold in_value. destruct (not_markup c M) as (_ & _ & L & _). rewrite L.
    assert (is c "&" = false) as -> by (apply Ascii.eqb_neq; auto). rewrite IH, <- app_assoc. reflexivity.
  - rewrite (feed_seq _ e b [] (Value (Some """"%char) t n (v ++ [x])) [] (Value (Some """"%char) t n (v ++ x :: d))); auto.
    + unfold entities in E.
      repeat (destruct E as [E|E]; [injection E as <- <-; vm_compute; reflexivity|]). destruct E.
    + rewrite IH, <- app_assoc. reflexivity.
Qed.
Lemma feed_value b t n : inert b ->
  feed (Value (Some """"%char) t n []) b = ([], Value (Some """"%char) t n (decode b)).
Proof. intro H. apply (feed_value_pieces b (decode b)). apply inert_pieces. auto. Qed.

(** The same in elements whose content is not markup. *)
Lemma feed_rcdata b d name : pieces b d ->
  feed (RawData true name) b = (map TChar d, RawData true name).
Proof.
  induction 1 as [|c b d M N P IH|e x b d E P IH]; [reflexivity| |].
  - cbn [feed step]. unfold in_raw. destruct (not_markup c M) as (L & _ & _ & _). rewrite L.
    assert (is c "&" = false) as -> by (apply Ascii.eqb_neq; auto). cbn [andb]. rewrite IH. reflexivity.
  - rewrite (feed_seq _ e b [TChar x] (RawData true name) (map TChar d) (RawData true name)); auto.
    unfold entities in E.
    repeat (destruct E as [E|E]; [injection E as <- <-; vm_compute; reflexivity|]). destruct E.
Qed.
Lemma feed_rawtext b name : (forall c, In c b -> is c "<" = false) ->
  feed (RawData false name) b = (map TChar b, RawData false name).
Proof.
  induction b as [|c b IH]; intro H; [reflexivity|]. cbn [feed step]. unfold in_raw.
  rewrite andb_false_r, (H c (or_introl eq_refl)), IH by (intros; apply H; right; auto). reflexivity.
Qed.

(** ** Comments: nothing inside can end it but the end *)

(** The state in a comment whose data so far is [d]. *)
Inductive commenting : bytes -> state -> Prop :=
| cm_start : commenting [] CommentStart
| cm_start_dash : commenting (B "-") CommentStartDash
| cm_in d : commenting d (InComment d)
| cm_dash d : commenting (d ++ B "-") (CommentEndDash d)
| cm_end d : commenting (d ++ B "--") (CommentEnd d)
| cm_bang d : commenting (d ++ B "--!") (CommentBang d).

Lemma in_comment_ok d c : exists s, in_comment d c = ([], s) /\ commenting (d ++ [c]) s.
Proof.
  unfold in_comment, is. destruct (Ascii.eqb_spec c "-") as [->|].
  - exists (CommentEndDash d). split; auto. constructor.
  - exists (InComment (d ++ [c])). split; auto. constructor.
Qed.

Lemma commenting_step d s c : commenting d s -> is c ">" = false ->
  exists s', step s c = ([], s') /\ commenting (d ++ [c]) s'.
Proof.
  intros H G.
  destruct H as [| |d|d|d|d]; cbn [step]; rewrite ?G; try apply in_comment_ok;
    unfold is in *; destruct (Ascii.eqb_spec c "-") as [->|N].
  - exists CommentStartDash. split; auto. constructor.
  - apply in_comment_ok.
  - exists (CommentEnd []). split; auto. apply (cm_end []).
  - apply in_comment_ok.
  - exists (CommentEnd d). split; auto. rewrite <- app_assoc. apply (cm_end d).
  - apply in_comment_ok.
  - cbn. exists (CommentEnd (d ++ B "-")). split; auto. rewrite <- app_assoc.
    pose proof (cm_end (d ++ B "-")) as X. rewrite <- app_assoc in X. exact X.
  - destruct (Ascii.eqb_spec c "!") as [->|].
    + exists (CommentBang d). split; auto. rewrite <- app_assoc. apply (cm_bang d).
    + apply in_comment_ok.
  - exists (CommentEndDash (d ++ B "--!")). split; auto.
    apply (cm_dash (d ++ B "--!")).
  - apply in_comment_ok.
Qed.

Lemma feed_comment b d s : commenting d s -> (forall c, In c b -> is c ">" = false) ->
  exists s', feed s b = ([], s') /\ commenting (d ++ b) s'.
Proof.
  revert d s; induction b as [|c b IH]; intros d s H N.
  - exists s. rewrite app_nil_r. auto.
  - destruct (commenting_step d s c H (N c (or_introl eq_refl))) as (s1 & E1 & C1).
    destruct (IH (d ++ [c]) s1 C1) as (s2 & E2 & C2); [intros; apply N; right; auto|].
    exists s2. cbn [feed]. rewrite E1, E2. split; auto. rewrite <- app_assoc in C2. exact C2.
Qed.

Lemma comment_close d s : commenting d s -> feed s (B "-->") = ([TComment d], Data).
Proof.
  intro H. destruct H as [| |d|d|d|d]; try reflexivity.
  change (B "--") with (B "-" ++ B "-"). rewrite app_assoc. reflexivity.
Qed.

Lemma feed_whole_comment b : (forall c, In c b -> is c ">" = false) ->
  feed Data (B "<!--" ++ b ++ B "-->") = ([TComment b], Data).
Proof.
  intro H. destruct (feed_comment b [] CommentStart cm_start H) as (s & E & C).
  apply (feed_seq Data (B "<!--") _ [] CommentStart [TComment b] Data); [reflexivity|].
  apply (feed_seq _ b _ [] s [TComment b] Data); auto. apply comment_close. exact C.
Qed.

(** ** Names *)

Lemma valid_chars n : valid_name n = true -> forallb name_char n = true.
Proof.
  destruct n as [|c n]; [discriminate|]. cbn [valid_name forallb]. intro H.
  apply andb_true_iff in H as [H1 H2]. rewrite H2. unfold name_char. rewrite H1. reflexivity.
Qed.

Lemma name_char_plain c : name_char c = true ->
  is_ws c = false /\ is c "/" = false /\ is c ">" = false /\ is c "=" = false.
Proof.
  destruct c as [[] [] [] [] [] [] [] []]; vm_compute; intro H; try discriminate H; auto.
Qed.

Lemma alpha_letter c : is_alpha c = is_letter c.
Proof. reflexivity. Qed.

Lemma feed_tag_name n t : forallb name_char n = true ->
  feed (TagName t) n = ([], TagName (Tag (t_end t) (t_name t ++ map lower n) (t_attrs t))).
Proof.
  revert t; induction n as [|c n IH]; intros t H.
  - cbn [map feed]. rewrite app_nil_r. destruct t; reflexivity.
  - cbn [forallb] in H. apply andb_true_iff in H as [H1 H2]. cbn [feed step].
    destruct (name_char_plain c H1) as (-> & -> & -> & _). rewrite IH by auto.
    cbn [t_end t_name t_attrs app map]. rewrite <- app_assoc. reflexivity.
Qed.

Lemma feed_open_name n : valid_name n = true ->
  feed Data (B "<" ++ n) = ([], TagName (Tag false (map lower n) [])).
Proof.
  intro V. pose proof (valid_chars n V) as H. destruct n as [|c n]; [discriminate|].
  cbn [valid_name] in V. apply andb_true_iff in V as [V1 V2].
  apply (feed_seq Data (B "<") (c :: n) [] TagOpen [] _); [reflexivity|]. cbn [feed step].
  assert (is c "!" = false /\ is c "/" = false) as [-> ->].
  { split; apply Ascii.eqb_neq; intros ->; discriminate V1. }
  rewrite alpha_letter, V1, feed_tag_name by auto. reflexivity.
Qed.

Lemma feed_end_tag n : valid_name n = true ->
  feed Data (B "</" ++ n ++ B ">") = ([TEnd (map lower n)], Data).
Proof.
  intro V. destruct n as [|c n]; [discriminate|].
  cbn [valid_name] in V. apply andb_true_iff in V as [V1 V2].
  apply (feed_seq Data (B "</") _ [] EndTagOpen [TEnd (map lower (c :: n))] Data); [reflexivity|].
  change ((c :: n) ++ B ">") with (c :: n ++ B ">"). cbn [feed step]. rewrite alpha_letter, V1.
  rewrite feed_app, feed_tag_name by auto. reflexivity.
Qed.

(** ** Attributes *)

(** The states in which the tag read so far is [t] and a space, or the end of
    the tag, may follow. *)
Inductive pending : tag -> state -> Prop :=
| pd_name t : pending t (TagName t)
| pd_value t : pending t (AfterValue t)
| pd_attr t n : pending (add_attr t n []) (AttrName t n).

Lemma pending_close t s : pending t s -> feed s (B ">") = ([emit t false], after t).
Proof. intro H. destruct H; reflexivity. Qed.

Lemma feed_attr_name t n m : forallb name_char n = true ->
  feed (AttrName t m) n = ([], AttrName t (m ++ map lower n)).
Proof.
  revert m; induction n as [|c n IH]; intros m H.
  - cbn [map feed]. rewrite app_nil_r. reflexivity.
  - cbn [forallb] in H. apply andb_true_iff in H as [H1 H2]. cbn [feed step]. unfold in_attr_name.
    destruct (name_char_plain c H1) as (-> & -> & -> & ->). rewrite IH by auto.
    cbn [map]. rewrite <- app_assoc. reflexivity.
Qed.

Lemma pending_name t s n : pending t s -> valid_name n = true ->
  feed s (B " " ++ n) = ([], AttrName t (map lower n)).
Proof.
  intros H V. pose proof (valid_chars n V) as H1. destruct n as [|c n]; [discriminate|].
  pose proof H1 as H2. cbn [forallb] in H2. apply andb_true_iff in H2 as [Hc Hn].
  destruct (name_char_plain c Hc) as (W & S & G & Q).
  cbn [map]. destruct H.
  1-2: apply (feed_seq _ (B " ") (c :: n) [] (BeforeAttr t) [] _); [reflexivity|].
  3: apply (feed_seq _ (B " ") (c :: n) [] (AfterAttrName t n0) [] _); [reflexivity|].
  all: cbn [feed step]; unfold in_before_attr, in_attr_name;
    rewrite W, S, ?Q, ?G, feed_attr_name by auto; reflexivity.
Qed.

Lemma pending_bool t s n : pending t s -> valid_name n = true ->
  exists s', feed s (B " " ++ n) = ([], s') /\ pending (add_attr t (map lower n) []) s'.
Proof.
  intros H V. exists (AttrName t (map lower n)). split; [apply pending_name; auto|constructor].
Qed.

Lemma pending_value t s n b : pending t s -> valid_name n = true -> inert b ->
  exists s', feed s (B " " ++ n ++ B "=""" ++ b ++ B """") = ([], s') /\
             pending (add_attr t (map lower n) (decode b)) s'.
Proof.
  intros H V I. exists (AfterValue (add_attr t (map lower n) (decode b))). split; [|constructor].
  rewrite app_assoc. apply (feed_seq s _ _ [] (AttrName t (map lower n)) [] _); [apply pending_name; auto|].
  apply (feed_seq _ (B "=""") _ [] (Value (Some """"%char) t (map lower n) []) [] _); [reflexivity|].
  apply (feed_seq _ b _ [] (Value (Some """"%char) t (map lower n) (decode b)) [] _); [apply feed_value; auto|].
  reflexivity.
Qed.

(** ** Decoding and joining *)

Lemma pieces_app a d1 b d2 : pieces a d1 -> pieces b d2 -> pieces (a ++ b) (d1 ++ d2).
Proof.
  intros H1 H2. induction H1; [exact H2| |].
  - apply (p_char c (b0 ++ b)); auto.
  - rewrite <- app_assoc. apply (p_entity e x); auto.
Qed.
Lemma pieces_decode b d : pieces b d -> decode b = d.
Proof.
  induction 1; [reflexivity| |].
  - rewrite decode_other, IHpieces; auto.
  - rewrite (decode_entity _ x), IHpieces; auto.
Qed.
Lemma decode_app a b : inert a -> inert b -> decode (a ++ b) = decode a ++ decode b.
Proof. intros. apply pieces_decode. apply pieces_app; apply inert_pieces; auto. Qed.
Lemma decode_nonempty b : inert b -> b <> [] -> decode b <> [].
Proof.
  intros I N. pose proof (inert_pieces b I) as P. intro E. rewrite E in P. inversion P. congruence.
Qed.
Lemma feed_inerts bs : (forall b, In b bs -> inert b) ->
  decode (concat bs) = concat (map decode bs) /\ inert (concat bs).
Proof.
  induction bs as [|b bs IH]; intro H; [split; [reflexivity|apply inert_nil]|].
  destruct IH as [E I]; [intros; apply H; right; auto|]. cbn [concat map]. split.
  - rewrite decode_app, E; auto. apply H. left. auto.
  - apply inert_app; auto. apply H. left. auto.
Qed.

(** The end tag of an element whose content is not markup. *)
Lemma lower_letter c : is_letter (lower c) = is_letter c.
Proof. destruct c as [[] [] [] [] [] [] [] []]; vm_compute; reflexivity. Qed.
Lemma lower_lower c : lower (lower c) = lower c.
Proof. destruct c as [[] [] [] [] [] [] [] []]; vm_compute; reflexivity. Qed.

Lemma letter_not c : is_letter c = true ->
  is_ws c = false /\ is c "/" = false /\ is c ">" = false.
Proof. destruct c as [[] [] [] [] [] [] [] []]; vm_compute; intro H; try discriminate H; auto. Qed.

Lemma feed_raw_name refs name buf n : forallb is_letter n = true ->
  feed (RawEndName refs name buf) n = ([], RawEndName refs name (buf ++ n)).
Proof.
  revert buf; induction n as [|c n IH]; intros buf H.
  - cbn [feed]. rewrite app_nil_r. reflexivity.
  - cbn [forallb] in H. apply andb_true_iff in H as [H1 H2]. cbn [feed step].
    destruct (letter_not c H1) as (-> & -> & ->). cbn [andb].
    rewrite alpha_letter, H1, IH by auto. rewrite <- app_assoc. reflexivity.
Qed.

Lemma feed_raw_end refs n : valid_name n = true -> forallb is_letter n = true ->
  feed (RawData refs (map lower n)) (B "</" ++ n ++ B ">") = ([TEnd (map lower n)], Data).
Proof.
  intros V L. destruct n as [|c n]; [discriminate|].
  apply (feed_seq _ (B "</") _ [] (RawEndOpen refs (map lower (c :: n))) [TEnd (map lower (c :: n))] Data).
  { cbn [feed step]. unfold in_raw. cbn. reflexivity. }
  cbn [forallb] in L. apply andb_true_iff in L as [L1 L2].
  apply (feed_seq _ (c :: n) _ [] (RawEndName refs (map lower (c :: n)) (c :: n)) [TEnd (map lower (c :: n))] Data).
  - cbn [feed step]. rewrite alpha_letter, L1, feed_raw_name by auto. reflexivity.
  - change (B ">") with [">"%char]. cbn [feed step]. cbv zeta.
    assert (beq (map lower (c :: n)) (map lower (c :: n)) = true) as E by apply beq_refl.
    rewrite E. reflexivity.
Qed.
