(** C68: what a reader that follows the HTML standard sees, newlines included. *)
From Coq Require Import ZArith.
From Verif Require Import Bytes IO Escape SpecEscape SpecHtml SpecReader ReaderFacts Nodes Values Render Build SpecRun Api ApiFacts
  SpecOut PropElements SpecSafe SpecTemplate PropHtml PropSafe Demo.

(** Tokens without CR, and start tags that are not followed by a newline the tree
    builder ignores. *)
Definition has_cr (t : token) : Prop :=
  match t with
  | TChar c => c = CR
  | TStart _ a _ => exists n v, In (n, v) a /\ In CR v
  | TComment d | TDoctype d => In CR d
  | TEnd _ | TEmptyEnd => False
  end.
Definition leads (ts : list token) : Prop :=
  exists l1 n a s l2, ts = l1 ++ TStart n a s :: TChar LF :: l2 /\ eats_newline n = true.

Lemma newlines_none b : ~ In CR b -> newlines false b = b.
Proof.
  induction b as [|c b IH]; intro H; [reflexivity|]. cbn [newlines]. destruct (Ascii.eqb_spec c CR) as [->|N].
  - exfalso. apply H. left. reflexivity.
  - unfold is. destruct (Ascii.eqb_spec c CR); [contradiction|]. cbn [andb]. rewrite IH; auto. intro. apply H. right. auto.
Qed.
Lemma token_newlines_none ts : (forall t, In t ts -> ~ has_cr t) -> token_newlines false ts = ts.
Proof.
  induction ts as [|t ts IH]; intro H; [reflexivity|].
  assert (E : token_newlines false ts = ts) by (apply IH; intros; apply H; right; auto).
  specialize (H t (or_introl eq_refl)). cbn [token_newlines]. rewrite E. destruct t as [c|n a s|n|d|d|]; cbn [has_cr] in H; auto.
  - unfold is. destruct (Ascii.eqb_spec c CR); [contradiction|]. reflexivity.
  - f_equal. f_equal. rewrite <- map_id. apply map_ext_in. intros [k v] Hv. unfold attr_newlines. cbn [fst snd].
    rewrite newlines_none; auto. intro. apply H. eauto.
  - rewrite newlines_none; auto.
  - rewrite newlines_none; auto.
Qed.
Lemma tree_tokens_same ts : ~ In TEmptyEnd ts -> forall eat, ~ leads ts -> (eat = true -> hd_error ts <> Some (TChar LF)) ->
  tree_tokens eat ts = ts.
Proof.
  induction ts as [|t ts IH]; intros NE eat NL H; [reflexivity|].
  assert (NL' : ~ leads ts).
  { intros (l1 & n & a & s & l2 & -> & E). apply NL. exists (t :: l1), n, a, s, l2. auto. }
  assert (IH' : forall eat, (eat = true -> hd_error ts <> Some (TChar LF)) -> tree_tokens eat ts = ts).
  { intros. apply IH; auto. intro. apply NE. right. auto. }
  cbn [tree_tokens]. destruct t as [c|n a s|n|d|d|]; try (rewrite IH'; [reflexivity|discriminate]).
  - destruct (eat && is c LF) eqn:E; [|rewrite IH'; [reflexivity|discriminate]].
    exfalso. apply andb_true_iff in E as [-> E]. apply Ascii.eqb_eq in E. subst c. apply H; reflexivity.
  - rewrite IH'; [reflexivity|]. intros E X. destruct ts as [|t' ts]; [discriminate X|]. injection X as ->.
    apply NL. exists [], n, a, s, ts. auto.
  - exfalso. apply NE. left. reflexivity.
Qed.

Lemma reads_of b ts : tokenizes b ts -> reads b (tree_tokens false (token_newlines false ts)).
Proof. intro H. eexists. split; [apply tokenizes_newlines; eauto|reflexivity]. Qed.

(** Nesting is not affected. *)
Lemma nested_newlines void ts : well_nested void ts -> forall cr, well_nested void (token_newlines cr ts).
Proof.
  induction 1 as [|c l H IH|d l H IH|d l H IH|n a s l V H IH|n a s l1 l2 V H1 IH1 H2 IH2]; intro cr; cbn [token_newlines].
  - constructor.
  - destruct (is c CR); [apply wn_char; auto|]. destruct (cr && is c LF); [auto|apply wn_char; auto].
  - apply wn_comment. auto.
  - apply wn_doctype. auto.
  - apply wn_void; auto.
  - rewrite token_newlines_app. cbn [token_newlines]. apply wn_element; auto.
Qed.
Lemma tree_tokens_end eat n l1 l2 : tree_tokens eat (l1 ++ TEnd n :: l2) = tree_tokens eat l1 ++ TEnd n :: tree_tokens false l2.
Proof.
  revert eat; induction l1 as [|t l1 IH]; intro eat; [reflexivity|]. cbn [app tree_tokens].
  destruct t; rewrite ?IH; try reflexivity. destruct (eat && is c LF); reflexivity.
Qed.
Lemma nested_tree void ts : well_nested void ts -> forall eat, well_nested void (tree_tokens eat ts).
Proof.
  induction 1 as [|c l H IH|d l H IH|d l H IH|n a s l V H IH|n a s l1 l2 V H1 IH1 H2 IH2]; intro eat; cbn [tree_tokens].
  - constructor.
  - destruct (eat && is c LF); [auto|apply wn_char; auto].
  - apply wn_comment. auto.
  - apply wn_doctype. auto.
  - apply wn_void; auto.
  - rewrite tree_tokens_end. apply wn_element; auto.
Qed.
Lemma nested_no_empty void ts : well_nested void ts -> ~ In TEmptyEnd ts.
Proof.
  induction 1 as [|c l H IH|d l H IH|d l H IH|n a s l V H IH|n a s l1 l2 V H1 IH1 H2 IH2]; cbn [In];
    try (intros [X|X]; [discriminate X|tauto]); [tauto|].
  intros [X|X]; [discriminate X|]. apply in_app_iff in X as [X|[X|X]]; [tauto|discriminate X|tauto].
Qed.

Section Reader.
Context {W : UserWorld}.
Variables (o : order) (fr : frame U).
Hypothesis O : ord_ok o.

(** C68.  What is seen of a template given as plain data, whatever its strings:
    its tokens, with the newlines of the standard. *)
Theorem C68_seen void t u s :
  wf void t ->
  exists b, page o (build u t) fr s = (b, s) /\
    reads b (tree_tokens false (token_newlines false (tokens t))).
Proof.
  intro H. destruct (C06_roundtrip o fr O void t u s H) as (b & E & T). exists b. split; auto. apply reads_of. auto.
Qed.

(** Without CR, and without a newline at the start of a pre, listing or textarea,
    exactly its tokens. *)
Theorem C68_exact_partial void t u s :
  wf void t -> (forall k, In k (tokens t) -> ~ has_cr k) -> ~ leads (tokens t) ->
  exists b, page o (build u t) fr s = (b, s) /\ reads b (tokens t).
Proof.
  intros H NC NL. destruct (C68_seen void t u s H) as (b & E & R). exists b. split; auto.
  rewrite token_newlines_none, tree_tokens_same in R; auto; [|discriminate].
  apply (nested_no_empty void). apply C06_nested. auto.
Qed.

(** Nesting, for every template made with the package. *)
Theorem C68_nested void n s :
  usable n -> safe void n -> tidy (f_cargo fr) ->
  exists ts, reads (fst (page o n fr s)) ts /\ well_nested void ts.
Proof.
  intros A S K. destruct (C06_any_template o void n fr s) as (ts & F & N); auto.
  eexists. split; [apply reads_of; eauto|]. apply nested_tree, nested_newlines. auto.
Qed.
End Reader.

(** ** Examples *)

(** Line breaks of three kinds, in text, in an attribute and in a comment. *)
Definition breaks : bytes := ["a"; CR; LF; "b"; CR; "c"; LF; CR]%char.
Definition breaks_tm : tm :=
  XElem (B "p") [XAttr (B "title") [SString breaks]] [XValue (SString breaks); XValue (SString [LF]); XComment [SString breaks]].
Example breaks_wf : wf html_void breaks_tm.
Proof.
  cbn [wf breaks_tm fold_right]. split; [reflexivity|]. split; [reflexivity|]. split.
  - split; [constructor; [split; [reflexivity|exact I]|constructor]|constructor; [intros []|constructor]].
  - split; [discriminate|]. split; [|auto]. intro H. exfalso. revert H. intro X. apply bmem_In in X. discriminate X.
Qed.
Example C68_example : exists b,
  page listed (build (st 0) breaks_tm) frn (st 0, 0) = (b, (st 0, 0)) /\
  reads b (TStart (B "p") [(B "title", ["a"; LF; "b"; LF; "c"; LF; LF]%char)] false ::
           map TChar ["a"; LF; "b"; LF; "c"; LF; LF]%char ++
           [TComment ["a"; LF; "b"; LF; "c"; LF; LF]%char; TEnd (B "p")]).
Proof. exact (C68_seen listed frn listed_ok html_void breaks_tm (st 0) (st 0, 0) breaks_wf). Qed.

(** So a CR is not seen; and the newline at the start of a textarea is lost. *)
Theorem C68_refuted : exists t b ts,
  wf html_void t /\ page listed (build (st 0) t) frn (st 0, 0) = (b, (st 0, 0)) /\ reads b ts /\ ts <> tokens t.
Proof.
  destruct (C68_seen listed frn listed_ok html_void breaks_tm (st 0) (st 0, 0) breaks_wf) as (b & E & R).
  exists breaks_tm, b. eexists. split; [exact breaks_wf|]. split; [exact E|]. split; [exact R|].
  intro X. vm_compute in X. discriminate X.
Qed.
Definition area_tm : tm := XElem (B "textarea") [] [XValue (SString (LF :: B "first line"))].
Example area_wf : wf html_void area_tm.
Proof.
  cbn [wf area_tm fold_right]. split; [reflexivity|]. split; [reflexivity|]. split; [split; constructor|].
  split; [discriminate|]. split; [intros _; repeat constructor|auto].
Qed.
Theorem C68_textarea_refuted : exists b,
  page listed (build (st 0) area_tm) frn (st 0, 0) = (b, (st 0, 0)) /\
  reads b (TStart (B "textarea") [] false :: map TChar (B "first line") ++ [TEnd (B "textarea")]) /\
  tokens area_tm = TStart (B "textarea") [] false :: map TChar (LF :: B "first line") ++ [TEnd (B "textarea")].
Proof.
  destruct (C68_seen listed frn listed_ok html_void area_tm (st 0) (st 0, 0) area_wf) as (b & E & R).
  exists b. split; [exact E|]. split; [exact R|reflexivity].
Qed.

(** The page of C06_example has neither. *)
Example C68_exact_example : exists b,
  page listed (build (st 0) page_tm) frn (st 0, 0) = (b, (st 0, 0)) /\ reads b (tokens page_tm).
Proof.
  apply (C68_exact_partial listed frn listed_ok html_void).
  - exact C06_hypothesis.
  - assert (G : forall ts, forallb (fun t => match t with
                 | TChar c => negb (is c CR)
                 | TStart _ a _ => forallb (fun p => forallb (fun c => negb (is c CR)) (snd p)) a
                 | TComment d | TDoctype d => forallb (fun c => negb (is c CR)) d
                 | _ => true end) ts = true -> forall k, In k ts -> ~ has_cr k).
    { assert (C : forall d, forallb (fun c => negb (is c CR)) d = true -> ~ In CR d).
      { intros d H X. rewrite forallb_forall in H. specialize (H _ X). discriminate H. }
      intros ts H k Hk. rewrite forallb_forall in H. specialize (H k Hk). destruct k; cbn [has_cr]; auto.
      - intros ->. discriminate H.
      - intros (m & v & Hv & X). rewrite forallb_forall in H. specialize (H _ Hv). apply (C v H X). }
    apply G. vm_compute. reflexivity.
  - assert (G : forall ts, (fix go (l : list token) := match l with
        | TStart n _ _ :: l' => (negb (eats_newline n) || match l' with TChar c :: _ => negb (is c LF) | _ => true end) && go l'
        | _ :: l' => go l' | [] => true end) ts = true -> ~ leads ts).
    { intros ts H (l1 & n & a & s & l2 & -> & E). induction l1 as [|t l1 IH].
      - cbn [app] in H. rewrite E in H. discriminate H.
      - apply IH. cbn [app] in H. destruct t; auto. apply andb_true_iff in H as [_ H]. exact H. }
    apply G. vm_compute. reflexivity.
Qed.
Example C68_nested_example : exists ts,
  reads (fst (page listed safe_page fr0 (st 3, 0))) ts /\ well_nested html_void ts.
Proof.
  destruct C06_any_example as (ts & T & N). eexists. split; [apply reads_of; exact T|]. apply nested_tree, nested_newlines. exact N.
Qed.
