(** C38, C39, C40: the code generators. *)
From Verif Require Import Bytes IO IOFacts Tables Generator SpecGo SpecGen GenFacts PropErrors.

(** ** C38: string literals *)

(** The text between the quotes denotes the string, whatever its bytes. *)
Theorem C38_denotes s :
  lex (LBetween false) (B """" ++ escape s ++ B """") = Some ([KString s], LBetween true).
Proof.
  pose proof (lex_lit (escape s) s false [] (lex_escaped s)) as H. rewrite app_nil_r in H. exact H.
Qed.
(** It is Go source text too if the string is UTF-8 without NUL and byte order
    mark; it is not in general. *)
Theorem C38_literal_partial s : text s -> literal_for (escape s) s.
Proof. intro T. split; [apply text_escape; exact T|apply C38_denotes]. Qed.

Lemma char_first c : char c -> exists a r, c = a :: r /\ nat_of_ascii a <= 244 /\ nat_of_ascii a <> 0.
Proof. intros [a [H1 H2]|a b [H1 H2]|a b d [H1 H2]|a b d e [H1 H2]]; eexists _, _; (split; [reflexivity|lia]). Qed.
Lemma text_first a s : text (a :: s) -> nat_of_ascii a <= 244 /\ nat_of_ascii a <> 0.
Proof.
  intro H. inversion H as [|c s' C T E]. destruct (char_first c C) as (b & r & -> & L). cbn [app] in E. inversion E; subst. exact L.
Qed.
Theorem C38_refuted : exists s, ~ literal_for (escape s) s.
Proof.
  exists ["255"%char]. intros [T _]. change (text ["255"%char]) in T. apply text_first in T as [T _]. vm_compute in T. lia.
Qed.
Theorem C38_nul_refuted : exists s, ~ literal_for (escape s) s /\ Forall (fun c => nat_of_ascii c < 128) s.
Proof.
  exists ["000"%char]. split; [|repeat constructor; vm_compute; lia].
  intros [T _]. change (text ["000"%char]) in T. apply text_first in T as [_ T]. apply T. reflexivity.
Qed.

(** All of the generated code is Go source text when the strings of the
    document are. *)
Theorem C38_source g ts : a_dialect g -> Forall token_text ts -> text (code g ts).
Proof. intros D T. apply text_code; auto using dialect_ascii. Qed.

Example literal_ex : let s := ["195"%char; "169"%char] ++ B "\n ""a""" ++ ["009"%char; "010"%char] in
  text s /\ escape s = ["195"%char; "169"%char] ++ B "\\n \""a\""\t\n".
Proof.
  cbv zeta. split; [|reflexivity]. apply text_app; [|apply text_plain; reflexivity].
  apply (text_char ["195"%char; "169"%char] []); [|constructor]. constructor; split; vm_compute; lia.
Qed.

(** ** C39: the code and the document *)

(** The code is one declaration, whose value is the calls that build the
    document, nested as the document is; it is indented accordingly. *)
Theorem C39_code_partial g ds :
  a_dialect g -> Forall names_quotable (flat_map stream ds) ->
  declares (code g (flat_map stream ds)) (B "template")
           (ECall (B "aitch") (B "Collection") (flat_map (exprs g) ds)) /\
  well_indented (code g (flat_map stream ds)).
Proof.
  intros D Q. pose proof (dialect_good g D) as G. split.
  - eexists. split; [apply lex_code; auto|]. rewrite parse_app. cbn [ktoks parse parse_step].
    rewrite parse_app, (parse_toks g _ [OpenCall (B "aitch") (B "Collection") []]) by discriminate.
    rewrite tsteps_streams. reflexivity.
  - unfold well_indented, code. eapply ind_seq; [reflexivity|]. eapply ind_seq; [reflexivity|].
    apply (ind_body g G _ Q 0). clear.
    enough (H : forall d n rest, matched n (stream d ++ rest) <-> matched n rest).
    { assert (K : forall ds n, matched n (flat_map stream ds) <-> matched n []).
      { induction ds0 as [|d ds0 IH]; intro n; [reflexivity|]. cbn [flat_map]. rewrite H. apply IH. }
      apply K. reflexivity. }
    fix IH 1. intros d n rest. destruct d as [x|x|x|m a|m a kids]; try reflexivity.
    cbn [stream app matched]. rewrite <- app_assoc. revert rest.
    assert (K : forall ks n rest, matched n (flat_map stream ks ++ rest) <-> matched n rest).
    { clear - IH. induction ks as [|k ks IHk]; intros n rest; [reflexivity|]. cbn [flat_map].
      rewrite <- app_assoc, IH. apply IHk. }
    intro rest. rewrite K. reflexivity.
Qed.

(** For any sequence of tokens: the code is a declaration exactly when start
    and end tags match up (their names do not matter). *)
Theorem C39_matched g ts :
  a_dialect g -> Forall names_quotable ts ->
  (matched 0 ts <-> exists e, declares (code g ts) (B "template") e) /\
  (matched 0 ts -> well_indented (code g ts)).
Proof.
  intros D Q. pose proof (dialect_good g D) as G. split.
  - rewrite (tsteps_matched g ts [OpenCall (B "aitch") (B "Collection") []]) by discriminate. split.
    + intros [c E]. exists (closed c). eexists. split; [apply lex_code; auto|]. rewrite parse_app. cbn [ktoks parse parse_step].
      rewrite parse_app, parse_toks, E by discriminate. destruct c. reflexivity.
    + intros (e & toks' & L & P). rewrite (lex_code g G ts Q) in L.
      assert (L' : (ktoks (B "aitch") (B "Collection") ++ flat_map (toks g) ts ++ [KClose]) ++ [KSemi] = toks' ++ [KSemi])
        by (injection L; auto).
      apply app_inj_tail in L' as [<- _].
      change (ktoks (B "aitch") (B "Collection") ++ flat_map (toks g) ts ++ [KClose])
        with (KIdent (B "aitch") :: KDot :: KIdent (B "Collection") :: KOpen :: flat_map (toks g) ts ++ [KClose]) in P.
      cbn [parse parse_step] in P. rewrite parse_app, parse_toks in P by discriminate.
      destruct (tsteps g [OpenCall (B "aitch") (B "Collection") []] ts) as [k|]; [|discriminate].
      destruct k as [|c [|c2 k]]; cbn in P.
      * discriminate.
      * eauto.
      * destruct c, c2. discriminate.
  - intro M. unfold well_indented, code. eapply ind_seq; [reflexivity|]. eapply ind_seq; [reflexivity|].
    apply (ind_body g G _ Q 0 M).
Qed.

(** A declaration has one reading only. *)
Theorem C39_unambiguous src n e n' e' : declares src n e -> declares src n' e' -> n = n' /\ e = e'.
Proof.
  intros (ts & L & P) (ts' & L' & P'). rewrite L in L'. inversion L' as [[X Y]]. subst n'. apply app_inj_tail in Y as [<- _].
  rewrite P in P'. inversion P'. auto.
Qed.

(** A function of the package is used for exactly the spellings of its name. *)
Lemma lower_byte_spec c : is_ascii (lower_byte c) ->
  (is_ascii c /\ ~ 65 <= nat_of_ascii c <= 90 /\ lower_byte c = c) \/
  (65 <= nat_of_ascii c <= 90 /\ nat_of_ascii (lower_byte c) = nat_of_ascii c + 32).
Proof.
  unfold is_ascii, lower_byte. destruct ((65 <=? nat_of_ascii c) && (nat_of_ascii c <=? 90)) eqn:B; intro H.
  - right. apply andb_true_iff in B as [B1 B2]. apply Nat.leb_le in B1, B2. split; [lia|].
    apply nat_ascii_embedding. lia.
  - left. split; [exact H|]. split; [|reflexivity]. intros [A1 A2]. apply Nat.leb_le in A1, A2. rewrite A1, A2 in B. discriminate.
Qed.
Lemma lower_byte_same c : ~ 65 <= nat_of_ascii c <= 90 -> lower_byte c = c.
Proof.
  intro H. unfold lower_byte. destruct ((65 <=? nat_of_ascii c) && (nat_of_ascii c <=? 90)) eqn:B; [|reflexivity].
  apply andb_true_iff in B as [B1 B2]. apply Nat.leb_le in B1, B2. tauto.
Qed.
Lemma lower_byte_capital c : 65 <= nat_of_ascii c <= 90 -> nat_of_ascii (lower_byte c) = nat_of_ascii c + 32.
Proof.
  intros [A1 A2]. unfold lower_byte. apply Nat.leb_le in A1 as B1, A2 as B2. rewrite B1, B2. cbn [andb].
  apply nat_ascii_embedding. lia.
Qed.
Lemma to_lower_byte c s : Ascii.eqb c "196" = false -> Ascii.eqb c "226" = false ->
  to_lower (c :: s) = lower_byte c :: to_lower s.
Proof.
  intros A1 A2. cbn [to_lower]. destruct s as [|c2 s2]; [reflexivity|]. rewrite A1. cbn [andb].
  destruct s2 as [|c3 s3]; [reflexivity|]. rewrite A2. reflexivity.
Qed.
Lemma ascii_leads c : is_ascii c -> Ascii.eqb c "196" = false /\ Ascii.eqb c "226" = false.
Proof. intro H. split; apply Ascii.eqb_neq; intros ->; vm_compute in H; lia. Qed.
Lemma to_lower_cases c s :
  (exists s2, c = "196"%char /\ s = "176"%char :: s2 /\ to_lower (c :: s) = "i"%char :: to_lower s2) \/
  (exists s3, c = "226"%char /\ s = "132"%char :: "170"%char :: s3 /\ to_lower (c :: s) = "k"%char :: to_lower s3) \/
  to_lower (c :: s) = lower_byte c :: to_lower s.
Proof.
  cbn [to_lower]. destruct s as [|c2 s2]; [auto|].
  destruct (Ascii.eqb c "196" && Ascii.eqb c2 "176") eqn:D.
  - apply andb_true_iff in D as [D1 D2]. apply Ascii.eqb_eq in D1, D2. subst. left. eauto.
  - destruct s2 as [|c3 s3]; [auto|]. destruct (Ascii.eqb c "226" && Ascii.eqb c2 "132" && Ascii.eqb c3 "170") eqn:K; [|auto].
    apply andb_true_iff in K as [K K3]. apply andb_true_iff in K as [K1 K2]. apply Ascii.eqb_eq in K1, K2, K3. subst. right. left. eauto.
Qed.
Theorem C39_spelling s n : Forall is_ascii n -> (to_lower s = n <-> spells s n).
Proof.
  intro A. split.
  - intro E. revert n A E. induction s as [s IH] using (Wf_nat.induction_ltof1 _ (@length ascii)). unfold Wf_nat.ltof in IH.
    intros n A E. destruct s as [|c s]; [cbn in E; subst n; constructor|].
    destruct (to_lower_cases c s) as [(s2 & -> & -> & X)|[(s3 & -> & -> & X)|X]]; rewrite X in E; subst n; inversion A as [|? ? A1 A2]; subst.
    + apply sp_dotted, IH; cbn [length]; auto.
    + apply sp_kelvin, IH; cbn [length]; auto.
    + destruct (lower_byte_spec c A1) as [(B1 & B2 & B3)|[B1 B2]].
      * rewrite B3. apply sp_same; auto.
      * apply sp_capital; auto.
  - induction 1 as [|c s n H1 H2 H3 IH|c d s n H1 H2 H3 IH|s n H IH|s n H IH]; try (inversion A as [|? ? A1 A2]; subst); auto.
    + destruct (ascii_leads c H1) as [L1 L2]. rewrite to_lower_byte, IH, lower_byte_same by auto. reflexivity.
    + destruct (ascii_leads c) as [L1 L2]; [unfold is_ascii; lia|]. rewrite to_lower_byte, IH by auto. f_equal.
      rewrite <- (ascii_nat_embedding (lower_byte c)), <- (ascii_nat_embedding d), lower_byte_capital by auto. congruence.
    + cbn [to_lower Ascii.eqb Bool.eqb andb]. rewrite IH by auto. reflexivity.
    + cbn [to_lower Ascii.eqb Bool.eqb andb]. rewrite IH by auto. reflexivity.
Qed.
Example spelling_ex : spells ("226"%char :: "132"%char :: "170"%char :: B "bD") (B "kbd").
Proof. apply C39_spelling; [repeat constructor; vm_compute; lia|reflexivity]. Qed.

(** A name with a quotation mark in it. *)
Theorem C39_refuted : exists ds, forall e, ~ declares (code html_dialect (flat_map stream ds)) (B "template") e.
Proof.
  exists [DElem (B "a""b") [] []]. intros e (ts & L & _). revert L.
  set (x := lex _ _). vm_compute in x. subst x. discriminate.
Qed.
(** A void element without a slash is a start tag without an end tag. *)
Theorem C39_void_refuted :
  exists ts, ts = [GStart (B "p") []; GStart (B "br") []; GEnd (B "p")] /\
    forall e, ~ declares (code html_dialect ts) (B "template") e.
Proof.
  eexists. split; [reflexivity|]. intros e H.
  assert (M : matched 0 [GStart (B "p") []; GStart (B "br") []; GEnd (B "p")]).
  { apply (C39_matched html_dialect _ (or_introl eq_refl)); [|exists e; exact H].
    apply names_quotableb_ok. reflexivity. }
  cbn in M. discriminate.
Qed.

Definition sample : list doc :=
  [DDoctype (B "html"); DComment (B " x ");
   DElem (B "html") [(B "lang", B "en""<"); (B "foo", B "bar"); (B "disabled", B "")]
     [DElem (B "body") [] [DSelf (B "unknown") []; DSelf (B "unknown") [(B "unknown", B "foo")]; DSelf (B "br") [];
        DText (B "  "); DElem (B "h1") [(B "class", B "foo")] [DText (B "Hello, World!")]]]].
Example sample_code : code html_dialect (flat_map stream sample) =
B "var template = aitch.Collection(
	html.PI(""DOCTYPE"", ""html""),
	html.Comment("" x ""),
	html.Html(html.Lang(""en\""<""), aitch.Attribute(""foo"" ,""bar""), html.Disabled(),
		html.Body(
			aitch.Element(""unknown"", ),
			aitch.Element(""unknown"", aitch.Attribute(""unknown"" ,""foo"")),
			html.Br(),
			html.H1(html.Class(""foo""),
				html.Text(""Hello, World!""),
			),
		),
	),
)

".
Proof. vm_compute. reflexivity. Qed.
Example sample_names : Forall names_quotable (flat_map stream sample).
Proof. apply names_quotableb_ok. reflexivity. Qed.
Example sample_exprs : flat_map (exprs html_dialect) [DElem (B "p") [(B "id", B "x")] [DText (B "a"); DText (B " ")]] =
  [ECall (B "html") (B "P") [ECall (B "html") (B "Id") [EString (B "x")]; ECall (B "html") (B "Text") [EString (B "a")]]].
Proof. vm_compute. reflexivity. Qed.

(** ** C40: errors *)

Section Errors.
Context {U : Type}.

(** A run of GenerateCode: the result and the calls of Write. *)
Definition generated (E : env) (g : dialect) (ts : list gtok) (fin : option error) (u : U) : option error * list wcall :=
  let '(r, w) := run E (generate g ts fin) (World [] u 0) in (r, w_log w).

(** With a writer that accepts everything and a reader that ends in io.EOF:
    no error, and the code is written. *)
Theorem C40_output g ts o u :
  fst (generated (Env healthy o) g ts None u) = None /\
  accepted (snd (generated (Env healthy o) g ts None u)) = code g ts.
Proof.
  assert (Wr : forall ds u t, hrun (U := U) o (writes None ds) u t = (None, concat ds, u, t)).
  { induction ds as [|d ds IH]; intros; [reflexivity|]. cbn [writes hrun concat]. rewrite IH. reflexivity. }
  assert (L : forall ts n u t, hrun (U := U) o (loop g ts None n None) u t = (None, body g ts n, u, t)).
  { induction ts0 as [|t ts0 IH]; intros n v k; cbn [loop body].
    - rewrite Wr. cbn [line concat]. rewrite app_nil_r. rewrite <- !app_assoc. reflexivity.
    - destruct (tok_writes g n t) as [ds n']. rewrite hrun_bind, Wr, IH. reflexivity. }
  pose proof (run_hrun o (generate g ts None) (World [] u 0)) as H. cbn [w_u w_tick w_log] in H.
  unfold generate in H at 1. rewrite hrun_bind, Wr, L in H. unfold generated.
  destruct (run (Env healthy o) (generate g ts None) (World [] u 0)) as [r w]. destruct H as (-> & A & _).
  cbn [fst snd]. split; [reflexivity|]. rewrite A. reflexivity.
Qed.

(** Exactly what is returned: the error of the very last write, or else the
    error of the reader. *)
Definition last_error (l : list wcall) : option error :=
  match rev l with [] => None | c :: _ => wc_err c end.
Lemma last_error_snoc l c : last_error (l ++ [c]) = wc_err c.
Proof. unfold last_error. rewrite rev_app_distr. reflexivity. Qed.
Lemma writes_last E ds : forall err (w : world U), err = last_error (w_log w) ->
  fst (run E (writes err ds) w) = last_error (w_log (snd (run E (writes err ds) w))).
Proof.
  induction ds as [|d ds IH]; intros err w H; [exact H|]. cbn [writes run]. destruct (e_wr E (w_log w) d) as [n e].
  apply IH. cbn [w_log]. rewrite last_error_snoc. reflexivity.
Qed.
Theorem C40_last_write E g ts fin u :
  let '(r, l) := generated E g ts fin u in
  r = match last_error l with Some e => Some e | None => fin end.
Proof.
  assert (L : forall ts n err (w : world U), err = last_error (w_log w) ->
    fst (run E (loop g ts fin n err) w) =
    match last_error (w_log (snd (run E (loop g ts fin n err) w))) with Some e => Some e | None => fin end).
  { induction ts0 as [|t ts0 IH]; intros n err w H; (destruct err as [e|]; [cbn [loop run fst snd]; rewrite <- H; reflexivity|]); cbn [loop].
    - destruct fin as [e|]; [cbn [run fst snd]; rewrite <- H; reflexivity|].
      rewrite (writes_last E _ None w H). destruct (last_error (w_log (snd _))); reflexivity.
    - destruct (tok_writes g n t) as [ds n']. rewrite run_bind. pose proof (writes_last E ds None w H) as X.
      destruct (run E (writes None ds) w) as [e w']. apply IH. exact X. }
  unfold generated, generate. rewrite run_bind.
  pose proof (writes_last E (line 0 (B "var template = aitch.Collection(")) None (World [] u 0) eq_refl) as X.
  destruct (run E (writes None _) (World [] u 0)) as [e w]. cbn [fst snd] in X.
  specialize (L ts 1 e w X). destruct (run E (loop g ts fin 1 e) w) as [r w']. exact L.
Qed.

(** C40 for a writer that keeps failing once it has failed. *)
Theorem C40_reported_partial E g ts fin u :
  keeps_failing (e_wr E) ->
  let '(r, l) := generated E g ts fin u in failed l = true -> r <> None.
Proof.
  intro K. pose proof (C40_last_write E g ts fin u) as L. unfold generated in *.
  destruct (run_log E (generate g ts fin) (World [] u 0)) as (l & Hl & Ha). cbn [w_log app] in Hl.
  destruct (run E (generate g ts fin) (World [] u 0)) as [r w]. cbn [snd] in Hl. rewrite Hl in *.
  intros F R. rewrite R in L.
  assert (N : last_error l <> None).
  { clear - K Ha F. cbn [w_log] in Ha. destruct l as [|c l] using rev_ind; [discriminate|]. clear IHl.
    rewrite last_error_snoc. rewrite failed_app in F. apply answered_app in Ha as [_ Ha]. cbn [answered app] in Ha.
    destruct Ha as [Ha _]. destruct c as [d n e]. cbn [wc_err wc_data wc_n] in *.
    destruct (failed l) eqn:Fl.
    - pose proof (K l d Fl) as X. rewrite Ha in X. exact X.
    - cbn in F. destruct e; [discriminate|discriminate]. }
  destruct (last_error l); [discriminate|congruence].
Qed.

(** Whatever was written before a writer died is the beginning of the code. *)
Theorem C40_prefix wr o g ts u :
  dying wr -> exists more, code g ts = accepted (snd (generated (Env wr o) g ts None u)) ++ more.
Proof.
  intro D. destruct (dying_prefix wr o (generate g ts None) u 0 D) as [more M]. exists more.
  rewrite <- (proj2 (C40_output g ts o u)). unfold generated.
  destruct (run (Env healthy o) _ _) as [r w]. destruct (run (Env wr o) _ _) as [r' w']. exact M.
Qed.

End Errors.

(** One failing write in the middle goes unnoticed: the output is incomplete
    and no error is returned. *)
Definition second_fails : writer := fun h d => if length h =? 1 then (0, Some 7) else (length d, None).
Theorem C40_refuted : exists ts l,
  generated (Env second_fails (fun _ ks => ks)) html_dialect ts None tt = (None, l) /\ failed l = true /\
  accepted l <> code html_dialect ts.
Proof. exists [], (snd (generated (Env second_fails (fun _ ks => ks)) html_dialect [] None tt)). vm_compute. repeat split. discriminate. Qed.
Example dying_generated :
  let '(r, l) := generated (Env (dies_after 40 7) (fun _ ks => ks)) html_dialect (flat_map stream sample) None tt in
  r = Some 7 /\ accepted l = firstn 40 (code html_dialect (flat_map stream sample)).
Proof. vm_compute. split; reflexivity. Qed.
