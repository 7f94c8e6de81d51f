(** Reading generated code. *)
From Verif Require Import Bytes IO Tables Generator SpecGo SpecGen.

(** ** Escaping in one pass *)

Definition esc1 (c : ascii) : bytes :=
  if Ascii.eqb c "\" then B "\\" else if Ascii.eqb c tab then B "\t"
  else if Ascii.eqb c nl then B "\n" else if Ascii.eqb c dq then B "\""" else [c].
Lemma escape_one_pass s : escape s = flat_map esc1 s.
Proof.
  unfold escape, replace1. induction s as [|c s IH]; [reflexivity|]. cbn [flat_map].
  rewrite !flat_map_app, IH. f_equal. unfold esc1.
  destruct (Ascii.eqb_spec c "\") as [->|N1]; [reflexivity|]. cbn [flat_map app].
  destruct (Ascii.eqb_spec c tab) as [->|N2]; [reflexivity|]. cbn [flat_map app].
  destruct (Ascii.eqb_spec c nl) as [->|N3]; [reflexivity|]. cbn [flat_map app].
  destruct (Ascii.eqb_spec c dq) as [->|N4]; reflexivity.
Qed.

(** ** Lexing *)

Lemma lex_app x : forall s y ts s1, lex s x = Some (ts, s1) ->
  lex s (x ++ y) = match lex s1 y with Some (ts', s2) => Some (ts ++ ts', s2) | None => None end.
Proof.
  induction x as [|c x IH]; intros s y ts s1 H; cbn [lex app] in *.
  - inversion H; subst. destruct (lex s1 y) as [[? ?]|]; reflexivity.
  - destruct (lex_step s c) as [[t1 s']|]; [|discriminate].
    destruct (lex s' x) as [[t2 s'']|] eqn:E; [|discriminate]. inversion H; subst.
    rewrite (IH _ y _ _ E). destruct (lex s1 y) as [[? ?]|]; [rewrite app_assoc|]; reflexivity.
Qed.
Lemma lex_seq x y s ts1 s1 ts2 s2 ts : lex s x = Some (ts1, s1) -> lex s1 y = Some (ts2, s2) -> ts = ts1 ++ ts2 ->
  lex s (x ++ y) = Some (ts, s2).
Proof. intros H1 H2 ->. rewrite (lex_app _ _ _ _ _ H1), H2. reflexivity. Qed.

Lemma lex_escaped s : forall buf, lex (LString buf) (escape s) = Some ([], LString (buf ++ s)).
Proof.
  rewrite escape_one_pass. induction s as [|c s IH]; intro buf; cbn [flat_map].
  - rewrite app_nil_r. reflexivity.
  - replace (buf ++ c :: s) with ((buf ++ [c]) ++ s) by (rewrite <- app_assoc; reflexivity).
    apply (lex_seq (esc1 c) _ _ [] (LString (buf ++ [c])) [] _); [|apply IH|reflexivity].
    unfold esc1. destruct (Ascii.eqb_spec c "\") as [->|N1]; [reflexivity|].
    destruct (Ascii.eqb_spec c tab) as [->|N2]; [reflexivity|].
    destruct (Ascii.eqb_spec c nl) as [->|N3]; [reflexivity|].
    destruct (Ascii.eqb_spec c dq) as [->|N4]; [reflexivity|].
    cbn [lex lex_step]. destruct (Ascii.eqb_spec c """"); [contradiction|].
    destruct (Ascii.eqb_spec c "\"); [contradiction|]. destruct (Ascii.eqb_spec c "010"); [contradiction|]. reflexivity.
Qed.
Lemma lex_quotable s : quotable s -> forall buf, lex (LString buf) s = Some ([], LString (buf ++ s)).
Proof.
  induction 1 as [|c s (N1 & N2 & N3) H IH]; intro buf.
  - rewrite app_nil_r. reflexivity.
  - cbn [lex lex_step]. destruct (Ascii.eqb_spec c """"); [contradiction|].
    destruct (Ascii.eqb_spec c "\"); [contradiction|]. destruct (Ascii.eqb_spec c "010"); [contradiction|].
    rewrite IH, <- app_assoc. reflexivity.
Qed.
Lemma lex_tabs n b : lex (LBetween b) (tabs n) = Some ([], LBetween b).
Proof.
  induction n as [|n IH]; [reflexivity|]. unfold tabs in *. cbn [repeat lex lex_step].
  change (lex_between b tab) with (Some (@nil gotok, LBetween b)). cbn iota beta. rewrite IH. reflexivity.
Qed.

(** An identifier, and what may follow it. *)
Definition ident (f : bytes) : bool :=
  match f with [] => false | c :: f' => letter c && forallb (fun c => letter c || digit c) f' end.
Lemma letter_between c b : letter c = true -> lex_between b c = Some ([], LIdent [c]).
Proof.
  intro H. unfold lex_between.
  repeat match goal with |- context [Ascii.eqb c ?d] => destruct (Ascii.eqb_spec c d) as [->|]; [discriminate H|] end.
  cbn [orb]. rewrite H. reflexivity.
Qed.
Lemma lex_ident_rest f : forallb (fun c => letter c || digit c) f = true ->
  forall buf, lex (LIdent buf) f = Some ([], LIdent (buf ++ f)).
Proof.
  induction f as [|c f IH]; intros H buf; [rewrite app_nil_r; reflexivity|].
  cbn [forallb] in H. apply andb_true_iff in H as [H1 H2]. cbn [lex lex_step]. rewrite H1, (IH H2), <- app_assoc. reflexivity.
Qed.
Lemma lex_ident f b : ident f = true -> lex (LBetween b) f = Some ([], LIdent f).
Proof.
  destruct f as [|c f]; [discriminate|]. cbn [ident]. intro H. apply andb_true_iff in H as [H1 H2].
  cbn [lex lex_step]. rewrite (letter_between c b H1), (lex_ident_rest f H2). reflexivity.
Qed.

(** ** Tables *)

Record good (g : dialect) : Prop := {
  good_pkg : ident (g_pkg g) = true;
  good_elems : forall k f, look (g_elems g) k = Some f -> ident f = true;
  good_attrs : forall k f, look (g_attrs g) k = Some f -> ident f = true }.
Lemma look_in l k f : look l k = Some f -> In (k, f) l.
Proof.
  induction l as [|[k' f'] l IH]; cbn [look]; [discriminate|]. destruct (beq_spec k' k) as [->|N].
  - intro H. inversion H. left. reflexivity.
  - intro H. right. auto.
Qed.
Lemma look_all l p k f : forallb (fun kf => p (snd kf)) l = true -> look l k = Some f -> p f = true.
Proof. intros H E. apply look_in in E. rewrite forallb_forall in H. apply (H _ E). Qed.
Lemma dialect_good g : a_dialect g -> good g.
Proof.
  intros [->| ->]; split; try reflexivity; intros k f; apply (look_all _ ident); vm_compute; reflexivity.
Qed.

(** ** The tokens of generated code *)

Section Toks.
Context (g : dialect).

Definition ktoks (p f : bytes) : list gotok := [KIdent p; KDot; KIdent f; KOpen].
Definition attr_toks (a : bytes * bytes) : list gotok :=
  match look (g_attrs g) (to_lower (fst a)) with
  | Some f => ktoks (g_pkg g) f ++ (if bmem (to_lower (fst a)) (g_bools g) then [] else [KString (snd a)]) ++ [KClose]
  | None => ktoks (B "aitch") (B "Attribute") ++ [KString (fst a); KComma; KString (snd a); KClose]
  end.
Fixpoint attrs_toks (first : bool) (attrs : list (bytes * bytes)) : list gotok :=
  match attrs with
  | [] => []
  | a :: attrs' => (if first then [] else [KComma]) ++ attr_toks a ++ attrs_toks false attrs'
  end.
Definition head_toks (name : bytes) : list gotok :=
  match look (g_elems g) (to_lower name) with
  | Some f => ktoks (g_pkg g) f
  | None => ktoks (B "aitch") (B "Element") ++ [KString name; KComma]
  end.
Definition toks (t : gtok) : list gotok :=
  match t with
  | GText d => if trims_empty d then [] else ktoks (g_pkg g) (B "Text") ++ [KString d; KClose; KComma]
  | GStart n attrs => head_toks n ++ attrs_toks true attrs ++ (match attrs with [] => [] | _ => [KComma] end)
  | GSelf n attrs => head_toks n ++ attrs_toks true attrs ++ [KClose; KComma]
  | GEnd _ => [KClose; KComma]
  | GComment d => ktoks (g_pkg g) (B "Comment") ++ [KString d; KClose; KComma]
  | GDoctype d =>
      if g_doctype g then ktoks (g_pkg g) (B "PI") ++ [KString (B "DOCTYPE"); KComma; KString d; KClose; KComma] else []
  end.

Context (G : good g).

Lemma lex_call p f s b : ident p = true -> ident f = true -> lex (LBetween b) (p ++ B "." ++ f ++ B "(" ++ s) =
  match lex (LBetween false) s with Some (ts, st) => Some (ktoks p f ++ ts, st) | None => None end.
Proof.
  intros Hp Hf. rewrite (lex_app _ _ _ _ _ (lex_ident p b Hp)).
  change (B "." ++ f ++ B "(" ++ s) with ("."%char :: (f ++ B "(" ++ s)). cbn [lex lex_step letter digit].
  change (letter "." || digit ".") with false. cbn iota.
  change (lex_between true ".") with (Some ([KDot], LBetween false)). cbn iota beta.
  rewrite (lex_app _ _ _ _ _ (lex_ident f false Hf)). change (B "(" ++ s) with ("("%char :: s). cbn [lex lex_step].
  change (letter "(" || digit "(") with false. cbn iota.
  change (lex_between true "(") with (Some ([KOpen], LBetween false)). cbn iota beta.
  destruct (lex (LBetween false) s) as [[ts st]|]; reflexivity.
Qed.
Lemma lex_open_string s b : lex (LBetween b) (B """" ++ s) = lex (LString []) s.
Proof.
  change (B """" ++ s) with (""""%char :: s). cbn [lex lex_step]. change (lex_between b """") with (Some (@nil gotok, LString [])).
  cbn iota beta. destruct (lex (LString []) s) as [[? ?]|]; reflexivity.
Qed.
Lemma lex_close_string buf s : lex (LString buf) (B """" ++ s) =
  match lex (LBetween true) s with Some (ts, st) => Some (KString buf :: ts, st) | None => None end.
Proof. reflexivity. Qed.
(** A quoted string followed by more. *)
Lemma lex_lit x v b s : (forall buf, lex (LString buf) x = Some ([], LString (buf ++ v))) ->
  lex (LBetween b) (B """" ++ x ++ B """" ++ s) =
  match lex (LBetween true) s with Some (ts, st) => Some (KString v :: ts, st) | None => None end.
Proof.
  intro H. rewrite lex_open_string, (lex_app _ _ _ _ _ (H [])), lex_close_string.
  destruct (lex (LBetween true) s) as [[? ?]|]; reflexivity.
Qed.

Lemma lex_attr a : quotable (fst a) -> lex (LBetween false) (concat (attr_writes g a)) = Some (attr_toks a, LBetween true).
Proof.
  destruct a as [key val]. cbn [fst]. intro Q. unfold attr_writes, attr_toks. cbn [fst snd].
  destruct (look (g_attrs g) (to_lower key)) as [f|] eqn:L.
  - apply (good_attrs g G) in L. unfold func_name. destruct (bmem (to_lower key) (g_bools g)); cbn [concat].
    + rewrite <- !app_assoc. change (B "()" ++ []) with (B "(" ++ B ")"). rewrite lex_call; auto using (good_pkg g G).
    + rewrite <- !app_assoc. change (B "(""" ++ escape val ++ B """)" ++ []) with (B "(" ++ B """" ++ escape val ++ B """" ++ B ")").
      rewrite lex_call; auto using (good_pkg g G). rewrite (lex_lit _ val); [reflexivity|apply lex_escaped].
  - cbn [concat].
    change (B "aitch.Attribute(""" ++ key ++ B """ ,""" ++ escape val ++ B """)" ++ [])
      with (B "aitch" ++ B "." ++ B "Attribute" ++ B "(" ++ B """" ++ key ++ B """" ++ B " ," ++ B """" ++ escape val ++ B """" ++ B ")").
    rewrite lex_call; [|reflexivity|reflexivity]. rewrite (lex_lit _ key); [|apply lex_quotable; auto].
    rewrite (lex_seq (B " ,") _ _ [KComma] (LBetween false) [KString val; KClose] (LBetween true) (KComma :: [KString val; KClose]));
      [reflexivity|reflexivity| |reflexivity].
    rewrite (lex_lit _ val); [reflexivity|apply lex_escaped].
Qed.
Lemma lex_attrs attrs : Forall (fun kv => quotable (fst kv)) attrs -> attrs <> [] -> forall first,
  lex (LBetween (negb first)) (concat (attrs_writes g first attrs)) = Some (attrs_toks first attrs, LBetween true).
Proof.
  intros Q. induction Q as [|a attrs Qa Q IH]; [congruence|]. intros _ first. cbn [attrs_writes attrs_toks].
  rewrite !concat_app.
  eapply (lex_seq _ _ _ (if first then [] else [KComma]) (LBetween false)); [destruct first; reflexivity| |reflexivity].
  destruct attrs as [|a2 attrs].
  - cbn [attrs_writes attrs_toks concat]. rewrite !app_nil_r. apply lex_attr. auto.
  - eapply lex_seq; [apply lex_attr; auto|apply (IH ltac:(discriminate) false)|reflexivity].
Qed.
Lemma lex_head name : quotable name ->
  lex (LBetween false) (match look (g_elems g) (to_lower name) with
               | Some f => func_name g f ++ B "("
               | None => B "aitch.Element(""" ++ name ++ B """, "
               end) = Some (head_toks name, LBetween false).
Proof.
  intro Q. unfold head_toks. destruct (look (g_elems g) (to_lower name)) as [f|] eqn:L.
  - apply (good_elems g G) in L. unfold func_name. rewrite <- !app_assoc. change (B "(") with (B "(" ++ []).
    rewrite lex_call; auto using (good_pkg g G).
  - change (B "aitch.Element(""" ++ name ++ B """, ")
      with (B "aitch" ++ B "." ++ B "Element" ++ B "(" ++ B """" ++ name ++ B """" ++ B ", ").
    rewrite lex_call; [|reflexivity|reflexivity]. rewrite (lex_lit _ name); [reflexivity|apply lex_quotable; auto].
Qed.
Lemma lex_line n s ts : lex (LBetween false) s = Some (ts, LBetween false) ->
  lex (LBetween false) (concat (line n s)) = Some (ts, LBetween false).
Proof.
  intro H. unfold line. cbn [concat]. rewrite app_nil_r.
  eapply lex_seq; [apply lex_tabs| |reflexivity]. eapply lex_seq; [exact H|reflexivity|]. rewrite app_nil_r. reflexivity.
Qed.

Lemma lex_tok n t : names_quotable t ->
  lex (LBetween false) (concat (fst (tok_writes g n t))) = Some (toks t, LBetween false).
Proof.
  intro Q. destruct t as [d|m attrs|m attrs|m|d|d]; cbn [tok_writes toks fst names_quotable] in *.
  - destruct (trims_empty d); [reflexivity|]. apply lex_line.
    change (g_pkg g ++ B ".Text(""" ++ escape d ++ B """),") with (g_pkg g ++ B "." ++ B "Text" ++ B "(" ++ B """" ++ escape d ++ B """" ++ B "),").
    rewrite lex_call; [|apply (good_pkg g G)|reflexivity]. rewrite (lex_lit _ d); [reflexivity|apply lex_escaped].
  - destruct Q as [Qn Qa]. unfold element_start. cbn [andb]. rewrite concat_app. cbn [concat]. rewrite app_nil_r, <- app_assoc.
    eapply lex_seq; [apply lex_tabs| |reflexivity]. eapply lex_seq; [apply lex_head; auto| |reflexivity].
    rewrite !concat_app. destruct attrs as [|a attrs]; [reflexivity|].
    eapply lex_seq; [apply (lex_attrs (a :: attrs) Qa ltac:(discriminate) true)|reflexivity|reflexivity].
  - destruct Q as [Qn Qa]. unfold element_start. rewrite concat_app. cbn [concat]. rewrite app_nil_r, <- app_assoc.
    eapply lex_seq; [apply lex_tabs| |reflexivity]. eapply lex_seq; [apply lex_head; auto| |reflexivity].
    destruct attrs as [|a attrs]; [reflexivity|]. cbn [andb]. rewrite !concat_app.
    eapply lex_seq; [apply (lex_attrs (a :: attrs) Qa ltac:(discriminate) true)|reflexivity|reflexivity].
  - apply lex_line. reflexivity.
  - apply lex_line.
    change (g_pkg g ++ B ".Comment(""" ++ escape d ++ B """),") with (g_pkg g ++ B "." ++ B "Comment" ++ B "(" ++ B """" ++ escape d ++ B """" ++ B "),").
    rewrite lex_call; [|apply (good_pkg g G)|reflexivity]. rewrite (lex_lit _ d); [reflexivity|apply lex_escaped].
  - destruct (g_doctype g); [|reflexivity]. apply lex_line.
    change (g_pkg g ++ B ".PI(""DOCTYPE"", """ ++ escape d ++ B """),")
      with (g_pkg g ++ B "." ++ B "PI" ++ B "(" ++ B """DOCTYPE"", " ++ B """" ++ escape d ++ B """" ++ B "),").
    rewrite lex_call; [|apply (good_pkg g G)|reflexivity].
    rewrite (lex_seq (B """DOCTYPE"", ") _ _ [KString (B "DOCTYPE"); KComma] (LBetween false) [KString d; KClose; KComma] (LBetween false)
      [KString (B "DOCTYPE"); KComma; KString d; KClose; KComma]);
      [reflexivity|reflexivity| |reflexivity].
    rewrite (lex_lit _ d); [reflexivity|apply lex_escaped].
Qed.

Lemma lex_body ts : Forall names_quotable ts -> forall n,
  lex (LBetween false) (body g ts n) = Some (flat_map toks ts ++ [KClose; KSemi], LBetween false).
Proof.
  induction 1 as [|t ts Q H IH]; intro n; cbn [body flat_map].
  - eapply lex_seq; [apply lex_tabs|reflexivity|reflexivity].
  - pose proof (lex_tok n t Q) as X. destruct (tok_writes g n t) as [ds n']. cbn [fst] in X.
    eapply lex_seq; [exact X|apply IH|]. rewrite app_assoc. reflexivity.
Qed.
Lemma lex_code ts : Forall names_quotable ts ->
  lex (LBetween false) (code g ts) =
  Some (KIdent (B "var") :: KIdent (B "template") :: KEq ::
        (ktoks (B "aitch") (B "Collection") ++ flat_map toks ts ++ [KClose]) ++ [KSemi], LBetween false).
Proof.
  intro H. unfold code. eapply lex_seq; [reflexivity|cbn [app]|].
  - change (nl :: body g ts 1) with ([nl] ++ body g ts 1). eapply lex_seq; [reflexivity|apply lex_body; exact H|reflexivity].
  - rewrite <- !app_assoc. reflexivity.
Qed.

(** ** Parsing *)

Lemma parse_app x : forall s y, parse s (x ++ y) = match parse s x with Some s' => parse s' y | None => None end.
Proof. induction x as [|t x IH]; intros s y; cbn [parse app]; [reflexivity|]. destruct (parse_step s t); auto. Qed.

Definition add (e : expr) (c : open_call) : open_call := OpenCall (oc_pkg c) (oc_fn c) (oc_args c ++ [e]).
Definition adds (es : list expr) (c : open_call) : open_call := OpenCall (oc_pkg c) (oc_fn c) (oc_args c ++ es).
Lemma adds_nil c : adds [] c = c. Proof. destruct c. unfold adds. cbn. rewrite app_nil_r. reflexivity. Qed.
Lemma adds_adds x y c : adds y (adds x c) = adds (x ++ y) c. Proof. unfold adds. cbn. rewrite app_assoc. reflexivity. Qed.

Lemma parse_attr a c k : parse (PWant, c :: k) (attr_toks a) = Some (PHave, adds [attr_expr g a] c :: k).
Proof.
  unfold attr_toks, attr_expr. destruct c as [p f args]. destruct (look (g_attrs g) (to_lower (fst a))) as [h|].
  - destruct (bmem _ _); reflexivity.
  - reflexivity.
Qed.
Lemma parse_attrs attrs : attrs <> [] -> forall (first : bool) c k,
  parse (if first then PWant else PHave, c :: k) (attrs_toks first attrs) = Some (PHave, adds (map (attr_expr g) attrs) c :: k).
Proof.
  induction attrs as [|a attrs IH]; [congruence|]. intros _ first c k. cbn [attrs_toks map].
  rewrite !parse_app. replace (parse (if first then PWant else PHave, c :: k) (if first then [] else [KComma])) with (Some (PWant, c :: k)) by (destruct first; reflexivity).
  cbn iota. rewrite parse_app, parse_attr. destruct attrs as [|a2 attrs]; [reflexivity|].
  rewrite (IH ltac:(discriminate) false). cbn [map]. rewrite adds_adds. reflexivity.
Qed.

(** The open call of an element with its arguments so far. *)
Definition opened (name : bytes) (args : list expr) : open_call :=
  match look (g_elems g) (to_lower name) with
  | Some f => OpenCall (g_pkg g) f args
  | None => OpenCall (B "aitch") (B "Element") (EString name :: args)
  end.
Definition closed (c : open_call) : expr := ECall (oc_pkg c) (oc_fn c) (oc_args c).
Lemma closed_opened name args : closed (opened name args) = elem_expr g name args.
Proof. unfold opened, elem_expr, closed. destruct (look _ _); reflexivity. Qed.
Lemma adds_opened name a b : adds b (opened name a) = opened name (a ++ b).
Proof. unfold opened, adds. destruct (look _ _); reflexivity. Qed.

Lemma parse_head name k : parse (PWant, k) (head_toks name) = Some (PWant, opened name [] :: k).
Proof. unfold head_toks, opened. destruct (look _ _); reflexivity. Qed.
Lemma parse_close m c c2 k : m = PWant \/ m = PHave ->
  parse (m, c :: c2 :: k) [KClose; KComma] = Some (PWant, adds [closed c] c2 :: k).
Proof. destruct c, c2. intros [->| ->]; reflexivity. Qed.

(** The effect of a token on the calls being read. *)
Definition flat (t : gtok) : list expr :=
  match t with
  | GText d => exprs g (DText d) | GComment d => exprs g (DComment d) | GDoctype d => exprs g (DDoctype d)
  | GSelf n a => exprs g (DSelf n a) | _ => []
  end.
Definition tstep (k : list open_call) (t : gtok) : option (list open_call) :=
  match t, k with
  | GStart n a, _ => Some (opened n (map (attr_expr g) a) :: k)
  | GEnd _, c :: c2 :: k' => Some (adds [closed c] c2 :: k')
  | GEnd _, _ => None
  | t, c :: k' => Some (adds (flat t) c :: k')
  | _, [] => None
  end.
Lemma parse_tok t c k : parse (PWant, c :: k) (toks t) =
  match tstep (c :: k) t with Some k' => Some (PWant, k') | None => None end.
Proof.
  destruct t as [d|n a|n a|n|d|d]; cbn [toks tstep].
  - unfold flat. cbn [exprs]. fold (trims_empty d).
    change (forallb (fun c => Ascii.eqb c " " || Ascii.eqb c "010" || Ascii.eqb c "009") d) with (trims_empty d).
    destruct (trims_empty d); [rewrite adds_nil; reflexivity|]. destruct c. reflexivity.
  - rewrite !parse_app, parse_head. destruct a as [|a0 a]; [reflexivity|]. cbn iota.
    rewrite parse_app, (parse_attrs (a0 :: a) ltac:(discriminate) true), adds_opened. reflexivity.
  - rewrite !parse_app, parse_head. cbn iota. rewrite parse_app. unfold flat. cbn [exprs]. destruct a as [|a0 a].
    + cbn [attrs_toks parse map]. change (parse (PWant, opened n [] :: c :: k) [KClose; KComma] = Some (PWant, adds [elem_expr g n []] c :: k)).
      rewrite parse_close; auto. rewrite closed_opened. reflexivity.
    + rewrite (parse_attrs (a0 :: a) ltac:(discriminate) true), adds_opened, parse_close; auto. cbn [app].
      rewrite closed_opened. reflexivity.
  - destruct k as [|c2 k]; [destruct c; reflexivity|]. rewrite parse_close; auto.
  - destruct c. reflexivity.
  - unfold flat. cbn [exprs]. destruct (g_doctype g); [|rewrite adds_nil; reflexivity]. destruct c. reflexivity.
Qed.
Fixpoint tsteps (k : list open_call) (ts : list gtok) : option (list open_call) :=
  match ts with [] => Some k | t :: ts' => match tstep k t with Some k' => tsteps k' ts' | None => None end end.
Lemma tsteps_app x : forall k y, tsteps k (x ++ y) = match tsteps k x with Some k' => tsteps k' y | None => None end.
Proof. induction x as [|t x IH]; intros k y; cbn [tsteps app]; [reflexivity|]. destruct (tstep k t); auto. Qed.
Lemma tstep_nonempty k t k' : tstep k t = Some k' -> k' <> [].
Proof.
  destruct t, k as [|c [|c2 k]]; cbn [tstep]; intro H; inversion H; discriminate.
Qed.
Lemma parse_toks ts : forall k, k <> [] -> parse (PWant, k) (flat_map toks ts) =
  match tsteps k ts with Some k' => Some (PWant, k') | None => None end.
Proof.
  induction ts as [|t ts IH]; intros k N; [reflexivity|]. cbn [flat_map tsteps]. rewrite parse_app.
  destruct k as [|c k]; [congruence|]. rewrite parse_tok. destruct (tstep (c :: k) t) as [k'|] eqn:E; [|reflexivity].
  apply IH. eapply tstep_nonempty; eauto.
Qed.

(** A document adds its expressions to the innermost call. *)
Fixpoint tsteps_stream (d : doc) : forall c k, tsteps (c :: k) (stream d) = Some (adds (exprs g d) c :: k).
Proof.
  destruct d as [x|x|x|n a|n a kids]; intros c k; try reflexivity.
  cbn [stream tsteps tstep exprs]. rewrite tsteps_app.
  assert (K : forall ds c k, tsteps (c :: k) (flat_map stream ds) = Some (adds (flat_map (exprs g) ds) c :: k)).
  { clear - tsteps_stream. induction ds as [|d ds IH]; intros c k; cbn [flat_map tsteps].
    - rewrite adds_nil. reflexivity.
    - rewrite tsteps_app, tsteps_stream, IH, adds_adds. reflexivity. }
  rewrite K. cbn [tsteps tstep]. rewrite adds_opened, closed_opened. reflexivity.
Qed.
Lemma tsteps_streams ds : forall c k, tsteps (c :: k) (flat_map stream ds) = Some (adds (flat_map (exprs g) ds) c :: k).
Proof.
  induction ds as [|d ds IH]; intros c k; cbn [flat_map tsteps].
  - rewrite adds_nil. reflexivity.
  - rewrite tsteps_app, tsteps_stream, IH, adds_adds. reflexivity.
Qed.

(** Which sequences leave one call open. *)
Lemma tsteps_matched ts : forall k, k <> [] ->
  (matched (pred (length k)) ts <-> exists c, tsteps k ts = Some [c]).
Proof.
  induction ts as [|t ts IH]; intros k N.
  - cbn [matched tsteps]. destruct k as [|c [|c2 k]]; [congruence| |].
    + split; [eauto|reflexivity].
    + split; [discriminate|]. intros [c' E]. discriminate.
  - destruct k as [|c k]; [congruence|]. cbn [tsteps].
    assert (F : forall c', matched (length k) ts <-> exists c0, tsteps (c' :: k) ts = Some [c0]).
    { intro c'. apply (IH (c' :: k)). discriminate. }
    destruct t as [d|n a|n a|n|d|d]; cbn [matched tstep length pred]; try apply F.
    + apply (IH (opened n (map (attr_expr g) a) :: c :: k)). discriminate.
    + destruct k as [|c2 k]; cbn [length].
      * split; [intros []|]. intros [c' E]. discriminate.
      * apply (IH (adds [closed c] c2 :: k)). discriminate.
Qed.

(** ** Indentation *)

Lemma indents_app x : forall s y, indents s (x ++ y) = match indents s x with Some s' => indents s' y | None => None end.
Proof. induction x as [|t x IH]; intros s y; cbn [indents app]; [reflexivity|]. destruct (indent_step s t); auto. Qed.
Lemma ind_seq x y s s1 s2 : indents s x = Some s1 -> indents s1 y = Some s2 -> indents s (x ++ y) = Some s2.
Proof. intros H1 H2. rewrite indents_app, H1. exact H2. Qed.
Lemma ind_escaped d s : indents (IString d) (escape s) = Some (IString d).
Proof.
  rewrite escape_one_pass. induction s as [|c s IH]; [reflexivity|]. cbn [flat_map].
  eapply ind_seq; [|exact IH]. unfold esc1.
  destruct (Ascii.eqb_spec c "\") as [->|N1]; [reflexivity|].
  destruct (Ascii.eqb_spec c tab) as [->|N2]; [reflexivity|].
  destruct (Ascii.eqb_spec c nl) as [->|N3]; [reflexivity|].
  destruct (Ascii.eqb_spec c dq) as [->|N4]; [reflexivity|].
  cbn [indents indent_step]. destruct (Ascii.eqb_spec c """"); [contradiction|].
  destruct (Ascii.eqb_spec c "\"); [contradiction|]. reflexivity.
Qed.
Lemma ind_quotable d s : quotable s -> indents (IString d) s = Some (IString d).
Proof.
  induction 1 as [|c s (N1 & N2 & N3) H IH]; [reflexivity|]. cbn [indents indent_step].
  destruct (Ascii.eqb_spec c """"); [contradiction|]. destruct (Ascii.eqb_spec c "\"); [contradiction|]. exact IH.
Qed.
Lemma ind_tabs d n : forall m, indents (ILine d m) (tabs n) = Some (ILine d (m + n)).
Proof.
  induction n as [|n IH]; intro m; [rewrite Nat.add_0_r; reflexivity|]. unfold tabs in *. cbn [repeat indents indent_step].
  change (Ascii.eqb tab "009") with true. cbn iota. rewrite IH. f_equal. f_equal. lia.
Qed.
(** An identifier does nothing but start the line. *)
Definition in_code (d : nat) (s : istate) : Prop := s = ICode d \/ s = ILine d d.
Lemma ident_char c : letter c || digit c = true -> forall d s, in_code d s -> indent_step s c = Some (ICode d).
Proof.
  intros H d s [->| ->]; cbn [indent_step]; unfold indent_code;
  repeat match goal with |- context [Ascii.eqb c ?d] => destruct (Ascii.eqb_spec c d) as [->|]; [discriminate H|] end.
  - reflexivity.
  - rewrite Nat.eqb_refl. reflexivity.
Qed.
Lemma ind_ident f d s : ident f = true -> in_code d s -> indents s f = Some (ICode d).
Proof.
  destruct f as [|c f]; [discriminate|]. cbn [ident]. intros H I. apply andb_true_iff in H as [H1 H2].
  cbn [indents]. rewrite (ident_char c) with (d := d); auto; [|rewrite H1; reflexivity]. clear c H1 I s.
  induction f as [|c f IH]; [reflexivity|]. cbn [forallb] in H2. apply andb_true_iff in H2 as [H1 H2].
  cbn [indents]. rewrite (ident_char c H1 d); [|left; reflexivity]. auto.
Qed.
Lemma ind_call p f d s x : ident p = true -> ident f = true -> in_code d s ->
  indents s (p ++ B "." ++ f ++ B "(" ++ x) = indents (ICode (S d)) x.
Proof.
  intros Hp Hf I. rewrite indents_app, (ind_ident p d s Hp I).
  change (B "." ++ f ++ B "(" ++ x) with ("."%char :: (f ++ B "(" ++ x)). cbn [indents indent_step indent_code].
  change (indent_code d ".") with (Some (ICode d)). cbn iota.
  rewrite indents_app, (ind_ident f d _ Hf (or_introl eq_refl)). reflexivity.
Qed.
Lemma ind_lit x d y : indents (IString d) x = Some (IString d) ->
  indents (ICode d) (B """" ++ x ++ B """" ++ y) = indents (ICode d) y.
Proof.
  intro H. change (B """" ++ x ++ B """" ++ y) with (""""%char :: (x ++ """"%char :: y)). cbn [indents indent_step].
  change (indent_code d """") with (Some (IString d)). cbn iota. rewrite indents_app, H. reflexivity.
Qed.

Lemma ind_attr a d : quotable (fst a) -> indents (ICode d) (concat (attr_writes g a)) = Some (ICode d).
Proof.
  destruct a as [key val]. cbn [fst]. intro Q. unfold attr_writes.
  destruct (look (g_attrs g) (to_lower key)) as [f|] eqn:L.
  - apply (good_attrs g G) in L. unfold func_name. destruct (bmem (to_lower key) (g_bools g)); cbn [concat].
    + rewrite <- !app_assoc. change (B "()" ++ []) with (B "(" ++ B ")"). rewrite (ind_call _ _ d); auto using (good_pkg g G). left; reflexivity.
    + rewrite <- !app_assoc. change (B "(""" ++ escape val ++ B """)" ++ []) with (B "(" ++ B """" ++ escape val ++ B """" ++ B ")").
      rewrite (ind_call _ _ d); auto using (good_pkg g G); [|left; reflexivity]. rewrite ind_lit; [reflexivity|apply ind_escaped].
  - cbn [concat].
    change (B "aitch.Attribute(""" ++ key ++ B """ ,""" ++ escape val ++ B """)" ++ [])
      with (B "aitch" ++ B "." ++ B "Attribute" ++ B "(" ++ B """" ++ key ++ B """" ++ B " ," ++ B """" ++ escape val ++ B """" ++ B ")").
    rewrite (ind_call _ _ d); [|reflexivity|reflexivity|left; reflexivity]. rewrite ind_lit; [|apply ind_quotable; auto].
    eapply ind_seq; [reflexivity|]. rewrite ind_lit; [reflexivity|apply ind_escaped].
Qed.
Lemma ind_attrs attrs d : Forall (fun kv => quotable (fst kv)) attrs -> forall first,
  indents (ICode d) (concat (attrs_writes g first attrs)) = Some (ICode d).
Proof.
  intros Q. induction Q as [|a attrs Qa Q IH]; intro first; [reflexivity|]. cbn [attrs_writes]. rewrite !concat_app.
  apply (ind_seq _ _ _ (ICode d)); [destruct first; reflexivity|].
  apply (ind_seq _ _ _ (ICode d)); [apply ind_attr; auto|apply IH].
Qed.
Lemma ind_head name d s : quotable name -> in_code d s ->
  indents s (match look (g_elems g) (to_lower name) with
               | Some f => func_name g f ++ B "("
               | None => B "aitch.Element(""" ++ name ++ B """, "
               end) = Some (ICode (S d)).
Proof.
  intros Q I. destruct (look (g_elems g) (to_lower name)) as [f|] eqn:L.
  - apply (good_elems g G) in L. unfold func_name. rewrite <- !app_assoc. change (B "(") with (B "(" ++ []).
    rewrite (ind_call _ _ d); auto using (good_pkg g G).
  - change (B "aitch.Element(""" ++ name ++ B """, ")
      with (B "aitch" ++ B "." ++ B "Element" ++ B "(" ++ B """" ++ name ++ B """" ++ B ", ").
    rewrite (ind_call _ _ d); [|reflexivity|reflexivity|auto]. rewrite ind_lit; [reflexivity|apply ind_quotable; auto].
Qed.
Lemma ind_line d s : (forall st, in_code d st -> indents st s = Some (ICode d)) ->
  indents (ILine d 0) (concat (line d s)) = Some (ILine d 0).
Proof.
  intro H. unfold line. cbn [concat]. rewrite app_nil_r. eapply ind_seq; [apply ind_tabs|].
  eapply ind_seq; [apply H; right; reflexivity|]. reflexivity.
Qed.
Lemma ind_tok d t : names_quotable t -> (forall n, t <> GEnd n) ->
  indents (ILine d 0) (concat (fst (tok_writes g d t))) = Some (ILine (snd (tok_writes g d t)) 0).
Proof.
  intros Q NE. destruct t as [x|m attrs|m attrs|m|x|x]; cbn [tok_writes fst snd names_quotable] in *.
  - destruct (trims_empty x); [reflexivity|]. apply ind_line. intros st I.
    change (g_pkg g ++ B ".Text(""" ++ escape x ++ B """),") with (g_pkg g ++ B "." ++ B "Text" ++ B "(" ++ B """" ++ escape x ++ B """" ++ B "),").
    rewrite (ind_call _ _ d); [|apply (good_pkg g G)|reflexivity|auto]. rewrite ind_lit; [reflexivity|apply ind_escaped].
  - destruct Q as [Qn Qa]. unfold element_start. cbn [andb]. rewrite concat_app. cbn [concat]. rewrite app_nil_r, <- app_assoc.
    eapply ind_seq; [apply ind_tabs|]. eapply ind_seq; [apply ind_head; [auto|right; reflexivity]|].
    rewrite !concat_app. eapply ind_seq; [apply ind_attrs; auto|]. destruct attrs; reflexivity.
  - destruct Q as [Qn Qa]. unfold element_start. rewrite concat_app. cbn [concat]. rewrite app_nil_r, <- app_assoc.
    eapply ind_seq; [apply ind_tabs|]. eapply ind_seq; [apply ind_head; [auto|right; reflexivity]|].
    destruct attrs as [|a attrs]; [reflexivity|]. cbn [andb]. rewrite !concat_app. eapply ind_seq; [apply ind_attrs; auto|]. reflexivity.
  - destruct (NE m); reflexivity.
  - apply ind_line. intros st I.
    change (g_pkg g ++ B ".Comment(""" ++ escape x ++ B """),") with (g_pkg g ++ B "." ++ B "Comment" ++ B "(" ++ B """" ++ escape x ++ B """" ++ B "),").
    rewrite (ind_call _ _ d); [|apply (good_pkg g G)|reflexivity|auto]. rewrite ind_lit; [reflexivity|apply ind_escaped].
  - destruct (g_doctype g); [|reflexivity]. apply ind_line. intros st I.
    change (g_pkg g ++ B ".PI(""DOCTYPE"", """ ++ escape x ++ B """),")
      with (g_pkg g ++ B "." ++ B "PI" ++ B "(" ++ B """DOCTYPE"", " ++ B """" ++ escape x ++ B """" ++ B "),").
    rewrite (ind_call _ _ d); [|apply (good_pkg g G)|reflexivity|auto].
    eapply ind_seq; [reflexivity|]. rewrite ind_lit; [reflexivity|apply ind_escaped].
Qed.
Lemma ind_close d s : indents (ILine (S d) 0) (tabs d ++ B ")" ++ s) = indents (ICode d) s.
Proof.
  rewrite indents_app, ind_tabs. change (B ")" ++ s) with (")"%char :: s). cbn [indents indent_step pred].
  change (Ascii.eqb ")" "009") with false. change (Ascii.eqb ")" ")") with true. cbn iota.
  rewrite Nat.add_0_l, Nat.eqb_refl. reflexivity.
Qed.
Lemma ind_body ts : Forall names_quotable ts -> forall d, matched d ts ->
  indents (ILine (S d) 0) (body g ts (S d)) = Some (ILine 0 0).
Proof.
  induction 1 as [|t ts Q H IH]; intros d M.
  - cbn [matched] in M. subst d. reflexivity.
  - cbn [body].
    assert (K : (forall n, t <> GEnd n) -> matched (pred (snd (tok_writes g (S d) t))) ts -> snd (tok_writes g (S d) t) <> 0 ->
      indents (ILine (S d) 0) (let '(ds, n') := tok_writes g (S d) t in concat ds ++ body g ts n') = Some (ILine 0 0)).
    { intros NE M' Z. pose proof (ind_tok (S d) t Q NE) as X. destruct (tok_writes g (S d) t) as [ds n']. cbn [fst snd] in *.
      eapply ind_seq; [exact X|]. destruct n' as [|n']; [congruence|]. apply IH. exact M'. }
    destruct t as [x|m a|m a|m|x|x]; cbn [matched] in M; try (apply K; [discriminate|exact M|discriminate]).
    destruct d as [|d]; [destruct M|]. cbn [tok_writes pred line concat]. rewrite <- !app_assoc.
    change (B ")," ++ [nl] ++ [] ++ body g ts (S d)) with (B ")" ++ B "," ++ [nl] ++ body g ts (S d)).
    rewrite ind_close. eapply ind_seq; [reflexivity|]. cbn [app]. apply IH. exact M.
Qed.

End Toks.

(** ** Source text *)

Lemma text_app x y : text x -> text y -> text (x ++ y).
Proof. induction 1 as [|c s H H1 IH]; intro Y; [exact Y|]. rewrite <- app_assoc. constructor; auto. Qed.
Definition plain (c : ascii) : bool := (1 <=? nat_of_ascii c) && (nat_of_ascii c <=? 127).
Lemma text_plain s : forallb plain s = true -> text s.
Proof.
  induction s as [|c s IH]; intro H; [constructor|]. cbn [forallb] in H. apply andb_true_iff in H as [H1 H2].
  apply (text_char [c]); auto. constructor. apply andb_true_iff in H1 as [A1 A2].
  apply Nat.leb_le in A1. apply Nat.leb_le in A2. split; auto.
Qed.
Lemma esc1_high c : 128 <= nat_of_ascii c -> esc1 c = [c].
Proof.
  intro H. unfold esc1.
  repeat match goal with |- context [Ascii.eqb c ?d] => destruct (Ascii.eqb_spec c d) as [->|]; [vm_compute in H; lia|] end.
  reflexivity.
Qed.
Lemma text_escape s : text s -> text (escape s).
Proof.
  rewrite escape_one_pass. induction 1 as [|c s H H1 IH]; [constructor|]. rewrite flat_map_app. apply text_app; auto.
  assert (C : forall x, cont x -> esc1 x = [x]) by (intros x [L _]; apply esc1_high; lia).
  destruct H as [a A|a b A Hb|a b c A Hb Hc X Y Z|a b c e A Hb Hc He X Y]; cbn [flat_map]; rewrite app_nil_r.
  - unfold esc1.
    repeat match goal with |- context [Ascii.eqb a ?d] => destruct (Ascii.eqb_spec a d) as [->|]; [apply text_plain; reflexivity|] end.
    apply (text_char [a] []); [constructor; auto|constructor].
  - rewrite esc1_high, C by (auto; destruct A; lia). apply (text_char [a; b] []); [constructor; auto|constructor].
  - rewrite esc1_high, !C by (auto; destruct A; lia). apply (text_char [a; b; c] []); [constructor; auto|constructor].
  - rewrite esc1_high, !C by (auto; destruct A; lia). apply (text_char [a; b; c; e] []); [constructor; auto|constructor].
Qed.
Lemma text_concat l : Forall text l -> text (concat l).
Proof. induction 1; [constructor|]. cbn [concat]. apply text_app; auto. Qed.
Lemma text_tabs n : text (tabs n).
Proof. apply text_plain. induction n; [reflexivity|]. unfold tabs in *. cbn [repeat forallb]. rewrite IHn. reflexivity. Qed.

Record ascii_tables (g : dialect) : Prop := {
  at_pkg : text (g_pkg g);
  at_elems : forall k f, look (g_elems g) k = Some f -> text f;
  at_attrs : forall k f, look (g_attrs g) k = Some f -> text f }.
Lemma dialect_ascii g : a_dialect g -> ascii_tables g.
Proof.
  intros [->| ->]; (split; [apply text_plain; reflexivity| |]; intros k f L; apply text_plain;
    apply (look_all _ (forallb plain) k f) in L; auto; vm_compute; reflexivity).
Qed.
Ltac lit := apply text_plain; reflexivity.
Ltac fa := repeat (apply Forall_cons || apply Forall_nil).
Lemma text_tok g n t : ascii_tables g -> token_text t -> Forall text (fst (tok_writes g n t)).
Proof.
  intros [P E A] T.
  assert (Att : forall a first, Forall (fun kv : bytes * bytes => text (fst kv) /\ text (snd kv)) a -> Forall text (attrs_writes g first a)).
  { intros a first F. revert first. induction F as [|[k v] a [Tk Tv] F IH]; intro first; cbn [attrs_writes]; [constructor|].
    apply Forall_app. split; [destruct first; fa; lit|]. apply Forall_app. split; [|apply IH].
    unfold attr_writes, func_name. cbn [fst snd] in *. destruct (look (g_attrs g) (to_lower k)) as [f|] eqn:L.
    - apply A in L. destruct (bmem _ _); fa; try lit; try (apply text_escape; auto); repeat apply text_app; auto; lit.
    - fa; try lit; auto. apply text_escape; auto. }
  assert (Ln : forall n s, text s -> Forall text (line n s)) by (intros; fa; auto using text_tabs; lit).
  assert (El : forall m a self, text m -> Forall (fun kv : bytes * bytes => text (fst kv) /\ text (snd kv)) a ->
             Forall text (element_start g n m a self)).
  { intros m a self Tm Ta. unfold element_start. apply Forall_app. split.
    - constructor; [apply text_tabs|]. constructor; [|constructor].
      destruct (look (g_elems g) (to_lower m)) as [f|] eqn:L.
      + apply E in L. unfold func_name. repeat apply text_app; auto; lit.
      + repeat apply text_app; auto; lit.
    - destruct (self && _); [fa; lit|]. apply Forall_app. split; [apply Att; auto|].
      apply Forall_app. split; [|fa; lit]. destruct self; [fa; lit|].
      destruct a; fa; lit. }
  destruct t as [d|m a|m a|m|d|d]; cbn [tok_writes fst token_text] in *.
  - destruct (trims_empty d); [constructor|]. apply Ln. repeat apply text_app; auto; [lit|apply text_escape; auto|lit].
  - destruct T. apply El; auto.
  - destruct T. apply El; auto.
  - apply Ln. lit.
  - apply Ln. repeat apply text_app; auto; [lit|apply text_escape; auto|lit].
  - destruct (g_doctype g); [|constructor]. apply Ln. repeat apply text_app; auto; [lit|apply text_escape; auto|lit].
Qed.
Lemma text_code g ts : ascii_tables g -> Forall token_text ts -> text (code g ts).
Proof.
  intros A T. unfold code. repeat apply text_app; [lit|lit|]. generalize 1 as n.
  induction T as [|t ts Ht T IH]; intro n; cbn [body].
  - repeat apply text_app; [apply text_tabs|lit|lit].
  - pose proof (text_tok g n t A Ht) as X. destruct (tok_writes g n t) as [ds n']. cbn [fst] in X.
    apply text_app; [apply text_concat; exact X|apply IH].
Qed.

(** ** Deciding [names_quotable] *)
Definition quotableb (s : bytes) : bool :=
  forallb (fun c => negb (Ascii.eqb c """") && negb (Ascii.eqb c "\") && negb (Ascii.eqb c "010")) s.
Lemma quotableb_ok s : quotableb s = true -> quotable s.
Proof.
  unfold quotableb. rewrite forallb_forall. intro H. apply Forall_forall. intros c Hc. specialize (H c Hc).
  destruct (Ascii.eqb_spec c """"); [discriminate|]. destruct (Ascii.eqb_spec c "\"); [discriminate|].
  destruct (Ascii.eqb_spec c "010"); [discriminate|]. auto.
Qed.
Definition names_quotableb (t : gtok) : bool :=
  match t with
  | GStart n a | GSelf n a => quotableb n && forallb (fun kv => quotableb (fst kv)) a
  | _ => true
  end.
Lemma names_quotableb_ok ts : forallb names_quotableb ts = true -> Forall names_quotable ts.
Proof.
  assert (A : forall a : list (bytes * bytes), forallb (fun kv => quotableb (fst kv)) a = true -> Forall (fun kv => quotable (fst kv)) a).
  { intros a H. rewrite forallb_forall in H. apply Forall_forall. intros kv Hk. apply quotableb_ok. auto. }
  rewrite forallb_forall. intro H. apply Forall_forall. intros t Ht. specialize (H t Ht).
  destruct t; cbn in *; auto; apply andb_true_iff in H as [H1 H2]; split; auto using quotableb_ok.
Qed.
