(** The translated source of htmlEscapeString (value.go) is the escaping of the
    model. *)
From Coq Require Import ZArith Lia.
From Verif Require Import Bytes IO IOFacts Nodes Values Escape Slices GoSyntax Source GoSem GoRun GoRep GoStep GoOwn RefineValue.
Local Open Scope nat_scope.

Lemma code_eqb c d : (Z_of_ascii c =? Z_of_ascii d)%Z = Ascii.eqb c d.
Proof.
  destruct (Ascii.eqb_spec c d) as [->|N]; [apply Z.eqb_refl|]. apply Z.eqb_neq. intro H. apply N.
  unfold Z_of_ascii in H. apply N2Z.inj in H. rewrite <- (ascii_N_embedding c), <- (ascii_N_embedding d), H. reflexivity.
Qed.
Lemma set_last {A} (l : list A) x y : set_nth (l ++ [x]) (length l) y = l ++ [y].
Proof. induction l; cbn [app length set_nth]; congruence. Qed.

Section Refine.
Context {W : UserWorld}.
Context {FL : floor}.
Variable M : go_mode.
Notation C := (go_config M).
Notation sim := (sim C).

Definition esc_body : stmt :=
  SBlock [SVar "html" "[]byte";
     SSwitch (ELoc "c") [([EInt 0], SBlock [SAssign [LLoc "html"] [EGlob "aitch.htmlNull"]]);
       ([EInt 34], SBlock [SAssign [LLoc "html"] [EGlob "aitch.htmlQuot"]]);
       ([EInt 39], SBlock [SAssign [LLoc "html"] [EGlob "aitch.htmlApos"]]);
       ([EInt 38], SBlock [SAssign [LLoc "html"] [EGlob "aitch.htmlAmp"]]);
       ([EInt 60], SBlock [SAssign [LLoc "html"] [EGlob "aitch.htmlLt"]]);
       ([EInt 62], SBlock [SAssign [LLoc "html"] [EGlob "aitch.htmlGt"]])] (SBlock [SContinue]);
     SAssign [LBlank; LBlank] [EMethod (ELoc "b") "Write" [ESub (ELoc "sb") (Some (ELoc "last")) (Some (ELoc "i"))] false];
     SAssign [LBlank; LBlank] [EMethod (ELoc "b") "Write" [ELoc "html"] false];
     SAssign [LLoc "last"] [EBin OAdd (ELoc "i") (EInt 1)]].
Definition byte_items (i : nat) (b : bytes) : list (prog (gv * gv)) :=
  map (fun '(i, c) => PRet (VInt (Z.of_nat i), VInt (Z_of_ascii c))) (combine (seq i (length b)) b).
Definition buffer (b : bytes) : obj := OStruct "bytes.Buffer" [("buf"%string, VBytes b)].

Lemma simb_buf_write {A' B} h b dv d (f : list gv -> prog A') (m : io U B) Q :
  base <= length h -> bytes_of dv = Some d ->
  (forall vs, length vs = 2 -> sim (f vs) (h ++ [buffer (b ++ d)]) m Q) ->
  sim (pbind (invoke (VPtr (length h)) "Write" [dv] false) f) (h ++ [buffer b]) m Q.
Proof.
  intros HF Hd K. cbn [invoke]. apply sim_assoc. eapply simb_load; [apply nth_app_new|]. unfold buffer at 1. cbn beta iota.
  lazy [assoc String.eqb Ascii.eqb Bool.eqb]. unfold buffer_method. lazy [assoc String.eqb Ascii.eqb Bool.eqb]. rewrite Hd.
  apply sim_assoc. apply simb_update; [exact HF|]. rewrite set_last. cbn [pbind]. apply K. reflexivity.
Qed.
Lemma sub_bytes b lo hi : lo <= hi -> hi <= length b ->
  sub_slice (VBytes b) (Some (VInt (Z.of_nat lo))) (Some (VInt (Z.of_nat hi))) = @PRet W gv (VBytes (Escape.subslice b lo hi)).
Proof.
  intros H1 H2. cbn [sub_slice]. rewrite !(proj2 (Z.leb_le _ _)) by lia. rewrite !Nat2Z.id.
  rewrite !(proj2 (Nat.leb_le _ _)) by lia. reflexivity.
Qed.

Lemma sub_bytes_end b lo : lo <= length b ->
  sub_slice (VBytes b) (Some (VInt (Z.of_nat lo))) None = @PRet W gv (VBytes (skipn lo b)).
Proof.
  intros H1. cbn [sub_slice]. rewrite !(proj2 (Z.leb_le _ _)) by lia. rewrite !Nat2Z.id.
  rewrite !(proj2 (Nat.leb_le _ _)) by lia. cbn [andb]. unfold Escape.subslice. do 2 f_equal. apply firstn_all2. rewrite skipn_length. lia.
Qed.
Lemma glob_null : global C "aitch.htmlNull" = PRet (VBytes (B "")). Proof. reflexivity. Qed.
Lemma glob_quot : global C "aitch.htmlQuot" = PRet (VBytes (B "&quot;")). Proof. reflexivity. Qed.
Lemma glob_apos : global C "aitch.htmlApos" = PRet (VBytes (B "&apos;")). Proof. reflexivity. Qed.
Lemma glob_amp : global C "aitch.htmlAmp" = PRet (VBytes (B "&amp;")). Proof. reflexivity. Qed.
Lemma glob_lt : global C "aitch.htmlLt" = PRet (VBytes (B "&lt;")). Proof. reflexivity. Qed.
Lemma glob_gt : global C "aitch.htmlGt" = PRet (VBytes (B "&gt;")). Proof. reflexivity. Qed.
Definition esc_env (sb : bytes) (lb : loc) (last : nat) (s : gv) : venv :=
  [("last"%string, VInt (Z.of_nat last)); ("b"%string, VPtr lb); ("sb"%string, VBytes sb); ("s"%string, s)].
Ltac escaped g :=
  eapply simb_eq; [apply g|]; steps; eapply simb_eq; [apply sub_bytes; lia|]; steps;
  eapply simb_buf_write; [assumption|reflexivity|]; intros [|v1 [|v2 [|]]] Hvs; try discriminate; steps;
  eapply simb_buf_write; [assumption|reflexivity|]; intros [|v3 [|v4 [|]]] Hvs2; try discriminate; steps;
  lazymatch goal with
  | IH : forall _ _ _, _ -> _ -> _ -> @GoRun.sim _ _ _ _ _ _ (pbind (range_with _ _ _ (byte_items _ ?rest) _) _) _ _ _,
    L' : S ?i + _ = length ?sb, F : forall _, Some _ = Some _ -> _ |- @GoRun.sim _ _ _ _ _ _ (pbind (range_with _ _ _ ?it ?en) _) (?h ++ _) _ _ =>
      replace (Z.of_nat i + 1)%Z with (Z.of_nat (S i)) by lia;
      change it with (byte_items (S i) rest); 
      apply IH; [exact L'|lia|]; apply F; reflexivity
  end.
Lemma esc_turns {A' B} sb s h (f : flow * venv -> prog A') (m : io U B) Q : base <= length h ->
  forall rest i last b, i + length rest = length sb -> last <= i ->
  (forall last' b', last' <= length sb -> b' ++ skipn last' sb = esc_loop sb rest i last b ->
     sim (f (FNext, esc_env sb (length h) last' s)) (h ++ [buffer b']) m Q) ->
  sim (pbind (range_with (exec C esc_body) "i" "c" (byte_items i rest) (esc_env sb (length h) last s)) f) (h ++ [buffer b]) m Q.
Proof.
  intro HF. induction rest as [|c rest IH]; intros i last b L Hl K.
  - cbn [byte_items length seq combine map range_with pbind]. apply K; [cbn [length] in L; lia|reflexivity].
  - unfold byte_items. cbn [length seq combine map range_with]. apply sim_assoc. cbn [pbind]. unfold push, esc_env.
    lazy [String.eqb Ascii.eqb Bool.eqb]. cbn [pbind]. steps.
    unfold switch_with. steps. cbn [matches fold_right equal lift].
    assert (L' : S i + length rest = length sb) by (cbn [length] in L; lia).
    assert (F : forall html, html_of c = Some html ->
      forall last' b', last' <= length sb -> b' ++ skipn last' sb = esc_loop sb rest (S i) (S i) ((b ++ Escape.subslice sb last i) ++ html) ->
      sim (f (FNext, esc_env sb (length h) last' s)) (h ++ [buffer b']) m Q).
    { intros html H last' b' H1 H2. apply K; [exact H1|]. cbn [esc_loop]. rewrite H, H2, <- app_assoc. reflexivity. }
    assert (N : html_of c = None -> forall last' b', last' <= length sb -> b' ++ skipn last' sb = esc_loop sb rest (S i) last b ->
      sim (f (FNext, esc_env sb (length h) last' s)) (h ++ [buffer b']) m Q).
    { intros H last' b' H1 H2. apply K; [exact H1|]. cbn [esc_loop]. rewrite H, H2. reflexivity. }
    clear K. unfold html_of in F, N.
    change (Z_of_ascii c =? 0)%Z with (Z_of_ascii c =? Z_of_ascii c_nul)%Z. change (Z_of_ascii c =? 34)%Z with (Z_of_ascii c =? Z_of_ascii c_quot)%Z.
    change (Z_of_ascii c =? 39)%Z with (Z_of_ascii c =? Z_of_ascii c_apos)%Z. change (Z_of_ascii c =? 38)%Z with (Z_of_ascii c =? Z_of_ascii c_amp)%Z.
    change (Z_of_ascii c =? 60)%Z with (Z_of_ascii c =? Z_of_ascii c_lt)%Z. change (Z_of_ascii c =? 62)%Z with (Z_of_ascii c =? Z_of_ascii c_gt)%Z.
    rewrite !code_eqb, !orb_false_r.
    destruct (Ascii.eqb c c_nul); steps; [escaped glob_null|].
    destruct (Ascii.eqb c c_quot); steps; [escaped glob_quot|].
    destruct (Ascii.eqb c c_apos); steps; [escaped glob_apos|].
    destruct (Ascii.eqb c c_amp); steps; [escaped glob_amp|].
    destruct (Ascii.eqb c c_lt); steps; [escaped glob_lt|].
    destruct (Ascii.eqb c c_gt); steps; [escaped glob_gt|].
    change (map _ (combine (seq (S i) (length rest)) rest)) with (byte_items (S i) rest).
    change [("last"%string, VInt (Z.of_nat last)); ("b"%string, VPtr (length h)); ("sb"%string, VBytes sb); ("s"%string, s)] with (esc_env sb (length h) last s).
    apply IH; [exact L'|lia|]. apply N; reflexivity.
Qed.

Lemma simb_escape_f {A' B} s h (f : list gv -> prog A') (m : io U B) Q : base <= length h ->
  (forall h', grown h h' -> sim (f [VBytes (html_escape_string s)]) h' m Q) ->
  sim (pbind (PCall (CFun "aitch.htmlEscapeString") [VStr s] false PRet) f) h m Q.
Proof.
  intros HF K. unfold html_escape_string in K. cbn [pbind]. enter. steps.
  unfold external. lazy [String.eqb Ascii.eqb Bool.eqb]. steps.
  change (existsb _ s) with (contains_special s). destruct (contains_special s); cbn [negb] in K; steps.
  - apply simb_eq with (PRet (byte_items 0 s)); [reflexivity|]. steps.
    lazymatch goal with |- @GoRun.sim _ _ _ _ _ _ (pbind (range_with _ _ _ _ ?en) _) (_ ++ [?o]) _ _ =>
      change en with (esc_env s (length h) 0 (VStr s)); change o with (buffer []) end.
    apply esc_turns; [exact HF|reflexivity|lia|]. intros last b Hl Hb. unfold esc_env. steps.
    eapply simb_eq; [apply sub_bytes_end; exact Hl|]. steps.
    eapply simb_buf_write; [assumption|reflexivity|]. intros [|v1 [|v2 [|]]] Hvs; try discriminate. steps.
    rewrite Hb. cbn [invoke]. apply sim_assoc. eapply simb_load; [apply nth_app_new|]. unfold buffer at 1. cbn beta iota.
    lazy [assoc String.eqb Ascii.eqb Bool.eqb]. unfold buffer_method. lazy [assoc String.eqb Ascii.eqb Bool.eqb]. steps.
    apply K, grown_app.
  - apply K, grown_refl.
Qed.
End Refine.
Section Ground.
Context {W : UserWorld}.
Variable M : go_mode.
Notation C := (go_config M).
Notation sim := (sim C).
Lemma simb_escape {A' B} s h (f : list gv -> prog A') (m : io U B) Q :
  (forall h', grown h h' -> sim (f [VBytes (html_escape_string s)]) h' m Q) ->
  sim (pbind (PCall (CFun "aitch.htmlEscapeString") [VStr s] false PRet) f) h m Q.
Proof. exact (simb_escape_f M s h f m Q (Nat.le_0_l _)). Qed.
End Ground.
