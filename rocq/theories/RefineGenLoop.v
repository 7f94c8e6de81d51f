(** The loop over the tokens, and GenerateCode as a whole. *)
From Coq Require Import ZArith Lia.
From Verif Require Import Bytes IO IOFacts Nodes Values Build Slices
  GoSyntax SourceLib Source GoSem GoRun GoRep GoStep GoOwn RefineStart RefineMake Generator RefineGen.
From Verif Require Tables.
Local Open Scope nat_scope.
Local Notation "x <-- p ;; q" := (pbind p (fun x => q))
  (at level 100, p at next level, right associativity).

Lemma trim_left_all cut s : forallb (cut_by cut) s = true -> trim_left cut s = [].
Proof. induction s as [|c s IH]; [reflexivity|]. cbn [forallb trim_left]. intro H. apply andb_true_iff in H. destruct H as [H1 H2]. rewrite H1. auto. Qed.
Lemma trim_left_some cut s : forallb (cut_by cut) s = false -> exists c s', trim_left cut s = c :: s' /\ cut_by cut c = false.
Proof.
  induction s as [|c s IH]; [discriminate|]. cbn [forallb trim_left]. destruct (cut_by cut c) eqn:X; cbn [andb]; [exact IH|]. intros _. eauto.
Qed.
Lemma trim_blank s : beq (trim [ascii_of_nat 32; ascii_of_nat 10; ascii_of_nat 9] s) [] = trims_empty s.
Proof.
  set (cut := [ascii_of_nat 32; ascii_of_nat 10; ascii_of_nat 9]).
  assert (Z : forallb (cut_by cut) s = trims_empty s).
  { unfold trims_empty. induction s as [|c s IH]; [reflexivity|]. cbn [forallb]. rewrite IH. f_equal.
    unfold cut_by, blank_char. cbn [existsb cut]. rewrite orb_false_r, orb_assoc. reflexivity. }
  rewrite <- Z. unfold trim. destruct (forallb (cut_by cut) s) eqn:H.
  - rewrite (trim_left_all _ _ H). reflexivity.
  - destruct (trim_left_some _ _ H) as (c & s' & -> & Hc).
    assert (Y : forallb (cut_by cut) (rev (c :: s')) = false).
    { cbn [rev]. rewrite forallb_app. cbn [forallb]. rewrite Hc. cbn. apply andb_false_r. }
    destruct (trim_left_some _ _ Y) as (c2 & s2 & -> & _). cbn [rev]. destruct (rev s2); reflexivity.
Qed.

Definition for_body (fd : fundecl) : stmt :=
  match nth 16 (statements fd) SSkip with SFor _ _ _ b => b | _ => SSkip end.
Definition html_for_body : stmt :=
  ltac:(let r := eval lazy [statements for_body nth f_html_GenerateCode] in (for_body f_html_GenerateCode) in exact r).
Definition svg_for_body : stmt :=
  ltac:(let r := eval lazy [statements for_body nth f_svg_GenerateCode] in (for_body f_svg_GenerateCode) in exact r).

Section Loop.
Context {W : UserWorld}.
Variable M : go_mode.
Notation C := (go_config M).
Notation sim := (sim C).
Variables li le lt l1 l2 l3 : loc.
Hypothesis LE : li <> le.
Hypothesis L1 : l1 <> li /\ l1 <> le /\ l1 <> lt.
Hypothesis L2 : l2 <> li /\ l2 <> le /\ l2 <> lt.
Hypothesis L3 : l3 <> lt.
Hypothesis LT : lt <> li /\ lt <> le.
Variables (pkg : string) (g : dialect) (elems attrs : list (string * string)) (bools : list string).
Hypothesis G1 : g_pkg g = B pkg.
Variable fin : error.
Variables (cw ci cd ce cs : @gv W) (en0 : @venv W).
Hypothesis Hw : write_ok M li le cw.
Hypothesis Hd : dec_ok M li le cd.
Hypothesis He : escape_ok M ce.
Hypothesis Hst : start_ok M li le pkg g elems attrs bools l1 l2 l3 cs.
Variable cf : @gv W.
Definition loop_env (eof : bool) : venv :=
  [("writeElementStart"%string, cs); ("escape"%string, ce); ("decIndent"%string, cd); ("incIndent"%string, ci); ("write"%string, cw);
   ("funcName"%string, cf); ("tab"%string, VInt 9); ("nl"%string, VBytes [nl]); ("err"%string, VPtr le); ("eof"%string, VBool eof);
   ("indent"%string, VPtr li); ("tokenizer"%string, VPtr lt)] ++ en0.
Definition state (h : heap) (n : nat) (e : option error) (ts : list gtok) (now : gv) : Prop :=
  boxes li le h n e /\ maps li le pkg elems attrs bools l1 l2 l3 h /\ nth_error h lt = Some (tokenizer (VReader ts fin) now).
Lemma state_maps h h' : (forall l o, l <> li -> l <> le -> l <> lt -> nth_error h l = Some o -> nth_error h' l = Some o) ->
  maps li le pkg elems attrs bools l1 l2 l3 h -> maps li le pkg elems attrs bools l1 l2 l3 h'.
Proof.
  intros O (H1 & H2 & H3). split; [apply O; tauto|]. split; [apply O; tauto|]. destruct H3 as [H3|(X & Y & H3)]; [auto|right]. split; [exact X|]. split; [exact Y|]. apply O; auto.
Qed.
Lemma state_others h h' n e n' e' ts now : others li le h h' -> boxes li le h' n' e' -> state h n e ts now -> state h' n' e' ts now.
Proof.
  intros O HB (_ & H2 & H3). split; [exact HB|]. split; [eapply state_maps; [|exact H2]; intros; apply O; auto|]. apply O; tauto.
Qed.
Lemma state_set h n e ts now ts' now' : state h n e ts now -> state (set_nth h lt (tokenizer (VReader ts' fin) now')) n e ts' now'.
Proof.
  intros ((A1 & A2) & A3 & A4). split; [split; rewrite nth_set_other by intuition; assumption|]. split.
  - eapply state_maps; [|exact A3]. intros. rewrite nth_set_other by auto. assumption.
  - apply nth_set_same. eapply nth_lt; eauto.
Qed.
Ltac invoke_lib S :=
  unfold invoke; apply sim_assoc; eapply simb_load; [exact (proj2 (proj2 S))|]; unfold tokenizer; cbn [assoc String.eqb Ascii.eqb Bool.eqb];
  eapply simb_lib; [reflexivity|].
Lemma simb_next t ts h n e now sp {A' B'} (f : list gv -> prog A') (m : io U B') Q : state h n e (t :: ts) now ->
  (forall h', state h' n e ts (VReader [t] fin) -> sim (f [VInt (token_type t)]) h' m Q) ->
  sim (pbind (invoke (VPtr lt) "Next" [] sp) f) h m Q.
Proof.
  intros S K. invoke_lib S.
  apply (simb_eq M) with (X' := tokenizer_next (VPtr lt)); [reflexivity|]. unfold tokenizer_next. apply sim_assoc.
  eapply simb_field; [exact (proj2 (proj2 S))|reflexivity|]. apply sim_assoc. apply simb_update; [apply Nat.le_0_l|]. cbn [pbind]. apply K. eapply state_set, S.
Qed.
Lemma simb_next_end h n e now sp {A' B'} (f : list gv -> prog A') (m : io U B') Q : state h n e [] now ->
  (forall h', state h' n e [] (VReader [] fin) -> sim (f [VInt 0]) h' m Q) ->
  sim (pbind (invoke (VPtr lt) "Next" [] sp) f) h m Q.
Proof.
  intros S K. invoke_lib S.
  apply (simb_eq M) with (X' := tokenizer_next (VPtr lt)); [reflexivity|]. unfold tokenizer_next. apply sim_assoc.
  eapply simb_field; [exact (proj2 (proj2 S))|reflexivity|]. apply sim_assoc. apply simb_update; [apply Nat.le_0_l|]. cbn [pbind]. apply K. eapply state_set, S.
Qed.
Lemma simb_token t ts h n e sp {A' B'} (f : list gv -> prog A') (m : io U B') Q : state h n e ts (VReader [t] fin) ->
  (forall h' av, state h' n e ts (VReader [t] fin) -> slice_is h' av (map attribute_value (token_attrs t)) -> away li le av ->
     sim (f [VStruct "html.Token" [("Type"%string, VInt (token_type t)); ("Data"%string, VStr (token_data t)); ("Attr"%string, av)]]) h' m Q) ->
  sim (pbind (invoke (VPtr lt) "Token" [] sp) f) h m Q.
Proof.
  intros S K. invoke_lib S.
  apply (simb_eq M) with (X' := tokenizer_token (VPtr lt)); [reflexivity|]. unfold tokenizer_token. apply sim_assoc.
  eapply simb_field; [exact (proj2 (proj2 S))|reflexivity|]. unfold new_slice. apply sim_assoc. apply sim_assoc. apply simb_alloc. cbn [pbind].
  destruct S as ((A1 & A2) & A3 & A4). apply K.
  - assert (O : forall l o, nth_error h l = Some o -> nth_error (h ++ [OArr (map attribute_value (token_attrs t))]) l = Some o) by (intros; apply nth_app_old; assumption).
    split; [split; apply O; assumption|]. split; [|apply O; assumption]. eapply state_maps; [|exact A3]. auto.
  - cbn [slice_is]. eexists. split; [apply nth_app_new|]. split; [lia|]. rewrite firstn_all. reflexivity.
  - cbn [away]. apply nth_lt in A1. apply nth_lt in A2. unfold loc in *. lia.
Qed.
Lemma simb_err ts h n e sp {A' B'} (f : list gv -> prog A') (m : io U B') Q : state h n e ts (VReader [] fin) ->
  sim (f [VErr fin]) h m Q ->
  sim (pbind (invoke (VPtr lt) "Err" [] sp) f) h m Q.
Proof.
  intros S K. invoke_lib S.
  apply (simb_eq M) with (X' := tokenizer_err (VPtr lt)); [reflexivity|]. unfold tokenizer_err. apply sim_assoc.
  eapply simb_field; [exact (proj2 (proj2 S))|reflexivity|]. exact K.
Qed.

Lemma simb_case_no ex en v d x body css v2 h {A' B'} (f : flow * venv -> prog A') (m : io U B') Q :
  evals C [EExt x] en = PRet [v2] -> matches v [v2] = Some false ->
  sim (pbind (switch_with C ex en v d css) f) h m Q -> sim (pbind (switch_with C ex en v d (([EExt x], body) :: css)) f) h m Q.
Proof. intros H1 H2 K. eapply simb_eq; [|exact K]. cbn [switch_with]. rewrite H1. cbn [pbind]. rewrite H2. reflexivity. Qed.
Lemma simb_case_yes ex en v d x body css v2 h {A' B'} (f : flow * venv -> prog A') (m : io U B') Q :
  evals C [EExt x] en = PRet [v2] -> matches v [v2] = Some true ->
  sim (pbind (ex body) f) h m Q -> sim (pbind (switch_with C ex en v d (([EExt x], body) :: css)) f) h m Q.
Proof. intros H1 H2 K. eapply simb_eq; [|exact K]. cbn [switch_with]. rewrite H1. cbn [pbind]. rewrite H2. reflexivity. Qed.
Ltac cases :=
  repeat (eapply simb_case_no; [reflexivity|reflexivity|]);
  try (eapply simb_case_yes; [reflexivity|reflexivity|]; cbv beta); steps.
Lemma simb_dec h n e {A A' B'} (k : list gv -> prog A) (f : A -> prog A') (m : io U B') Q : boxes li le h n e ->
  (forall h', boxes li le h' (pred n) e -> others li le h h' -> sim (pbind (k []) f) h' m Q) ->
  sim (pbind (PCall (CVal cd) [] false k) f) h m Q.
Proof.
  intros HB K. change m with (bind (Ret tt) (fun _ => m)). eapply simb_pcall; [apply Hd, HB|]. intros vs h' [] (-> & HB' & O). apply K; assumption.
Qed.
Lemma simb_trim c d sp h {A' B'} (f : list gv -> prog A') (m : io U B') Q :
  sim (f [VStr (trim c d)]) h m Q -> sim (pbind (external C "strings.Trim" [VStr d; VStr c] sp) f) h m Q.
Proof. intro K. exact K. Qed.
Ltac token S :=
  eapply simb_token; [exact S|]; clear S;
  let h := fresh "h" in let av := fresh "av" in let HA := fresh "HA" in let HV := fresh "HV" in
  intros h av S HV HA; cbn [token_type token_data token_attrs] in *; steps.
Ltac esc := eapply simb_escape; [exact He|]; steps.
Ltac calls S spec :=
  apply sim_eta_model; eapply simb_pcall; [spec|];
  let O := fresh "O" in let HB := fresh "HB" in let now' := fresh "now" in
  intros ? ? ? (-> & HB & O); steps; apply sim_ret; split; [reflexivity|]; eexists; eapply state_others; [exact O|exact HB|exact S].
Lemma html_turn t ts h n now : pkg = "html"%string -> g_doctype g = true -> state h n None (t :: ts) now ->
  sim (exec C html_for_body (loop_env false)) h (writes None (fst (tok_writes g n t)))
    (fun r h' e' => r = (FNext, loop_env false) /\ exists now', state h' (snd (tok_writes g n t)) e' ts now').
Proof.
  intros PH GD S. apply sim_eta. unfold loop_env. cbn [app]. unfold html_for_body. steps.
  eapply simb_next; [exact S|]. clear S. intros h1 S1. steps.
  destruct t as [d|nm ats|nm ats|nm|d|d]; cbn [token_type]; cases; cbn [tok_writes fst snd].
  - token S1. apply simb_trim; steps. change (B "") with (@nil ascii). rewrite trim_blank. destruct (trims_empty d); cbn [negb]; steps.
    + apply sim_ret. split; [reflexivity|]. eexists. exact S1.
    + esc. rewrite <- app_assoc, G1, PH. calls S1 ltac:(apply Hw, S1).
  - token S1. calls S1 ltac:(apply Hst; [apply S1|apply S1|eassumption..]).
  - token S1. calls S1 ltac:(apply Hst; [apply S1|apply S1|eassumption..]).
  - eapply simb_dec; [apply S1|]. intros h2 HB2 O2. steps. assert (S2 : state h2 (pred n) None ts (VReader [GEnd nm] fin)) by (eapply state_others; eassumption).
    calls S2 ltac:(apply Hw, S2).
  - token S1. esc. rewrite <- app_assoc, G1, PH. calls S1 ltac:(apply Hw, S1).
  - rewrite GD. token S1. esc. rewrite <- app_assoc, G1, PH. calls S1 ltac:(apply Hw, S1).
Qed.
Lemma svg_turn t ts h n now : pkg = "svg"%string -> g_doctype g = false -> state h n None (t :: ts) now ->
  sim (exec C svg_for_body (loop_env false)) h (writes None (fst (tok_writes g n t)))
    (fun r h' e' => r = (FNext, loop_env false) /\ exists now', state h' (snd (tok_writes g n t)) e' ts now').
Proof.
  intros PH GD S. apply sim_eta. unfold loop_env. cbn [app]. unfold svg_for_body. steps.
  eapply simb_next; [exact S|]. clear S. intros h1 S1. steps.
  destruct t as [d|nm ats|nm ats|nm|d|d]; cbn [token_type]; cases; cbn [tok_writes fst snd].
  - token S1. apply simb_trim; steps. change (B "") with (@nil ascii). rewrite trim_blank. destruct (trims_empty d); cbn [negb]; steps.
    + apply sim_ret. split; [reflexivity|]. eexists. exact S1.
    + esc. rewrite <- app_assoc, G1, PH. calls S1 ltac:(apply Hw, S1).
  - token S1. calls S1 ltac:(apply Hst; [apply S1|apply S1|eassumption..]).
  - token S1. calls S1 ltac:(apply Hst; [apply S1|apply S1|eassumption..]).
  - eapply simb_dec; [apply S1|]. intros h2 HB2 O2. steps. assert (S2 : state h2 (pred n) None ts (VReader [GEnd nm] fin)) by (eapply state_others; eassumption).
    calls S2 ltac:(apply Hw, S2).
  - token S1. esc. rewrite <- app_assoc, G1, PH. calls S1 ltac:(apply Hw, S1).
  - rewrite GD. unfold switch_with. steps. apply sim_ret. split; [reflexivity|]. eexists. exact S1.
Qed.
Lemma state_err h n e e' ts now (en : venv) {A' B'} (f : venv -> prog A') (m : io U B') Q : state h n e ts now ->
  (forall h', state h' n e' ts now -> sim (f en) h' m Q) ->
  sim (pbind (store (RField (VPtr le) "v") (verr e') en) f) h m Q.
Proof.
  intros S K. pose proof S as ((A1 & A2) & _). eapply (simb_set_err M li le LE); [exact A1|exact A2|]. intros h' X1 X2 O. apply K.
  eapply state_others; [exact O|split; [exact X1|exact X2]|exact S].
Qed.
Lemma html_end h n now : state h n None [] now ->
  sim (exec C html_for_body (loop_env false)) h (Ret tt)
    (fun r h' _ => r = (FNext, loop_env (fin =? io_EOF)) /\ exists now', state h' n (if fin =? io_EOF then None else Some fin) [] now').
Proof.
  intros S. apply sim_eta. unfold loop_env. cbn [app]. unfold html_for_body. steps.
  eapply simb_next_end; [exact S|]. clear S. intros h1 S1. steps. cases.
  eapply simb_err; [exact S1|]. steps. change (VErr fin) with (verr (W := W) (Some fin)). eapply state_err; [exact S1|]. clear S1. intros h2 S2.
  pose proof S2 as ((_ & E2) & _). unfold box in E2. steps.
  destruct (fin =? io_EOF); steps.
  - eapply (state_err _ _ _ None); [exact S2|]. intros h3 S3. steps. apply sim_ret. split; [reflexivity|]. eexists. exact S3.
  - apply sim_ret. split; [reflexivity|]. eexists. exact S2.
Qed.
Lemma svg_end h n now : state h n None [] now ->
  sim (exec C svg_for_body (loop_env false)) h (Ret tt)
    (fun r h' _ => r = (FNext, loop_env (fin =? io_EOF)) /\ exists now', state h' n (if fin =? io_EOF then None else Some fin) [] now').
Proof.
  intros S. apply sim_eta. unfold loop_env. cbn [app]. unfold svg_for_body. steps.
  eapply simb_next_end; [exact S|]. clear S. intros h1 S1. steps. cases.
  eapply simb_err; [exact S1|]. steps. change (VErr fin) with (verr (W := W) (Some fin)). eapply state_err; [exact S1|]. clear S1. intros h2 S2.
  pose proof S2 as ((_ & E2) & _). unfold box in E2. steps.
  destruct (fin =? io_EOF); steps.
  - eapply (state_err _ _ _ None); [exact S2|]. intros h3 S3. steps. apply sim_ret. split; [reflexivity|]. eexists. exact S3.
  - apply sim_ret. split; [reflexivity|]. eexists. exact S2.
Qed.

(** The loop, for a body that does what it should. *)
Definition gen_cond : expr := EAnd (EBin OEq (EField (ELoc "err") "v") ENil) (ENot (ELoc "eof")).
Definition for_loop (b : stmt) : venv -> prog (venv + flow * venv) :=
  fun en2 =>
    v <-- eval1 C gen_cond en2 ;; b' <-- truth v ;;
    if b' then
      r <-- exec C b en2 ;;
      (let '(f, en3) := r in
       match f with
       | FNext | FContinue =>
           r2 <-- exec C SSkip (leave en2 en3) ;; (let '(_, en4) := r2 in PRet (inl en4))
       | FBreak => PRet (inr (FNext, leave en2 en3))
       | FReturn vs => PRet (inr (FReturn vs, leave en2 en3))
       end)
    else PRet (inr (FNext, en2)).
Definition fin' : option error := if fin =? io_EOF then None else Some fin.
Definition last_lines (n : nat) (e : option error) : io U (option error) :=
  match e with None => writes None (line (pred n) (B ")" ++ [nl])) | Some _ => Ret e end.
Lemma cond_ok eof h n e ts now {A' B'} (k : gv -> prog A') (m : io U B') Q : state h n e ts now ->
  sim (k (VBool match e with None => negb eof | Some _ => false end)) h m Q ->
  sim (pbind (eval1 C gen_cond (loop_env eof)) k) h m Q.
Proof.
  intros S K. pose proof S as ((_ & E2) & _). unfold box in E2. unfold gen_cond, loop_env. cbn [app]. destruct e; cbn [verr] in E2; steps; exact K.
Qed.
Lemma leave_env a b : leave (loop_env a) (loop_env b) = loop_env b.
Proof. apply (leave_by _ _ _ 0); reflexivity. Qed.
Lemma loop_ok b :
  (forall t ts h n now, state h n None (t :: ts) now ->
   sim (exec C b (loop_env false)) h (writes None (fst (tok_writes g n t)))
    (fun r h' e' => r = (FNext, loop_env false) /\ exists now', state h' (snd (tok_writes g n t)) e' ts now')) ->
  (forall h n now, state h n None [] now ->
   sim (exec C b (loop_env false)) h (Ret tt)
    (fun r h' _ => r = (FNext, loop_env (fin =? io_EOF)) /\ exists now', state h' n (if fin =? io_EOF then None else Some fin) [] now')) ->
  forall {A A'} (k : flow * venv -> prog A) (f : A -> prog A') Q,
  (forall eof h n e ts now, state h n e ts now -> sim (pbind (k (FNext, loop_env eof)) f) h (last_lines n e) Q) ->
  forall ts h n e now, state h n e ts now ->
  sim (pbind (PLoop (for_loop b) (loop_env false) k) f) h (loop g ts fin' n e) Q.
Proof.
  intros T N A A' k f Q K. induction ts as [|t ts IH]; intros h n e now S; apply simb_loop; unfold for_loop at 1; apply sim_assoc; (eapply cond_ok; [exact S|]); destruct e as [e|]; cbn [negb truth pbind loop].
  - apply (K _ _ _ (Some e) _ _ S).
  - apply sim_assoc. eapply sim_bind_l; [eapply N, S|]. intros r h' (-> & now' & S'). rewrite leave_env. cbn [exec pbind].
    apply simb_loop. unfold for_loop at 1. apply sim_assoc. eapply cond_ok; [exact S'|]. unfold fin'. destruct (fin =? io_EOF); cbn [negb truth pbind]; eapply (K _ _ _ _ _ _ S').
  - apply (K _ _ _ (Some e) _ _ S).
  - destruct (tok_writes g n t) as [ds n'] eqn:X. pose proof (T t ts h n now S) as Y. rewrite X in Y. cbn [fst snd] in Y.
    apply sim_assoc. eapply sim_bind; [exact Y|]. intros r h' e' (-> & now' & S'). rewrite leave_env. cbn [exec pbind]. eapply IH, S'.
Qed.
End Loop.
