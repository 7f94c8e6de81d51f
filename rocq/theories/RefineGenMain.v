(** html.GenerateCode and svg.GenerateCode of the Go source. *)
From Coq Require Import ZArith Lia.
From Verif Require Import Bytes IO IOFacts Nodes Values Build Slices
  GoSyntax SourceLib Source GoSem GoRun GoRep GoStep GoOwn RefineStart RefineMake Generator RefineGen RefineGenLoop.
From Verif Require Tables.
Local Open Scope nat_scope.
Local Notation "x <-- p ;; q" := (pbind p (fun x => q))
  (at level 100, p at next level, right associativity).

Section Main.
Context {W : UserWorld}.
Variable M : go_mode.
Notation C := (go_config M).
Notation sim := (sim C).

(** ** The tables *)
Definition func_entries (pkg : string) (t : list (string * string)) : list (expr * expr) :=
  map (fun '(k, f) => (EStr (B k), EFun (pkg ++ "." ++ f)%string)) t.
Definition true_entries (t : list string) : list (expr * expr) := map (fun k => (EStr (B k), EBool true)) t.
Lemma entries_funcs glob pkg t en :
  entries_with (fun e => eval_with C glob e en) (func_entries pkg t) = PRet (func_map pkg t).
Proof. induction t as [|[k f] t IH]; [reflexivity|]. cbn [func_entries func_map map entries_with]. fold (func_entries pkg t). rewrite IH. reflexivity. Qed.
Lemma entries_true glob t en :
  entries_with (fun e => eval_with C glob e en) (true_entries t) = PRet (bool_map t).
Proof. induction t as [|k t IH]; [reflexivity|]. cbn [true_entries bool_map map entries_with]. fold (true_entries t). rewrite IH. reflexivity. Qed.

Definition html_mappings : fundecl :=
  Fun [] false [("elems", "map[string]any"); ("attrs", "map[string]any"); ("boolAttrs", "map[string]bool")]%string
    (SBlock [SAssign [LLoc "elems"] [EMapLit (func_entries "html" Tables.html_generator_elements)];
             SAssign [LLoc "attrs"] [EMapLit (func_entries "html" Tables.html_generator_attributes)];
             SAssign [LLoc "boolAttrs"] [EMapLit (true_entries Tables.html_generator_booleans)];
             SReturn [ELoc "elems"; ELoc "attrs"; ELoc "boolAttrs"]]).
Definition svg_mappings : fundecl :=
  Fun [] false [("elems", "map[string]any"); ("attrs", "map[string]any")]%string
    (SBlock [SAssign [LLoc "elems"] [EMapLit (func_entries "svg" Tables.svg_generator_elements)];
             SAssign [LLoc "attrs"] [EMapLit (func_entries "svg" Tables.svg_generator_attributes)];
             SReturn [ELoc "elems"; ELoc "attrs"]]).
Lemma html_mappings_eq : f_html_mappings = html_mappings. Proof. vm_compute. reflexivity. Qed.
Lemma svg_mappings_eq : f_svg_mappings = svg_mappings. Proof. vm_compute. reflexivity. Qed.

Definition html_maps : list obj :=
  [OMap (func_map "html" Tables.html_generator_elements); OMap (func_map "html" Tables.html_generator_attributes);
   OMap (bool_map Tables.html_generator_booleans)].
Definition svg_maps : list obj :=
  [OMap (func_map "svg" Tables.svg_generator_elements); OMap (func_map "svg" Tables.svg_generator_attributes)].
Lemma simb_html_mappings h {A A' B'} (k : list gv -> prog A) (f : A -> prog A') (m : io U B') Q :
  sim (pbind (k [VMap (length h); VMap (S (length h)); VMap (S (S (length h)))]) f) (h ++ html_maps) m Q ->
  sim (pbind (PCall (CFun "html.mappings") [] false k) f) h m Q.
Proof.
  intro K. apply simb_call. apply (simb_eq M) with (X' := call_fun C html_mappings [] [] false).
  { cbn [body_of]. replace (lookup_fun C "html.mappings") with (Some f_html_mappings) by reflexivity. rewrite html_mappings_eq. reflexivity. }
  unfold html_mappings. steps.
  eapply simb_eq; [apply entries_funcs|]. steps. eapply simb_eq; [apply entries_funcs|]. steps. eapply simb_eq; [apply entries_true|]. steps.
  rewrite !app_length, <- !app_assoc. cbn [length app]. rewrite <- !Nat.add_assoc, !(Nat.add_comm (length h)). exact K.
Qed.
Lemma simb_svg_mappings h {A A' B'} (k : list gv -> prog A) (f : A -> prog A') (m : io U B') Q :
  sim (pbind (k [VMap (length h); VMap (S (length h))]) f) (h ++ svg_maps) m Q ->
  sim (pbind (PCall (CFun "svg.mappings") [] false k) f) h m Q.
Proof.
  intro K. apply simb_call. apply (simb_eq M) with (X' := call_fun C svg_mappings [] [] false).
  { cbn [body_of]. replace (lookup_fun C "svg.mappings") with (Some f_svg_mappings) by reflexivity. rewrite svg_mappings_eq. reflexivity. }
  unfold svg_mappings. steps.
  eapply simb_eq; [apply entries_funcs|]. steps. eapply simb_eq; [apply entries_funcs|]. steps.
  rewrite !app_length, <- !app_assoc. cbn [length app]. rewrite !(Nat.add_comm (length h)). exact K.
Qed.

Ltac ext1 :=
  lazymatch goal with
  | |- @GoRun.sim _ ?C ?FL0 ?P _ _ (pbind (external ?C' ?x ?args ?sp) ?f) ?h ?m ?Q =>
      let r := eval lazy [external String.eqb Ascii.eqb Bool.eqb] in (external C' x args sp) in
      change (@GoRun.sim _ C FL0 P _ _ (pbind r f) h m Q)
  end.
(** Where things are in memory when the tokens are read. *)
Lemma html_layout h ts fin :
  let h0 := h ++ html_maps in let h1 := h0 ++ [tokenizer (VReader ts fin) VNil] in
  let h2 := h1 ++ [OStruct "box" [("v"%string, VBytes [])]] in let h3 := h2 ++ [OStruct "box" [("v"%string, VNil)]] in
  let l1 := length h in let l2 := S (length h) in let l3 := S (S (length h)) in
  let lt := length h0 in let li := length h1 in let le := length h2 in
  li <> le /\ (l1 <> li /\ l1 <> le /\ l1 <> lt) /\ (l2 <> li /\ l2 <> le /\ l2 <> lt) /\ l3 <> lt /\ (lt <> li /\ lt <> le) /\
  state li le lt l1 l2 l3 "html" Tables.html_generator_elements Tables.html_generator_attributes Tables.html_generator_booleans fin h3 0 None ts VNil.
Proof.
  intros. assert (E0 : lt = 3 + length h) by (unfold lt, h0; rewrite app_length; cbn [html_maps length]; lia).
  assert (E1 : li = 4 + length h) by (unfold li, h1; rewrite app_length; cbn [length]; unfold lt in E0; lia).
  assert (E2 : le = 5 + length h) by (unfold le, h2; rewrite app_length; cbn [length]; unfold li in E1; lia).
  assert (K : forall k o, nth_error html_maps k = Some o -> nth_error h3 (k + length h) = Some o).
  { intros k o H. unfold h3, h2, h1. do 3 apply nth_app_old. unfold h0. rewrite nth_error_app2 by lia. replace (k + length h - length h) with k by lia. exact H. }
  unfold l1, l2, l3 in *. unfold GoSem.loc in *. repeat match goal with |- _ /\ _ => split end; try (unfold GoSem.loc in *; lia).
  unfold state, boxes, maps. repeat match goal with |- _ /\ _ => split end.
  - unfold h3, h2, li. apply nth_app_old, nth_app_new.
  - unfold h3, le. apply nth_app_new.
  - apply (K 0). reflexivity.
  - apply (K 1). reflexivity.
  - right. unfold GoSem.loc in *. split; [lia|]. split; [lia|]. apply (K 2). reflexivity.
  - unfold h3, h2, h1, lt. do 2 apply nth_app_old. apply nth_app_new.
Qed.
Lemma svg_layout h ts fin :
  let h0 := h ++ svg_maps in let h1 := h0 ++ [tokenizer (VReader ts fin) VNil] in
  let h2 := h1 ++ [OStruct "box" [("v"%string, VBytes [])]] in let h3 := h2 ++ [OStruct "box" [("v"%string, VNil)]] in
  let l1 := length h in let l2 := S (length h) in let l3 := length h in
  let lt := length h0 in let li := length h1 in let le := length h2 in
  li <> le /\ (l1 <> li /\ l1 <> le /\ l1 <> lt) /\ (l2 <> li /\ l2 <> le /\ l2 <> lt) /\ l3 <> lt /\ (lt <> li /\ lt <> le) /\
  state li le lt l1 l2 l3 "svg" Tables.svg_generator_elements Tables.svg_generator_attributes [] fin h3 0 None ts VNil.
Proof.
  intros. assert (E0 : lt = 2 + length h) by (unfold lt, h0; rewrite app_length; cbn [svg_maps length]; lia).
  assert (E1 : li = 3 + length h) by (unfold li, h1; rewrite app_length; cbn [length]; unfold lt in E0; lia).
  assert (E2 : le = 4 + length h) by (unfold le, h2; rewrite app_length; cbn [length]; unfold li in E1; lia).
  assert (K : forall k o, nth_error svg_maps k = Some o -> nth_error h3 (k + length h) = Some o).
  { intros k o H. unfold h3, h2, h1. do 3 apply nth_app_old. unfold h0. rewrite nth_error_app2 by lia. replace (k + length h - length h) with k by lia. exact H. }
  unfold l1, l2, l3 in *. unfold GoSem.loc in *. repeat match goal with |- _ /\ _ => split end; try (unfold GoSem.loc in *; lia).
  unfold state, boxes, maps. repeat match goal with |- _ /\ _ => split end.
  - unfold h3, h2, li. apply nth_app_old, nth_app_new.
  - unfold h3, le. apply nth_app_new.
  - apply (K 0). reflexivity.
  - apply (K 1). reflexivity.
  - left. split; reflexivity.
  - unfold h3, h2, h1, lt. do 2 apply nth_app_old. apply nth_app_new.
Qed.
Ltac walk :=
  red_head; repeat lazymatch goal with |- context [VClo _ _] => fail | |- _ => step end.
Ltac abstract_heap LE L1 L2 L3 LT S :=
  revert LE L1 L2 L3 LT S;
  lazymatch goal with |- context [VPtr (length (?H ++ [OStruct "box" [("v"%string, VBytes []) ]]))] =>
    generalize ((H ++ [OStruct "box" [("v"%string, VBytes [])]]) ++ [OStruct "box" [("v"%string, VNil)]]);
    generalize (length (H ++ [OStruct "box" [("v"%string, VBytes [])]])); generalize (length H);
    lazymatch H with ?H0 ++ _ => generalize (length H0) end
  end;
  let lt := fresh "lt" in let li := fresh "li" in let le := fresh "le" in let h := fresh "h" in
  intros lt li le h LE L1 L2 L3 LT S.
Ltac close ok tac c Hc :=
  lazymatch goal with |- context [@VClo _ ?d ?en] =>
    assert (Hc : ok (VClo d en)) by tac; revert Hc; generalize (VClo d en); intros c Hc
  end.
Ltac gen_closures pkg g start_tac M LE :=
  lazymatch goal with S : state ?li ?le ?lt ?l1 ?l2 ?l3 ?p ?el ?at_ ?bo _ _ _ _ _ _ |- _ =>
    let cf := fresh "cf" in let Hcf := fresh "Hcf" in close (funcname_ok M (B pkg)) ltac:(apply funcName_spec) cf Hcf; walk;
    let cw := fresh "cw" in let Hcw := fresh "Hcw" in close (write_ok M li le) ltac:(apply write_spec; [exact LE|reflexivity..]) cw Hcw; walk;
    let ci := fresh "ci" in let Hci := fresh "Hci" in close (inc_ok M li le) ltac:(apply inc_spec; [exact LE|reflexivity..]) ci Hci; walk;
    let cd := fresh "cd" in let Hcd := fresh "Hcd" in close (dec_ok M li le) ltac:(apply dec_spec; [exact LE|reflexivity..]) cd Hcd; walk;
    let ce := fresh "ce" in let Hce := fresh "Hce" in close (escape_ok M) ltac:(apply escape_spec) ce Hce; walk;
    let cs := fresh "cs" in let Hcs := fresh "Hcs" in close (start_ok M li le pkg g el at_ bo l1 l2 l3) ltac:(start_tac li le) cs Hcs; walk
  end.
Ltac gen_loop M body turn_tac end_tac :=
  lazymatch goal with
  | S : state ?li ?le ?lt _ _ _ _ _ _ _ _ _ _ _ _ _, Hcf : funcname_ok _ _ ?cf, Hcw : write_ok _ _ _ ?cw, Hci : inc_ok _ _ _ ?ci, Hcd : dec_ok _ _ _ ?cd,
    Hce : escape_ok _ ?ce, Hcs : start_ok _ _ _ _ _ _ _ _ _ _ _ ?cs |- _ =>
    unfold generate; eapply simb_pcall; [apply Hcw, S|];
    let HB1 := fresh "HB" in let O1 := fresh "O" in intros ? ? ? (-> & HB1 & O1); steps;
    match goal with |- @GoRun.sim _ _ _ _ _ _ _ _ ?m _ => change m with (bind (Ret tt) (fun _ => m)) end;
    eapply simb_pcall; [apply Hci, HB1|];
    let HB2 := fresh "HB" in let O2 := fresh "O" in let u := fresh in intros ? ? u (-> & HB2 & O2); destruct u; steps;
    lazymatch goal with |- @GoRun.sim _ _ _ _ _ _ (pbind (PLoop ?b ?s _) _) _ _ _ => change b with (for_loop M body);
      let en := drop 12 s in change s with (loop_env li le lt cw ci cd ce cs en cf false) end;
    eapply loop_ok;
    [ | | |eapply state_others; [..|exact S]; [try assumption; try tauto..|eapply others_trans; [exact O1|exact O2]|exact HB2] ];
    [ intros; turn_tac | intros; end_tac | ]
  end.
Ltac gen_end :=
  let S := fresh "S" in let HE := fresh "HE" in let HI := fresh "HI" in let e := fresh "e" in
  intros ? ? ? e ? ? S; rewrite leave_env; unfold loop_env; cbn [app]; pose proof S as ((HI & HE) & _); unfold box in HE; unfold last_lines;
  destruct e as [e|]; cbn [verr] in HE; steps;
  [ apply sim_ret; reflexivity
  | eapply simb_dec; [eassumption|exact (proj1 S)|];
    let HB := fresh "HB" in let O := fresh "O" in intros ? HB O; steps;
    lazymatch goal with Hcw : write_ok _ _ _ _ |- _ => apply sim_eta_model; eapply simb_pcall; [apply Hcw, HB|] end;
    let HB' := fresh "HB" in let HE' := fresh "HE" in intros ? ? ? (-> & HB' & ?); pose proof (proj2 HB') as HE'; unfold box in HE'; steps; apply sim_ret; reflexivity ].
Ltac html_proof M h ts fin :=
  walk; apply simb_html_mappings; walk; ext1; walk;
  (apply (simb_eq M) with (X' := PRet []); [reflexivity|]); walk;
  (apply (simb_eq M) with (X' := PRet [nl]); [reflexivity|]); walk;
  let LE := fresh "LE" in let L1 := fresh "L" in let L2 := fresh "L" in let L3 := fresh "L" in let LT := fresh "LT" in let S := fresh "S" in
  let X := fresh in pose proof (html_layout h ts fin) as X; cbv zeta in X; destruct X as (LE & L1 & L2 & L3 & LT & S); unfold tokenizer in *; abstract_heap LE L1 L2 L3 LT S;
  gen_closures "html"%string html_dialect ltac:(fun li le => eapply (html_start_spec M li le LE "html" (or_introl eq_refl)); first [eassumption|tauto|reflexivity|vm_compute; reflexivity]) M LE;
  gen_loop M html_for_body ltac:(eapply html_turn; first [eassumption|reflexivity]) ltac:(eapply html_end; first [eassumption|reflexivity]);
  gen_end.
Ltac svg_proof M h ts fin :=
  walk; apply simb_svg_mappings; walk; ext1; walk;
  (apply (simb_eq M) with (X' := PRet []); [reflexivity|]); walk;
  (apply (simb_eq M) with (X' := PRet [nl]); [reflexivity|]); walk;
  let LE := fresh "LE" in let L1 := fresh "L" in let L2 := fresh "L" in let L3 := fresh "L" in let LT := fresh "LT" in let S := fresh "S" in
  let X := fresh in pose proof (svg_layout h ts fin) as X; cbv zeta in X; destruct X as (LE & L1 & L2 & L3 & LT & S); unfold tokenizer in *; abstract_heap LE L1 L2 L3 LT S;
  gen_closures "svg"%string svg_dialect ltac:(fun li le => eapply (svg_start_spec M li le LE "svg" (or_intror eq_refl)); first [eassumption|tauto|reflexivity|vm_compute; reflexivity]) M LE;
  gen_loop M svg_for_body ltac:(eapply svg_turn; first [eassumption|reflexivity]) ltac:(eapply svg_end; first [eassumption|reflexivity]);
  gen_end.
(** For every sequence of tokens and every end of input, with any writer
    (os.Stdout if none is given), html.GenerateCode writes what the model
    writes and gives the same error. *)
Theorem html_generate ts fin w h : w = VNil \/ w = VWriter ->
  sim (PCall (CFun "html.GenerateCode") [VReader ts fin; w] false PRet) h (generate html_dialect ts (fin' fin))
    (fun vs _ e => vs = [verr e]).
Proof.
  intro Hw. enter. destruct Hw as [-> | ->]; html_proof M h ts fin.
Qed.
Theorem svg_generate ts fin w h : w = VNil \/ w = VWriter ->
  sim (PCall (CFun "svg.GenerateCode") [VReader ts fin; w] false PRet) h (generate svg_dialect ts (fin' fin))
    (fun vs _ e => vs = [verr e]).
Proof.
  intro Hw. enter. destruct Hw as [-> | ->]; svg_proof M h ts fin.
Qed.
End Main.
