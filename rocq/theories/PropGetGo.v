(** C77: Get and MustGet of package context, against the Go source. *)
From Coq Require Import ZArith Lia.
From Verif Require Import Bytes IO IOFacts Nodes GoSyntax SourceLib Source GoSem GoRun GoRep RefineGet GoExamples Demo.
From Verif Require Import Reflect SpecGet PropGet.
Local Open Scope nat_scope.

Section Claims.
Context {W : UserWorld}.
Variable M : go_mode.
Notation C := (go_config M).
(** The declared structs, the method sets and the type that Get is used at. *)
Notation D := (t_decls C).
Notation I := (t_implements C).
Notation T := (t_param C).
Definition call_get (c : gv) (key : bytes) : prog (list gv) := PCall (CFun "context.Get") [c; VStr key] false PRet.
Definition call_must_get (c : gv) (key : bytes) : prog (list gv) := PCall (CFun "context.MustGet") [c; VStr key] false PRet.
(** Runs that end, and runs that panic. *)
Definition gives E (p : prog (list gv)) h w vs : Prop := exists k, go_run C k E p h w = Some (ROk vs h w).
Definition panics_in E (p : prog (list gv)) h (w : world U) : Prop := exists k w', go_run C k E p h w = Some (RPanic w').

(** The source does what the model does; neither the heap nor the world is
    touched. *)
Theorem C77_get E w h v c key : ord_ok (e_ord E) -> gctx_rep h v c ->
  match get D I T c key with
  | Returns (Some x) => gives E (call_get v key) h w [boxed_value x; VBool true]
  | Returns None => gives E (call_get v key) h w [VNil; VBool false]
  | Panics => panics_in E (call_get v key) h w
  end.
Proof.
  intros O Hc. pose proof (Get_spec (P := got M c key = Panics) M v c key h Hc (fun H => H)) as S.
  destruct (sim_cases (P := got M c key = Panics) _ _ _ _ _ S E w O) as [(k & vs & h' & R & -> & r & G & ->)|(G & k & w' & R)];
    unfold got in G; rewrite G; [destruct r as [x|]|]; eexists; eauto.
Qed.
Theorem C77_must_get E w h v c key : ord_ok (e_ord E) -> gctx_rep h v c ->
  match must_get D I T c key with
  | Returns x => gives E (call_must_get v key) h w [boxed_value x]
  | Panics => panics_in E (call_must_get v key) h w
  end.
Proof.
  intros O Hc. pose proof (MustGet_spec (P := must_get D I T c key = Panics) M v c key h Hc (fun H => H)) as S.
  destruct (sim_cases (P := must_get D I T c key = Panics) _ _ _ _ _ S E w O) as [(k & vs & h' & R & -> & r & G & ->)|(G & k & w' & R)];
    rewrite G; eexists; eauto.
Qed.

(** Runs have one result. *)
Lemma gives_one E p h w vs vs' : gives E p h w vs -> gives E p h w vs' -> vs = vs'.
Proof.
  intros (k & R) (k' & R'). destruct (Nat.le_ge_cases k k') as [L|L].
  - rewrite (run_mono _ _ _ _ _ _ _ _ _ L R) in R'. congruence.
  - rewrite (run_mono _ _ _ _ _ _ _ _ _ L R') in R. congruence.
Qed.
Lemma gives_no_panic E p h w vs : gives E p h w vs -> panics_in E p h w -> False.
Proof.
  intros (k & R) (k' & w' & R'). destruct (Nat.le_ge_cases k k') as [L|L].
  - rewrite (run_mono _ _ _ _ _ _ _ _ _ L R) in R'. congruence.
  - rewrite (run_mono _ _ _ _ _ _ _ _ _ L R') in R. congruence.
Qed.

(** What comes back, if anything does: a value of type T under that key in Data
    if there is one, otherwise one in Cargo if there is one, otherwise false. *)
Theorem C77_returns E w h v c key vs : decls_ok D -> ord_ok (e_ord E) -> gctx_rep h v (Some c) ->
  gives E (call_get v key) h w vs ->
  (exists x, vs = [boxed_value x; VBool true] /\ is_a I T x /\
     (in_data c key x \/ ((forall y, in_data c key y -> ~ is_a I T y) /\ in_cargo D c key x))) \/
  (vs = [VNil; VBool false] /\ forall x, is_a I T x -> ~ in_data c key x /\ ~ in_cargo D c key x).
Proof.
  intros OK O Hc R. pose proof (C77_get E w h v (Some c) key O Hc) as H.
  destruct (get D I T (Some c) key) as [[x|]|] eqn:G.
  - apply (C42_get _ _ _ OK) in G. left. exists x. split; [eapply gives_one; eassumption|exact G].
  - apply (C42_get _ _ _ OK) in G. right. split; [eapply gives_one; eassumption|exact G].
  - destruct (gives_no_panic _ _ _ _ _ R H).
Qed.
Theorem C77_no_context E w h key : ord_ok (e_ord E) -> gives E (call_get VNil key) h w [VNil; VBool false].
Proof. intro O. exact (C77_get E w h VNil None key O eq_refl). Qed.
(** When it panics, for cargo that has the types its declarations say. *)
Theorem C77_panics E w h v c key ct : decls_ok D -> ord_ok (e_ord E) -> gctx_rep h v (Some c) ->
  key <> B "_" -> fits D ct (g_cargo c) ->
  panics_in E (call_get v key) h w <->
  (forall x, in_data c key x -> ~ is_a I T x) /\ exists x, carried (g_cargo c) x /\ trap D key x.
Proof.
  intros OK O Hc K F. rewrite <- (C43_exact D I T OK c key ct K F). pose proof (C77_get E w h v (Some c) key O Hc) as H.
  destruct (get D I T (Some c) key) as [[x|]|] eqn:G; split; intro X; try discriminate X; auto; destruct (gives_no_panic _ _ _ _ _ H X).
Qed.
(** MustGet panics exactly if Get returns false or panics, and otherwise returns
    its value. *)
Theorem C77_must E w h v c key : ord_ok (e_ord E) -> gctx_rep h v c ->
  (forall x, gives E (call_must_get v key) h w [boxed_value x] <-> gives E (call_get v key) h w [boxed_value x; VBool true]) /\
  (panics_in E (call_must_get v key) h w <-> gives E (call_get v key) h w [VNil; VBool false] \/ panics_in E (call_get v key) h w).
Proof.
  intros O Hc. pose proof (C77_get E w h v c key O Hc) as H1. pose proof (C77_must_get E w h v c key O Hc) as H2. unfold must_get in H2.
  destruct (get D I T c key) as [[y|]|]; split.
  - intro x. split; intro X.
    + pose proof (gives_one _ _ _ _ _ _ X H2) as Y. injection Y as ->. exact H1.
    + pose proof (gives_one _ _ _ _ _ _ X H1) as Y. injection Y as ->. exact H2.
  - split; intro X; [destruct (gives_no_panic _ _ _ _ _ H2 X)|]. destruct X as [X|X]; [|destruct (gives_no_panic _ _ _ _ _ H1 X)].
    pose proof (gives_one _ _ _ _ _ _ X H1) as Y. discriminate Y.
  - intro x. split; intro X; [destruct (gives_no_panic _ _ _ _ _ X H2)|]. pose proof (gives_one _ _ _ _ _ _ X H1) as Y. discriminate Y.
  - split; auto.
  - intro x. split; intro X; [destruct (gives_no_panic _ _ _ _ _ X H2)|destruct (gives_no_panic _ _ _ _ _ X H1)].
  - split; auto.
Qed.
End Claims.

(** ** Cases *)
Definition get_mode (T : gtype) : go_mode := Mode false "int" "uint" "float64" (fun _ => false) (fun _ => None) (table, none, T) (fun _ _ => None).
(** A context on the heap, and the hypotheses of the theorems. *)
Definition get_heap (data : list (bytes * rval)) (cargo : rval) : @heap demo :=
  [OMap (map (fun e => (fst e, boxed_value (snd e))) data);
   OStruct "Context" [("Error", VNil); ("Data", VMap 0); ("Cargo", boxed_value cargo); ("Writer", VWriter); ("Parent", VNil)]%string].
Example get_case T data cargo : gctx_rep (W := demo) (get_heap data cargo) (VPtr 1) (Some (GCtx (Some data) cargo)) /\ decls_ok (t_decls (go_config (get_mode T))).
Proof. split; [|exact table_ok]. exists 1, VNil, (VMap 0), VWriter, VNil. split; [reflexivity|]. split; [reflexivity|]. exists 0. split; reflexivity. Qed.
Definition shown_get (T : gtype) (data : list (bytes * rval)) (cargo : rval) (key : bytes) : option (option (list gv)) :=
  match go_run (go_config (get_mode T)) 3000 E0 (call_get (W := demo) (VPtr 1) key) (get_heap data cargo) (World [] (st 0) 0) with
  | Some (ROk vs _ _) => Some (Some vs)
  | Some (RPanic _) => Some None
  | None => None
  end.
Example gets_run :
  shown_get t_string [(B "Title", ROther 0 1)] (RPtr None (TStruct 1) (Some (page_value (Some meta)))) (B "Title") = Some (Some [boxed_value (text "t"); VBool true]) /\
  shown_get t_int [(B "Title", ROther 0 1)] (page_value (Some meta)) (B "Title") = Some (Some [boxed_value (ROther 0 1); VBool true]) /\
  shown_get t_string [] (page_value (Some meta)) (B "Name") = Some (Some [boxed_value (text "n"); VBool true]) /\
  shown_get t_int [] (page_value (Some meta)) (B "ID") = Some (Some [VNil; VBool false]) /\
  shown_get t_int [] (RMap None t_string t_int [(B "k", ROther 0 5)]) (B "k") = Some (Some [boxed_value (ROther 0 5); VBool true]) /\
  shown_get t_string [] (RMap None (TString (Some 5)) t_string [(B "k", text "v")]) (B "k") = Some None /\
  shown_get t_string [] (page_value None) (B "secret") = Some None.
Proof. repeat split; vm_compute; reflexivity. Qed.
