(** Get and MustGet of package context in the Go source give what the model of
    Reflect.v gives. *)
From Coq Require Import ZArith Lia.
From Verif Require Import Bytes IO IOFacts Nodes Slices GoSyntax SourceLib Source GoSem GoRun GoRep GoStep.
From Verif Require Reflect.
Local Open Scope nat_scope.
Local Notation "x <-- p ;; q" := (pbind p (fun x => q))
  (at level 100, p at next level, right associativity).

Ltac ext :=
  lazymatch goal with
  | |- @GoRun.sim _ ?C ?FL0 ?P _ _ (pbind (external ?C' ?x ?args ?sp) ?f) ?h ?m ?Q =>
      let r := eval lazy [external boxed_value String.eqb Ascii.eqb Bool.eqb] in (external C' x args sp) in
      change (@GoRun.sim _ C FL0 P _ _ (pbind r f) h m Q)
  end; steps.
Ltac kinds :=
  repeat match goal with
  | |- context [beq (B ?a) (B ?b)] => let r := eval vm_compute in (beq (B a) (B b)) in change (beq (B a) (B b)) with r
  end.

Section Refine.
Context {W : UserWorld}.
Variable M : go_mode.
Notation C := (go_config M).
Notation sim := (sim C).

(** A context in the heap whose Data and Cargo hold values with their types. *)
Definition data_rep (h : heap) (v : gv) (d : option (list (bytes * Reflect.rval))) : Prop :=
  match d with
  | None => v = VNil
  | Some es => exists l, v = VMap l /\ nth_error h l = Some (OMap (map (fun e => (fst e, boxed_value (snd e))) es))
  end.
Definition gctx_rep (h : heap) (v : gv) (c : option Reflect.gctx) : Prop :=
  match c with
  | None => v = VNil
  | Some c => exists l ev dv wv pv, v = VPtr l /\
      nth_error h l = Some (OStruct "Context" [("Error", ev); ("Data", dv); ("Cargo", boxed_value (Reflect.g_cargo c)); ("Writer", wv); ("Parent", pv)]%string) /\
      data_rep h dv (Reflect.g_data c)
  end.
Definition got (c : option Reflect.gctx) (key : bytes) : Reflect.outcome (option Reflect.rval) :=
  Reflect.get (t_decls C) (t_implements C) (t_param C) c key.
Definition result_values (r : option Reflect.rval) : list gv :=
  match r with Some x => [boxed_value x; VBool true] | None => [VNil; VBool false] end.


Lemma boxed_type h r : has_type C h (boxed_value r) "T" = if Reflect.assert_type (t_implements C) (t_param C) r then Some (boxed_value r) else None.
Proof. destruct r; reflexivity. Qed.
Lemma boxed_get key : forall es, bassoc key (map (fun e => (fst e, boxed_value (snd e))) es) = option_map boxed_value (Reflect.lookup es key).
Proof. induction es as [|[k r] es IH]; cbn [map fst snd bassoc Reflect.lookup option_map]; [reflexivity|]. destruct (beq k key); [reflexivity|exact IH]. Qed.
Lemma simb_assert {P : panics} {A B} r (f : list gv -> prog A) h (m : io U B) Q :
  sim (pbind (PRet (if Reflect.assert_type (t_implements C) (t_param C) r then [boxed_value r; VBool true] else [VNil; VBool false])) f) h m Q ->
  sim (pbind (assert_ok C (boxed_value r) "T") f) h m Q.
Proof.
  intro K. unfold assert_ok. cbn [pbind]. eapply sim_heap; [rewrite boxed_type; reflexivity|apply stays_same|]. destruct (Reflect.assert_type _ _ r); exact K.
Qed.
Lemma simb_lib {P : panics} {A' B'} name args sp (f : list gv -> prog A') h (m : io U B') Q :
  lookup_fun C name = None -> sim (pbind (library_method C name args) f) h m Q ->
  sim (pbind (PCall (CFun name) args sp PRet) f) h m Q.
Proof. intros H K. apply simb_call. cbn [body_of]. rewrite H. apply K. Qed.

Lemma switch_skip {P : panics} {A B} ex en v d x y body css (f : _ -> prog A) h (m : io U B) Q :
  assoc x ext_values = Some y -> matches v [y] = Some false ->
  sim (pbind (switch_with C ex en v d css) f) h m Q -> sim (pbind (switch_with C ex en v d (([EExt x], body) :: css)) f) h m Q.
Proof. intros H1 H2 K. eapply simb_eq; [|exact K]. cbn [switch_with]. unfold evals. cbn [evs_with eval eval_with]. rewrite H1. cbn [pbind one]. rewrite H2. reflexivity. Qed.
Lemma switch_take {P : panics} {A B} ex en v d x y body css (f : _ -> prog A) h (m : io U B) Q :
  assoc x ext_values = Some y -> matches v [y] = Some true ->
  sim (pbind (ex body) f) h m Q -> sim (pbind (switch_with C ex en v d (([EExt x], body) :: css)) f) h m Q.
Proof. intros H1 H2 K. eapply simb_eq; [|exact K]. cbn [switch_with]. unfold evals. cbn [evs_with eval eval_with]. rewrite H1. cbn [pbind one]. rewrite H2. reflexivity. Qed.
Lemma switch_none {P : panics} {A B} ex en v d (f : _ -> prog A) h (m : io U B) Q :
  sim (pbind (ex d) f) h m Q -> sim (pbind (switch_with C ex en v d []) f) h m Q.
Proof. intro K. exact K. Qed.
Ltac switch :=
  repeat (eapply switch_skip; [reflexivity|reflexivity|]);
  first [eapply switch_take; [reflexivity|reflexivity|] | apply switch_none]; steps.
Ltac inv :=
  lazymatch goal with
  | |- @GoRun.sim _ ?C ?FL0 ?P _ _ (pbind (invoke ?v ?x ?args ?sp) ?f) ?h ?m ?Q =>
      let r := eval lazy [invoke dot append] in (invoke v x args sp) in
      change (@GoRun.sim _ C FL0 P _ _ (pbind r f) h m Q)
  end; eapply simb_lib; [reflexivity|];
  lazymatch goal with
  | |- @GoRun.sim _ ?C ?FL0 ?P _ _ (pbind (library_method ?c0 ?x ?args) ?f) ?h ?m ?Q =>
      let r := eval lazy [library_method typed_method String.eqb Ascii.eqb Bool.eqb Reflect.type_of kind_of orb] in (library_method c0 x args) in
      change (@GoRun.sim _ C FL0 P _ _ (pbind r f) h m Q)
  end; steps; kinds; steps.
Ltac model E0 :=
  rewrite E0; cbn [Reflect.from_cargo Reflect.look_in];
  repeat first
    [ match goal with E : Reflect.lookup _ _ = _ |- _ => rewrite E end
    | match goal with E : Reflect.field_by_name _ _ _ = _ |- _ => rewrite E end
    | match goal with E : Reflect.field_by_index _ _ _ = _ |- _ => rewrite E end
    | match goal with E : Reflect.exported_at _ _ _ = _ |- _ => rewrite E end
    | progress unfold Reflect.typed
    | match goal with E : Reflect.assert_type _ _ _ = _ |- _ => rewrite E end ]; reflexivity.
Ltac done_with E0 r := apply sim_ret; split; [reflexivity|]; exists r; split; [model E0|reflexivity].
Ltac none E0 := done_with E0 (@None Reflect.rval).
Ltac panics E0 HP := apply sim_panic; apply HP; model E0.
Ltac found E0 x :=
  inv; inv; apply simb_assert; let A := fresh in destruct (Reflect.assert_type _ _ x) eqn:A; steps;
  [done_with E0 (Some x)|none E0].
Ltac look_map E0 HP k es key :=
  inv; inv; destruct k as [?|[?|]|? ?|? ? ?|?|?]; inv; try none E0;
  [ ext; inv; panics E0 HP
  | ext; inv; let L := fresh in let x := fresh "x" in destruct (Reflect.lookup es key) as [x|] eqn:L; [found E0 x|inv; none E0] ].
Ltac look_struct E0 HP s fs key :=
  inv; inv; let F := fresh in let p := fresh "p" in let x := fresh "x" in destruct (Reflect.field_by_name _ s key) as [p|] eqn:F; steps; [|none E0];
  inv; let I := fresh in destruct (Reflect.field_by_index _ p true) as [[x|]|] eqn:I; steps;
  [ let X := fresh in destruct (Reflect.exported_at _ s p) eqn:X; cbn [negb]; [found E0 x|inv; inv; panics E0 HP]
  | inv; none E0
  | panics E0 HP ].
Ltac cargo_part E0 HP c cargo key :=
  let e := fresh "e" in let target := fresh "target" in let k := fresh "k" in let es' := fresh "es" in let s := fresh "s" in let fs := fresh "fs" in
  destruct cargo as [|? ?|? ?|? e target|? k ? es'|s fs]; cbn [boxed_value equal is_nil option_map negb]; steps;
  [ none E0
  | ext; inv; inv; switch; none E0
  | ext; inv; inv; switch; none E0
  | ext; inv; inv; let r := fresh "r" in destruct target as [r|];
    [ let I := fresh in let E1 := fresh in destruct (is_iface e) eqn:I;
      [ assert (E1 : got c key = Reflect.Returns None) by (rewrite E0; destruct e; try discriminate I; reflexivity);
        inv; switch; none E1
      | assert (E1 : got c key = Reflect.look_in (t_decls C) (t_implements C) (t_param C) r key) by (rewrite E0; destruct e; try discriminate I; reflexivity);
        clear E0; let k := fresh "k" in let es' := fresh "es" in let s := fresh "s" in let fs := fresh "fs" in
        destruct r as [|? ?|? ?|? ? ?|? k ? es'|s fs]; inv; switch;
        lazymatch type of E1 with
        | context [Reflect.RMap _ k _ es'] => look_map E1 HP k es' key
        | context [Reflect.RStruct s fs] => look_struct E1 HP s fs key
        | _ => none E1
        end ]
    | inv; switch; destruct e; none E0 ]
  | ext; inv; inv; switch; look_map E0 HP k es' key
  | ext; inv; inv; switch; look_struct E0 HP s fs key ].

Theorem Get_spec {P : panics} v c key h : gctx_rep h v c -> (got c key = Reflect.Panics -> P) ->
  sim (PCall (CFun "context.Get") [v; VStr key] false PRet) h (Ret tt)
    (fun vs h' _ => h' = h /\ exists r, got c key = Reflect.Returns r /\ vs = result_values r).
Proof.
  intros Hc HP. enter. destruct c as [[d cargo]|]; cbn [gctx_rep Reflect.g_cargo Reflect.g_data] in Hc.
  2: { subst v. steps. apply sim_ret. split; [reflexivity|]. exists None. split; reflexivity. }
  destruct Hc as (l & ev & dv & wv & pv & -> & Hl & Hd). steps.
  set (c := Some (Reflect.GCtx d cargo)) in *.
  set (later := match cargo with Reflect.RNil => Reflect.Returns None | _ => Reflect.from_cargo (t_decls C) (t_implements C) (t_param C) cargo key end).
  destruct d as [es|]; cbn [data_rep] in Hd.
  - destruct Hd as (ld & -> & Hd). steps. cbn [index]. apply sim_assoc. eapply simb_load; [exact Hd|]. cbv iota. rewrite boxed_get.
    destruct (Reflect.lookup es key) as [r|] eqn:L; cbn [option_map].
    + steps. apply simb_assert. destruct (Reflect.assert_type _ _ r) eqn:A.
      * steps. apply sim_ret. split; [reflexivity|]. exists (Some r). split; [|reflexivity].
        unfold got, c, Reflect.get. cbn [Reflect.g_data]. rewrite L, A. reflexivity.
      * steps. assert (E0 : got c key = later) by (unfold got, c, Reflect.get; cbn [Reflect.g_data]; rewrite L, A; destruct cargo; reflexivity).
        clearbody c. unfold later in E0; clear later L A.
        cargo_part E0 HP c cargo key.
    + steps. assert (E0 : got c key = later) by (unfold got, c, Reflect.get; cbn [Reflect.g_data]; rewrite L; destruct cargo; reflexivity).
      clearbody c. unfold later in E0; clear later L. cargo_part E0 HP c cargo key.
  - subst dv. steps. assert (E0 : got c key = later) by (unfold got, c, Reflect.get; cbn [Reflect.g_data]; destruct cargo; reflexivity).
    clearbody c. unfold later in E0; clear later. cargo_part E0 HP c cargo key.
Qed.

Theorem MustGet_spec {P : panics} v c key h : gctx_rep h v c ->
  (Reflect.must_get (t_decls C) (t_implements C) (t_param C) c key = Reflect.Panics -> P) ->
  sim (PCall (CFun "context.MustGet") [v; VStr key] false PRet) h (Ret tt)
    (fun vs h' _ => h' = h /\ exists r, Reflect.must_get (t_decls C) (t_implements C) (t_param C) c key = Reflect.Returns r /\ vs = [boxed_value r]).
Proof.
  intros Hc HP. unfold Reflect.must_get in *. fold (got c key) in *. enter. steps.
  match goal with |- GoRun.sim _ (pbind (PCall ?c ?a ?s ?k) ?f) _ _ _ => change (pbind (PCall c a s k) f) with (pbind (PCall c a s PRet) (fun vs => pbind (k vs) f)) end.
  eapply sim_bind_l with (R := fun vs h' => h' = h /\ exists r, got c key = Reflect.Returns r /\ vs = result_values r).
  - apply (Get_spec v c key h Hc). intro E. apply HP. rewrite E. reflexivity.
  - intros vs h' (-> & r & E & ->). rewrite E in *. destruct r as [x|]; cbn [result_values].
    + steps. apply sim_ret. eauto.
    + steps. ext. apply sim_panic. apply HP. reflexivity.
Qed.
End Refine.
