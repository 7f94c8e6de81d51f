(** The translated source of value.go: what valueToBytes, newValue and newValues
    make of their arguments. *)
From Coq Require Import ZArith Lia.
From Verif Require Import Bytes IO IOFacts Nodes NodeInd Values Build Escape SpecOut Slices GoSyntax SourceLib Source GoSem GoRun GoRep GoStep GoOwn RefineValue RefineEscape RefineUser RefineIter.
Local Open Scope nat_scope.

(** Go through the cases of a type switch. *)
Ltac tswitch :=
  lazymatch goal with
  | |- @GoRun.sim _ ?C ?FL0 ?P _ _ (pbind (tswitch_with ?C' ?ex ?en ?x ?h ?v ?d ?cs) ?f) ?h' ?m ?Q =>
      let r := eval lazy [tswitch_with has_type assoc p_ifaces p_funcs c_prog c_int c_uint c_float go_config m_int m_uint m_float m_panics source the_ifaces tag_of
                       String.eqb Ascii.eqb Bool.eqb named negb andb] in (tswitch_with C' ex en x h v d cs) in
      change (@GoRun.sim _ C FL0 P _ _ (pbind r f) h' m Q)
  end.

Ltac done_bytes := apply sim_ret; eexists; split; [reflexivity|]; split; [reflexivity|first [assumption|apply grown_refl]].
Ltac formatted :=
  lazymatch goal with
  | |- @GoRun.sim _ ?C ?FL0 ?P _ _ (pbind (external ?C' ?f ?args ?sp) ?k) ?h ?m ?Q =>
      let r := eval lazy [external String.eqb Ascii.eqb Bool.eqb c_float go_config m_float Z.eqb Pos.eqb] in (external C' f args sp) in
      change (@GoRun.sim _ C FL0 P _ _ (pbind r k) h m Q)
  end.
(** Go into the body of a closure. *)
Ltac enter_closure :=
  cbn [body_of];
  lazymatch goal with
  | |- @GoRun.sim _ ?C ?FL0 ?P _ _ (call_fun ?C' ?fd ?cap ?args ?sp) ?h ?m ?Q =>
      let X' := head_red (call_fun C' fd cap args sp) in
      change (@GoRun.sim _ C FL0 P _ _ X' h m Q)
  end.

Section Pure.
Context {W : UserWorld}.
Context {FL : floor}.
Variable M : go_mode.
Notation C := (go_config M).
Notation sim := (sim C).
(** A function of the user's state that does not use it. *)
Lemma sim_cb_pure {A D} (p : prog A) h (fn : U -> D * U) d Q :
  (forall u, fn u = (d, u)) -> sim p h (Ret d) Q -> sim p h (cb fn) Q.
Proof.
  intro F. apply sim_model_eq. intros E w. unfold cb. cbn [run]. rewrite F. destruct w; reflexivity.
Qed.

(** The last thing the model does. *)
Lemma sim_last {P : panics} {A A' B} (p : prog A) (f : A -> prog A') h (m : io U B) R Q :
  sim p h m R -> (forall a h' b, R a h' b -> sim (f a) h' (Ret b) Q) -> sim (pbind p f) h m Q.
Proof.
  intros H K. apply sim_model_eq with (bind m (@Ret U B)).
  - intros E w. rewrite IOFacts.run_bind. destruct (run E m w); reflexivity.
  - eapply sim_bind; eauto.
Qed.
Lemma simb_last {P : panics} {A A' B} c args sp (k : list gv -> prog A) (f : A -> prog A') h (m : io U B) R Q :
  sim (PCall c args sp PRet) h m R ->
  (forall vs h' b, R vs h' b -> sim (pbind (k vs) f) h' (Ret b) Q) ->
  sim (pbind (PCall c args sp k) f) h m Q.
Proof.
  intros H K. change (pbind (PCall c args sp k) f) with (pbind (PCall c args sp PRet) (fun vs => pbind (k vs) f)).
  eapply sim_last; eauto.
Qed.
End Pure.

Section Refine.
Context {W : UserWorld}.
Variable M : go_mode.
Hypothesis MO : mode_ok M.
Notation C := (go_config M).
Notation sim := (sim C).

Lemma glob_true : global C "aitch.fixedTrue" = PRet (VBytes (B "true")). Proof. reflexivity. Qed.
Lemma glob_false : global C "aitch.fixedFalse" = PRet (VBytes (B "false")). Proof. reflexivity. Qed.

Lemma sim_value_to_bytes_f {FL : floor} : forall g h, base <= length h ->
  sim (PCall (CFun "aitch.valueToBytes") [any_of g] false PRet) h (cb (value_to_bytes g))
    (fun vs h' b => exists bv, vs = [bv] /\ bytes_of bv = Some b /\ grown h h').
Proof.
  intro g. induction g using gval_ind'; intros h HF; cbn [any_of]; enter; steps; (eapply simb_heap; [reflexivity|apply stays_same|]); steps.
  all: try (tswitch; steps; eapply sim_cb_pure; [reflexivity|]; apply sim_ret; eexists; split; [reflexivity|]; split; [reflexivity|apply grown_refl]).
  - destruct b; tswitch; steps.
    + eapply simb_eq; [apply glob_true|]. steps. eapply sim_cb_pure; [reflexivity|]. done_bytes.
    + eapply simb_eq; [apply glob_false|]. steps. eapply sim_cb_pure; [reflexivity|]. done_bytes.
  - tswitch. steps. apply simb_escape_f; [exact HF|]. intros h' G. steps. eapply sim_cb_pure; [reflexivity|]. done_bytes.
  - destruct M as [mp mi mu mf]. destruct MO as (M1 & _ & _). cbn [m_int] in M1.
    destruct M1 as [<-|[<-|[<-|[<-|[<-|[]]]]]]; tswitch; steps; formatted; steps; (eapply sim_cb_pure; [reflexivity|]); done_bytes.
  - destruct M as [mp mi mu mf]. destruct MO as (_ & M1 & _). cbn [m_uint] in M1.
    destruct M1 as [<-|[<-|[<-|[<-|[<-|[]]]]]]; tswitch; steps; formatted; rewrite N2Z.id; steps; (eapply sim_cb_pure; [reflexivity|]); done_bytes.
  - destruct M as [mp mi mu mf]. destruct MO as (_ & _ & M1 & _). cbn [m_float] in M1.
    destruct M1 as [<-|[<-|[]]]; tswitch; steps; formatted; steps; (eapply sim_cb_pure; [reflexivity|]); done_bytes.
  - tswitch. steps. cbn [invoke]. lazy [String.eqb Ascii.eqb Bool.eqb]. cbn [pbind]. unfold cb. apply sim_state. intro u.
    cbn [value_to_bytes]. destruct (f u) as [b u']. cbn [fst snd pbind]. split; [reflexivity|]. steps. done_bytes.
  - apply sim_model_eq with (bind (cb f) (fun r => cb (value_to_bytes r))).
    { intros E w. unfold cb. cbn [bind run value_to_bytes]. destruct (f (w_u w)) as [r u']. cbn [bind run w_u w_log w_tick].
      destruct (value_to_bytes r u'); reflexivity. }
    tswitch. steps. cbn [pbind]. apply sim_call. cbn [body_of pbind bind cb]. apply sim_state. intro u.
    specialize (H u). destruct (f u) as [r u']. cbn [fst snd pbind bind] in *. split; [reflexivity|]. steps.
    eapply simb_last; [apply H, HF|]. intros vs h' b (bv & -> & Hb & G). steps. apply sim_ret. eauto.
Qed.
Lemma sim_value_to_bytes g h :
  sim (PCall (CFun "aitch.valueToBytes") [any_of g] false PRet) h (cb (value_to_bytes g))
    (fun vs h' b => exists bv, vs = [bv] /\ bytes_of bv = Some b /\ grown h h').
Proof. apply sim_value_to_bytes_f, Nat.le_0_l. Qed.
Lemma value_to_bytes_raw (str : bool) b h :
  sim (PCall (CFun "aitch.valueToBytes") [if str then VStr b else VBytes b] false PRet) h (Ret (if str then html_escape_string b else b))
    (fun vs h' b => exists bv, vs = [bv] /\ bytes_of bv = Some b /\ grown h h').
Proof.
  destruct str; enter; steps; (eapply simb_heap; [reflexivity|apply stays_same|]); steps; tswitch; steps.
  - apply simb_escape. intros h' G. steps. done_bytes.
  - done_bytes.
Qed.
Lemma simb_value_to_bytes {A' B} g h (f : list gv -> prog A') (k' : bytes -> io U B) Q :
  (forall b bv h', bytes_of bv = Some b -> grown h h' -> sim (f [bv]) h' (k' b) Q) ->
  sim (pbind (PCall (CFun "aitch.valueToBytes") [any_of g] false PRet) f) h
    (Cb (fun u => let '(b, u') := value_to_bytes g u in (k' b, u'))) Q.
Proof.
  intro K. apply sim_cb. eapply sim_bind; [apply sim_value_to_bytes|]. intros vs h' b (bv & -> & Hb & G). auto.
Qed.

(** ** Closures for keys *)

Definition dot_closure (k : bytes) : gv :=
  VClo (Fun ["ctx"] false [("result", "[]byte")]
    (SBlock [(SIf None (EBin ONe (ELoc "ctx") ENil)
     (SBlock [(SAssign [(LLoc "result")] [(ECall (EFun "aitch.valueToBytes") [(EField (ELoc "ctx") "Cargo")] false)])])
     SSkip);
     (SReturn [(ELoc "result")])]))%string [("vt"%string, VStr k); ("v"%string, VKey k)].
Definition key_closure (k : bytes) : gv :=
  VClo (Fun ["ctx"] false []
    (SBlock [(SIf None (EBin ONe (ELoc "ctx") ENil)
     (SBlock [(SIf (Some (SDefine ["dv"; "ok"] [(EIndex (EField (ELoc "ctx") "Data") (EConv "string" (ELoc "vt")))])) (ELoc "ok")
     (SBlock [(SReturn [(ECall (EFun "aitch.valueToBytes") [(ELoc "dv")] false)])])
     SSkip)])
     SSkip);
     (SReturn [ENil])]))%string [("vt"%string, VStr k); ("v"%string, VKey k)].
Lemma dot_closure_spec k : beq k (B ".") = true -> dyn_fun M (dot_closure k) (key_fn k).
Proof.
  intro D. split; [discriminate|]. intros FL h lc fr e HC. pose proof HC as (pv & Ho & Hp & _). apply ctx_bounds in HC. unfold dot_closure. enter_closure. steps.
  apply sim_model_eq with (cb (value_to_bytes (f_cargo fr))).
  { intros E w. unfold cb, key_fn. rewrite D. reflexivity. }
  eapply simb_last; [apply sim_value_to_bytes_f; lia|]. intros vs h' b (bv & -> & Hb & G). steps. apply sim_ret. eauto.
Qed.
Lemma key_closure_spec k : beq k (B ".") = false -> dyn_fun M (key_closure k) (key_fn k).
Proof.
  intro D. split; [discriminate|]. intros FL h lc fr e HC. pose proof HC as (pv & Ho & Hp & _). apply ctx_bounds in HC. unfold key_closure. enter_closure. steps.
  unfold cb, key_fn, data_get, view. rewrite D. cbn [c_data]. destruct (f_data fr) as [m|].
  - cbn [index pbind]. steps. cbn [pbind].
    apply sim_model_eq with (Cb (fun u => (match mget u m k with Some dv => cb (value_to_bytes dv) | None => Ret [] end, u))).
    { intros E w. unfold cb. cbn [run]. destruct (mget (w_u w) m k) as [dv|]; cbn [run w_u]; [|reflexivity].
      destruct (value_to_bytes dv (w_u w)); reflexivity. }
    apply sim_state. intro u. cbn [fst snd]. split; [reflexivity|]. destruct (mget u m k) as [dv|]; steps.
    + eapply simb_last; [apply sim_value_to_bytes_f; lia|]. intros vs h' b (bv & -> & Hb & G). steps. apply sim_ret. eauto.
    + apply sim_ret. exists VNil. split; [reflexivity|]. split; [reflexivity|apply grown_refl].
  - cbn [index pbind]. steps. eapply sim_cb_pure with (fn := fun u => ([], u)); [reflexivity|].
    apply sim_ret. exists VNil. split; [reflexivity|]. split; [reflexivity|apply grown_refl].
Qed.

(** ** Type switches on nodes *)

(** Does a pointer to a struct with this tag have this type? *)
Definition ptr_type (tag t : string) : bool :=
  match assoc t the_ifaces with
  | Some ms => forallb (fun m => match assoc (dot tag m) (the_funcs ++ lib_funcs) with Some _ => true | None => false end) ms
  | None => String.eqb t (String "*" tag)
  end.
Lemma has_type_tag h l tag fs t : nth_error h l = Some (OStruct tag fs) ->
  has_type C h (VPtr l) t = if ptr_type tag t then Some (VPtr l) else None.
Proof.
  intro Ho. unfold has_type, ptr_type. cbn [c_prog go_config source p_ifaces tag_of]. rewrite Ho.
  destruct (assoc t the_ifaces) as [ms|]; reflexivity.
Qed.
Lemma tswitch_tag ex en x h l tag fs d cs : nth_error h l = Some (OStruct tag fs) ->
  tswitch_with C ex en x h (VPtr l) d cs =
  match find (fun c => ptr_type tag (fst c)) cs with
  | Some c => ex (snd c) (named x (VPtr l) en)
  | None => ex d (named x (VPtr l) en)
  end.
Proof.
  intro Ho. induction cs as [|[t s] cs IH]; [reflexivity|]. cbn [find tswitch_with fst]. rewrite (has_type_tag _ _ _ _ t Ho).
  destruct (ptr_type tag t); [reflexivity|]. exact IH.
Qed.
Lemma simb_tswitch_tag {P : panics} {A' B} ex en x h l tag fs d cs r (f : flow * venv -> prog A') (m : io U B) Q :
  nth_error h l = Some (OStruct tag fs) ->
  find (fun c => ptr_type tag (fst c)) cs = r ->
  sim (pbind (match r with Some c => ex (snd c) (named x (VPtr l) en) | None => ex d (named x (VPtr l) en) end) f) h m Q ->
  sim (pbind (tswitch_with C ex en x h (VPtr l) d cs) f) h m Q.
Proof. intros Ho Hr. rewrite (tswitch_tag _ _ _ _ _ _ _ _ _ Ho), Hr. auto. Qed.

(** ** newValue and newValues *)

(** Data as the library sees it: strings and byte slices written in the code of
    the library itself are not wrapped. *)
Definition data_rep (v : gv) (g : gval U) : Prop :=
  v = any_of g \/
  match g with GString s => v = VStr s | GBytes b => v = VBytes b | _ => False end.
Definition arg_rep (h : heap) (v : gv) (a : arg U) : Prop :=
  match a with
  | ANode n => node_rep M h v n
  | AVal x => val_rep M h v x
  | ADyn f => v = VDyn f
  | AKey k => v = VKey k
  | AData g => data_rep v g
  end.
(** A slice of values that themselves need nothing but what was there before. *)
Definition gives_values (h0 h : heap) (vs : list gv) (h' : heap) (xs : list (value U)) : Prop :=
  exists s ys, vs = [s] /\ slice_is h' s ys /\ all2 (val_rep M h0) ys xs /\ grown h h'.

Lemma nth_error_same {X} : forall l l' : list X, (forall i, nth_error l i = nth_error l' i) -> l = l'.
Proof.
  induction l as [|x l IH]; intros [|y l'] H; auto; try discriminate (H 0).
  f_equal; [injection (H 0); auto|]. apply IH. intro i. exact (H (S i)).
Qed.
Lemma nth_firstn_lt {X} : forall (l : list X) n i, i < n -> nth_error (firstn n l) i = nth_error l i.
Proof. induction l as [|x l IH]; intros [|n] [|i] H; cbn [firstn nth_error]; auto; try lia. apply IH. lia. Qed.
Lemma grown_same h0 h h' : grown h0 h -> same_below (length h0) h h' -> grown h0 h'.
Proof.
  intros [x ->] [L H]. exists (skipn (length h0) h'). rewrite <- (firstn_skipn (length h0) h') at 1. f_equal.
  apply nth_error_same. intro i. destruct (nth_error h0 i) as [o|] eqn:E.
  - pose proof (nth_lt _ _ _ E) as Hi. rewrite nth_firstn_lt by exact Hi. apply H; [exact Hi|]. apply nth_app_old, E.
  - apply nth_error_None in E. apply nth_error_None. rewrite firstn_length. lia.
Qed.

Notation newValue v := (PCall (CFun "aitch.newValue") [v] false PRet).
Ltac look := eapply simb_tswitch_tag; [eassumption|lazy; reflexivity|]; cbn [snd named String.eqb Ascii.eqb Bool.eqb].
Ltac start_node := enter; steps; (eapply simb_heap; [reflexivity|apply stays_same|]); steps; look.
Ltac values H :=
  steps; (eapply simb_method; [eassumption|reflexivity|reflexivity|]); steps; enter; steps; apply sim_ret;
  let ys := fresh "ys" in let H1 := fresh "Hs" in let H2 := fresh "Hv" in destruct H as (ys & H1 & H2);
  eexists _, ys; (split; [reflexivity|]); (split; [eapply slice_grown; eassumption|]); (split; [exact H2|apply grown_refl]).
Ltac nothing :=
  steps; (eapply simb_method; [eassumption|reflexivity|reflexivity|]); steps; (apply simb_call; eapply simb_body; [reflexivity|]); steps;
  cbn [switch_with]; steps; apply sim_ret; exists VNil, []; (split; [reflexivity|]); (split; [reflexivity|]); (split; [reflexivity|apply grown_refl]).

(** What is made so far in a slice of one's own. *)
Definition made (h0 hb : heap) (s : gv) (h : heap) (vs : list (value U)) : Prop :=
  exists ys, slice_is h s ys /\ own (length hb) s /\ all2 (val_rep M h0) ys vs /\ grown hb h.
Lemma all2_app {X Y} (R : X -> Y -> Prop) ys : forall xs ys' xs', all2 R xs ys -> all2 R xs' ys' -> all2 R (xs ++ xs') (ys ++ ys').
Proof.
  induction ys as [|y ys IH]; cbn [all2 app]; [intros xs ys' xs' -> H; exact H|].
  intros xs ys' xs' (x & xs1 & -> & Hx & H) H'. exists x, (xs1 ++ xs'). cbn [app]. auto.
Qed.
Lemma grown_length h h' : @grown W h h' -> length h <= length h'.
Proof. intros [x ->]. rewrite app_length. lia. Qed.
Lemma simb_make_more {P : panics} {A' B} h0 hb h s vs t ts ws (f : list gv -> prog A') (m : io U B) Q :
  made h0 hb s h vs -> slice_is h t ts -> all2 (val_rep M h0) ts ws ->
  (forall s' h', made h0 hb s' h' (vs ++ ws) -> sim (f [s']) h' m Q) ->
  sim (pbind (external C "append" [s; t] true) f) h m Q.
Proof.
  intros (ys & H1 & H2 & H3 & G) Ht Hw K. eapply simb_append_spread; [exact H1|exact H2|apply grown_length, G|exact Ht|].
  intros h' s' X1 X2 X3. apply K. exists (ys ++ ts). split; [exact X1|]. split; [exact X2|]. split; [apply all2_app; auto|].
  eapply grown_same; [exact G|]. eapply appended_same; [exact H2|exact X3].
Qed.
Lemma made_grown h0 hb s h h' vs : made h0 hb s h vs -> grown h h' -> made h0 hb s h' vs.
Proof.
  intros (ys & H1 & H2 & H3 & G) G'. exists ys. split; [eapply slice_grown; eauto|]. split; [auto|]. split; [auto|]. eapply grown_trans; eauto.
Qed.
Lemma simb_make_start {P : panics} {A' B} h0 hb h n t (f : gv -> prog A') (m : io U B) Q :
  String.eqb (substring 0 4 t) "map[" = false -> grown hb h ->
  (forall s h', made h0 hb s h' [] -> sim (f s) h' m Q) ->
  sim (pbind (make t [VInt 0; VInt (Z.of_nat n)]) f) h m Q.
Proof.
  intros Ht G K. unfold make. rewrite Ht. cbn [Z.ltb Z.compare orb]. rewrite (proj2 (Z.ltb_ge _ _)) by lia.
  apply sim_assoc. apply simb_alloc. rewrite Nat2Z.id. cbn [pbind]. apply K. exists [].
  split; [cbn [slice_is]; eexists; split; [apply nth_app_new|]; split; [apply Nat.le_0_l|reflexivity]|].
  split; [apply grown_length, G|]. split; [reflexivity|]. eapply grown_trans; [exact G|apply grown_app].
Qed.

Definition cn_env (l : loc) (s : gv) : venv :=
  [("result"%string, s); ("ok"%string, VBool true); ("cn"%string, VPtr l); ("vt"%string, VPtr l); ("v"%string, VPtr l)].
Definition cn_body : stmt :=
  SBlock [SAssign [LLoc "result"] [ECall (EExt "append") [ELoc "result"; ECall (EFun "aitch.newValue") [ELoc "node"] false] true]].
Lemma cn_loop l sv h0 hb ns : grown h0 hb ->
  Forall (fun n => forall v h0 h, node_rep M h0 v n -> grown h0 h -> sim (newValue v) h (Ret (node_values n)) (gives_values h0 h)) ns ->
  forall h s vs pre xs, slice_is h0 sv (pre ++ xs) -> all2 (node_rep M h0) xs ns -> made h0 hb s h vs ->
  sim (range_with (exec C cn_body) "_" "node" (slice_items sv (length pre) (length xs)) (cn_env l s)) h
    (Ret (vs ++ flat_map node_values ns))
    (fun r h' vs' => exists s', r = (FNext, cn_env l s') /\ made h0 hb s' h' vs').
Proof.
  intro G0. induction 1 as [|n ns Hn _ IH]; intros h s vs pre xs Hs Hx Hm; cbn [all2] in Hx.
  - subst xs. cbn [length flat_map]. rewrite app_nil_r. apply sim_ret. eauto.
  - destruct Hx as (x & xs' & -> & Hx & Hxs). cbn [length flat_map]. pose proof Hm as (ys & Y1 & Y2 & Y3 & G).
    eapply sim_range_cons; [eapply slice_grown; [exact (grown_trans _ _ _ G0 G)|exact Hs]|]. unfold cn_body, cn_env. steps.
    change (Ret (vs ++ node_values n ++ flat_map node_values ns)) with (bind (Ret (node_values n)) (fun a => @Ret U _ (vs ++ a ++ flat_map node_values ns))).
    eapply simb_pcall; [apply Hn with (h0 := h0); [exact Hx|exact (grown_trans _ _ _ G0 G)]|]. intros r h1 ws (t & ts & -> & T1 & T2 & G1). steps.
    eapply simb_make_more; [eapply made_grown; eauto|exact T1|exact T2|]. intros s' h2 M2. steps.
    change [("result"%string, s'); ("ok"%string, VBool true); ("cn"%string, VPtr l); ("vt"%string, VPtr l); ("v"%string, VPtr l)] with (cn_env l s').
    rewrite app_assoc. next_turn Hs IH. auto.
Qed.
Lemma new_value_node : forall n v h0 h, node_rep M h0 v n -> grown h0 h ->
  sim (newValue v) h (Ret (node_values n)) (gives_values h0 h).
Proof.
  apply (node_ind' (fun n => forall v h0 h, node_rep M h0 v n -> grown h0 h -> sim (newValue v) h (Ret (node_values n)) (gives_values h0 h)) (fun _ => True)); auto; cbn [node_rep];
    [intros a v h0 h R G|intros name attrs idx conds ns IH v h0 h R G|intros name attrs idx conds v h0 h R G|intros vs v h0 h R G|intros vs v h0 h R G|intros name vs v h0 h R G
    |intros vs v h0 h R G|intros ns IH v h0 h R G|intros f attrs ns IH v h0 h R G|intros f _ v h0 h R G|intros v h0 h R G|intros p _ v h0 h R G|intros f ns IH v h0 h R G|intros p ns IH v h0 h R G
    |intros pr ns IHp IH v h0 h R G].
  - destruct a as [n vs|n|n d vs]; cbn [attr_rep] in R.
    + destruct R as (l & nv & sv & -> & H1 & H2 & H3). apply (grown_nth _ _ _ _ G) in H1. start_node. values H3.
    + destruct R as (l & nv & -> & H1 & H2). apply (grown_nth _ _ _ _ G) in H1. start_node. nothing.
    + destruct R as (l & nv & dv & sv & -> & H1 & H2 & H3 & H4). apply (grown_nth _ _ _ _ G) in H1. start_node. values H4.
  - destruct R as (l & -> & nv & av & iv & cv & sv & xs & H1 & H2). apply (grown_nth _ _ _ _ G) in H1. start_node. nothing.
  - destruct R as (l & -> & nv & av & iv & cv & H1 & H2). apply (grown_nth _ _ _ _ G) in H1. start_node. nothing.
  - destruct R as (l & -> & sv & H1 & H2). apply (grown_nth _ _ _ _ G) in H1. start_node. values H2.
  - destruct R as (l & -> & sv & H1 & H2). apply (grown_nth _ _ _ _ G) in H1. start_node. values H2.
  - destruct R as (l & -> & nv & sv & H1 & H2 & H3). apply (grown_nth _ _ _ _ G) in H1. start_node. values H3.
  - destruct R as (l & -> & sv & H1 & H2). apply (grown_nth _ _ _ _ G) in H1. start_node. values H2.
  - destruct R as (l & -> & sv & xs & H1 & H2 & H3). apply (grown_nth _ _ _ _ G) in H1. start_node. steps.
    eapply simb_method; [eassumption|reflexivity|reflexivity|]. steps. enter. steps. cbn [switch_with]. steps.
    eapply simb_eq with (X' := PRet true); [reflexivity|]. steps.
    eapply simb_assert_ok; [apply (has_type_tag _ _ _ _ _ H1)|].
    change (ptr_type "collection" "*collection") with true. steps.
    pose proof (slice_grown _ _ _ _ G H2) as H2'. steps.
    eapply (simb_make_start h0 h); [reflexivity|apply grown_refl|]. intros s1 h1 M1. steps.
    pose proof M1 as (ys & Y1 & Y2 & Y3 & G1). apply (grown_nth _ _ _ _ G1) in H1. apply (slice_grown _ _ _ _ G1) in H2'. steps.
    eapply sim_last; [apply (cn_loop l sv h0 h ns G IH h1 s1 [] [] xs H2 H3 M1)|].
    intros r h2 b (s2 & -> & ys2 & Z1 & Z2 & Z3 & G2). unfold cn_env. steps. apply sim_ret.
    exists s2, ys2. auto.
  - destruct R as (l & -> & sv & av & fv & xs & H1 & H2). apply (grown_nth _ _ _ _ G) in H1. start_node. nothing.
  - destruct R as (l & -> & H1). apply (grown_nth _ _ _ _ G) in H1. start_node. nothing.
  - destruct R as (l & -> & H1). apply (grown_nth _ _ _ _ G) in H1. start_node. nothing.
  - destruct R as (l & -> & H1). apply (grown_nth _ _ _ _ G) in H1. start_node. nothing.
  - destruct R as (l & -> & sv & fv & xs & H1 & H2). apply (grown_nth _ _ _ _ G) in H1. start_node. nothing.
  - destruct R as (l & -> & sv & xs & H1 & H2). apply (grown_nth _ _ _ _ G) in H1. start_node. nothing.
  - destruct R as (l & -> & pv & sv & xs & H1 & H2). apply (grown_nth _ _ _ _ G) in H1. start_node. nothing.
Qed.

(** Data has none of the types of the library. *)
Definition data_types : list string :=
  number_types ++ ["bool"; "[]byte"; "string"; "fmt.Stringer"; "func() any"; "map[string]any"; "[]any"]%string.
Lemma data_not h g t : existsb (String.eqb t) data_types = false -> has_type C h (VAny g) t = None.
Proof.
  unfold data_types. rewrite existsb_app. intro E. apply orb_false_iff in E. destruct E as [E1 E2]. cbn [existsb] in E2.
  repeat (apply orb_false_iff in E2; let X := fresh "X" in destruct E2 as [X E2]).
  destruct (mode_numbers M MO) as (M1 & M2 & M3).
  pose proof (number_not _ t M1 E1) as N1. pose proof (number_not _ t M2 E1) as N2. pose proof (number_not _ t M3 E1) as N3.
  unfold has_type. destruct (assoc t (p_ifaces (c_prog C))); [reflexivity|].
  destruct g; cbn [c_int c_uint c_float go_config]; rewrite ?N1, ?N2, ?N3, ?X, ?X0, ?X1, ?X2, ?X3, ?X4, ?X5; reflexivity.
Qed.
Lemma tswitch_data {A' B} ex en x h g d cs (f : flow * venv -> prog A') (m : io U B) Q :
  forallb (fun c => negb (existsb (String.eqb (fst c)) data_types)) cs = true ->
  sim (pbind (ex d (named x (VAny g) en)) f) h m Q ->
  sim (pbind (tswitch_with C ex en x h (VAny g) d cs) f) h m Q.
Proof.
  intros H K. enough (E : tswitch_with C ex en x h (VAny g) d cs = ex d (named x (VAny g) en)) by (rewrite E; exact K).
  induction cs as [|[t s] cs IH]; [reflexivity|]. cbn [forallb fst] in H. apply andb_true_iff in H. destruct H as [H1 H2].
  cbn [tswitch_with]. rewrite data_not; [apply IH, H2|]. apply negb_true_iff, H1.
Qed.

Definition plain_value (bv : gv) : gv := VStruct "Value" [("value"%string, bv); ("dynamicFunc"%string, VNil); ("concats"%string, VNil)].
Definition dyn_value (fv : gv) : gv := VStruct "Value" [("value"%string, VNil); ("dynamicFunc"%string, fv); ("concats"%string, VNil)].
Lemma plain_value_rep h bv b : bytes_of bv = Some b -> val_rep M h (plain_value bv) (Val b None []).
Proof. intro H. cbn [val_rep]. exists bv, VNil, VNil, []. repeat split; auto. Qed.
Lemma dyn_value_rep h fv f : dyn_fun M fv f -> val_rep M h (dyn_value fv) (Val [] (Some f) []).
Proof. intro H. cbn [val_rep]. exists VNil, fv, VNil, []. split; [reflexivity|]. split; [reflexivity|]. split; [exact H|]. split; reflexivity. Qed.
Lemma simb_new_value1 {A' B} x (f : gv -> prog A') h (m : io U B) Q :
  sim (f (VSlice (length h) 1)) (h ++ [OArr [x]]) m Q -> sim (pbind (new_slice [x]) f) h m Q.
Proof. intro K. unfold new_slice. apply sim_assoc. apply simb_alloc. exact K. Qed.
Lemma one_value h0 h x v : val_rep M h0 x v -> gives_values h0 h [VSlice (length h) 1] (h ++ [OArr [x]]) [v].
Proof.
  intro H. exists (VSlice (length h) 1), [x]. split; [reflexivity|]. split.
  - exists [x]. split; [apply nth_app_new|]. split; [auto|reflexivity].
  - split; [|apply grown_app]. exists x, []. split; [reflexivity|]. split; [exact H|reflexivity].
Qed.

Lemma gives_more h0 h h1 vs h' xs : grown h h1 -> gives_values h0 h1 vs h' xs -> gives_values h0 h vs h' xs.
Proof. intros G (s & ys & H1 & H2 & H3 & H4). exists s, ys. repeat split; auto. eapply grown_trans; eauto. Qed.
Lemma new_value_data g h0 h : any_of g = VAny g ->
  sim (newValue (any_of g)) h (cb (new_value (AData g))) (gives_values h0 h).
Proof.
  intro E. rewrite E. enter. steps. eapply simb_heap; [reflexivity|apply stays_same|]. steps. apply tswitch_data; [reflexivity|]. cbn [named String.eqb Ascii.eqb Bool.eqb]. steps.
  apply sim_model_eq with (Cb (fun u => let '(b, u') := value_to_bytes g u in (Ret [Val b None []], u'))).
  { intros E' w. unfold cb. cbn [run]. destruct g; try discriminate; cbn [new_value]; destruct (value_to_bytes _ (w_u w)); reflexivity. }
  apply sim_cb. rewrite <- E at 1. eapply simb_pcall; [apply sim_value_to_bytes|]. intros vs h' b (bv & -> & Hb & G'). steps.
  apply simb_new_value1. steps. apply sim_ret. apply (gives_more h0 h h' _ _ _ G'). apply one_value, plain_value_rep, Hb.
Qed.
Lemma sim_new_value a v h0 h : arg_rep h0 v a -> grown h0 h ->
  sim (newValue v) h (cb (new_value a)) (gives_values h0 h).
Proof.
  intros R G. destruct a as [n|x|f|k|g]; cbn [arg_rep] in R.
  - eapply sim_cb_pure; [reflexivity|]. apply new_value_node; auto.
  - eapply sim_cb_pure; [reflexivity|]. destruct x as [b dyn cs]. pose proof R as R'. cbn [val_rep] in R. 
    destruct R as (bv & dv & sv & xs & -> & R). enter. steps. eapply simb_heap; [reflexivity|apply stays_same|]. steps. tswitch. steps.
    apply simb_new_value1. steps. apply sim_ret, one_value, R'.
  - subst v. eapply sim_cb_pure; [reflexivity|]. enter. steps. eapply simb_heap; [reflexivity|apply stays_same|]. steps. tswitch. steps.
    apply simb_new_value1. steps. apply sim_ret, one_value. apply dyn_value_rep, dyn_user.
  - subst v. eapply sim_cb_pure; [reflexivity|]. enter. steps. eapply simb_heap; [reflexivity|apply stays_same|]. steps. tswitch. steps.
    destruct (beq k (B ".")) eqn:D; steps; apply simb_new_value1; steps; apply sim_ret, one_value.
    + apply dyn_value_rep, (dot_closure_spec k D).
    + apply dyn_value_rep, (key_closure_spec k D).
  - destruct R as [->|R].
    + destruct g; [eapply sim_cb_pure; [reflexivity|]; enter; steps; apply sim_ret; exists VNil, []; repeat split; apply grown_refl|..].
      all: apply new_value_data; reflexivity.
    + destruct g; try contradiction; subst v; (eapply sim_cb_pure; [reflexivity|]); enter; steps; (eapply simb_heap; [reflexivity|apply stays_same|]); steps; tswitch; steps;
        (match goal with |- context [Ret [Val ?x _ _]] => change (@Ret U (list (value U)) [Val x None []]) with (bind (@Ret U bytes x) (fun y => @Ret U (list (value U)) [Val y None []])) end);
        (eapply simb_pcall; [first [apply (value_to_bytes_raw true)|apply (value_to_bytes_raw false)]|]); intros vs h' b' (bv & -> & Hb & G'); steps; apply simb_new_value1; steps; apply sim_ret;
        apply (gives_more h0 h h' _ _ _ G'); apply one_value, plain_value_rep, Hb.
Qed.

(** newValues, whose arguments may be nil. *)
Definition nv_env (s cv : gv) : venv := [("result"%string, s); ("contents"%string, cv)].
Definition nv_body : stmt :=
  SBlock [SIf None (EBin ONe (ELoc "v") ENil)
     (SBlock [SAssign [LLoc "result"] [ECall (EExt "append") [ELoc "result"; ECall (EFun "aitch.newValue") [ELoc "v"] false] true]])
     SSkip].
Lemma arg_nil h v a : arg_rep h v a -> v = VNil -> a = AData GNil.
Proof.
  intros H ->. destruct a as [n|x|f|k|g]; cbn [arg_rep] in H; try discriminate.
  - destruct n as [[]| | | | | | | | | | | | |]; cbn [node_rep attr_rep] in H; split_all; discriminate.
  - destruct x. cbn [val_rep] in H. split_all. discriminate.
  - destruct H as [H|H]; destruct g; try discriminate; try contradiction; reflexivity.
Qed.
Lemma nv_loop cv h0 hb : grown h0 hb ->
  forall args h s vs pre xs, slice_is h0 cv (pre ++ xs) -> all2 (arg_rep h0) xs args -> made h0 hb s h vs ->
  sim (range_with (exec C nv_body) "_" "v" (slice_items cv (length pre) (length xs)) (nv_env s cv)) h
    (bind (cb (new_values args)) (fun ws => Ret (vs ++ ws)))
    (fun r h' vs' => exists s', r = (FNext, nv_env s' cv) /\ made h0 hb s' h' vs').
Proof.
  intro G0. induction args as [|a args IH]; intros h s vs pre xs Hs Hx Hm; cbn [all2] in Hx.
  - subst xs. apply sim_model_eq with (Ret (vs ++ [])).
    { intros E w. unfold cb. cbn [bind run new_values]. destruct w; reflexivity. }
    rewrite app_nil_r. apply sim_ret. eauto.
  - destruct Hx as (x & xs' & -> & Hx & Hxs). pose proof Hm as (ys & Y1 & Y2 & Y3 & G).
    apply sim_model_eq with (bind (cb (new_value a)) (fun ws => bind (cb (new_values args)) (fun ws' => Ret ((vs ++ ws) ++ ws')))).
    { intros E w. unfold cb. cbn [bind run new_values]. destruct (new_value a (w_u w)) as [v1 u1]. cbn [bind run w_u w_log w_tick].
      destruct (new_values args u1) as [v2 u2]. cbn [bind run]. rewrite app_assoc. reflexivity. }
    cbn [length]. eapply sim_range_cons; [eapply slice_grown; [exact (grown_trans _ _ _ G0 G)|exact Hs]|]. unfold nv_body at 1, nv_env. steps.
    assert (Nx : x = VNil \/ x <> VNil) by (destruct x; auto; right; discriminate). destruct Nx as [Nx|Nx].
    + pose proof (arg_nil _ _ _ Hx Nx) as ->. subst x. steps.
      apply sim_model_eq with (bind (cb (new_values args)) (fun ws' => Ret (vs ++ ws'))).
      { intros E w. unfold cb. cbn [bind run new_value]. rewrite app_nil_r. destruct w; reflexivity. }
      next_turn Hs IH. auto.
    + eapply simb_eq; [rewrite (equal_nil _ Nx); reflexivity|]. steps.
      eapply simb_pcall; [apply sim_new_value with (h0 := h0); [exact Hx|exact (grown_trans _ _ _ G0 G)]|].
      intros r h1 ws (t & ts & -> & T1 & T2 & G1). steps.
      eapply simb_make_more; [eapply made_grown; eauto|exact T1|exact T2|]. intros s' h2 M2. steps.
      fold (nv_env s' cv). next_turn Hs IH. auto.
Qed.
Notation newValues v := (PCall (CFun "aitch.newValues") [v] true PRet).
Lemma sim_new_values cv xs args h0 h : slice_is h0 cv xs -> all2 (arg_rep h0) xs args -> grown h0 h ->
  sim (newValues cv) h (cb (new_values args)) (fun vs h' ws => exists s, vs = [s] /\ made h0 h s h' ws).
Proof.
  intros Hs Hx G. enter. pose proof (slice_grown _ _ _ _ G Hs) as Hs'. steps.
  eapply (simb_make_start h0 h); [reflexivity|apply grown_refl|]. intros s1 h1 M1. steps.
  pose proof M1 as (ys & Y1 & Y2 & Y3 & G1). apply (slice_grown _ _ _ _ G1) in Hs'. steps.
  apply sim_model_eq with (bind (cb (new_values args)) (fun ws => Ret ([] ++ ws))).
  { intros E w. unfold cb. cbn [bind run app]. destruct (new_values args (w_u w)); reflexivity. }
  eapply sim_last; [apply (nv_loop cv h0 h G args h1 s1 [] [] xs Hs Hx M1)|].
  intros r h2 b (s2 & -> & M2). unfold nv_env. steps. apply sim_ret. eauto.
Qed.
End Refine.
