(** The translated source of element.go does what the model says, provided the
    contents do. *)
From Coq Require Import ZArith Lia.
From Verif Require Import Bytes IO IOFacts Nodes NodeInd Values Render Build SpecOut Slices GoSyntax Source GoSem GoRun GoRep GoStep GoOwn RefineValue RefineNode RefineAttrs.
Local Open Scope nat_scope.

Section Refine.
Context {W : UserWorld}.
Context {FL : floor}.
Variable M : go_mode.
Notation C := (go_config M).
Notation sim := (sim C).
Notation node_spec := (node_spec M).

Definition assign_body : stmt :=
  SBlock [SAssign [LField (ELoc "ctx") "Error"] [EMethod (ELoc "c") "Render" [ELoc "ctx"] false]].
Lemma assign_loop lc fr sv en : assoc "ctx" en = Some (VPtr lc) ->
  forall ns, Forall node_spec ns -> SpecOut.all SpecOut.tables_ok ns ->
  forall h e pre xs, ctx_at h lc fr e -> slice_is h sv (pre ++ xs) -> all2 (node_rep M h) xs ns ->
  sim (range_with (exec C assign_body) "_" "c" (slice_items sv (length pre) (length xs)) en)
    h (each_assign (fun c e => render c fr e) ns e)
    (fun r h' e' => r = (FNext, en) /\ went lc fr h h' e').
Proof.
  intros He ns. induction 1 as [|c cs Hc _ IH]; intros T h e pre xs HC Hs Hcs; cbn [all2] in Hcs.
  - subst xs. cbn [length slice_items seq map range_with each_assign]. apply sim_ret.
    split; [auto|]. split; [kept_chain|exact HC].
  - destruct T as [T1 T2]. destruct Hcs as (x & xs' & -> & Hx & Hcs). cbn [length]. eapply sim_range_cons; [exact Hs|].
    cbn [each_assign]. steps. eapply simb_node; eauto. intros h1 x1 e1 K1 HC1. carry K1. steps.
    eapply simb_set_error; [exact HC1|]. intros h2 K2 HC2. carry K2. steps.
    next_turn Hs IH; auto. intros r h' b (H1 & H3 & H4). split; [auto|]. split; [kept_chain|exact H4].
Qed.

Lemma void_spec name attrs idx conds : node_spec (NVoid name attrs idx conds).
Proof.
  intros h lc fr e v HC (l & -> & nv & av & iv & cv & Ho & Hn & Ha & Hi & Hc) T. apply sim_eta.
  eapply simb_method; [exact Ho|reflexivity|reflexivity|]. enter. steps. cbn [render].
  wr h1 e1 K1 HC1. wr h2 e2 K2 HC2. eapply simb_pcall; [apply render_attributes_spec; eauto|].
  intros r h3 e3 (-> & K3 & HC3). carry K3. steps. wr h4 e4 K4 HC4.
  apply sim_ret. split; [reflexivity|]. split; [kept_chain|auto].
Qed.
Lemma element_spec name attrs idx conds ns : Forall node_spec ns -> node_spec (NElement name attrs idx conds ns).
Proof.
  intros IH h lc fr e v HC (l & -> & nv & av & iv & cv & sv & xs & Ho & Hn & Ha & Hi & Hc & Hs & Hx) (T1 & T2). apply sim_eta.
  eapply simb_method; [exact Ho|reflexivity|reflexivity|]. enter. steps. cbn [render].
  wr h1 e1 K1 HC1. wr h2 e2 K2 HC2. eapply simb_pcall; [apply render_attributes_spec; eauto|].
  intros r h3 e3 (-> & K3 & HC3). carry K3. steps. wr h4 e4 K4 HC4.
  eapply sim_bind; [eapply (fun H => assign_loop lc fr sv _ H ns IH T2 h4 e4 [] xs); eauto|].
  intros r h5 e5 (-> & K5 & HC5). carry K5. steps. unfold close_tag. apply sim_model_assoc. wr h6 e6 K6 HC6.
  apply sim_model_assoc. wr h7 e7 K7 HC7. wr h8 e8 K8 HC8.
  apply sim_ret. split; [reflexivity|]. split; [kept_chain|auto].
Qed.
End Refine.
