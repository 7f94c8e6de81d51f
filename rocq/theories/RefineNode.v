(** The translated source of collection.go, conditional.go (Render of nodes),
    html/document.go does what the model says, provided its child nodes do. *)
From Coq Require Import ZArith Lia.
From Verif Require Import Bytes IO IOFacts Nodes NodeInd Values Render Build SpecOut Slices GoSyntax Source GoSem GoRun GoRep GoStep RefineValue.
Local Open Scope nat_scope.

Section Refine.
Context {W : UserWorld}.
Context {FL : floor}.
Variable M : go_mode.
Notation C := (go_config M).
Notation sim := (sim C).
Notation node_spec := (node_spec M).

(** ** Type, Name, getValues *)

Lemma simb_type {P : panics} {A' B} n v h (f : list gv -> prog A') (m : io U B) Q :
  node_rep M h v n -> (forall z, (z =? 1)%Z = is_attr n -> sim (f [VInt z]) h m Q) ->
  sim (pbind (invoke v "Type" [] false) f) h m Q.
Proof.
  intros Hr K.
  destruct n as [a|name attrs idx conds ns|name attrs idx conds|vs|vs|name vs|vs|ns|fn attrs ns|fn|p|fn ns|p ns|pr ns];
    cbn [node_rep] in Hr.
  1: destruct a; destruct Hr as (l & Hr).
  all: try destruct Hr as (l & -> & Hr).
  all: split_all.
  all: eapply simb_method; [eassumption|reflexivity|reflexivity|]; enter; steps; apply K; reflexivity.
Qed.
Lemma string_of v b : bytes_of v = Some b ->
  match v with VStr b | VBytes b => Some (VStr b) | VNil => Some (VStr []) | _ => None end = @Some gv (VStr b).
Proof. destruct v; try discriminate; cbn [bytes_of]; intro H; inversion H; reflexivity. Qed.
Lemma simb_attr_name {A' B} a v h (f : list gv -> prog A') (m : io U B) Q :
  attr_rep M h v a -> sim (f [VStr (attr_name a)]) h m Q ->
  sim (pbind (invoke v "Name" [] false) f) h m Q.
Proof.
  intros Hr K. destruct a; cbn [attr_rep] in Hr; split_all;
    (eapply simb_method; [eassumption|reflexivity|reflexivity|]; enter; steps; rewrite (string_of _ _ H1); steps; exact K).
Qed.

(** ** Rendering a child *)

Lemma simb_node {A' B} n v h lc fr e (f : list gv -> prog A') (g : option error * option error -> io U B) Q :
  node_spec n -> SpecOut.tables_ok n -> ctx_at h lc fr e -> node_rep M h v n ->
  (forall h' x e', kept lc h h' -> ctx_at h' lc fr e' -> sim (f [verr x]) h' (g (x, e')) Q) ->
  sim (pbind (invoke v "Render" [VPtr lc] false) f) h (bind (render n fr e) g) Q.
Proof.
  intros S1 T HC Hr K. eapply sim_bind; [apply S1; eauto|]. intros vs h' [x e'] (-> & K1 & K2).
  cbn [fst snd] in *. apply K; auto.
Qed.

(** ** collection.go *)

Definition coll_body : stmt :=
  SBlock [SIf None (EBin ONe (EMethod (ELoc "n") "Type" [] false) (EInt 1))
     (SBlock [SIf (Some (SAssign [LField (ELoc "ctx") "Error"] [EMethod (ELoc "n") "Render" [ELoc "ctx"] false]))
                (EBin ONe (EField (ELoc "ctx") "Error") ENil)
       (SBlock [SReturn [EField (ELoc "ctx") "Error"]]) SSkip]) SSkip].

Lemma coll_loop lc fr sv en : assoc "ctx" en = Some (VPtr lc) ->
  forall ns, Forall node_spec ns -> SpecOut.all SpecOut.tables_ok ns ->
  forall h e pre xs, ctx_at h lc fr e -> slice_is h sv (pre ++ xs) -> all2 (node_rep M h) xs ns ->
  sim (range_with (exec C coll_body) "_" "n" (slice_items sv (length pre) (length xs)) en)
    h (each_content_until (fun c e => render c fr e) ns e)
    (fun r h' b => (r = (FNext, en) \/ r = (FReturn [verr (snd b)], en)) /\ fst b = snd b /\ went lc fr h h' (snd b)).
Proof.
  intros He ns. induction 1 as [|c cs Hc _ IH]; intros T h e pre xs HC Hs Hcs; cbn [all2] in Hcs.
  - subst xs. cbn [length slice_items seq map range_with each_content_until]. apply sim_ret.
    split; [auto|]. split; [auto|]. split; [kept_chain|exact HC].
  - destruct T as [T1 T2]. destruct Hcs as (x & xs' & -> & Hx & Hcs). cbn [length]. eapply sim_range_cons; [exact Hs|].
    steps. eapply simb_type; [exact Hx|]. intros z Hz. steps. rewrite Hz. cbn [each_content_until].
    destruct (is_attr c).
    + steps. next_turn Hs IH; auto.
    + steps. eapply simb_node; eauto. intros h1 x1 e1 K1 HC1. carry K1. steps.
      eapply simb_set_error; [exact HC1|]. intros h2 K2 HC2. carry K2. steps. destruct x1 as [x1|].
      * steps. apply sim_ret. split; [right; reflexivity|]. split; [reflexivity|]. split; [kept_chain|exact HC2].
      * steps. next_turn Hs IH; auto. intros r h' b (H1 & H2 & H3 & H4). split; [auto|]. split; [auto|]. split; [kept_chain|exact H4].
Qed.

Lemma collection_spec ns : Forall node_spec ns -> node_spec (NCollection ns).
Proof.
  intros IH h lc fr e v HC (l & -> & sv & xs & Ho & Hs & Hn) T. apply sim_eta.
  eapply simb_method; [exact Ho|reflexivity|reflexivity|]. enter. steps. cbn [render].
  apply sim_eta_model. eapply sim_bind; [eapply (fun H => coll_loop lc fr sv _ H ns IH T h e [] xs); eauto|].
  intros r h1 [x1 e1] (Hr & Hx & K1 & HC1). cbn [fst snd] in *. subst x1. carry K1. destruct Hr as [-> | ->]; steps.
  - apply sim_ret. split; [reflexivity|]. split; auto.
  - apply sim_ret. split; [reflexivity|]. split; auto.
Qed.

(** [_ = n.Render(ctx)] for the content nodes of a list that may contain nil. *)
Definition opt_rep (h : heap) (v : gv) (n : option (node U)) : Prop :=
  match n with Some n => node_rep M h v n | None => v = VNil end.
Lemma opt_keeps h h' v n : keeps h h' -> opt_rep h v n -> opt_rep h' v n.
Proof. destruct n; cbn [opt_rep]; auto. intro K. apply node_keeps, K. Qed.
Lemma node_not_nil h v n : node_rep M h v n -> v <> VNil.
Proof. destruct n as [a|x1 x2 x3 x4 x5|x1 x2 x3 x4|x1|x1|x1 x2|x1|x1|x1 x2 x3|x1|x1|x1 x2|x1 x2|x1 x2]; cbn [node_rep]; [destruct a; cbn [attr_rep]|..]; intros Hr E; split_all; discriminate. Qed.

Definition content_body (n : string) (cx : expr) : stmt :=
  SBlock [SIf None (EAnd (EBin ONe (ELoc n) ENil) (EBin ONe (EMethod (ELoc n) "Type" [] false) (EInt 1)))
     (SBlock [SAssign [LBlank] [EMethod (ELoc n) "Render" [cx] false]]) SSkip].

Lemma content_loop lc fr sv en : assoc "ctx" en = Some (VPtr lc) ->
  forall ns, Forall (SpecOut.opt node_spec) ns -> SpecOut.all (SpecOut.opt SpecOut.tables_ok) ns ->
  forall h e pre xs, ctx_at h lc fr e -> slice_is h sv (pre ++ xs) -> all2 (opt_rep h) xs ns ->
  sim (range_with (exec C (content_body "n" (ELoc "ctx"))) "_" "n" (slice_items sv (length pre) (length xs)) en)
    h (each_content_ignore (fun c e => render c fr e) ns e)
    (fun r h' e' => r = (FNext, en) /\ went lc fr h h' e').
Proof.
  intros He ns. induction 1 as [|c cs Hc _ IH]; intros T h e pre xs HC Hs Hcs; cbn [all2] in Hcs.
  - subst xs. cbn [length slice_items seq map range_with each_content_ignore]. apply sim_ret.
    split; [auto|]. split; [kept_chain|exact HC].
  - destruct T as [T1 T2]. destruct Hcs as (x & xs' & -> & Hx & Hcs). cbn [length]. eapply sim_range_cons; [exact Hs|].
    destruct c as [c|]; cbn [opt_rep SpecOut.opt] in *.
    + steps. rewrite (equal_nil x) by (eapply node_not_nil; eauto). steps.
      eapply simb_type; [exact Hx|]. intros z Hz. steps. rewrite Hz. cbn [each_content_ignore].
      destruct (is_attr c).
      * steps. next_turn Hs IH; auto.
      * steps. eapply simb_node; eauto. intros h1 x1 e1 K1 HC1. carry K1.
        apply (all2_mono _ _ _ _ (fun x y => opt_keeps _ _ x y (kept_keeps _ _ _ K1))) in Hcs. steps.
        next_turn Hs IH; auto. intros r h' b (H1 & H3 & H4). split; [auto|]. split; [kept_chain|exact H4].
    + subst x. steps. next_turn Hs IH; auto.
Qed.

(** ** conditional.go *)

Definition cond_body : stmt :=
  SBlock [SIf (Some (SAssign [LField (ELoc "ctx") "Error"] [EMethod (ELoc "n") "Render" [ELoc "ctx"] false]))
            (EBin ONe (EField (ELoc "ctx") "Error") ENil) (SBlock [SBreak]) SSkip].
Lemma cond_loop lc fr sv en : assoc "ctx" en = Some (VPtr lc) ->
  forall ns, Forall node_spec ns -> SpecOut.all SpecOut.tables_ok ns ->
  forall h e pre xs, ctx_at h lc fr e -> slice_is h sv (pre ++ xs) -> all2 (node_rep M h) xs ns ->
  sim (range_with (exec C cond_body) "_" "n" (slice_items sv (length pre) (length xs)) en)
    h (each_until (fun c e => render c fr e) ns e)
    (fun r h' b => r = (FNext, en) /\ fst b = snd b /\ went lc fr h h' (snd b)).
Proof.
  intros He ns. induction 1 as [|c cs Hc _ IH]; intros T h e pre xs HC Hs Hcs; cbn [all2] in Hcs.
  - subst xs. cbn [length slice_items seq map range_with each_until]. apply sim_ret.
    split; [auto|]. split; [auto|]. split; [kept_chain|exact HC].
  - destruct T as [T1 T2]. destruct Hcs as (x & xs' & -> & Hx & Hcs). cbn [length]. eapply sim_range_cons; [exact Hs|].
    cbn [each_until]. steps. eapply simb_node; eauto. intros h1 x1 e1 K1 HC1. carry K1. steps.
    eapply simb_set_error; [exact HC1|]. intros h2 K2 HC2. carry K2. steps. destruct x1 as [x1|].
    + steps. apply sim_ret. split; [reflexivity|]. split; [reflexivity|]. split; [kept_chain|exact HC2].
    + steps. next_turn Hs IH; auto. intros r h' b (H1 & H2 & H3 & H4). split; [auto|]. split; [auto|]. split; [kept_chain|exact H4].
Qed.
Lemma conditional_spec fn attrs ns : Forall node_spec ns -> node_spec (NConditional fn attrs ns).
Proof.
  intros IH h lc fr e v HC (l & -> & sv & av & fv & xs & Ho & Hs & Hn & Ha & Hf) T. apply sim_eta.
  eapply simb_method; [exact Ho|reflexivity|reflexivity|]. enter. steps. cbn [render].
  eapply simb_funfield; [exact Ho|reflexivity|].
  eapply simb_cond; [exact Hf|exact HC|]. intros b h1 G1 HC1. pose proof (grown_kept _ _ _ _ _ G1 HC) as K1. carry K1. steps. destruct b; steps.
  - apply sim_eta_model. eapply sim_bind; [eapply (fun H => cond_loop lc fr sv _ H ns IH T h1 e [] xs); eauto|].
    intros r h2 [x2 e2] (-> & Hx & K2 & HC2). cbn [fst snd] in *. subst x2. carry K2. steps.
    apply sim_ret. split; [reflexivity|]. split; [kept_chain|auto].
  - apply sim_ret. split; [reflexivity|]. split; [kept_chain|auto].
Qed.

(** ** html/document.go *)

Definition ignore_body : stmt := SBlock [SAssign [LBlank] [EMethod (ELoc "n") "Render" [ELoc "ctx"] false]].
Lemma ignore_loop lc fr sv en : assoc "ctx" en = Some (VPtr lc) ->
  forall ns, Forall node_spec ns -> SpecOut.all SpecOut.tables_ok ns ->
  forall h e pre xs, ctx_at h lc fr e -> slice_is h sv (pre ++ xs) -> all2 (node_rep M h) xs ns ->
  sim (range_with (exec C ignore_body) "_" "n" (slice_items sv (length pre) (length xs)) en)
    h (each_ignore (fun c e => render c fr e) ns e)
    (fun r h' e' => r = (FNext, en) /\ went lc fr h h' e').
Proof.
  intros He ns. induction 1 as [|c cs Hc _ IH]; intros T h e pre xs HC Hs Hcs; cbn [all2] in Hcs.
  - subst xs. cbn [length slice_items seq map range_with each_ignore]. apply sim_ret.
    split; [auto|]. split; [kept_chain|exact HC].
  - destruct T as [T1 T2]. destruct Hcs as (x & xs' & -> & Hx & Hcs). cbn [length]. eapply sim_range_cons; [exact Hs|].
    cbn [each_ignore]. steps. eapply simb_node; eauto. intros h1 x1 e1 K1 HC1. carry K1. steps.
    next_turn Hs IH; auto. intros r h' b (H1 & H3 & H4). split; [auto|]. split; [kept_chain|exact H4].
Qed.
Lemma document_spec pr ns : SpecOut.opt node_spec pr -> Forall node_spec ns -> node_spec (NDocument pr ns).
Proof.
  intros IHp IH h lc fr e v HC (l & -> & pv & sv & xs & Ho & Hp & Hs & Hn) (T1 & T2). apply sim_eta.
  eapply simb_method; [exact Ho|reflexivity|reflexivity|]. enter. steps. cbn [render]. destruct pr as [p|].
  - rewrite (equal_nil pv) by (eapply node_not_nil; eauto). steps. apply sim_model_assoc.
    eapply simb_node; eauto. intros h1 x1 e1 K1 HC1. carry K1. steps. cbn [bind].
    eapply sim_bind; [eapply (fun H => ignore_loop lc fr sv _ H ns IH T2 h1 e1 [] xs); eauto|].
    intros r h2 e2 (-> & K2 & HC2). carry K2. steps. apply sim_ret. split; [reflexivity|]. split; [kept_chain|auto].
  - subst pv. steps. cbn [bind]. eapply sim_bind; [eapply (fun H => ignore_loop lc fr sv _ H ns IH T2 h e [] xs); eauto|].
    intros r h2 e2 (-> & K2 & HC2). carry K2. steps. apply sim_ret. split; [reflexivity|]. split; [kept_chain|auto].
Qed.
End Refine.
