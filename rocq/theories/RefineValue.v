(** The translated source of value.go and attribute.go does what the model says:
    rendering of values and attributes. *)
From Coq Require Import ZArith Lia.
From Verif Require Import Bytes IO IOFacts Nodes NodeInd Values Render Build SpecOut Slices GoSyntax Source GoSem GoRun GoRep GoStep.
Local Open Scope nat_scope.

Section Refine.
Context {W : UserWorld}.
Context {FL : floor}.
Variable M : go_mode.
Notation C := (go_config M).
Notation sim := (sim C).

(** A function that renders with the context at [lc]: what remains of the heap. *)
Definition went (lc : loc) (fr : frame U) (h h' : heap) (e : option error) : Prop :=
  kept lc h h' /\ ctx_at h' lc fr e.

(** ** Value.render *)

Definition concat_render (fr : frame U)
  : list (value U) -> nat -> option error -> io U (bool * option error) :=
  fix go cs l err :=
  match cs with
  | [] => Ret (0 <? l, err)
  | c :: cs' => '(written, e) <- value_render fr c err ;;
                go cs' (if written then S l else l) e
  end.

Definition value_spec (x : value U) : Prop := forall h lc fr e v,
  ctx_at h lc fr e -> val_rep M h v x ->
  sim (PCall (CFun "Value.render") [v; VPtr lc] false PRet) h (value_render fr x e)
    (fun vs h' r => vs = [VBool (fst r); verr (snd r)] /\ went lc fr h h' (snd r)).

Lemma simb_value_spec {A' B} x v h lc fr e (f : list gv -> prog A') (g : bool * option error -> io U B) Q :
  value_spec x -> ctx_at h lc fr e -> val_rep M h v x ->
  (forall h' w e', kept lc h h' -> ctx_at h' lc fr e' -> sim (f [VBool w; verr e']) h' (g (w, e')) Q) ->
  sim (pbind (invoke v "render" [VPtr lc] false) f) h (bind (value_render fr x e) g) Q.
Proof.
  intros S1 HC Hv K. assert (E : exists fs, v = VStruct "Value" fs /\ assoc "render" fs = None).
  { destruct x. destruct Hv as (? & ? & ? & ? & -> & _). eexists. split; reflexivity. }
  destruct E as (fs & E & F). rewrite E at 1. cbn [invoke]. rewrite F. rewrite <- E.
  eapply simb_pcall; [apply S1; eauto|]. intros vs h' [w e'] (-> & K1 & K2). cbn [fst snd] in *.
  exact (K h' w e' K1 K2).
Qed.

Definition concat_body : stmt :=
  SBlock [SIf (Some (SAssign [LLoc "written"; LField (ELoc "ctx") "Error"]
                             [EMethod (ELoc "concat") "render" [ELoc "ctx"] false]))
              (ELoc "written") (SBlock [SAssign [LLoc "l"] [EBin OAdd (ELoc "l") (EInt 1)]]) SSkip].
Lemma concat_loop lc fr v sv : forall cs, Forall value_spec cs ->
  forall h e w l pre xs, ctx_at h lc fr e -> slice_is h sv (pre ++ xs) -> all2 (val_rep M h) xs cs ->
  sim (range_with (exec C concat_body) "_" "concat" (slice_items sv (length pre) (length xs))
         [("written"%string, VBool w); ("l"%string, VInt (Z.of_nat l)); ("ctx"%string, VPtr lc); ("v"%string, v)])
    h (concat_render fr cs l e)
    (fun r h' b => exists w l', r = (FNext, [("written"%string, VBool w); ("l"%string, VInt (Z.of_nat l'));
                                             ("ctx"%string, VPtr lc); ("v"%string, v)]) /\
       fst b = (0 <? l') /\ went lc fr h h' (snd b)).
Proof.
  induction 1 as [|c cs Hc _ IH]; intros h e w l pre xs HC Hs Hcs; cbn [all2] in Hcs.
  - subst xs. cbn [length slice_items seq map range_with concat_render]. apply sim_ret. exists w, l.
    split; [reflexivity|]. split; [reflexivity|]. split; [eapply kept_refl; eauto|exact HC].
  - destruct Hcs as (x & xs' & -> & Hx & Hcs). cbn [length]. eapply sim_range_cons; [exact Hs|].
    steps. cbn [concat_render]. eapply simb_value_spec; [exact Hc|exact HC|exact Hx|].
    intros h1 b e1 K1 HC1. carry K1. steps. eapply simb_set_error; [exact HC1|]. intros h2 K2 HC2. carry K2. steps.
    replace (pre ++ x :: xs') with ((pre ++ [x]) ++ xs') in Hs by (rewrite <- app_assoc; reflexivity).
    destruct b; steps.
    + replace (Z.of_nat l + 1)%Z with (Z.of_nat (S l)) by lia.
      eapply sim_conseq; [apply IH; eauto|]. intros r h' b (w' & l' & -> & H1 & H2 & H3). exists w', l'.
      split; [reflexivity|]. split; [exact H1|]. split; [|exact H3].
      eapply kept_trans; [exact K1|]. eapply kept_trans; eauto.
    + eapply sim_conseq; [apply IH; eauto|]. intros r h' b (w' & l' & -> & H1 & H2 & H3). exists w', l'.
      split; [reflexivity|]. split; [exact H1|]. split; [|exact H3].
      eapply kept_trans; [exact K1|]. eapply kept_trans; eauto.
Qed.

Lemma value_render_spec x : value_spec x.
Proof.
  induction x as [b dyn cs IH] using value_ind'. intros h lc fr e v HC (bv & dv & sv & xs & -> & Hb & Hd & Hs & Hcs).
  enter. steps. destruct dyn as [fn|].
  - rewrite equal_nil by apply Hd. steps. cbn [value_render]. eapply simb_dyn; [exact Hd|exact HC|].
    intros d rv h1 Hr G HC1. steps.
    eapply simb_writer; [exact Hr|]. intros n e1. steps.
    eapply simb_set_error; [exact HC1|]. intros h2 K2 HC2. steps.
    rewrite pos_of_nat. apply sim_ret. split; [reflexivity|]. split; [|exact HC2].
    eapply kept_trans; [eapply grown_kept; eauto|exact K2].
  - cbn [dyn_rep] in Hd. subst dv. steps. rewrite pos_of_nat, (all2_length _ _ _ Hcs). destruct cs as [|c cs].
    + change (0 <? length []) with false. steps. cbn [value_render]. eapply simb_writer; [exact Hb|]. intros n e1. steps.
      eapply simb_set_error; [exact HC|]. intros h2 K2 HC2. steps.
      rewrite pos_of_nat. apply sim_ret. split; [reflexivity|]. split; auto.
    + change (0 <? length (c :: cs)) with true. steps. change (value_render fr (Val b None (c :: cs)) e) with (concat_render fr (c :: cs) 0 e).
      apply sim_eta_model. eapply sim_bind.
      * apply (concat_loop lc fr _ sv (c :: cs) IH h e false 0 [] xs); auto.
      * intros r h' [w e'] (w' & l' & -> & H1 & H2 & H3). cbn [fst snd] in *. steps.
        rewrite pos_of_nat. apply sim_ret. subst w. split; [reflexivity|]. split; auto.
Qed.

Lemma simb_value {A' B} x v h lc fr e (f : list gv -> prog A') (g : bool * option error -> io U B) Q :
  ctx_at h lc fr e -> val_rep M h v x ->
  (forall h' w e', kept lc h h' -> ctx_at h' lc fr e' -> sim (f [VBool w; verr e']) h' (g (w, e')) Q) ->
  sim (pbind (invoke v "render" [VPtr lc] false) f) h (bind (value_render fr x e) g) Q.
Proof. apply simb_value_spec, value_render_spec. Qed.

(** [for _, v := range values { _, _ = v.render(ctx) }]. *)
Definition values_body : stmt :=
  SBlock [SAssign [LBlank; LBlank] [EMethod (ELoc "v") "render" [ELoc "ctx"] false]].
Lemma values_loop lc fr sv en : assoc "ctx" en = Some (VPtr lc) ->
  forall vs h e pre xs, ctx_at h lc fr e -> slice_is h sv (pre ++ xs) -> all2 (val_rep M h) xs vs ->
  sim (range_with (exec C values_body) "_" "v" (slice_items sv (length pre) (length xs)) en)
    h (values_render fr vs e)
    (fun r h' e' => r = (FNext, en) /\ went lc fr h h' e').
Proof.
  intro He. induction vs as [|c cs IH]; intros h e pre xs HC Hs Hcs; cbn [all2] in Hcs.
  - subst xs. cbn [length slice_items seq map range_with values_render]. apply sim_ret.
    split; [reflexivity|]. split; [kept_chain|exact HC].
  - destruct Hcs as (x & xs' & -> & Hx & Hcs). cbn [length]. eapply sim_range_cons; [exact Hs|].
    steps. cbn [values_render]. eapply simb_value; [exact HC|exact Hx|].
    intros h1 b e1 K1 HC1. carry K1. steps.
    replace (pre ++ x :: xs') with ((pre ++ [x]) ++ xs') in Hs by (rewrite <- app_assoc; reflexivity).
    eapply sim_conseq; [apply IH; eauto|]. intros r h' b' (-> & H2 & H3).
    split; [reflexivity|]. split; [|exact H3]. kept_chain.
Qed.
Lemma simb_values {A' B} lc fr sv en vs h e xs (f : flow * venv -> prog A') (g : option error -> io U B) Q :
  assoc "ctx" en = Some (VPtr lc) -> ctx_at h lc fr e -> slice_is h sv xs -> all2 (val_rep M h) xs vs ->
  (forall h' e', kept lc h h' -> ctx_at h' lc fr e' -> sim (f (FNext, en)) h' (g e') Q) ->
  sim (pbind (range_with (exec C values_body) "_" "v" (slice_items sv 0 (length xs)) en) f)
    h (bind (values_render fr vs e) g) Q.
Proof.
  intros He HC Hs Hv K. eapply sim_bind; [apply (values_loop lc fr sv en He vs h e [] xs); auto|].
  intros r h' e' (-> & K1 & K2). apply K; auto.
Qed.

(** ** Attributes *)

Definition attr_spec (a : attr U) : Prop := forall h lc fr e v,
  ctx_at h lc fr e -> attr_rep M h v a ->
  sim (invoke v "Render" [VPtr lc] false) h (attr_render fr a e)
    (fun vs h' r => vs = [verr r] /\ went lc fr h h' r).
Lemma plain_spec n vs : attr_spec (APlain n vs).
Proof.
  intros h lc fr e v HC (l & nv & sv & -> & Ho & Hn & xs & Hs & Hv). apply sim_eta.
  eapply simb_method; [exact Ho|reflexivity|reflexivity|]. enter. steps. cbn [attr_render].
  wr h1 e1 K1 HC1. wr h2 e2 K2 HC2. wr h3 e3 K3 HC3.
  eapply simb_values; [reflexivity|exact HC3|exact Hs|exact Hv|]. intros h4 e4 K4 HC4. steps.
  apply sim_eta_model. wr h5 e5 K5 HC5. apply sim_ret. split; [reflexivity|]. split; [kept_chain|exact HC5].
Qed.
Lemma bool_spec n : attr_spec (ABool n).
Proof.
  intros h lc fr e v HC (l & nv & -> & Ho & Hn). apply sim_eta.
  eapply simb_method; [exact Ho|reflexivity|reflexivity|]. enter. steps. cbn [attr_render].
  wr h1 e1 K1 HC1. apply sim_eta_model. wr h2 e2 K2 HC2.
  apply sim_ret. split; [reflexivity|]. split; [kept_chain|exact HC2].
Qed.

Definition delim_body : stmt :=
  SBlock [SIf None (ELoc "something")
            (SBlock [SExpr (EMethod (ELoc "ctx") "Write" [EField (ELoc "a") "delimiter"] false)]) SSkip;
          SAssign [LLoc "something"; LBlank] [EMethod (ELoc "v") "render" [ELoc "ctx"] false]].
Lemma delim_loop lc fr sv l nv dv sv' d : bytes_of dv = Some d ->
  forall vs h e s pre xs, ctx_at h lc fr e -> slice_is h sv (pre ++ xs) -> all2 (val_rep M h) xs vs ->
  nth_error h l = Some (OStruct "delimitedAttribute"
          [("name"%string, nv); ("delimiter"%string, dv); ("values"%string, sv')]) ->
  sim (range_with (exec C delim_body) "_" "v" (slice_items sv (length pre) (length xs))
         [("something"%string, VBool s); ("ctx"%string, VPtr lc); ("a"%string, VPtr l)])
    h (delim_render fr d vs s e)
    (fun r h' e' => (exists s', r = (FNext, [("something"%string, VBool s'); ("ctx"%string, VPtr lc); ("a"%string, VPtr l)])) /\
                    went lc fr h h' e').
Proof.
  intro Hd. induction vs as [|c cs IH]; intros h e s pre xs HC Hs Hcs Ho; cbn [all2] in Hcs.
  - subst xs. cbn [length slice_items seq map range_with delim_render]. apply sim_ret.
    split; [eauto|]. split; [kept_chain|exact HC].
  - destruct Hcs as (x & xs' & -> & Hx & Hcs). cbn [length]. eapply sim_range_cons; [exact Hs|].
    steps. cbn [delim_render].
    destruct s; steps.
    + wr h1 e1 K1 HC1. eapply simb_value; [exact HC1|exact Hx|].
      intros h2 b e2 K2 HC2. carry K2. steps. next_turn Hs IH. intros r h' b' (Hr & H2 & H3).
      split; [exact Hr|]. split; [kept_chain|exact H3].
    + cbn [bind]. eapply simb_value; [exact HC|exact Hx|].
      intros h2 b e2 K2 HC2. carry K2. steps. next_turn Hs IH. intros r h' b' (Hr & H2 & H3).
      split; [exact Hr|]. split; [kept_chain|exact H3].
Qed.
Lemma delim_spec n d vs : attr_spec (ADelim n d vs).
Proof.
  intros h lc fr e v HC (l & nv & dv & sv & -> & Ho & Hn & Hd & xs & Hs & Hv). apply sim_eta.
  eapply simb_method; [exact Ho|reflexivity|reflexivity|]. enter. steps. cbn [attr_render].
  wr h1 e1 K1 HC1. wr h2 e2 K2 HC2. wr h3 e3 K3 HC3.
  eapply sim_bind; [eapply (delim_loop lc fr sv l nv dv sv d Hd vs h3 e3 false [] xs); eauto|].
  intros r h4 e4 ((s & ->) & K4 & HC4). carry K4. steps.
  apply sim_eta_model. wr h5 e5 K5 HC5. apply sim_ret. split; [reflexivity|]. split; [kept_chain|exact HC5].
Qed.
Lemma attr_render_spec a : attr_spec a.
Proof. destruct a; [apply plain_spec|apply bool_spec|apply delim_spec]. Qed.
Lemma simb_attr {A' B} a v h lc fr e (f : list gv -> prog A') (g : option error -> io U B) Q :
  ctx_at h lc fr e -> attr_rep M h v a ->
  (forall h' e', kept lc h h' -> ctx_at h' lc fr e' -> sim (f [verr e']) h' (g e') Q) ->
  sim (pbind (invoke v "Render" [VPtr lc] false) f) h (bind (attr_render fr a e) g) Q.
Proof.
  intros HC Ha K. eapply sim_bind; [apply attr_render_spec; eauto|]. intros vs h' e' (-> & K1 & K2). apply K; auto.
Qed.

(** ** The simple nodes: text.go, comment.go, pi.go, fragment.go *)

Definition node_spec (n : node U) : Prop := forall h lc fr e v,
  ctx_at h lc fr e -> node_rep M h v n -> SpecOut.tables_ok n ->
  sim (invoke v "Render" [VPtr lc] false) h (render n fr e)
    (fun vs h' r => vs = [verr (fst r)] /\ went lc fr h h' (snd r)).
Lemma attr_node_spec a : node_spec (NAttr a).
Proof.
  intros h lc fr e v HC Hr _. apply sim_eta. cbn [render]. eapply simb_attr; eauto.
  intros h1 e1 K1 HC1. apply sim_ret. split; [reflexivity|]. split; auto.
Qed.
Lemma text_spec vs : node_spec (NText vs).
Proof.
  intros h lc fr e v HC (l & -> & sv & Ho & xs & Hs & Hv) _. apply sim_eta.
  eapply simb_method; [exact Ho|reflexivity|reflexivity|]. enter. steps. cbn [render].
  eapply simb_values; [reflexivity|exact HC|exact Hs|exact Hv|]. intros h4 e4 K4 HC4. steps.
  apply sim_ret. split; [reflexivity|]. split; auto.
Qed.
Lemma fragment_spec vs : node_spec (NFragment vs).
Proof.
  intros h lc fr e v HC (l & -> & sv & Ho & xs & Hs & Hv) _. apply sim_eta.
  eapply simb_method; [exact Ho|reflexivity|reflexivity|]. enter. steps. cbn [render].
  eapply simb_values; [reflexivity|exact HC|exact Hs|exact Hv|]. intros h4 e4 K4 HC4. steps.
  apply sim_ret. split; [reflexivity|]. split; auto.
Qed.
Lemma comment_spec vs : node_spec (NComment vs).
Proof.
  intros h lc fr e v HC (l & -> & sv & Ho & xs & Hs & Hv) _. apply sim_eta.
  eapply simb_method; [exact Ho|reflexivity|reflexivity|]. enter. steps. cbn [render].
  wr h1 e1 K1 HC1.
  eapply simb_values; [reflexivity|exact HC1|exact Hs|exact Hv|]. intros h4 e4 K4 HC4. carry K4. steps.
  wr h2 e2 K2 HC2. apply sim_ret. split; [reflexivity|]. split; [kept_chain|auto].
Qed.
Lemma pi_spec name vs : node_spec (NPI name vs).
Proof.
  intros h lc fr e v HC (l & -> & nv & sv & Ho & Hn & xs & Hs & Hv) _. apply sim_eta.
  eapply simb_method; [exact Ho|reflexivity|reflexivity|]. enter. steps. cbn [render].
  wr h1 e1 K1 HC1. wr h2 e2 K2 HC2. wr h3 e3 K3 HC3.
  eapply simb_values; [reflexivity|exact HC3|exact Hs|exact Hv|]. intros h4 e4 K4 HC4. carry K4. steps.
  wr h5 e5 K5 HC5. apply sim_ret. split; [reflexivity|]. split; [kept_chain|auto].
Qed.
End Refine.
