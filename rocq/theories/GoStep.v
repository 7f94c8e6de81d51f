(** Stepping through translated Go code: one-level equations of the interpreter
    and the tactics that use them. *)
From Coq Require Import ZArith Lia.
From Verif Require Import Bytes IO IOFacts Nodes Values Build Slices GoSyntax SourceLib Source GoSem GoRun GoRep.
Local Open Scope nat_scope.

Section Step.
Context {W : UserWorld}.
Context {FL : floor}.
Variable M : go_mode.
Notation C := (go_config M).
Notation sim := (sim C).
Notation "x <-- p ;; q" := (pbind p (fun x => q))
  (at level 100, p at next level, right associativity).
Notation "' pat <-- p ;; q" := (pbind p (fun x => match x with pat => q end))
  (at level 100, pat pattern, p at next level, right associativity).

(** [exec] with the execution of parts abstracted. *)
Definition exec1 (ex : stmt -> venv -> prog (flow * venv)) (s : stmt) (en : venv)
  : prog (flow * venv) :=
  match s with
  | SSkip => PRet (FNext, en)
  | SBlock ss => '(f, en') <-- block_with ex ss en ;; PRet (f, leave en en')
  | SExpr e =>
      match panic_args e with
      | Some args => _ <-- evals C args en ;; PPanic
      | None => _ <-- eval C e en ;; PRet (FNext, en)
      end
  | SDefine xs es =>
      vs <-- rhs C (length xs) es en ;; en' <-- push xs vs en ;; PRet (FNext, en')
  | SAssign ls es =>
      rs <-- eval_lhss C ls en ;; vs <-- rhs C (length ls) es en ;;
      en' <-- stores rs vs en ;; PRet (FNext, en')
  | SVar x t =>
      if String.eqb t "bytes.Buffer" then
        l <-- alloc (OStruct "bytes.Buffer" [("buf"%string, VBytes [])]) ;;
        PRet (FNext, (x, VPtr l) :: en)
      else PRet (FNext, (x, zero_of t) :: en)
  | SCopy x lo src =>
      v <-- eval1 C lo en ;; w <-- eval1 C src en ;;
      match assoc x en, v, bytes_of w with
      | Some (VBytes b), VInt z, Some d =>
          if (0 <=? z)%Z && (z <=? Z.of_nat (length b))%Z
          then PRet (FNext, set_assoc x (VBytes (copy_at b (Z.to_nat z) d)) en)
          else PPanic
      | _, _, _ => PPanic
      end
  | SIf init c s1 s2 =>
      '(_, en1) <-- (match init with Some s => ex s en | None => PRet (FNext, en) end) ;;
      v <-- eval1 C c en1 ;; b <-- truth v ;;
      '(f, en2) <-- (if b then ex s1 en1 else ex s2 en1) ;;
      PRet (f, leave en en2)
  | SFor init c post body =>
      '(_, en1) <-- (match init with Some s => ex s en | None => PRet (FNext, en) end) ;;
      PLoop
        (fun en2 =>
           v <-- eval1 C c en2 ;; b <-- truth v ;;
           if b then
             '(f, en3) <-- ex body en2 ;;
             match f with
             | FNext | FContinue =>
                 '(_, en4) <-- ex post (leave en2 en3) ;; PRet (inl en4)
             | FBreak => PRet (inr (FNext, leave en2 en3))
             | FReturn vs => PRet (inr (FReturn vs, leave en2 en3))
             end
           else PRet (inr (FNext, en2)))
        en1
        (fun '(f, en5) => PRet (f, leave en en5))
  | SRange k v e body =>
      r <-- eval1 C e en ;; items <-- range_items r ;;
      range_with (ex body) k v items en
  | SSwitch e cases default =>
      v <-- eval1 C e en ;; switch_with C (fun s => ex s en) en v default cases
  | STypeSwitch x e cases default =>
      v <-- eval1 C e en ;;
      '(f, en') <-- PHeap (fun h => Some (tswitch_with C ex en x h v default cases, h)) ;;
      PRet (f, leave en en')
  | SReturn es => vs <-- rhs C (length es) es en ;; PRet (FReturn vs, en)
  | SBreak => PRet (FBreak, en)
  | SContinue => PRet (FContinue, en)
  end.
Lemma exec_eq s en : exec C s en = exec1 (exec C) s en.
Proof. destruct s; reflexivity. Qed.

Section Rules.
Context {P : panics}.
Context {A A' B : Type}.
Implicit Types (f : A -> prog A') (h : heap) (m : io U B) (Q : A' -> heap -> B -> Prop).

Lemma simb_eq (X X' : prog A) f h m Q : X = X' -> sim (pbind X' f) h m Q -> sim (pbind X f) h m Q.
Proof. intros ->. auto. Qed.
Lemma simb_exec s en (f : flow * venv -> prog A') h m Q :
  sim (pbind (exec1 (exec C) s en) f) h m Q -> sim (pbind (exec C s en) f) h m Q.
Proof. rewrite exec_eq. auto. Qed.
Lemma simb_body name fd args sp (f : list gv -> prog A') h m Q :
  assoc name (the_funcs ++ lib_funcs) = Some fd ->
  sim (pbind (call_fun C fd [] args sp) f) h m Q -> sim (pbind (body_of C (CFun name) args sp) f) h m Q.
Proof. intros H. unfold body_of, lookup_fun. cbn [c_prog go_config source p_funcs]. rewrite H. auto. Qed.
Lemma simb_pcall {B'} c args sp k f h (m : io U B') (g : B' -> io U B) R Q :
  sim (PCall c args sp PRet) h m R ->
  (forall vs h' b, R vs h' b -> sim (pbind (k vs) f) h' (g b) Q) ->
  sim (pbind (PCall c args sp k) f) h (bind m g) Q.
Proof.
  intros H K. change (pbind (PCall c args sp k) f) with (PCall c args sp (fun vs => pbind (k vs) f)).
  change (PCall c args sp (fun vs => pbind (k vs) f)) with (pbind (PCall c args sp PRet) (fun vs => pbind (k vs) f)).
  eapply sim_bind; eauto.
Qed.
Lemma simb_write d k f h k' Q :
  (forall n e, sim (pbind (k n e) f) h (k' n e) Q) -> sim (pbind (PWrite d k) f) h (Wr d k' : io U B) Q.
Proof. intro H. cbn [pbind]. apply sim_write, H. Qed.
Lemma simb_field l t fs x v (f : gv -> prog A') h m Q :
  nth_error h l = Some (OStruct t fs) -> assoc x fs = Some v ->
  sim (f v) h m Q -> sim (pbind (field (VPtr l) x) f) h m Q.
Proof.
  intros H X K. unfold field. apply sim_assoc. eapply simb_load; [exact H|]. cbn [pbind]. rewrite X. exact K.
Qed.

(** Contexts. *)
Lemma simb_ctx_error l fr e (f : gv -> prog A') h m Q :
  ctx_at h l fr e -> sim (f (verr e)) h m Q -> sim (pbind (field (VPtr l) "Error") f) h m Q.
Proof. intros (pv & H & _). eapply simb_field; [exact H|reflexivity]. Qed.
Lemma simb_ctx_writer l fr e (f : gv -> prog A') h m Q :
  ctx_at h l fr e -> sim (f VWriter) h m Q -> sim (pbind (field (VPtr l) "Writer") f) h m Q.
Proof. intros (pv & H & _). eapply simb_field; [exact H|reflexivity]. Qed.
Lemma simb_set_error l fr e e' en (f : venv -> prog A') h m Q :
  ctx_at h l fr e ->
  (forall h', kept l h h' -> ctx_at h' l fr e' -> sim (f en) h' m Q) ->
  sim (pbind (store (RField (VPtr l) "Error") (verr e') en) f) h m Q.
Proof.
  intros (pv & H & Hp) K. cbn [store]. apply sim_assoc. eapply simb_load; [exact H|].
  unfold ctx_obj. lazy [assoc String.eqb Ascii.eqb Bool.eqb set_assoc]. apply sim_assoc. apply simb_update; [exact (proj2 Hp)|].
  destruct (ctx_set_error h l fr e e' pv H Hp) as [K1 K2]. apply (K _ K1 K2).
Qed.
Lemma simb_writer dv d sp (f : list gv -> prog A') h k' Q :
  bytes_of dv = Some d ->
  (forall n e, sim (f [VInt (Z.of_nat n); verr e]) h (k' n e) Q) ->
  sim (pbind (invoke VWriter "Write" [dv] sp) f) h (Wr d k' : io U B) Q.
Proof.
  intros H K. cbn [invoke]. rewrite H. lazy [String.eqb Ascii.eqb Bool.eqb]. cbn [pbind]. apply sim_write. exact K.
Qed.

(** Method calls. *)
Lemma simb_method l t fs x args sp (f : list gv -> prog A') h m Q :
  nth_error h l = Some (OStruct t fs) -> assoc x fs = None -> String.eqb t "bytes.Buffer" = false ->
  sim (pbind (PCall (CFun (dot t x)) (VPtr l :: args) sp PRet) f) h m Q ->
  sim (pbind (invoke (VPtr l) x args sp) f) h m Q.
Proof. intros H X T K. cbn [invoke]. apply sim_assoc. eapply simb_load; [exact H|]. cbn beta iota. rewrite X, T. exact K. Qed.
Lemma simb_funfield l t fs x v args sp (f : list gv -> prog A') h m Q :
  nth_error h l = Some (OStruct t fs) -> assoc x fs = Some v ->
  sim (pbind (PCall (CVal v) args sp PRet) f) h m Q ->
  sim (pbind (invoke (VPtr l) x args sp) f) h m Q.
Proof. intros H X K. cbn [invoke]. apply sim_assoc. eapply simb_load; [exact H|]. cbn beta iota. rewrite X. exact K. Qed.

End Rules.

(** ** Loops over slices *)

Definition slice_item (sv : gv) (i : nat) : prog (gv * gv) :=
  match sv with
  | VSlice l _ =>
      o <-- load l ;;
      match o with
      | OArr cs => match nth_error cs i with
                   | Some x => PRet (VInt (Z.of_nat i), x)
                   | None => PPanic
                   end
      | _ => PPanic
      end
  | _ => PPanic
  end.
Definition slice_items (sv : gv) (i n : nat) : list (prog (gv * gv)) :=
  map (slice_item sv) (seq i n).

Lemma slice_length h sv xs : slice_is h sv xs ->
  match sv with VNil => length xs = 0 | VSlice _ n => length xs = n | _ => False end.
Proof. destruct sv; cbn [slice_is]; auto; [intros ->; auto|]. intros (cs & _ & L & ->). apply firstn_length_le, L. Qed.
Lemma range_items_slice h sv xs : slice_is h sv xs -> range_items sv = PRet (slice_items sv 0 (length xs)).
Proof.
  intro H. pose proof (slice_length _ _ _ H) as L. destruct sv; try contradiction; cbn [range_items].
  - rewrite L. reflexivity.
  - rewrite L. reflexivity.
Qed.
Lemma nth_firstn {A} (l : list A) n i x : nth_error (firstn n l) i = Some x -> nth_error l i = Some x.
Proof.
  revert n i. induction l as [|y l IH]; intros [|n] [|i]; cbn [firstn nth_error]; auto; try discriminate. apply IH.
Qed.
Lemma length_of_slice h sv xs : slice_is h sv xs -> length_of sv = PRet (VInt (Z.of_nat (length xs))).
Proof.
  intro H. pose proof (slice_length _ _ _ H) as L. destruct sv; try contradiction; cbn [length_of]; rewrite <- ?L; auto.
  rewrite L. reflexivity.
Qed.

Section Loops.
Context {P : panics}.
Context {A' B : Type}.
Implicit Types (h : heap) (m : io U B) (Q : A' -> heap -> B -> Prop).
Lemma simb_slice_item h sv xs i x (f : gv * gv -> prog A') m Q :
  slice_is h sv xs -> nth_error xs i = Some x ->
  sim (f (VInt (Z.of_nat i), x)) h m Q -> sim (pbind (slice_item sv i) f) h m Q.
Proof.
  intros Hs Hx H. destruct sv; try contradiction.
  - cbn [slice_is] in Hs. subst. destruct i; discriminate.
  - destruct Hs as (cs & H1 & H2 & ->). cbn [slice_item]. apply sim_assoc. eapply simb_load; [exact H1|].
    cbn beta iota. rewrite (nth_firstn _ _ _ _ Hx). exact H.
Qed.
Lemma simb_len h sv xs sp (f : list gv -> prog A') m Q :
  slice_is h sv xs -> sim (f [VInt (Z.of_nat (length xs))]) h m Q ->
  sim (pbind (external C "len" [sv] sp) f) h m Q.
Proof.
  intros Hs H. unfold external. lazy [String.eqb Ascii.eqb Bool.eqb]. rewrite (length_of_slice _ _ _ Hs). exact H.
Qed.
Lemma simb_range h sv xs (f : list (prog (gv * gv)) -> prog A') m Q :
  slice_is h sv xs -> sim (f (slice_items sv 0 (length xs))) h m Q ->
  sim (pbind (range_items sv) f) h m Q.
Proof. intros Hs H. rewrite (range_items_slice _ _ _ Hs). exact H. Qed.
End Loops.

(** One turn of a range loop whose key is not used. *)
Lemma sim_range_cons {P : panics} {B} body v h sv pre x xs en (m : io U B) Q :
  slice_is h sv (pre ++ x :: xs) ->
  sim (pbind (body (if String.eqb v "_" then en else (v, x) :: en))
         (fun '(f, en2) =>
            match f with
            | FNext | FContinue => range_with body "_" v (slice_items sv (length (pre ++ [x])) (length xs)) (leave en en2)
            | FBreak => PRet (FNext, leave en en2)
            | FReturn vs => PRet (FReturn vs, leave en en2)
            end)) h m Q ->
  sim (range_with body "_" v (slice_items sv (length pre) (S (length xs))) en) h m Q.
Proof.
  intros Hs H. rewrite app_length, Nat.add_1_r in H. unfold slice_items in *. cbn [seq map range_with]. eapply simb_slice_item; [exact Hs| |].
  - rewrite nth_error_app2, Nat.sub_diag by lia. reflexivity.
  - cbn beta iota. cbn [push pbind String.eqb Ascii.eqb Bool.eqb]. exact H.
Qed.

Lemma leave_same (en : @venv W) : leave en en = en.
Proof. unfold leave. rewrite Nat.sub_diag. reflexivity. Qed.
Lemma leave_one x (en : @venv W) : leave en (x :: en) = en.
Proof. unfold leave. cbn [length]. replace (S (length en) - length en) with 1 by lia. reflexivity. Qed.
Lemma leave_three x y z (en : @venv W) : leave en (x :: y :: z :: en) = en.
Proof. unfold leave. cbn [length]. replace (S (S (S (length en))) - length en) with 3 by lia. reflexivity. Qed.
Lemma leave_two x y (en : @venv W) : leave en (x :: y :: en) = en.
Proof. unfold leave. cbn [length]. replace (S (S (length en)) - length en) with 2 by lia. reflexivity. Qed.
End Step.

#[global] Arguments one {W} !vs /. #[global] Arguments truth {W} !v /.
#[global] Arguments lift {W A} !o /.
#[global] Arguments field {W} !v f /. #[global] Arguments verr {W} !e /.
#[global] Arguments Ascii.eqb : simpl nomatch.
#[global] Opaque GoRun.sim.

Section Globals.
Context {W : UserWorld}.
Context {FL : floor}.
Variable M : go_mode.
Lemma glob_space : global (go_config M) "aitch.space" = PRet (VBytes (B " ")). Proof. reflexivity. Qed.
Lemma glob_oab : global (go_config M) "aitch.openAngleBracket" = PRet (VBytes (B "<")). Proof. reflexivity. Qed.
Lemma glob_cab : global (go_config M) "aitch.closeAngleBracket" = PRet (VBytes (B ">")). Proof. reflexivity. Qed.
Lemma glob_cts : global (go_config M) "aitch.closeTagStart" = PRet (VBytes (B "</")). Proof. reflexivity. Qed.
Lemma glob_as : global (go_config M) "aitch.attStart" = PRet (VBytes (B "=""")). Proof. reflexivity. Qed.
Lemma glob_ae : global (go_config M) "aitch.attEnd" = PRet (VBytes (B """")). Proof. reflexivity. Qed.
Lemma glob_oc : global (go_config M) "aitch.openComment" = PRet (VBytes (B "<!--")). Proof. reflexivity. Qed.
Lemma glob_cc : global (go_config M) "aitch.closeComment" = PRet (VBytes (B "-->")). Proof. reflexivity. Qed.
Lemma glob_op : global (go_config M) "aitch.openPi" = PRet (VBytes (B "<!")). Proof. reflexivity. Qed.
Lemma glob_cp : global (go_config M) "aitch.closePi" = PRet (VBytes ([">"%char; "010"%char])). Proof. reflexivity. Qed.
End Globals.
Ltac glob g :=
  lazymatch g with
  | "aitch.space"%string => apply glob_space
  | "aitch.openAngleBracket"%string => apply glob_oab
  | "aitch.closeAngleBracket"%string => apply glob_cab
  | "aitch.closeTagStart"%string => apply glob_cts
  | "aitch.attStart"%string => apply glob_as
  | "aitch.attEnd"%string => apply glob_ae
  | "aitch.openComment"%string => apply glob_oc
  | "aitch.closeComment"%string => apply glob_cc
  | "aitch.openPi"%string => apply glob_op
  | "aitch.closePi"%string => apply glob_cp
  end.

(** ** Tactics *)

Ltac head_red X :=
  eval cbn [exec1 block_with call_fun bind_params eval1 eval eval_with evs_with fields_with entries_with
    bound_with evals rhs push eval_lhs eval_lhss stores named panic_args
    pbind one truth lift binary equal is_nil option_map zero_of convert
    assoc set_assoc String.eqb Ascii.eqb Bool.eqb negb andb orb
    length skipn Nat.sub Nat.eqb app map fst snd verr bytes_of dot append ext_values] in X.

Ltac red_head :=
  lazymatch goal with
  | |- @GoRun.sim _ ?C ?FL0 ?P _ _ (pbind ?X ?f) ?h ?m ?Q =>
      let X' := head_red X in change (@GoRun.sim _ C FL0 P _ _ (pbind X' f) h m Q)
  | _ => idtac
  end.
(** Go into the body of a function. *)
Ltac enter :=
  apply sim_call; eapply simb_body; [reflexivity|];
  lazymatch goal with
  | |- @GoRun.sim _ ?C ?FL0 ?P _ _ (pbind (call_fun ?C' ?fd ?cap ?args ?sp) ?f) ?h ?m ?Q =>
      let fd' := eval unfold fd in fd in
      let X' := head_red (call_fun C' fd' cap args sp) in
      change (@GoRun.sim _ C FL0 P _ _ (pbind X' f) h m Q)
  end.
Ltac compute_assoc := lazy [assoc String.eqb Ascii.eqb Bool.eqb]; reflexivity.
(** The variables left after a block. *)
Ltac left_of a b :=
  lazymatch b with
  | a => a
  | _ :: a => a
  | _ :: _ :: a => a
  | _ :: _ :: _ :: a => a
  | _ => eval cbn [leave length skipn Nat.sub] in (leave a b)
  end.
Ltac prove_left :=
  first [reflexivity | apply leave_same | apply leave_one | apply leave_two | apply leave_three].
Ltac step :=
  lazymatch goal with
  | |- @GoRun.sim _ ?C ?FL0 ?P _ _ (pbind ?X ?f) ?h ?m ?Q =>
      lazymatch X with
      | PRet (_, leave ?a ?b) =>
          let r := left_of a b in
          let E := fresh in assert (E : leave a b = r) by prove_left; rewrite E; clear E
      | match assoc ?x ?en with Some _ => _ | None => _ end =>
          match goal with E : assoc x en = Some _ |- _ => rewrite E end
      | PRet ?a =>
          let g := eval lazy beta iota in (f a) in
          change (@GoRun.sim _ C FL0 P _ _ g h m Q); red_head
      | pbind _ _ => apply sim_assoc
      | exec _ _ (leave ?a ?b) =>
          let r := left_of a b in
          let E := fresh in assert (E : leave a b = r) by prove_left; rewrite E; clear E
      | exec ?C' ?s ?en =>
          let s' := eval hnf in s in
          change (@GoRun.sim _ C FL0 P _ _ (pbind (exec C' s' en) f) h m Q); apply simb_exec; red_head
      | field (VPtr ?l) ?x =>
          first [ lazymatch x with
                  | "Error"%string => eapply simb_ctx_error; [eassumption|]
                  | "Writer"%string => eapply simb_ctx_writer; [eassumption|]
                  end
                | eapply simb_field; [eassumption|compute_assoc|] ];
          cbv beta; red_head
      | field (VStruct ?t ?fs) ?x =>
          let v := eval lazy [assoc String.eqb Ascii.eqb Bool.eqb lift field] in (field (VStruct t fs) x) in
          change (@GoRun.sim _ C FL0 P _ _ (pbind v f) h m Q)
      | invoke (VStruct ?t ?fs) ?x ?args ?sp =>
          let r := eval lazy [invoke assoc String.eqb Ascii.eqb Bool.eqb dot append] in (invoke (VStruct t fs) x args sp) in
          change (@GoRun.sim _ C FL0 P _ _ (pbind r f) h m Q)
      | external _ "len" [_] _ => eapply simb_len; [eassumption|]; cbv beta; red_head
      | range_items _ => eapply simb_range; [eassumption|]; cbv beta; red_head
      | lift (struct_fields ?C' ?t ?g) =>
          let r := eval lazy [lift struct_fields option_map map assoc p_structs c_prog go_config source the_structs
                              String.eqb Ascii.eqb Bool.eqb zero_of substring andb orb negb prefix] in (lift (struct_fields C' t g)) in
          change (@GoRun.sim _ C FL0 P _ _ (pbind r f) h m Q)
      | alloc _ => apply simb_alloc; cbv beta; red_head
      | store RBlank _ ?en =>
          change (@GoRun.sim _ C FL0 P _ _ (pbind (PRet en) f) h m Q)
      | store (RLoc ?x) ?v ?en =>
          let r := eval cbn [store assoc set_assoc String.eqb Ascii.eqb Bool.eqb] in (store (RLoc x) v en) in
          change (@GoRun.sim _ C FL0 P _ _ (pbind r f) h m Q)
      | range_with _ _ _ _ (leave ?a ?b) =>
          let r := left_of a b in
          let E := fresh in assert (E : leave a b = r) by prove_left; rewrite E; clear E
      | global _ ?g => eapply simb_eq; [glob g|]; red_head
      end
  end.
Ltac last_leave :=
  lazymatch goal with
  | |- @GoRun.sim _ _ _ _ _ _ (range_with _ _ _ _ (leave ?a ?b)) _ _ _ =>
      let r := left_of a b in
      let E := fresh in assert (E : leave a b = r) by prove_left; rewrite E; clear E
  | |- @GoRun.sim _ _ _ _ _ _ (PRet (_, leave ?a ?b)) _ _ _ =>
      let r := left_of a b in
      let E := fresh in assert (E : leave a b = r) by prove_left; rewrite E; clear E
  | _ => idtac
  end.
Ltac steps := red_head; repeat step; last_leave.

Section Context_rules.
Context {W : UserWorld}.
Context {FL : floor}.
Variable M : go_mode.
Notation C := (go_config M).
Notation sim := (sim C).
Context {A A' B : Type}.
Implicit Types (f : A -> prog A') (h : heap) (m : io U B) (Q : A' -> heap -> B -> Prop).

Lemma sim_ctx_write h l fr e dv d :
  ctx_at h l fr e -> bytes_of dv = Some d ->
  sim (PCall (CFun "Context.Write") [VPtr l; dv] false PRet) h (ctx_write d e)
    (fun vs h' e' => vs = [] /\ kept l h h' /\ ctx_at h' l fr e').
Proof.
  intros HC Hd. pose proof HC as (pv & Ho & Hp). enter. destruct e as [e|].
  - steps. apply sim_ret. split; [reflexivity|]. split; [eapply kept_refl|]; eauto.
  - steps. cbn [ctx_write]. eapply simb_writer; [exact Hd|]. intros n e. steps.
    eapply simb_set_error; [exact HC|]. intros h' K HC'. steps. apply sim_ret. auto.
Qed.
Lemma simb_ctx_write l fr e dv d (f : list gv -> prog A') h (g : option error -> io U B) Q :
  ctx_at h l fr e -> bytes_of dv = Some d ->
  (forall h' e', kept l h h' -> ctx_at h' l fr e' -> sim (f []) h' (g e') Q) ->
  sim (pbind (invoke (VPtr l) "Write" [dv] false) f) h (bind (ctx_write d e) g) Q.
Proof.
  intros HC Hd K. pose proof HC as (pv & H & _). eapply simb_method; [exact H|reflexivity|reflexivity|].
  eapply simb_pcall; [apply sim_ctx_write; eauto|]. intros vs h' e' (-> & K1 & K2). exact (K h' e' K1 K2).
Qed.

(** Functions of the user. *)
Lemma simb_fun {D} P (fn : U -> D * U) fv args k (f : A -> prog A') h (k' : D -> io U B) Q :
  sim (body_of C (CVal fv) args false) h (cb fn) P ->
  (forall d vs h', P vs h' d -> sim (pbind (k vs) f) h' (k' d) Q) ->
  sim (pbind (PCall (CVal fv) args false k) f) h (Cb (fun u => let '(d, u') := fn u in (k' d, u'))) Q.
Proof. intros H K. apply simb_call. apply sim_cb. eapply sim_bind; [exact H|]. intros vs h' d. apply K. Qed.
Lemma simb_dyn fn fv k (f : A -> prog A') h lc fr e (k' : bytes -> io U B) Q :
  dyn_fun M fv fn -> ctx_at h lc fr e ->
  (forall d bv h', bytes_of bv = Some d -> grown h h' -> ctx_at h' lc fr e -> sim (pbind (k [bv]) f) h' (k' d) Q) ->
  sim (pbind (PCall (CVal fv) [VPtr lc] false k) f) h
    (Cb (fun u => let '(d, u') := fn (view fr e) u in (k' d, u'))) Q.
Proof.
  intros (_ & HF) HC K. eapply simb_fun; [apply HF; exact HC|].
  intros d vs h' (bv & -> & Hb & G). apply K; auto. eapply ctx_grown; eauto.
Qed.
Lemma simb_cond fn fv k (f : A -> prog A') h lc fr e (k' : bool -> io U B) Q :
  cond_fun M fv fn -> ctx_at h lc fr e ->
  (forall b h', grown h h' -> ctx_at h' lc fr e -> sim (pbind (k [VBool b]) f) h' (k' b) Q) ->
  sim (pbind (PCall (CVal fv) [VPtr lc] false k) f) h
    (Cb (fun u => let '(b, u') := fn (view fr e) u in (k' b, u'))) Q.
Proof.
  intros (_ & HF) HC K. eapply simb_fun; [apply HF; exact HC|]. intros b vs h' (-> & G). apply K; auto. eapply ctx_grown; eauto.
Qed.
Lemma simb_items fn fv k (f : A -> prog A') h lc fr e (k' : list (gval U) -> io U B) Q :
  items_fun M fv fn -> ctx_at h lc fr e ->
  (forall xs r h', items_are h' r xs -> grown h h' -> ctx_at h' lc fr e -> sim (pbind (k [r]) f) h' (k' xs) Q) ->
  sim (pbind (PCall (CVal fv) [VPtr lc] false k) f) h
    (Cb (fun u => let '(xs, u') := fn (view fr e) u in (k' xs, u'))) Q.
Proof.
  intros HF HC K. eapply simb_fun; [apply HF; exact HC|]. intros xs vs h' (r & -> & HI & G). apply K; auto. eapply ctx_grown; eauto.
Qed.
End Context_rules.

Lemma pos_of_nat n : (0 <? Z.of_nat n)%Z = (0 <? n).
Proof. destruct n; reflexivity. Qed.
Lemma equal_nil {W : UserWorld} (v : gv) : v <> VNil -> equal v VNil = Some false.
Proof. destruct v; try reflexivity. contradiction. Qed.

(** [carry K]: what is known about the old heap, about the new one. *)
Ltac carry_with K h h' :=
  repeat match goal with
  | H : nth_error h ?l = Some ?o |- _ => apply (K l o ltac:(discriminate)) in H
  | H : slice_is h _ _ |- _ => apply (slice_keeps _ _ _ _ K) in H
  | H : val_rep ?M h _ _ |- _ => apply (val_keeps M _ _ K) in H
  | H : vals_rep ?M h _ _ |- _ => apply (vals_keeps M _ _ _ _ K) in H
  | H : all2 (val_rep ?M h) ?xs ?ys |- _ => apply (all2_mono (val_rep M h) (val_rep M h') ys xs (fun x y => val_keeps M _ _ K y x)) in H
  | H : attr_rep ?M h _ _ |- _ => apply (attr_keeps M _ _ _ _ K) in H
  | H : attrs_rep ?M h _ _ |- _ => apply (attrs_keeps M _ _ _ _ K) in H
  | H : all2 (attr_rep ?M h) ?xs ?ys |- _ => apply (all2_mono (attr_rep M h) (attr_rep M h') ys xs (fun x y => attr_keeps M _ _ x y K)) in H
  | H : cattr_rep ?M h _ _ |- _ => apply (cattr_keeps M _ _ _ _ K) in H
  | H : cattrs_rep ?M h _ _ |- _ => apply (cattrs_keeps M _ _ _ _ K) in H
  | H : all2 (cattr_rep ?M h) ?xs ?ys |- _ => apply (all2_mono (cattr_rep M h) (cattr_rep M h') ys xs (fun x y => cattr_keeps M _ _ x y K)) in H
  | H : idx_rep h _ _ |- _ => apply (idx_keeps _ _ _ _ K) in H
  | H : node_rep ?M h _ _ |- _ => apply (node_keeps M _ _ K) in H
  | H : nodes_rep ?M h _ _ |- _ => apply (nodes_keeps M _ _ _ _ K) in H
  | H : all2 (node_rep ?M h) ?xs ?ys |- _ => apply (all2_mono (node_rep M h) (node_rep M h') ys xs (fun x y => node_keeps M _ _ K y x)) in H
  end.
Ltac carry K :=
  lazymatch type of K with
  | kept ?lc ?h ?h' => let K' := fresh in pose proof (kept_keeps lc h h' K) as K'; carry_with K' h h'; clear K'
  | grown ?h ?h' => let K' := fresh in pose proof (grown_keeps h h' K) as K'; carry_with K' h h'; clear K'
  end.

(** A write to the context. *)
Ltac wr h e K HC :=
  eapply simb_ctx_write; [eassumption|first [reflexivity|eassumption]|]; intros h e K HC; carry K; steps.
(** The heap at the end. *)
Ltac kept_chain :=
  repeat first [ eassumption | eapply kept_refl; eassumption | eapply kept_trans; [eassumption|] ].
(** The next turn of a loop over a slice, by the induction hypothesis. *)
Ltac next_turn Hs IH :=
  lazymatch type of Hs with
  | slice_is _ _ (?pre ++ ?x :: ?xs) =>
      replace (pre ++ x :: xs) with ((pre ++ [x]) ++ xs) in Hs by (rewrite <- app_assoc; reflexivity);
      eapply sim_conseq; [apply IH; eauto|]
  end.
(** Take apart existentials and conjunctions. *)
Ltac split_all :=
  repeat match goal with
  | H : exists _, _ |- _ => destruct H
  | H : _ /\ _ |- _ => destruct H
  end; subst.
