(** C32, C33: rendering again, and rendering at the same time. *)
From Coq Require Import Lia.
From Verif Require Import Bytes IO Nodes Values Render Slices Build IOFacts SpecRun Demo
  Memory MemoryFacts StartFacts SpecSteady SteadyFacts.

Section Props.
Context {W : UserWorld}.
Local Open Scope nat_scope.

(** One call of Render: its own writer and map orders, a node, a context. *)
Record call := Call { c_env : env; c_node : node U; c_frame : frame U }.

Definition perform (c : call) (u : U) : (option error * option error) * world U :=
  run (c_env c) (render (c_node c) (c_frame c) None) (World [] u 0).

(** The user's state after a series of calls. *)
Fixpoint after (h : list call) (u : U) : U :=
  match h with
  | [] => u
  | c :: h' => after h' (w_u (snd (perform c u)))
  end.

(** C32.  Whatever was rendered before, and however often, a call does exactly
    what it did the first time: the same writes, the same result. *)
Theorem C32_repeatable h c u :
  Forall (fun x => steady (c_node x)) h ->
  perform c (after h u) = perform c u.
Proof.
  intro H. f_equal. revert u. induction H as [|x h Hx H IH]; intro u; [reflexivity|].
  cbn [after]. rewrite IH. unfold perform. rewrite idle_run; [reflexivity|].
  apply (proj1 render_idle). exact Hx.
Qed.

(** C32.  The arrays of the template that hold attribute values are the same
    after an element has rendered its attributes. *)
Theorem C32_values_untouched g l sh own tr :
  match alone (use_attributes g l) sh own tr with (_, sh', _, _) => sh' = sh end.
Proof.
  pose proof (use_attributes_safe g l) as S. revert own tr S. generalize (use_attributes g l).
  intro p. induction p as [a|x j k IH|[x|x] j v k IH|c k IH|o k IH]; intros own tr S; cbn [alone safe] in *;
    try (apply IH; apply S); try reflexivity. contradiction.
Qed.

(** ** Renders as goroutines *)

Record task (A : Type) := Task { k_env : env; k_prog : io U A; k_log : list wcall; k_tick : nat }.
Arguments Task {A}. Arguments k_env {A}. Arguments k_prog {A}. Arguments k_log {A}. Arguments k_tick {A}.
Definition spawn (c : call) : task (option error * option error) :=
  Task (c_env c) (render (c_node c) (c_frame c) None) [] 0.

(** One step: a write to the task's own writer, a callback on the shared user
    state, or the start of a range over a map. *)
Definition kstep {A} (u : U) (t : task A) : U * task A :=
  match k_prog t with
  | Ret _ => (u, t)
  | Wr d k =>
      let '(n, e) := e_wr (k_env t) (k_log t) d in
      (u, Task (k_env t) (k n e) (k_log t ++ [WCall d n e]) (k_tick t))
  | Cb k => let '(p, u') := k u in (u', Task (k_env t) p (k_log t) (k_tick t))
  | Pick ks k =>
      (u, Task (k_env t) (k (e_ord (k_env t) (k_tick t) ks)) (k_log t) (S (k_tick t)))
  end.
Fixpoint together {A} (sched : list nat) (u : U) (ts : list (task A)) : U * list (task A) :=
  match sched with
  | [] => (u, ts)
  | i :: sched' =>
      match nth_error ts i with
      | None => together sched' u ts
      | Some t => let '(u', t') := kstep u t in together sched' u' (set_nth ts i t')
      end
  end.

Definition rest {A} (u : U) (t : task A) := run (k_env t) (k_prog t) (World (k_log t) u (k_tick t)).

Lemma kstep_rest {A} u (t : task A) : idle (k_prog t) ->
  fst (kstep u t) = u /\ idle (k_prog (snd (kstep u t))) /\ rest u (snd (kstep u t)) = rest u t.
Proof.
  destruct t as [E p l n]. unfold kstep, rest. cbn [k_prog k_env k_log k_tick].
  destruct p as [a|d k|k|ks k]; cbn [idle run w_log w_u w_tick]; intro H.
  - auto.
  - destruct (e_wr E l d) as [m e]. cbn. auto.
  - destruct (H u) as [H1 H2]. destruct (k u) as [p' u']. cbn in *. subst u'. auto.
  - cbn. auto.
Qed.

Lemma together_rest {A} sched : forall u (ts : list (task A)), Forall (fun t => idle (k_prog t)) ts ->
  fst (together sched u ts) = u /\ Forall2 (fun t t' => rest u t' = rest u t) ts (snd (together sched u ts)).
Proof.
  induction sched as [|i sched IH]; intros u ts H; cbn [together].
  - split; [reflexivity|]. clear H. induction ts; constructor; auto.
  - destruct (nth_error ts i) as [t|] eqn:E; [|apply IH, H].
    assert (It : idle (k_prog t)). { rewrite Forall_forall in H. apply H. eapply nth_error_In; eauto. }
    destruct (kstep_rest u t It) as (K1 & K2 & K3). destruct (kstep u t) as [u' t']. cbn [fst snd] in *. subst u'.
    assert (G : Forall (fun t => idle (k_prog t)) (set_nth ts i t') /\
                Forall2 (fun t t' => rest u t' = rest u t) ts (set_nth ts i t')).
    { clear IH. revert i E. induction H as [|x ts Hx H IHts]; intros i E; [destruct i; discriminate|].
      destruct i as [|i]; cbn in *.
      - inversion E; subst. split; constructor; auto. clear. induction ts; constructor; auto.
      - destruct (IHts i E). split; constructor; auto. }
    destruct G as [G1 G2]. destruct (IH u (set_nth ts i t') G1) as [I1 I2]. split; [exact I1|].
    revert I2. generalize (snd (together sched u (set_nth ts i t'))). clear - G2.
    induction G2 as [|a b l m Hab _ IHl]; intros l' X; inversion X; subst; constructor; [congruence|auto].
Qed.

Lemma forall2_nth {X Y} (R : X -> Y -> Prop) l l' i x y :
  Forall2 R l l' -> nth_error l i = Some x -> nth_error l' i = Some y -> R x y.
Proof.
  intro F. revert i. induction F; intros [|i]; cbn; try discriminate.
  - intros E1 E2. inversion E1; inversion E2; subst; auto.
  - apply IHF.
Qed.

Lemma forall2_len {X Y} (R : X -> Y -> Prop) l l' : Forall2 R l l' -> length l = length l'.
Proof. induction 1; cbn; auto. Qed.

(** Any number of programs whose callbacks leave the state alone. *)
Lemma concurrently {A} (ts : list (task A)) sched u i t0 t :
  Forall (fun t => idle (k_prog t)) ts ->
  nth_error ts i = Some t0 ->
  nth_error (snd (together sched u ts)) i = Some t ->
  fst (together sched u ts) = u /\
  (exists more, w_log (snd (rest u t0)) = k_log t ++ more) /\
  (forall r, k_prog t = Ret r -> fst (rest u t0) = r /\ w_log (snd (rest u t0)) = k_log t).
Proof.
  intros I Hs Ht. destruct (together_rest sched u _ I) as [E F]. split; [exact E|].
  pose proof (forall2_nth _ _ _ _ _ _ F Hs Ht) as R. cbv beta in R.
  rewrite <- R. unfold rest. split.
  - destruct (run_log (k_env t) (k_prog t) (World (k_log t) u (k_tick t))) as [l [L _]].
    exists l. rewrite L. reflexivity.
  - intros r Hr. rewrite Hr. cbn. auto.
Qed.

(** C33.  Any number of concurrent renders, any interleaving of their steps:
    the shared state stays as it is; whatever a render has written so far is
    the beginning of what it writes alone; when it is finished it has written
    exactly that, with the same result. *)
Theorem C33_no_interference calls sched u i c t :
  Forall (fun x => steady (c_node x)) calls ->
  nth_error calls i = Some c ->
  nth_error (snd (together sched u (map spawn calls))) i = Some t ->
  fst (together sched u (map spawn calls)) = u /\
  (exists more, w_log (snd (perform c u)) = k_log t ++ more) /\
  (forall r, k_prog t = Ret r ->
     fst (perform c u) = r /\ w_log (snd (perform c u)) = k_log t).
Proof.
  intros H Hc Ht. apply (concurrently (map spawn calls) sched u i (spawn c) t); auto.
  - rewrite Forall_map. eapply Forall_impl; [|exact H]. intros x Hx. apply (proj1 render_idle). exact Hx.
  - rewrite nth_error_map, Hc. reflexivity.
Qed.

(** C33.  The same one level down, where the values of attributes live in
    arrays that all goroutines share.  Each goroutine renders the attributes of
    an element: for each name the attribute in the template and the ones its
    conditions selected.  Under every interleaving of loads and stores the
    template's arrays are unchanged and each goroutine that has finished has
    shown what [resolved] says. *)
Definition in_memory (sh : arrays) := Forall2 (fun x y =>
  opt2 (stored sh) (fst x) (fst y) /\ Forall2 (stored sh) (snd x) (snd y)).

Theorem C33_attributes g sh jobs pages sched i t page :
  grows g -> Forall2 (in_memory sh) jobs pages ->
  let r := interleave sched sh (map (fun l => Thread (use_attributes g l) [] []) jobs) in
  nth_error pages i = Some page -> nth_error (snd r) i = Some t ->
  fst r = sh /\
  (t_prog t = MRet tt -> t_out t = flat_map shown (flat_map resolved page)).
Proof.
  intros G F r Hp Ht.
  assert (S : Forall (fun t => safe anything (t_prog t)) (map (fun l => Thread (use_attributes g l) [] []) jobs)).
  { rewrite Forall_map, Forall_forall. intros l _. apply use_attributes_safe. }
  destruct (noninterference anything sched sh _ S) as [N1 N2]. fold r in N1, N2. split; [exact N1|].
  intro D.
  assert (exists job, nth_error jobs i = Some job) as [job Hj].
  { pose proof (forall2_len _ _ _ F). destruct (nth_error jobs i) eqn:E; [eauto|].
    apply nth_error_None in E. assert (nth_error pages i = None) by (apply nth_error_None; lia). congruence. }
  assert (Hs : nth_error (map (fun l => Thread (use_attributes g l) [] []) jobs) i =
               Some (Thread (use_attributes g job) [] [])) by (rewrite nth_error_map, Hj; reflexivity).
  destruct (forall2_nth _ _ _ _ _ _ N2 Hs Ht) as [_ A]. cbn [t_prog t_own t_out] in A. rewrite D in A. cbn [alone] in A.
  destruct (use_attributes_alone g sh job page [] G (forall2_nth _ _ _ _ _ _ F Hj Hp)) as [own' U].
  rewrite U in A. inversion A. reflexivity.
Qed.

(** C33, partial.  Goroutines that call Start: the same, provided that no plain
    attribute given to it has a values slice with room to spare.  What is
    missing: an attribute built with a nil among its contents has room, and
    then it fails ([C33_refuted]). *)
Theorem C33_start_partial g sh jobs pages sched i t page :
  grows g -> Forall2 (Forall2 (stored sh)) jobs pages -> Forall (Forall full) jobs ->
  let r := interleave sched sh (map (fun l => Thread (start_attributes g l) [] []) jobs) in
  nth_error pages i = Some page -> nth_error (snd r) i = Some t ->
  fst r = sh /\
  (t_prog t = MRet tt ->
   t_out t = flat_map (fun e => shown (as_attr e)) (start_attrs (map (fun a => Some (NAttr a)) page) [])).
Proof.
  intros G F Fu r Hp Ht.
  assert (S : Forall (fun t => safe anything (t_prog t)) (map (fun l => Thread (start_attributes g l) [] []) jobs)).
  { rewrite Forall_map. eapply Forall_impl; [|exact Fu]. intros l Hl. apply start_attributes_safe, Hl. }
  destruct (noninterference anything sched sh _ S) as [N1 N2]. fold r in N1, N2. split; [exact N1|].
  intro D.
  assert (exists job, nth_error jobs i = Some job) as [job Hj].
  { pose proof (forall2_len _ _ _ F). destruct (nth_error jobs i) eqn:E; [eauto|].
    apply nth_error_None in E. assert (nth_error pages i = None) by (apply nth_error_None; lia). congruence. }
  assert (Hs : nth_error (map (fun l => Thread (start_attributes g l) [] []) jobs) i =
               Some (Thread (start_attributes g job) [] [])) by (rewrite nth_error_map, Hj; reflexivity).
  destruct (forall2_nth _ _ _ _ _ _ N2 Hs Ht) as [_ A]. cbn [t_prog t_own t_out] in A. rewrite D in A. cbn [alone] in A.
  assert (Fj : Forall full job). { rewrite Forall_forall in Fu. apply Fu. eapply nth_error_In; eauto. }
  destruct (start_attributes_alone g sh job page [] G (forall2_nth _ _ _ _ _ _ F Hj Hp) Fj) as [own' U].
  rewrite U in A. rewrite start_attrs_fold. inversion A. reflexivity.
Qed.

End Props.

Arguments Task {W A}. Arguments k_env {W A}. Arguments k_prog {W A}. Arguments k_log {W A}. Arguments k_tick {W A}.

(** ** Cases *)

Definition lit (s : string) : value (@U demo) := Val (B s) None [].

(** C33 without the restriction is false.  Two goroutines share
    [empty := Attribute("class", nil)], whose values slice has length 0 and
    capacity 1; one calls Start("p", false, empty, Class("u1")), the other
    Start("p", false, empty, Class("u2")).  Both append in place, and with this
    schedule the first one shows u2. *)
Definition shared_arrays : @arrays demo := [[None]; [Some (lit "u1")]; [Some (lit "u2")]].
Definition empty_class := MPlain (B "class") (MSlice (Shared 0) 0 1).
Definition goroutine i := [empty_class; MDelim (B "class") (B " ") (MSlice (Shared i) 1 1)].
Definition page_of (s : string) : list (attr (@U demo)) :=
  [APlain (B "class") []; ADelim (B "class") (B " ") [lit s]].
Definition doubling : growth := fun c n => n + c.

Theorem C33_refuted : exists g sh jobs pages sched i t page,
  grows g /\ Forall2 (Forall2 (@stored demo sh)) jobs pages /\
  nth_error pages i = Some page /\
  nth_error (snd (interleave sched sh (map (fun l => Thread (start_attributes g l) [] []) jobs))) i = Some t /\
  t_prog t = MRet tt /\
  t_out t <> flat_map (fun e => shown (as_attr e)) (start_attrs (map (fun a => Some (NAttr a)) page) []).
Proof.
  exists doubling, shared_arrays, [goroutine 1; goroutine 2], [page_of "u1"; page_of "u2"],
    [0; 0; 1; 1; 0; 0; 0; 0; 0; 0], 0.
  eexists _, _. split; [|split; [|split; [|split; [|split]]]].
  - unfold grows, doubling. intros; lia.
  - repeat constructor; cbn; try (intros k Hk; destruct k as [|k]; [reflexivity|lia]); intros; lia.
  - vm_compute. reflexivity.
  - vm_compute. reflexivity.
  - vm_compute. reflexivity.
  - vm_compute. intro X. discriminate X.
Qed.

(** C32_repeatable, C33_no_interference: a template with a condition, a dynamic
    value that reads the state, and an iteration, all reading only. *)
Definition reader : node (@U demo) :=
  NElement (B "p") [] [] [(APlain (B "id") [Val [] (Some (fun c u => (B "i", u))) []],
                           [fun c u => (Nat.leb 1 u, u)])]
    [NText [Val [] (Some (fun _ u => (if Nat.leb 3 u then B "many" else B "few", u))) []];
     NIter (fun _ u => ([GString (B "x"); GBool true], u)) [NText [Val (B "-") None []]]].
Example reader_steady : steady reader.
Proof. cbn. repeat split. Qed.
Definition call1 := Call (Env healthy listed) reader fr0.
Definition call2 := Call (Env (dies_after 5 1) reversed) reader frn.
Example reader_repeats : accepted (w_log (snd (perform call1 (after [call2; call1; call2] (st 4))))) =
  B "<p id=""i"">many--</p>".
Proof. vm_compute. reflexivity. Qed.
Example reader_interleaved : exists t,
  nth_error (snd (together (concat (repeat [0; 1] 30)) (st 4) (map spawn [call1; call2]))) 0 = Some t /\
  accepted (k_log t) = B "<p id=""i"">many--</p>" /\ k_prog t = Ret (None, None).
Proof.
  eexists. split; [vm_compute; reflexivity|]. split; vm_compute; reflexivity.
Qed.

(** C33_attributes: two goroutines, the second adds a class. *)
Definition arrays2 : @arrays demo := [[Some (lit "a"); None]; [Some (lit "b")]].
Definition class_a := MDelim (B "class") (B " ") (MSlice (Shared 0) 1 2).
Definition class_b := MDelim (B "class") (B " ") (MSlice (Shared 1) 1 1).
Example two_elements :
  Forall2 (in_memory arrays2)
    [[(Some class_a, [])]; [(Some class_a, [class_b])]]
    [[(Some (ADelim (B "class") (B " ") [lit "a"]), [])];
     [(Some (ADelim (B "class") (B " ") [lit "a"]), [ADelim (B "class") (B " ") [lit "b"]])]] /\
  exists t, nth_error (snd (interleave (repeat 1 20) arrays2
      (map (fun l => Thread (use_attributes doubling l) [] [])
         [[(Some class_a, [])]; [(Some class_a, [class_b])]]))) 1 = Some t /\
    t_prog t = MRet tt /\ t_out t = [OAttr (B "class") (Some (B " ")); OVal (Some (lit "a")); OVal (Some (lit "b")); OEnd].
Proof.
  split.
  - repeat constructor; cbn; try (intros k Hk; destruct k as [|k]; [reflexivity|lia]).
  - eexists. split; [vm_compute; reflexivity|]. split; vm_compute; reflexivity.
Qed.

(** C33_start_partial: a plain class without spare room, then one more. *)
Definition full_class := MPlain (B "class") (MSlice (Shared 1) 1 1).
Example start_full :
  Forall2 (@stored demo arrays2) [full_class; class_a]
    [APlain (B "class") [lit "b"]; ADelim (B "class") (B " ") [lit "a"]] /\
  Forall full [full_class; class_a] /\
  exists t, nth_error (snd (interleave (repeat 0 30) arrays2
      [Thread (start_attributes doubling [full_class; class_a]) [] []])) 0 = Some t /\
    t_prog t = MRet tt /\
    t_out t = [OAttr (B "class") None; OVal (Some (lit "b")); OVal (Some (lit " ")); OVal (Some (lit "a")); OEnd].
Proof.
  split; [|split].
  - repeat constructor; cbn; try (intros k Hk; destruct k as [|k]; [reflexivity|lia]).
  - repeat constructor.
  - eexists. split; [vm_compute; reflexivity|]. split; vm_compute; reflexivity.
Qed.
