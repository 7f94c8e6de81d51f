(** Properties that need contexts as objects behind pointers (Pointer.v):
    C63 (contexts are left alone), C64 (an item's context starts afresh), C65
    (errors that callbacks store). *)
From Coq Require Import Lia ZArith.
From Verif Require Import Bytes IO Escape Nodes Values Render Slices NodeInd IOFacts SpecRun
  Pointer Lift PointerFacts PointerSim PointerInd Demo.

Section Statements.
Context {W : UserWorld}.

(** ** C63 *)

Definition frame_at (h : heap) (p : cref) : frame U :=
  let c := view_at h p in Frame (c_data c) (c_cargo c) (c_parent c).

Lemma frame_at_view h p : view (frame_at h p) (o_err (obj h p)) = view_at h p.
Proof. reflexivity. Qed.

(** With callbacks that only read contexts, Pointer.v and Render.v agree: the same
    writes, the same user state, the same error; afterwards ctx.Error is what
    Render.v says, and no other field of any context has changed. *)
Theorem C63_agree n E lg u t h p : p < length h -> ordered h ->
  let '(x, w) := run E (render n (frame_at h p) (o_err (obj h p))) (World lg u t) in
  exists h', run E (prender (lift n) p) (World lg (u, h) t)
               = (fst x, World (w_log w) (w_u w, h') (w_tick w)) /\
    length h <= length h' /\
    forall q, q < length h -> obj h' q = if q =? p then with_err (snd x) (obj h q) else obj h q.
Proof.
  intros L O.
  destruct (lift_agree n (frame_at h p) p (o_err (obj h p)) E lg u t h) as (h' & x & w & R1 & R2 & A & _ & S).
  - split; [exact L|]. split; [exact O|]. reflexivity.
  - rewrite R1. exists h'. auto.
Qed.

(** The callbacks of a node, over all contexts and states in which they may be
    called, satisfy [K] (which relates the states before and after a call). *)
Section Callbacks.
Variable K : cref -> pstate -> pstate -> Prop.
Definition fn_ok {A} (f : ctx pstate -> pstate -> A * pstate) : Prop := forall p s, K p s (snd (f (ptr p) s)).
Fixpoint value_ok (v : value pstate) : Prop :=
  let 'Val _ d cs := v in
  match d with Some f => fn_ok f | None => True end /\ fold_right (fun c Q => value_ok c /\ Q) True cs.
Definition attr_ok (a : attr pstate) : Prop :=
  match a with APlain _ vs | ADelim _ _ vs => Forall value_ok vs | ABool _ => True end.
Definition cond_ok (c : attr pstate * list (condfn pstate)) : Prop :=
  attr_ok (fst c) /\ Forall (fun f => fn_ok f) (snd c).
Fixpoint yield_ok (y : pyprog) : Prop :=
  match y with
  | PYRet => True
  | PYYield _ y => yield_ok y
  | PYRead k => fn_ok k /\ forall c s, yield_ok (fst (k c s))
  end.
Fixpoint node_ok (n : pnode) : Prop :=
  let all := fold_right (fun c Q => node_ok c /\ Q) True in
  match n with
  | PAttr a => attr_ok a
  | PElement _ attrs _ conds ns => Forall attr_ok attrs /\ Forall cond_ok conds /\ all ns
  | PVoid _ attrs _ conds => Forall attr_ok attrs /\ Forall cond_ok conds
  | PValues vs | PComment vs | PPI _ vs => Forall value_ok vs
  | PCollection ns => all ns
  | PConditional fn ns => fn_ok fn /\ all ns
  | PCollect f =>
      fn_ok f /\
      forall c s, fold_right (fun o Q => match o with Some n => node_ok n | None => True end /\ Q) True (fst (f c s))
  | PImper None => True
  | PImper (Some g) => prog_ok g
  | PIter fn ns => fn_ok fn /\ all ns
  | PYield y ns => yield_ok y /\ all ns
  | PDocument pr ns => match pr with Some n => node_ok n | None => True end /\ all ns
  end
with prog_ok (g : piprog) : Prop :=
  match g with
  | PIRet _ => True
  | PIRead k => fn_ok k /\ forall c s, prog_ok (fst (k c s))
  | PIWriteString _ k | PIWriteRaw _ k | PIEnd k | PIEndAll k => prog_ok k
  | PIWriteNodes ns k =>
      fold_right (fun o Q => match o with Some n => node_ok n | None => True end /\ Q) True ns /\ prog_ok k
  | PIStart _ _ attrs k => Forall attr_ok attrs /\ prog_ok k
  | PIRender n _ k => node_ok n /\ forall r, prog_ok (k r)
  | PIDirect _ k => forall m e, prog_ok (k m e)
  end.
End Callbacks.

(** Data, Cargo and Parent of the contexts there are stay the same; Error may be
    assigned, and contexts may be made. *)
Definition fields_kept (h h' : heap) : Prop :=
  length h <= length h' /\
  forall q, q < length h ->
    o_data (obj h' q) = o_data (obj h q) /\ o_cargo (obj h' q) = o_cargo (obj h q) /\
    o_parent (obj h' q) = o_parent (obj h q).
Definition only_errors : cref -> pstate -> pstate -> Prop := fun _ s s' => fields_kept (snd s) (snd s').

(** The same for the first [N] contexts. *)
Definition kept (N : nat) (h h' : heap) : Prop :=
  N <= length h' /\
  forall q, q < N ->
    o_data (obj h' q) = o_data (obj h q) /\ o_cargo (obj h' q) = o_cargo (obj h q) /\
    o_parent (obj h' q) = o_parent (obj h q).
Definition keeping (N : nat) {A} (m : io pstate A) : Prop :=
  forall E (w : world pstate), N <= length (snd (w_u w)) -> kept N (snd (w_u w)) (snd (w_u (snd (run E m w)))).

Lemma kept_refl N h : N <= length h -> kept N h h.
Proof. intro. split; [assumption|]. auto. Qed.
Lemma kept_trans N h1 h2 h3 : kept N h1 h2 -> kept N h2 h3 -> kept N h1 h3.
Proof.
  intros (L1 & S1) (L2 & S2). split; [exact L2|]. intros q Hq.
  destruct (S1 q Hq) as (A & B0 & C), (S2 q Hq) as (A' & B' & C'). repeat split; congruence.
Qed.
Lemma kept_of N h h' : N <= length h -> fields_kept h h' -> kept N h h'.
Proof. intros L (A & S). split; [lia|]. intros q Hq. apply S. lia. Qed.

Lemma k_ret N {A} (a : A) : keeping N (Ret a).
Proof. intros E w L. apply kept_refl. exact L. Qed.
Lemma k_bind N {A B} (m : io pstate A) (k : A -> io pstate B) :
  keeping N m -> (forall a, keeping N (k a)) -> keeping N (bind m k).
Proof.
  intros H K E w L. rewrite run_bind. pose proof (H E w L) as H1.
  destruct (run E m w) as [a w1]. cbn [snd] in H1. eapply kept_trans; [exact H1|]. apply K. apply H1.
Qed.
Lemma k_wr N {A} d (k : nat -> option error -> io pstate A) : (forall n e, keeping N (k n e)) -> keeping N (Wr d k).
Proof. intros H E w L. cbn [run]. destruct (e_wr E (w_log w) d) as [n e]. apply (H n e E (World _ (w_u w) _) L). Qed.
Lemma k_pick N {A} ks (k : list bytes -> io pstate A) : (forall l, keeping N (k l)) -> keeping N (Pick ks k).
Proof. intros H E w L. cbn [run]. apply (H _ E (World _ (w_u w) _) L). Qed.
Lemma k_cb N {A} (f : pstate -> io pstate A * pstate) :
  (forall s, N <= length (snd s) -> kept N (snd s) (snd (snd (f s))) /\ keeping N (fst (f s))) -> keeping N (Cb f).
Proof.
  intros H E w L. cbn [run]. destruct (H (w_u w) L) as (H1 & H2). destruct (f (w_u w)) as [m s']. cbn [fst snd] in *.
  eapply kept_trans; [exact H1|]. apply (H2 E (World (w_log w) s' (w_tick w))). apply H1.
Qed.
Lemma k_get N p : keeping N (get p).
Proof. apply k_cb. intros s L. split; [apply kept_refl; exact L|apply k_ret]. Qed.
Lemma k_ret_err N p : keeping N (ret_err p).
Proof. apply k_bind; [apply k_get|intro; apply k_ret]. Qed.
Lemma set_nth_far {A} (l : list A) i x : length l <= i -> set_nth l i x = l.
Proof. revert i. induction l as [|y l IH]; intros [|i] L; cbn in *; try lia; auto. f_equal. apply IH. lia. Qed.
Lemma k_put_err N p e : keeping N (put_err p e).
Proof.
  apply k_cb. intros s L. split; [|apply k_ret]. cbn [snd]. unfold set_obj. cbn [snd].
  split; [rewrite set_nth_length; exact L|]. intros q Hq.
  destruct (Nat.lt_ge_cases p (length (snd s))) as [Lp|Lp].
  - rewrite obj_set by exact Lp. destruct (Nat.eqb_spec q p); subst; auto.
  - rewrite set_nth_far by exact Lp. auto.
Qed.
Lemma k_put_item N q d item : N <= q -> keeping N (put_item q d item).
Proof.
  intro NQ. apply k_cb. intros s L. split; [|apply k_ret]. cbn [snd]. unfold set_obj. cbn [snd].
  split; [rewrite set_nth_length; exact L|]. intros z Hz.
  destruct (Nat.lt_ge_cases q (length (snd s))) as [Lq|Lq].
  - rewrite obj_set by exact Lq. destruct (Nat.eqb_spec z q); [lia|auto].
  - rewrite set_nth_far by exact Lq. auto.
Qed.
Lemma k_call N {A} (f : ctx pstate -> pstate -> A * pstate) p : fn_ok only_errors f -> keeping N (call f p).
Proof.
  intro H. apply k_cb. intros s L. pose proof (H p s) as Hs. destruct (f (ptr p) s) as [x s'].
  split; [apply kept_of; assumption|apply k_ret].
Qed.
Lemma k_write N p d : keeping N (pwrite p d).
Proof.
  apply k_bind; [apply k_get|]. intro o. destruct (o_err o); [apply k_ret|].
  apply k_wr. intros. apply k_put_err.
Qed.
Lemma k_pwr N p d : keeping N (pwr p d).
Proof. apply k_wr. intros. apply k_bind; [apply k_put_err|intro; apply k_ret]. Qed.
Ltac kb := repeat first [apply k_ret|apply k_write|apply k_ret_err|apply k_bind; [|intro]].

Lemma k_value N p : forall v, value_ok only_errors v -> keeping N (pvalue p v).
Proof.
  intro v. induction v as [b d cs IH] using value_ind'. cbn [value_ok]. intros (Hd & Hcs).
  destruct d as [f|].
  - cbn [pvalue]. apply k_bind; [apply k_call; exact Hd|intro]. apply k_bind; [apply k_pwr|intro]. kb.
  - assert (G : forall l, keeping N ((fix go (cs : list (value pstate)) (l : nat) : io pstate bool :=
              match cs with
              | [] => Ret (0 <? l)
              | c :: cs' =>
                  '(written, e) <- pvalue p c ;; _ <- put_err p e ;;
                  go cs' (if written then S l else l)
              end) cs l)).
    { clear Hd. induction IH as [|c cs Hc _ IHcs]; intro l; [apply k_ret|]. cbn in Hcs. destruct Hcs as (H1 & H2).
      apply k_bind; [apply Hc; exact H1|]. intros [w e]. apply k_bind; [apply k_put_err|intro]. apply IHcs. exact H2. }
    destruct cs as [|c cs]; cbn [pvalue].
    + apply k_bind; [apply k_pwr|intro]. kb.
    + apply k_bind; [apply (G 0)|intro]. kb.
Qed.
Lemma k_values N p vs : Forall (value_ok only_errors) vs -> keeping N (pvalues p vs).
Proof.
  intro F. induction F; cbn [pvalues]; [apply k_ret|]. apply k_bind; [apply k_value; assumption|intro; assumption].
Qed.
Lemma k_delim N p d vs : Forall (value_ok only_errors) vs -> forall s, keeping N (pdelim p d vs s).
Proof.
  intro F. induction F; intro s; cbn [pdelim]; [apply k_ret|].
  apply k_bind; [destruct s; [apply k_write|apply k_ret]|intro].
  apply k_bind; [apply k_value; assumption|intros [b e]; auto].
Qed.
Lemma k_attr N p a : attr_ok only_errors a -> keeping N (pattr p a).
Proof.
  destruct a; cbn [attr_ok]; intro F; unfold pattr; kb; first [apply k_values|apply k_delim]; exact F.
Qed.
Lemma k_conds N p cs : Forall (fun f => fn_ok only_errors f) cs -> keeping N (pconds p cs).
Proof.
  intro F. induction F; cbn [pconds]; [apply k_ret|]. apply k_bind; [apply k_call; assumption|].
  intros []; [assumption|apply k_ret].
Qed.
(** The active attributes are among the conditional ones. *)
Lemma active_among p E : forall cas w, Forall (cond_ok only_errors) cas ->
  Forall (attr_ok only_errors) (fst (run E (pactive p cas) w)).
Proof.
  induction cas as [|[a cs] cas IH]; intros w F; cbn [pactive]; [constructor|]. inversion_clear F as [|? ? [Ha Hc] Fs].
  rewrite run_bind. destruct (run E (pconds p cs) w) as [b w1]. rewrite run_bind.
  specialize (IH w1 Fs). destruct (run E (pactive p cas) w1) as [l w2]. cbn in *. destruct b; auto.
Qed.
Lemma k_active N p cas : Forall (cond_ok only_errors) cas -> keeping N (pactive p cas).
Proof.
  intro F. induction F as [|[a cs] cas [_ Hc] _ IH]; cbn [pactive]; [apply k_ret|].
  apply k_bind; [apply k_conds; exact Hc|intro]. apply k_bind; [exact IH|intro; apply k_ret].
Qed.
Lemma k_attrs N p l : Forall (attr_ok only_errors) l -> keeping N (pattrs p l).
Proof. intro F. induction F; cbn [pattrs]; [apply k_ret|]. apply k_bind; [apply k_attr; assumption|intro; assumption]. Qed.
Lemma k_each N p choose names :
  (forall name a, choose name = Some a -> attr_ok only_errors a) -> keeping N (peach p choose names).
Proof.
  intro H. induction names as [|n names IH]; cbn [peach]; [apply k_ret|]. apply k_bind; [|intro; exact IH].
  destruct (choose n) as [a|] eqn:Q; [apply k_attr; eapply H; exact Q|apply k_ret].
Qed.
Lemma ok_ev_get ev name : Forall (attr_ok only_errors) ev -> Forall (attr_ok only_errors) (@ev_get PW ev name).
Proof. intro F. unfold ev_get. apply Forall_forall. intros a Ha. apply filter_In in Ha. destruct Ha as [Ha _].
  rewrite Forall_forall in F. apply F. exact Ha. Qed.
Lemma ok_all_values l : Forall (attr_ok only_errors) l -> Forall (value_ok only_errors) (@all_values PW l).
Proof.
  intro F. unfold all_values. induction F as [|a l Ha _ IH]; [constructor|]. cbn [flat_map]. apply Forall_app. split; [|exact IH].
  destruct a; cbn in Ha |- *; auto.
Qed.
Lemma ok_last l a : attr_ok only_errors a -> Forall (attr_ok only_errors) l -> attr_ok only_errors (last l a).
Proof. intros Ha F. induction F as [|x l Hx F IH]; [exact Ha|]. destruct l; [exact Hx|exact IH]. Qed.
Lemma ok_resolve a es : attr_ok only_errors a -> Forall (attr_ok only_errors) es ->
  attr_ok only_errors (@resolve_static PW a es).
Proof.
  intros Ha F. destruct a; unfold resolve_static; [exact (ok_last es _ Ha F)|exact (ok_last es _ Ha F)|].
  cbn in Ha |- *. apply Forall_app. split; [exact Ha|apply ok_all_values; exact F].
Qed.
Lemma k_attributes N p attrs idx conds :
  Forall (attr_ok only_errors) attrs -> Forall (cond_ok only_errors) conds -> keeping N (pattributes p attrs idx conds).
Proof.
  intros Fa Fc E w L. unfold pattributes. rewrite run_bind.
  pose proof (k_active N p conds Fc E w L) as H1. pose proof (active_among p E conds w Fc) as H2.
  destruct (run E (pactive p conds) w) as [ev w1]. cbn [fst snd] in *.
  eapply kept_trans; [exact H1|]. destruct H1 as (L1 & _). revert E w1 L1. clear w L.
  assert (G : keeping N (match ev with
    | [] => pattrs p attrs
    | _ => Pick (map fst idx) (fun names =>
        _ <- peach p (pchoose_static attrs idx ev) names ;;
        Pick (@ev_names PW ev) (fun names => peach p (pchoose_dynamic idx ev) names))
    end)).
  { assert (G1 : keeping N (Pick (map fst idx) (fun names =>
        _ <- peach p (pchoose_static attrs idx ev) names ;;
        Pick (@ev_names PW ev) (fun names => peach p (pchoose_dynamic idx ev) names)))).
    { apply k_pick. intro names. apply k_bind.
      - apply k_each. intros name a. unfold pchoose_static.
        destruct (idx_get idx name) as [i|]; [|discriminate]. destruct (nth_error attrs i) as [a0|] eqn:Qa; [|discriminate].
        assert (H0 : attr_ok only_errors a0).
        { apply nth_error_In in Qa. rewrite Forall_forall in Fa. apply Fa. exact Qa. }
        pose proof (ok_ev_get ev name H2) as H3. intro Qe. injection Qe as <-.
        destruct (@ev_get PW ev name) as [|x es]; [exact H0|]. apply (ok_resolve a0 (x :: es)); assumption.
      - intros _. apply k_pick. intro names'. apply k_each. intros name a. unfold pchoose_dynamic.
        destruct (idx_get idx name) as [i|]; [discriminate|].
        pose proof (ok_ev_get ev name H2) as H3. destruct (@ev_get PW ev name) as [|x es]; [discriminate|].
        intro Qe. injection Qe as <-. inversion_clear H3. apply (ok_resolve x es); assumption. }
    destruct ev; [apply k_attrs; exact Fa|exact G1]. }
  exact G.
Qed.

Definition entry_ok (x : bytes * option (list (value pstate))) : Prop :=
  match snd x with Some vs => Forall (value_ok only_errors) vs | None => True end.
Lemma ok_delimiter d : value_ok only_errors (Val d None []).
Proof. cbn. auto. Qed.
Lemma ok_interpose d vs : Forall (value_ok only_errors) vs -> Forall (value_ok only_errors) (@interpose PW d vs).
Proof.
  intro F. induction F as [|v vs Hv F IH]; [constructor|]. cbn [interpose]. destruct vs as [|v' vs].
  - constructor; [exact Hv|constructor].
  - constructor; [exact Hv|]. constructor; [apply ok_delimiter|exact IH].
Qed.
Lemma ok_append d : forall vs avs, Forall (value_ok only_errors) avs -> Forall (value_ok only_errors) vs ->
  Forall (value_ok only_errors) (@append_delim PW d avs vs).
Proof.
  induction vs as [|v vs IH]; intros avs Fa F; cbn [append_delim]; [exact Fa|]. inversion_clear F.
  apply IH; [|assumption]. apply Forall_app. split; [|auto].
  destruct avs; [constructor|]. apply Forall_app. split; [exact Fa|]. constructor; [apply ok_delimiter|constructor].
Qed.
Lemma ok_upd acc name f :
  (forall x, (match x with Some vs => Forall (value_ok only_errors) vs | None => True end) ->
             match f x with Some vs => Forall (value_ok only_errors) vs | None => True end) ->
  Forall entry_ok acc -> Forall entry_ok (upd_assoc acc name f).
Proof.
  intros H F. induction F as [|[n x] acc Hx F IH]; [constructor|]. cbn [upd_assoc].
  destruct (beq n name); constructor; auto. unfold entry_ok in *. cbn [snd] in *. apply H. exact Hx.
Qed.
Lemma ok_start_add acc a : Forall entry_ok acc -> attr_ok only_errors a -> Forall entry_ok (@start_add PW acc a).
Proof.
  intros F Ha. unfold start_add. match goal with |- context [if ?b then _ else _] => destruct b end.
  - apply ok_upd; [|exact F]. intros x Hx. destruct a as [n vs|n|n d vs]; cbn [attr_ok] in Ha; auto.
    destruct vs as [|v vs]; [exact Hx|]. destruct x as [avs|]; apply ok_append; auto.
  - apply Forall_app. split; [exact F|]. constructor; [|constructor].
    unfold entry_ok. cbn [snd]. destruct a; cbn [attr_ok] in Ha; auto. apply ok_interpose. exact Ha.
Qed.
Lemma ok_start_adds : forall attrs acc, Forall entry_ok acc -> Forall (attr_ok only_errors) attrs ->
  Forall entry_ok (fold_left (@start_add PW) attrs acc).
Proof.
  induction attrs as [|a attrs IH]; intros acc F Fa; [exact F|]. inversion_clear Fa. cbn [fold_left].
  apply IH; [apply ok_start_add; assumption|assumption].
Qed.
Lemma k_start_render N p l : Forall entry_ok l -> keeping N (pstart_render p l).
Proof.
  intro F. induction F as [|[n vs] l Hx _ IH]; cbn [pstart_render]; [apply k_ret|].
  apply k_bind; [apply k_write|intro]. apply k_bind; [apply k_write|intro].
  apply k_bind; [|intro; exact IH]. destruct vs as [vs|]; [|apply k_ret].
  apply k_bind; [apply k_write|intro]. apply k_bind; [apply k_values; exact Hx|intro; apply k_write].
Qed.
Lemma k_start N p name attrs : Forall (attr_ok only_errors) attrs -> keeping N (pstart p name attrs).
Proof.
  intro F. unfold pstart. apply k_bind; [apply k_write|intro]. apply k_bind; [apply k_write|intro].
  apply k_bind; [apply k_start_render, ok_start_adds; [constructor|exact F]|intro; apply k_write].
Qed.
Lemma k_close N p name : keeping N (pclose p name).
Proof. unfold pclose. kb. Qed.
Lemma k_close_all N p stack : keeping N (pclose_all p stack).
Proof. induction stack; cbn [pclose_all]; [apply k_ret|]. apply k_bind; [apply k_close|intro; assumption]. Qed.

Definition kn (n : pnode) : Prop := node_ok only_errors n -> forall N p, keeping N (prender n p).
Definition kg (g : piprog) : Prop := prog_ok only_errors g -> forall N p stack, keeping N (pimper g p stack).
Definition all_ok := fold_right (fun c Q => node_ok only_errors c /\ Q) True.
Definition opts_ok :=
  fold_right (fun o Q => match o with Some n => node_ok only_errors n | None => True end /\ Q) True.

Section Loops.
Variables (N : nat) (p : cref).
Let r : prenderer := fun c => prender c p.
Lemma k_assign ns : Forall kn ns -> all_ok ns -> keeping N (peach_assign p r ns).
Proof.
  intro F. induction F as [|c ns Hc _ IH]; [intro; apply k_ret|]. intros (H1 & H2).
  change (peach_assign p r (c :: ns)) with (bind (r c) (fun x => bind (put_err p x) (fun _ => peach_assign p r ns))).
  apply k_bind; [apply Hc; exact H1|intro]. apply k_bind; [apply k_put_err|intro; auto].
Qed.
Lemma k_ignore ns : Forall kn ns -> all_ok ns -> keeping N (peach_ignore r ns).
Proof.
  intro F. induction F as [|c ns Hc _ IH]; [intro; apply k_ret|]. intros (H1 & H2).
  change (peach_ignore r (c :: ns)) with (bind (r c) (fun _ => peach_ignore r ns)).
  apply k_bind; [apply Hc; exact H1|intro; auto].
Qed.
Lemma k_until skip ns : Forall kn ns -> all_ok ns -> keeping N (peach_until p skip r ns).
Proof.
  intro F. induction F as [|c ns Hc _ IH]; [intro; apply k_ret|]. intros (H1 & H2).
  change (peach_until p skip r (c :: ns)) with
    (if skip c then peach_until p skip r ns
     else bind (r c) (fun x => bind (put_err p x) (fun _ =>
            match x with None => peach_until p skip r ns | Some _ => Ret tt end))).
  destruct (skip c); [auto|]. apply k_bind; [apply Hc; exact H1|intros [x|]];
    (apply k_bind; [apply k_put_err|intro]); [apply k_ret|auto].
Qed.
Lemma k_content ns : Forall (optQ kn) ns -> opts_ok ns -> keeping N (peach_content r ns).
Proof.
  intro F. induction F as [|[c|] ns Hc _ IH]; [intro; apply k_ret| |]; intros (H1 & H2); [|apply IH; exact H2].
  change (peach_content r (Some c :: ns)) with
    (if is_pattr c then peach_content r ns else bind (r c) (fun _ => peach_content r ns)).
  destruct (is_pattr c); [auto|]. apply k_bind; [apply Hc; exact H1|intro; auto].
Qed.
Lemma k_item ns : Forall kn ns -> all_ok ns -> keeping N (peach_item r ns).
Proof.
  intro F. induction F as [|c ns Hc _ IH]; [intro; apply k_ret|]. intros (H1 & H2).
  change (peach_item r (c :: ns)) with
    (bind (r c) (fun x => match x with None => peach_item r ns | Some x => Ret (Some x) end)).
  apply k_bind; [apply Hc; exact H1|intros [x|]]; [apply k_ret|auto].
Qed.
End Loops.

Lemma k_iter N body p q : keeping N body -> N <= q -> forall items, keeping N (piter body p q items).
Proof.
  intros Hb NQ. induction items as [|item items IH]; cbn [piter]; [apply k_ret|].
  apply k_bind; [destruct item; try apply k_ret; (apply k_bind; [apply k_get|intro; apply k_ret])|intro].
  apply k_bind; [apply k_put_item; exact NQ|intro]. apply k_bind; [exact Hb|intros [x|]]; [|exact IH].
  apply k_bind; [apply k_put_err|intro; apply k_ret].
Qed.
Lemma k_yield N body p q : keeping N body -> N <= q -> forall y, yield_ok only_errors y -> keeping N (pyield body p q y).
Proof.
  intros Hb NQ. fix IH 1. intros [|item y|k] Hy; cbn [pyield].
  - apply k_ret.
  - apply k_bind; [destruct item; try apply k_ret; (apply k_bind; [apply k_get|intro; apply k_ret])|intro].
    apply k_bind; [apply k_put_item; exact NQ|intro]. apply k_bind; [exact Hb|intro x].
    apply k_bind; [destruct x; [apply k_put_err|apply k_ret]|intro]. apply IH. exact Hy.
  - destruct Hy as (H1 & H2). apply k_cb. intros s L. pose proof (H1 p s) as Hs. specialize (H2 (ptr p) s).
    pose proof (IH (fst (k (ptr p) s))) as G. destruct (k (ptr p) s) as [y' s']. cbn [fst snd] in *.
    split; [apply kept_of; assumption|]. apply G. exact H2.
Qed.

(** A new context is beyond the old ones. *)
Lemma k_alloc N {A} o (k : cref -> io pstate A) :
  (forall q, N <= q -> keeping N (k q)) -> keeping N (bind (alloc o) k).
Proof.
  intros H. cbn [bind alloc]. apply k_cb. intros s L. cbn [fst snd bind]. split; [|apply H; exact L].
  split; [rewrite app_length; lia|]. intros q Hq. rewrite obj_app by lia. auto.
Qed.

Lemma k_all : (forall n, kn n) /\ (forall g, kg g).
Proof.
  apply pnode_piprog_ind; unfold kn, kg.
  - intros a Ha N p. cbn [prender]. apply k_bind; [apply k_attr; exact Ha|intro; apply k_ret_err].
  - intros name attrs idx conds ns F (Ha & Hc & Hn) N p. cbn [prender].
    apply k_bind; [apply k_write|intro]. apply k_bind; [apply k_write|intro].
    apply k_bind; [apply k_attributes; assumption|intro]. apply k_bind; [apply k_write|intro].
    apply k_bind; [apply k_assign; assumption|intro]. apply k_bind; [apply k_close|intro; apply k_ret_err].
  - intros name attrs idx conds (Ha & Hc) N p. cbn [prender].
    apply k_bind; [apply k_write|intro]. apply k_bind; [apply k_write|intro].
    apply k_bind; [apply k_attributes; assumption|intro]. apply k_bind; [apply k_write|intro; apply k_ret_err].
  - intros vs Hv N p. cbn [prender]. apply k_bind; [apply k_values; exact Hv|intro; apply k_ret_err].
  - intros vs Hv N p. cbn [prender]. apply k_bind; [apply k_write|intro].
    apply k_bind; [apply k_values; exact Hv|intro]. apply k_bind; [apply k_write|intro; apply k_ret_err].
  - intros name vs Hv N p. cbn [prender]. do 3 (apply k_bind; [apply k_write|intro]).
    apply k_bind; [apply k_values; exact Hv|intro]. apply k_bind; [apply k_write|intro; apply k_ret_err].
  - intros ns F Hn N p. cbn [prender]. apply k_bind; [apply k_until; assumption|intro; apply k_ret_err].
  - intros fn ns F (Hf & Hn) N p. cbn [prender]. apply k_bind; [apply k_call; exact Hf|intros b].
    apply k_bind; [destruct b; [apply k_until; assumption|apply k_ret]|intro; apply k_ret_err].
  - intros f F (Hf & Hn) N p. cbn [prender]. apply k_cb. intros s L. pose proof (Hf p s) as Hs.
    specialize (Hn (ptr p) s). specialize (F (ptr p) s). destruct (f (ptr p) s) as [ns s']. cbn [fst snd] in *.
    split; [apply kept_of; assumption|]. apply k_bind; [apply k_content; assumption|intro; apply k_ret_err].
  - intros _ N p. apply k_ret.
  - intros g Hg H N p. cbn [prender]. apply Hg. exact H.
  - intros fn ns F (Hf & Hn) N p. cbn [prender]. apply k_bind; [apply k_get|intro o].
    destruct (o_err o); [apply k_ret|]. apply k_bind; [apply k_call; exact Hf|intros items].
    destruct items as [|item items]; [apply k_ret|]. apply k_bind; [apply k_get|intro o'].
    apply k_alloc. intros q NQ. apply k_iter; [apply k_item; assumption|exact NQ].
  - intros y ns F (Hy & Hn) N p. cbn [prender]. apply k_bind; [apply k_get|intro o].
    destruct (o_err o); [apply k_ret|]. apply k_alloc. intros q NQ.
    apply k_bind; [apply k_yield; [apply k_item; assumption|exact NQ|exact Hy]|intro; apply k_ret_err].
  - intros pr ns Hp F (H1 & H2) N p. cbn [prender].
    apply k_bind; [destruct pr; [apply k_bind; [apply Hp; exact H1|intro; apply k_ret]|apply k_ret]|intro].
    apply k_bind; [apply k_ignore; assumption|intro; apply k_ret_err].
  - intros e _ N p stack. apply k_ret.
  - intros k F (H1 & H2) N p stack. cbn [pimper]. apply k_cb. intros s L. pose proof (H1 p s) as Hs.
    specialize (H2 (ptr p) s). specialize (F (ptr p) s). destruct (k (ptr p) s) as [g s']. cbn [fst snd] in *.
    split; [apply kept_of; assumption|]. apply F. exact H2.
  - intros s k Hk H N p stack. cbn [pimper]. apply k_bind; [apply k_write|intro]. apply Hk. exact H.
  - intros s k Hk H N p stack. cbn [pimper]. apply k_bind; [apply k_write|intro]. apply Hk. exact H.
  - intros ns k F Hk (H1 & H2) N p stack. cbn [pimper]. apply k_bind; [apply k_content; assumption|intro].
    apply Hk. exact H2.
  - intros name v attrs k Hk (H1 & H2) N p stack. cbn [pimper]. apply k_bind; [apply k_start; exact H1|intro].
    apply Hk. exact H2.
  - intros k Hk H N p [|n s]; cbn [pimper]; [apply Hk; exact H|]. apply k_bind; [apply k_close|intro].
    apply Hk. exact H.
  - intros k Hk H N p stack. cbn [pimper]. apply k_bind; [apply k_close_all|intro]. apply Hk. exact H.
  - intros n q k Hn Hk (H1 & H2) N p stack. cbn [pimper]. apply k_bind; [apply Hn; exact H1|intro r].
    apply Hk. apply H2.
  - intros d k Hk H N p stack. cbn [pimper]. apply k_wr. intros m e. apply Hk. apply H.
Qed.

(** If the callbacks assign no Data, Cargo or Parent then these fields of every
    context there is are the same after rendering, whatever else the callbacks do
    and however rendering ends. *)
Theorem C63_kept n p E lg u t h : node_ok only_errors n ->
  fields_kept h (snd (w_u (snd (run E (prender n p) (World lg (u, h) t))))).
Proof. intro H. apply (proj1 k_all n H (length h) p E (World lg (u, h) t)). cbn. lia. Qed.

(** ** C64 *)

(** An Imperative node whose function assigns Data and Cargo of its context. *)
Definition assign_fields (f : pstate -> option mref * gval U) : pnode :=
  PImper (Some (PIRead (fun c s =>
    let p := ptr_of c in
    (PIRet None, set_obj p (CObj (o_err (obj (snd s) p)) (fst (f s)) (snd (f s)) (o_parent (obj (snd s) p))) s)))).

(** The heaps are equal but for Data and Cargo of [q]. *)
Definition alike_but (q : cref) (h h' : heap) : Prop :=
  h' = h \/ exists d g, h' = set_nth h q (CObj (o_err (obj h q)) d g (o_parent (obj h q))).

Lemma set_twice {A} (l : list A) i x y : set_nth (set_nth l i x) i y = set_nth l i y.
Proof. revert i. induction l as [|z l IH]; intros [|i]; cbn; auto. f_equal. apply IH. Qed.
Lemma obj_set_other h q o p : p <> q -> obj (set_nth h q o) p = obj h p.
Proof.
  intro N. destruct (Nat.lt_ge_cases q (length h)).
  - rewrite obj_set by assumption. destruct (Nat.eqb_spec p q); [contradiction|reflexivity].
  - rewrite set_nth_far by assumption. reflexivity.
Qed.
Lemma alike_obj q h h' p : p <> q -> alike_but q h h' -> obj h' p = obj h p.
Proof. intros N [->|(d & g & ->)]; [reflexivity|]. apply obj_set_other. exact N. Qed.
Lemma alike_put q h h' d g : alike_but q h h' ->
  set_nth h' q (CObj (o_err (obj h' q)) d g (o_parent (obj h' q)))
  = set_nth h q (CObj (o_err (obj h q)) d g (o_parent (obj h q))).
Proof.
  intros [->|(d0 & g0 & ->)]; [reflexivity|]. rewrite set_twice.
  destruct (Nat.lt_ge_cases q (length h)).
  - rewrite obj_set, Nat.eqb_refl by assumption. reflexivity.
  - rewrite !set_nth_far by (rewrite ?set_nth_length; assumption). reflexivity.
Qed.

Definition pw (lg : list wcall) (u : U) (h : heap) (t : nat) : world pstate := World lg (u, h) t.
Lemma item_assign E q f ns (w0 : world pstate) :
  run E (peach_item (fun c => prender c q) (ns ++ [assign_fields f])) w0 =
  let '(x, w) := run E (peach_item (fun c => prender c q) ns) w0 in
  match x with
  | Some e => (Some e, w)
  | None => (None, pw (w_log w) (fst (w_u w))
              (set_nth (snd (w_u w)) q (CObj (o_err (obj (snd (w_u w)) q)) (fst (f (w_u w))) (snd (f (w_u w)))
                                            (o_parent (obj (snd (w_u w)) q)))) (w_tick w))
  end.
Proof.
  revert w0. induction ns as [|c ns IH]; intro w0; cbn [app].
  - reflexivity.
  - change (peach_item (fun c => prender c q) (c :: ns ++ [assign_fields f])) with
      (bind (prender c q) (fun x => match x with
         | None => peach_item (fun c => prender c q) (ns ++ [assign_fields f]) | Some x => Ret (Some x) end)).
    change (peach_item (fun c => prender c q) (c :: ns)) with
      (bind (prender c q) (fun x => match x with
         | None => peach_item (fun c => prender c q) ns | Some x => Ret (Some x) end)).
    rewrite !run_bind. destruct (run E (prender c q) w0) as [[x|] w1]; [reflexivity|]. apply IH.
Qed.

Lemma iter_assign E p q f ns : p <> q -> forall items lg u t h h', alike_but q h h' ->
  exists x l1 u1 t1 h1 h1',
    run E (piter (peach_item (fun c => prender c q) ns) p q items) (pw lg u h t) = (x, pw l1 u1 h1 t1) /\
    run E (piter (peach_item (fun c => prender c q) (ns ++ [assign_fields f])) p q items) (pw lg u h' t)
      = (x, pw l1 u1 h1' t1) /\ alike_but q h1 h1'.
Proof.
  intro PQ. induction items as [|item items IH]; intros lg u t h h' A.
  - exists None, lg, u, t, h, h'. auto.
  - cbn [piter].
    assert (R : forall (h : heap) (k : unit -> io pstate (option error)),
      run E (bind (match item with GMap m => Ret (Some m) | _ => bind (get p) (fun o => Ret (o_data o)) end)
               (fun d => bind (put_item q d item) k)) (pw lg u h t)
      = run E (k tt) (pw lg u (set_nth h q (CObj (o_err (obj h q))
          (match item with GMap m => Some m | _ => o_data (obj h p) end) item (o_parent (obj h q)))) t)).
    { intros h0 k. destruct item; reflexivity. }
    rewrite !R. rewrite (alike_obj q h h' p PQ A). rewrite (alike_put q h h' _ _ A).
    set (h2 := set_nth h q _). rewrite !run_bind.
    rewrite item_assign.
    destruct (run E (peach_item (fun c => prender c q) ns) (pw lg u h2 t)) as [[x|] [l3 [u3 h3] t3]].
    + eexists _, _, _, _, _, _. split; [reflexivity|]. split; [reflexivity|]. left. reflexivity.
    + cbn [w_log w_u w_tick fst snd]. apply IH. right. eexists _, _. reflexivity.
Qed.

(** Iterate: assigning Data and Cargo at the end of an item has no effect on what
    is rendered, for any nodes and callbacks. *)
Theorem C64_iterate_partial fn ns f E p lg u t h :
  p < length h -> (forall s, length (snd s) <= length (snd (snd (fn (ptr p) s)))) ->
  let '(x, w) := run E (prender (PIter fn ns) p) (World lg (u, h) t) in
  let '(x', w') := run E (prender (PIter fn (ns ++ [assign_fields f])) p) (World lg (u, h) t) in
  x' = x /\ w_log w' = w_log w /\ w_tick w' = w_tick w /\ fst (w_u w') = fst (w_u w) /\
  forall q, q < length h -> obj (snd (w_u w')) q = obj (snd (w_u w)) q.
Proof.
  intros L H. cbn [prender]. cbn [bind get run w_u w_log w_tick snd fst].
  destruct (o_err (obj h p)) as [e|]; [repeat split|].
  cbn [bind call run w_u w_log w_tick]. specialize (H (u, h)). cbn [snd] in H.
  destruct (fn (ptr p) (u, h)) as [items [u1 h1]]. cbn [snd] in H.
  destruct items as [|item items]; [repeat split|]. cbn [bind get alloc run w_u w_log w_tick snd fst].
  set (o := CObj _ _ _ _). set (q := length h1).
  assert (PQ : p <> q) by (unfold q; lia).
  destruct (iter_assign E p q f ns PQ (item :: items) lg u1 t (h1 ++ [o]) (h1 ++ [o]) (or_introl eq_refl))
    as (x & l2 & u2 & t2 & h2 & h2' & R1 & R2 & A).
  repeat match goal with |- context [run E (piter ?a ?b ?c ?d) (@World ?T lg ?s t)] =>
    change (@World T lg s t) with (pw lg u1 (h1 ++ [o]) t) end.
  rewrite R1, R2. cbn [pw w_u w_log w_tick fst snd]. repeat split. intros z Hz. apply (alike_obj q); [unfold q; lia|exact A].
Qed.

(** ** C65 *)

(** Templates without values, iteration and Imperative. *)
Definition bare_attr (a : attr pstate) : Prop :=
  match a with APlain _ vs | ADelim _ _ vs => vs = [] | ABool _ => True end.
Definition bare_cond (c : attr pstate * list (condfn pstate)) : Prop := bare_attr (fst c).
Fixpoint bare (n : pnode) : Prop :=
  let all := fold_right (fun c Q => bare c /\ Q) True in
  match n with
  | PAttr a => bare_attr a
  | PElement _ attrs _ conds ns => Forall bare_attr attrs /\ Forall bare_cond conds /\ all ns
  | PVoid _ attrs _ conds => Forall bare_attr attrs /\ Forall bare_cond conds
  | PValues vs | PComment vs | PPI _ vs => vs = []
  | PCollection ns | PConditional _ ns => all ns
  | PCollect f =>
      forall c s, fold_right (fun o Q => match o with Some n => bare n | None => True end /\ Q) True (fst (f c s))
  | PImper _ | PIter _ _ | PYield _ _ => False
  | PDocument pr ns => match pr with Some n => bare n | None => True end /\ all ns
  end.

Section Noted.
(** [I u]: a callback has stored an error, as far as the user state tells. *)
Variable I : U -> Prop.
Definition noted (p : cref) (s : pstate) : Prop :=
  p < length (snd s) /\ (I (fst s) -> o_err (obj (snd s) p) <> None).
(** A callback that ends with [I] leaves its context with an error. *)
Definition notes : cref -> pstate -> pstate -> Prop := fun p s s' => noted p s -> noted p s'.

Definition holds (p : cref) {A} (m : io pstate A) (Q : A -> option error -> Prop) : Prop :=
  forall E (w : world pstate), noted p (w_u w) ->
    let '(a, w') := run E m w in noted p (w_u w') /\ Q a (o_err (obj (snd (w_u w')) p)).
Notation any := (fun _ _ => True).
Definition is_err (x e : option error) : Prop := x = e.

Lemma o_ret p {A} (a : A) : holds p (Ret a) any.
Proof. intros E w H. cbn. auto. Qed.
Lemma o_bind p {A B} (m : io pstate A) (k : A -> io pstate B) Q :
  holds p m any -> (forall a, holds p (k a) Q) -> holds p (bind m k) Q.
Proof.
  intros H K E w Hw. rewrite run_bind. specialize (H E w Hw). destruct (run E m w) as [a w1].
  apply K. apply H.
Qed.
Lemma o_weaken p {A} (m : io pstate A) Q : holds p m Q -> holds p m any.
Proof. intros H E w Hw. specialize (H E w Hw). destruct (run E m w). split; [apply H|exact Logic.I]. Qed.
Lemma o_ret_err p : holds p (ret_err p) is_err.
Proof. intros E w H. cbn. split; [exact H|reflexivity]. Qed.
Lemma o_call p {A} (f : ctx pstate -> pstate -> A * pstate) : fn_ok notes f -> holds p (call f p) any.
Proof.
  intros H E w Hw. cbn [call run]. pose proof (H p (w_u w) Hw) as H1. destruct (f (ptr p) (w_u w)) as [a s].
  cbn. auto.
Qed.
Lemma noted_put p e s : noted p s -> (I (fst s) -> e <> None) ->
  noted p (set_obj p (with_err e (obj (snd s) p)) s).
Proof.
  intros (L & H) He. unfold set_obj. split; cbn [fst snd]; [rewrite set_nth_length; exact L|].
  rewrite obj_set, Nat.eqb_refl by exact L. exact He.
Qed.
Lemma o_write p d : holds p (pwrite p d) any.
Proof.
  intros E w H. unfold pwrite. cbn [bind get run w_u w_log w_tick]. destruct H as (L & H).
  destruct (o_err (obj (snd (w_u w)) p)) as [e|] eqn:Q; cbn [run w_u w_log w_tick].
  - split; [|exact Logic.I]. split; [exact L|]. intros _. rewrite Q. discriminate.
  - destruct (e_wr E (w_log w) d) as [n e]. cbn [put_err run w_u w_log w_tick].
    split; [|exact Logic.I]. apply noted_put; [split; [exact L|rewrite Q; exact H]|].
    intro i. destruct (H i). exact eq_refl.
Qed.
Lemma o_attr p a : bare_attr a -> holds p (pattr p a) any.
Proof.
  intro H. unfold pattr. apply o_bind; [apply o_write|intros _].
  destruct a as [n vs|n|n d vs]; cbn in H; try subst vs; cbn [pvalues pdelim];
    repeat first [apply o_write|apply o_ret|apply o_bind; [|intros _]].
Qed.
Lemma o_conds p cs : Forall (fun f => fn_ok notes f) cs -> holds p (pconds p cs) any.
Proof.
  intro F. induction F; cbn [pconds]; [apply o_ret|]. apply o_bind; [apply o_call; assumption|].
  intros []; [assumption|apply o_ret].
Qed.
Lemma o_active p cas : Forall (cond_ok notes) cas -> holds p (pactive p cas) any.
Proof.
  intro F. induction F as [|[a cs] cas [_ Hc] _ IH]; cbn [pactive]; [apply o_ret|].
  apply o_bind; [apply o_conds; exact Hc|intro]. apply o_bind; [exact IH|intro; apply o_ret].
Qed.
Lemma bare_among p E : forall cas w, Forall bare_cond cas ->
  Forall bare_attr (fst (run E (pactive p cas) w)).
Proof.
  induction cas as [|[a cs] cas IH]; intros w F; cbn [pactive]; [constructor|]. inversion_clear F as [|? ? Ha Fs].
  rewrite run_bind. destruct (run E (pconds p cs) w) as [b w1]. rewrite run_bind.
  specialize (IH w1 Fs). destruct (run E (pactive p cas) w1) as [l w2]. cbn in *. destruct b; auto.
Qed.
Lemma o_attrs p l : Forall bare_attr l -> holds p (pattrs p l) any.
Proof. intro F. induction F; cbn [pattrs]; [apply o_ret|]. apply o_bind; [apply o_attr; assumption|intro; assumption]. Qed.
Lemma o_each p choose names :
  (forall name a, choose name = Some a -> bare_attr a) -> holds p (peach p choose names) any.
Proof.
  intro H. induction names as [|n names IH]; cbn [peach]; [apply o_ret|]. apply o_bind; [|intro; exact IH].
  destruct (choose n) as [a|] eqn:Q; [apply o_attr; eapply H; exact Q|apply o_ret].
Qed.
Lemma o_pick p {A} ks (k : list bytes -> io pstate A) Q : (forall l, holds p (k l) Q) -> holds p (Pick ks k) Q.
Proof. intros H E w Hw. cbn [run]. apply (H _ E (World _ (w_u w) _) Hw). Qed.
Lemma bare_ev_get ev name : Forall bare_attr ev -> Forall bare_attr (@ev_get PW ev name).
Proof. intro F. unfold ev_get. apply Forall_forall. intros a Ha. apply filter_In in Ha. destruct Ha as [Ha _].
  rewrite Forall_forall in F. apply F. exact Ha. Qed.
Lemma bare_all_values l : Forall bare_attr l -> @all_values PW l = [].
Proof.
  intro F. unfold all_values. induction F as [|a l Ha _ IH]; [reflexivity|]. cbn [flat_map]. rewrite IH.
  destruct a; cbn in Ha |- *; subst; reflexivity.
Qed.
Lemma bare_last l a : bare_attr a -> Forall bare_attr l -> bare_attr (last l a).
Proof. intros Ha F. induction F as [|x l Hx F IH]; [exact Ha|]. destruct l; [exact Hx|exact IH]. Qed.
Lemma bare_resolve a es : bare_attr a -> Forall bare_attr es -> bare_attr (@resolve_static PW a es).
Proof.
  intros Ha F. destruct a; unfold resolve_static; [exact (bare_last es _ Ha F)|exact (bare_last es _ Ha F)|].
  cbn in Ha |- *. subst vs. apply (bare_all_values es F).
Qed.
Lemma o_attributes p attrs idx conds :
  Forall bare_attr attrs -> Forall bare_cond conds -> Forall (cond_ok notes) conds ->
  holds p (pattributes p attrs idx conds) any.
Proof.
  intros Fa Fb Fc E w Hw. unfold pattributes. rewrite run_bind.
  pose proof (o_active p conds Fc E w Hw) as H1. pose proof (bare_among p E conds w Fb) as H2.
  destruct (run E (pactive p conds) w) as [ev w1]. cbn [fst snd] in *. destruct H1 as (H1 & _).
  revert E w1 H1. clear w Hw.
  assert (G1 : holds p (Pick (map fst idx) (fun names =>
        _ <- peach p (pchoose_static attrs idx ev) names ;;
        Pick (@ev_names PW ev) (fun names => peach p (pchoose_dynamic idx ev) names))) any).
  { apply o_pick. intro names. apply o_bind.
    - apply o_each. intros name a. unfold pchoose_static.
      destruct (idx_get idx name) as [i|]; [|discriminate]. destruct (nth_error attrs i) as [a0|] eqn:Qa; [|discriminate].
      assert (H0 : bare_attr a0).
      { apply nth_error_In in Qa. rewrite Forall_forall in Fa. apply Fa. exact Qa. }
      pose proof (bare_ev_get ev name H2) as H3. intro Qe. injection Qe as <-.
      destruct (@ev_get PW ev name) as [|x es]; [exact H0|]. apply (bare_resolve a0 (x :: es)); assumption.
    - intros _. apply o_pick. intro names'. apply o_each. intros name a. unfold pchoose_dynamic.
      destruct (idx_get idx name) as [i|]; [discriminate|].
      pose proof (bare_ev_get ev name H2) as H3. destruct (@ev_get PW ev name) as [|x es]; [discriminate|].
      intro Qe. injection Qe as <-. inversion_clear H3. apply (bare_resolve x es); assumption. }
  assert (G : holds p (match ev with
    | [] => pattrs p attrs
    | _ => Pick (map fst idx) (fun names =>
        _ <- peach p (pchoose_static attrs idx ev) names ;;
        Pick (@ev_names PW ev) (fun names => peach p (pchoose_dynamic idx ev) names))
    end) any) by (destruct ev; [apply o_attrs; exact Fa|exact G1]).
  exact G.
Qed.
Lemma o_close p name : holds p (pclose p name) any.
Proof. unfold pclose. repeat first [apply o_write|apply o_bind; [|intros _]]. Qed.

(** [ctx.Error = x] where [x] is what ctx.Error already holds. *)
Lemma o_put p {A} (m : io pstate (option error)) (k : option error -> io pstate A) Q :
  holds p m is_err -> (forall x, holds p (k x) Q) ->
  holds p (bind m (fun x => bind (put_err p x) (fun _ => k x))) Q.
Proof.
  intros H K E w Hw. rewrite run_bind. specialize (H E w Hw). destruct (run E m w) as [x w1].
  destruct H as (H & X). unfold is_err in X. cbn [bind put_err run w_u w_log w_tick].
  apply (K x E (World (w_log w1) _ (w_tick w1))). cbn [w_u]. apply noted_put; [exact H|]. rewrite X. apply H.
Qed.

Definition on (n : pnode) : Prop := node_ok notes n -> bare n -> forall p, holds p (prender n p) is_err.
Definition all_note := fold_right (fun c Q => node_ok notes c /\ Q) True.
Definition all_bare := fold_right (fun c Q => bare c /\ Q) True.

Section NotedLoops.
Variable p : cref.
Let r : prenderer := fun c => prender c p.
Lemma o_assign ns : Forall on ns -> all_note ns -> all_bare ns -> holds p (peach_assign p r ns) any.
Proof.
  intro F. induction F as [|c ns Hc _ IH]; [intros; apply o_ret|]. intros (H1 & H2) (B1 & B2).
  change (peach_assign p r (c :: ns)) with (bind (r c) (fun x => bind (put_err p x) (fun _ => peach_assign p r ns))).
  apply (o_put p (r c) (fun _ => peach_assign p r ns)); [apply Hc; assumption|intro; auto].
Qed.
Lemma o_ignore ns : Forall on ns -> all_note ns -> all_bare ns -> holds p (peach_ignore r ns) any.
Proof.
  intro F. induction F as [|c ns Hc _ IH]; [intros; apply o_ret|]. intros (H1 & H2) (B1 & B2).
  change (peach_ignore r (c :: ns)) with (bind (r c) (fun _ => peach_ignore r ns)).
  apply o_bind; [eapply o_weaken; apply Hc; assumption|intro; auto].
Qed.
Lemma o_until skip ns : Forall on ns -> all_note ns -> all_bare ns -> holds p (peach_until p skip r ns) any.
Proof.
  intro F. induction F as [|c ns Hc _ IH]; [intros; apply o_ret|]. intros (H1 & H2) (B1 & B2).
  change (peach_until p skip r (c :: ns)) with
    (if skip c then peach_until p skip r ns
     else bind (r c) (fun x => bind (put_err p x) (fun _ =>
            match x with None => peach_until p skip r ns | Some _ => Ret tt end))).
  destruct (skip c); [auto|].
  apply (o_put p (r c) (fun x => match x with None => peach_until p skip r ns | Some _ => Ret tt end)).
  - apply Hc; assumption.
  - intros [x|]; [apply o_ret|auto].
Qed.
Lemma o_content ns : Forall (optQ on) ns ->
  fold_right (fun o Q => match o with Some n => node_ok notes n | None => True end /\ Q) True ns ->
  fold_right (fun o Q => match o with Some n => bare n | None => True end /\ Q) True ns ->
  holds p (peach_content r ns) any.
Proof.
  intro F. induction F as [|[c|] ns Hc _ IH]; [intros; apply o_ret| |]; intros (H1 & H2) (B1 & B2); [|apply IH; assumption].
  change (peach_content r (Some c :: ns)) with
    (if is_pattr c then peach_content r ns else bind (r c) (fun _ => peach_content r ns)).
  destruct (is_pattr c); [auto|]. apply o_bind; [eapply o_weaken; apply Hc; assumption|intro; auto].
Qed.
End NotedLoops.

Lemma on_all : (forall n, on n) /\ (forall g : piprog, True).
Proof.
  apply (pnode_piprog_ind on (fun _ => True)); try (intros; exact Logic.I); unfold on.
  - intros a _ Ha p. cbn [prender]. apply o_bind; [apply o_attr; exact Ha|intro; apply o_ret_err].
  - intros name attrs idx conds ns F (Ha & Hc & Hn) (Ba & Bc & Bn) p. cbn [prender].
    apply o_bind; [apply o_write|intro]. apply o_bind; [apply o_write|intro].
    apply o_bind; [apply o_attributes; assumption|intro]. apply o_bind; [apply o_write|intro].
    apply o_bind; [apply o_assign; assumption|intro]. apply o_bind; [apply o_close|intro; apply o_ret_err].
  - intros name attrs idx conds (Ha & Hc) (Ba & Bc) p. cbn [prender].
    apply o_bind; [apply o_write|intro]. apply o_bind; [apply o_write|intro].
    apply o_bind; [apply o_attributes; assumption|intro]. apply o_bind; [apply o_write|intro; apply o_ret_err].
  - intros vs _ B0 p. cbn in B0. subst vs. cbn [prender pvalues]. apply o_bind; [apply o_ret|intro; apply o_ret_err].
  - intros vs _ B0 p. cbn in B0. subst vs. cbn [prender pvalues]. apply o_bind; [apply o_write|intro].
    apply o_bind; [apply o_ret|intro]. apply o_bind; [apply o_write|intro; apply o_ret_err].
  - intros name vs _ B0 p. cbn in B0. subst vs. cbn [prender pvalues]. do 3 (apply o_bind; [apply o_write|intro]).
    apply o_bind; [apply o_ret|intro]. apply o_bind; [apply o_write|intro; apply o_ret_err].
  - intros ns F Hn Bn p. cbn [prender]. apply o_bind; [apply o_until; assumption|intro; apply o_ret_err].
  - intros fn ns F (Hf & Hn) Bn p. cbn [prender]. apply o_bind; [apply o_call; exact Hf|intros b].
    apply o_bind; [destruct b; [apply o_until; assumption|apply o_ret]|intro; apply o_ret_err].
  - intros f F (Hf & Hn) Bn p E w Hw. cbn [prender run]. pose proof (Hf p (w_u w) Hw) as Hs.
    specialize (Hn (ptr p) (w_u w)). specialize (Bn (ptr p) (w_u w)). specialize (F (ptr p) (w_u w)).
    destruct (f (ptr p) (w_u w)) as [ns s']. cbn [fst snd] in *.
    assert (G : holds p (bind (peach_content (fun c => prender c p) ns) (fun _ => ret_err p)) is_err).
    { apply o_bind; [apply o_content; assumption|intro; apply o_ret_err]. }
    apply (G E (World (w_log w) s' (w_tick w)) Hs).
  - intros _ [].
  - intros g _ _ [].
  - intros fn ns F _ [].
  - intros y ns F _ [].
  - intros pr ns Hp F (H1 & H2) (B1 & B2) p. cbn [prender].
    apply o_bind; [destruct pr; [apply o_bind; [eapply o_weaken; apply Hp; assumption|intro; apply o_ret]|apply o_ret]|intro].
    apply o_bind; [apply o_ignore; assumption|intro; apply o_ret_err].
Qed.

(** An error that a condition or a CollectFunc function stored in its context is
    returned (possibly replaced by a later one, never by nil), for templates without
    values, iteration and Imperative. *)
Theorem C65_stored_partial n p E lg u t h : node_ok notes n -> bare n -> p < length h ->
  (I u -> o_err (obj h p) <> None) ->
  let '(x, w) := run E (prender n p) (World lg (u, h) t) in
  x = o_err (obj (snd (w_u w)) p) /\ (I (fst (w_u w)) -> x <> None).
Proof.
  intros H B0 L Hu. pose proof (proj1 on_all n H B0 p E (World lg (u, h) t) (conj L Hu)) as G.
  destruct (run E (prender n p) (World lg (u, h) t)) as [x w]. destruct G as ((_ & G) & X).
  split; [exact X|]. rewrite X. exact G.
Qed.
End Noted.
End Statements.

(** ** Examples *)

Definition h0 : @heap demo := [CObj None (Some 0) (GString (B "cargo")) None].
Definition sunny : env := Env (fun _ d => (length d, None)) (fun _ ks => ks).
Definition sent {A} (r : A * world (@pstate demo)) : bytes := flat_map wc_data (w_log (snd r)).
(** A condition that stores an error, and counts. *)
Definition storing (e : error) (b : bool) : condfn (@pstate demo) :=
  fun c s => (b, (S (fst s), set_nth (snd s) (ptr_of c) (with_err (Some e) (obj (snd s) (ptr_of c))))).
Definition txt (b : bytes) : pnode (W := demo) := PValues [Val b None []].
(** A condition that holds where there is data, and a text shown if so. *)
Definition if_data (b : bytes) : pnode (W := demo) :=
  PConditional (fun c s => (match o_data (obj (snd s) (ptr_of c)) with Some _ => true | None => false end, s)) [txt b].
Definition start (n : pnode (W := demo)) := run sunny (prender n 0) (World [] (0, h0) 0).

(** C63: a template with data, iteration and an Imperative node, as a value and with pointers. *)
Definition c63_node : node (@U demo) :=
  NElement (B "p") [ABool (B "x")] [(B "x", 0)] []
    [NText [Val [] (Some (fun c u => (B "t", S u))) []];
     NIter (fun c u => ([GString (B "a"); GMap 1], S u)) [NText [Val (B "i") None []]]].
Example C63_agree_example :
  ordered h0 /\ sent (start (lift c63_node)) = B "<p x>tii</p>" /\
  fst (w_u (snd (start (lift c63_node)))) = 2 /\ firstn 1 (snd (w_u (snd (start (lift c63_node))))) = h0.
Proof.
  split.
  - intros [|p] q L Q; cbn in L; [discriminate|lia].
  - vm_compute. auto.
Qed.

(** C63: a condition that stores an error. *)
Example C63_kept_example :
  node_ok only_errors (PElement (B "p") [] [] [] [PConditional (storing 7 true) [txt (B "a")]] : pnode (W := demo)) /\
  exists h', snd (w_u (snd (start (PElement (B "p") [] [] [] [PConditional (storing 7 false) []])))) = h' /\
    h' <> h0 /\ fields_kept h0 h'.
Proof.
  split.
  - assert (G : fn_ok only_errors (storing 7 true)).
    { intros p s. unfold storing, only_errors, ptr_of, ptr. cbn [snd c_data].
      split; [rewrite set_nth_length; lia|]. intros q Hq.
      destruct (Nat.lt_ge_cases p (length (snd s))) as [Lp|Lp].
      - rewrite obj_set by exact Lp. destruct (Nat.eqb_spec q p) as [->|]; repeat split.
      - rewrite set_nth_far by exact Lp. repeat split. }
    cbn [node_ok fold_right]. repeat match goal with |- _ /\ _ => split end; auto.
    constructor; [cbn; auto|constructor].
  - eexists. split; [reflexivity|]. split; [vm_compute; discriminate|].
    split; [vm_compute; lia|]. intros q Hq. cbn in Hq. destruct q; [|lia]. vm_compute. auto.
Qed.

(** C64: the nodes look at the data; the last one takes it away. *)
Example C64_iterate_example :
  let items := fun c s => ([GMap 1; GString (B "a"); GInt 3%Z], s) in
  let forget := assign_fields (W := demo) (fun s => (None, GNil)) in
  sent (start (PIter items [if_data (B "d")])) = B "ddd" /\
  sent (start (PIter items ([if_data (B "d")] ++ [forget]))) = B "ddd".
Proof. vm_compute. auto. Qed.

(** IterateYield keeps Data from one item to the next, so that what is assigned to
    it is seen by later items. *)
Theorem C64_yield_refuted : exists (y : pyprog (W := demo)) ns f,
  sent (start (PYield y ns)) <> sent (start (PYield y (ns ++ [assign_fields f]))).
Proof.
  exists (PYYield (GString (B "a")) (PYYield (GString (B "b")) PYRet)), [if_data (B "d")], (fun s => (Some 0, GNil)).
  vm_compute. discriminate.
Qed.

(** C65: the count tells whether the condition has been called. *)
Definition c65_node : pnode (W := demo) :=
  PElement (B "p") [ABool (B "x")] [(B "x", 0)] []
    [PConditional (storing 7 false) []; PVoid (B "br") [] [] []].
Example C65_stored_example :
  node_ok (notes (W := demo) (fun u => 0 < u)) c65_node /\ bare c65_node /\
  fst (start c65_node) = Some 7 /\ sent (start c65_node) = B "<p x>".
Proof.
  split; [|split; [cbn; repeat constructor|vm_compute; auto]].
  assert (G : fn_ok (notes (W := demo) (fun u => 0 < u)) (storing 7 false)).
  { intros p s (L & _). unfold storing. cbn [snd]. unfold ptr_of, ptr. cbn [c_data].
    split; cbn [snd fst]; [rewrite set_nth_length; exact L|]. intros _.
    rewrite obj_set, Nat.eqb_refl by exact L. discriminate. }
  unfold c65_node. cbn [node_ok fold_right].
  repeat match goal with |- _ /\ _ => split end; auto; repeat constructor.
Qed.

(** A text after it clears the error: everything is as if it had not been stored. *)
Theorem C65_text_refuted : exists n : pnode (W := demo),
  n = PElement (B "p") [] [] [] [PConditional (storing 7 false) []; txt (B "a")] /\
  fst (start n) = None /\ sent (start n) = B "<p>a</p>" /\ fst (w_u (snd (start n))) = 1.
Proof. eexists. split; [reflexivity|]. vm_compute. auto. Qed.
(** So does the value that stores it. *)
Theorem C65_value_refuted : exists n : pnode (W := demo),
  n = PValues [Val [] (Some (fun c s => (B "a", snd (storing 7 true c s)))) []] /\
  fst (start n) = None /\ o_err (obj (snd (w_u (snd (start n)))) 0) = None /\ fst (w_u (snd (start n))) = 1.
Proof. eexists. split; [reflexivity|]. vm_compute. auto. Qed.
(** Iterate does not look at it when there are no items, and the element around it
    assigns the nil that it returns. *)
Theorem C65_iterate_refuted : exists n : pnode (W := demo),
  n = PElement (B "ul") [] [] [] [PIter (fun c s => ([], snd (storing 7 true c s))) [txt (B "a")]] /\
  fst (start n) = None /\ sent (start n) = B "<ul></ul>" /\ fst (w_u (snd (start n))) = 1.
Proof. eexists. split; [reflexivity|]. vm_compute. auto. Qed.
