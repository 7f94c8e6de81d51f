(** C60: what reaches the writer is text of the kind the template is made of. *)
From Coq Require Import ZArith Lia.
From Verif Require Import Bytes Slices IO IOFacts Escape SpecEscape EscapeFacts Nodes NodeInd Values Render Build SpecOut
  AttrFacts ApiFacts RenderFacts SpecRun SpecText Sharing SharingFacts PropErrors PropSafe Demo PropGroups.

Section Text.
Context {W : UserWorld}.
Variable T : bytes -> Prop.
Definition asciib (b : bytes) : bool := forallb (fun c => (1 <=? nat_of_ascii c) && (nat_of_ascii c <=? 127)) b.
Hypothesis T_ascii : forall b, asciib b = true -> T b.
Hypothesis T_escape : forall b, T b -> T (html_escape_string b).
Hypothesis T_maps : of_maps T.

(** ** Programs all of whose writes are such text, whatever is answered *)
Fixpoint emits {A} (p : io U A) : Prop :=
  match p with
  | Ret _ => True
  | Wr d k => T d /\ forall n e, emits (k n e)
  | Cb k => forall u, emits (fst (k u))
  | Pick _ k => forall l, emits (k l)
  end.
Lemma emits_bind {A B} (p : io U A) (f : A -> io U B) : emits p -> (forall a, emits (f a)) -> emits (bind p f).
Proof.
  intros H F. revert H. induction p as [a|d k IH|k IH|ks k IH] using io_ind'; cbn [bind emits]; intro H.
  - apply F.
  - destruct H as [H1 H2]. split; auto.
  - intro u. specialize (IH u (H u)). destruct (k u) as [q u']. exact IH.
  - auto.
Qed.
Lemma emits_run {A} E (p : io U A) w : emits p ->
  (forall c, In c (w_log w) -> T (wc_data c)) -> forall c, In c (w_log (snd (run E p w))) -> T (wc_data c).
Proof.
  revert w. induction p as [a|d k IH|k IH|ks k IH] using io_ind'; intros w H L; cbn [run].
  - exact L.
  - destruct H as [H1 H2]. destruct (e_wr E (w_log w) d) as [n e]. apply IH; auto. cbn [w_log].
    intros c Hc. apply in_app_iff in Hc as [Hc|[<-|[]]]; auto.
  - cbn [emits] in H. specialize (IH (w_u w)). specialize (H (w_u w)).
    destruct (k (w_u w)) as [q u']. apply IH; auto.
  - apply IH; auto.
Qed.
Lemma emits_write d e : T d -> emits (ctx_write d e).
Proof. intro H. destruct e; cbn; auto. Qed.

(** ** Values and attributes, as stored *)
Fixpoint val_ok (v : value U) : Prop :=
  match v with
  | Val _ (Some f) _ => of_fn T f
  | Val b None [] => T b
  | Val _ None cs => all val_ok cs
  end.
Definition attr_ok (a : attr U) : Prop :=
  T (attr_name a) /\
  match a with APlain _ vs => all val_ok vs | ADelim _ d vs => T d /\ all val_ok vs | ABool _ => True end.
Definition okf (fr : frame U) : Prop := of_ctx T (view fr None).
Lemma okf_view fr e : okf fr -> of_ctx T (view fr e).
Proof. exact (fun H => H). Qed.


Definition concat_render fr := fix go (cs : list (value U)) (l : nat) (err : option error) : io U (bool * option error) :=
  match cs with
  | [] => Ret (0 <? l, err)
  | c :: cs' => '(written, e) <- value_render fr c err ;; go cs' (if written then S l else l) e
  end.
Lemma value_emits fr v : okf fr -> val_ok v -> forall e, emits (value_render fr v e).
Proof.
  intro O. induction v as [b d cs IH] using value_ind'. intros H e. destruct d as [f|].
  - cbn [value_render emits]. intro u. pose proof (H (view fr e) u (okf_view fr e O)) as X. destruct (f (view fr e) u) as [x u'].
    cbn. auto.
  - destruct cs as [|c cs]; [cbn; auto|].
    change (value_render fr (Val b None (c :: cs)) e) with (concat_render fr (c :: cs) 0 e).
    change (all val_ok (c :: cs)) in H. revert IH H. generalize (c :: cs) 0 e. clear.
    intros l n e F. revert n e. induction F as [|v l Hv F IH]; intros n e H; [exact I|]. destruct H as [H1 H2].
    cbn [concat_render]. apply emits_bind; [auto|]. intros [w e']. apply IH, H2.
Qed.
Lemma values_emits fr vs : okf fr -> all val_ok vs -> forall e, emits (values_render fr vs e).
Proof.
  intro O. induction vs as [|v vs IH]; intros H e; [exact I|]. destruct H as [H1 H2]. cbn [values_render].
  apply emits_bind; [apply value_emits; auto|]. intros [w e']. apply IH, H2.
Qed.
Lemma delim_emits fr d vs : okf fr -> T d -> all val_ok vs -> forall s e, emits (delim_render fr d vs s e).
Proof.
  intros O D. induction vs as [|v vs IH]; intros H s e; [exact I|]. destruct H as [H1 H2]. cbn [delim_render].
  apply emits_bind; [destruct s; [apply emits_write, D|exact I]|]. intro e0.
  apply emits_bind; [apply value_emits; auto|]. intros [w e']. apply IH, H2.
Qed.
Ltac fixed := apply T_ascii; reflexivity.
Ltac step := apply emits_bind; [apply emits_write; first [assumption | fixed]|intro].
Lemma attr_emits fr a e : okf fr -> attr_ok a -> emits (attr_render fr a e).
Proof.
  intros O [N H]. destruct a as [n vs|n|n d vs]; cbn [attr_render attr_name] in *.
  - do 3 step. apply emits_bind; [apply values_emits; auto|intro]. apply emits_write. fixed.
  - step. apply emits_write, N.
  - destruct H as [D H]. do 3 step. apply emits_bind; [apply delim_emits; auto|intro]. apply emits_write. fixed.
Qed.

(** ** Attributes of a tag *)
Lemma all_vals_ok l : all attr_ok l -> all val_ok (all_values l).
Proof.
  intro H. apply all_In. intros v Hv. unfold all_values in Hv. apply in_flat_map in Hv as (a & Ha & Hv).
  rewrite all_In in H. destruct (H a Ha) as [_ X]. destruct a; cbn in Hv; [|destruct Hv|destruct X as [_ X]]; rewrite all_In in X; auto.
Qed.
Lemma last_ok l a : all attr_ok l -> attr_ok a -> attr_ok (last l a).
Proof.
  intros H A. revert a A. induction l as [|x l IH]; intros a A; [exact A|]. destruct H as [H1 H2].
  destruct l as [|y l]; [exact H1|]. change (last (x :: y :: l) a) with (last (y :: l) a). apply IH; auto.
Qed.
Lemma resolve_ok a es : attr_ok a -> all attr_ok es -> attr_ok (resolve_static a es) /\ attr_ok (resolve_dynamic a es).
Proof.
  intros A H. destruct a as [n vs|n|n d vs]; try (split; apply last_ok; assumption).
  destruct A as (A1 & A2 & A3). assert (X : all val_ok (vs ++ all_values es)) by (apply all_app; split; auto; apply all_vals_ok, H).
  split; (split; [exact A1|split; [exact A2|exact X]]).
Qed.
Lemma conds_emits fr cs : forall e, emits (conds_eval fr e cs).
Proof.
  induction cs as [|f cs IH]; intro e; [exact I|]. cbn [conds_eval emits]. intro u.
  destruct (f (view fr e) u) as [[] u']; [apply IH|exact I].
Qed.
(** The active attributes are among the conditional ones; stated on the program
    and its results at once. *)
Fixpoint gives {A} (R : A -> Prop) (p : io U A) : Prop :=
  match p with
  | Ret a => R a
  | Wr d k => T d /\ forall n e, gives R (k n e)
  | Cb k => forall u, gives R (fst (k u))
  | Pick _ k => forall l, gives R (k l)
  end.
Lemma emits_gives {A} (p : io U A) : emits p -> gives (fun _ => True) p.
Proof. induction p using io_ind'; cbn; intuition. Qed.
Lemma gives_bind {A B} R (S : B -> Prop) (p : io U A) (f : A -> io U B) :
  gives R p -> (forall a, R a -> gives S (f a)) -> gives S (bind p f).
Proof.
  intros H F. revert H. induction p as [a|d k IH|k IH|ks k IH] using io_ind'; cbn [bind gives]; intro H.
  - auto.
  - destruct H as [H1 H2]. split; auto.
  - intro u. specialize (IH u (H u)). destruct (k u) as [q u']. exact IH.
  - auto.
Qed.
Lemma gives_emits {A B} R (p : io U A) (f : A -> io U B) :
  gives R p -> (forall a, R a -> emits (f a)) -> emits (bind p f).
Proof.
  intros H F. revert H. induction p as [a|d k IH|k IH|ks k IH] using io_ind'; cbn [bind gives emits]; intro H.
  - auto.
  - destruct H as [H1 H2]. split; auto.
  - intro u. specialize (IH u (H u)). destruct (k u) as [q u']. exact IH.
  - auto.
Qed.
Lemma active_gives fr e (cas : list (attr U * list (condfn U))) :
  all (fun ca => attr_ok (fst ca)) cas -> gives (all attr_ok) (active_attrs fr e cas).
Proof.
  induction cas as [|[a cs] cas IH]; intro H; [exact I|]. destruct H as [H1 H2]. cbn [active_attrs].
  apply (gives_bind (fun _ => True)); [apply emits_gives, conds_emits|]. intros b _.
  apply (gives_bind (all attr_ok)); [apply IH, H2|]. intros l Hl. destruct b; [exact (conj H1 Hl)|exact Hl].
Qed.
Lemma ev_ok ev name : all attr_ok ev -> all attr_ok (ev_get ev name).
Proof. rewrite !all_In. intros H a Ha. apply filter_In in Ha as [Ha _]. auto. Qed.
Lemma tag_emits fr attrs idx conds e : okf fr -> all attr_ok attrs -> all (fun ca => attr_ok (fst ca)) conds ->
  emits (render_attributes fr attrs idx conds e).
Proof.
  intros O A C. unfold render_attributes. apply (gives_emits (all attr_ok)); [apply active_gives, C|].
  intros ev V. assert (P : emits (attrs_render fr attrs e)).
  { revert e A. clear - O T_ascii. induction attrs as [|a attrs IH]; intros e A; [exact I|]. destruct A as [A1 A2]. cbn [attrs_render].
    apply emits_bind; [apply attr_emits; auto|]. intro. apply IH, A2. }
  destruct ev as [|v0 ev0] eqn:Ev; [exact P|]. rewrite <- Ev in *. clear P Ev.
  cbn [emits]. intro names. apply emits_bind.
  - revert e. induction names as [|n names IH]; intro e; [exact I|]. cbn [static_loop].
    apply emits_bind; [|intro; apply IH]. destruct (idx_get idx n) as [i|]; [|exact I].
    destruct (nth_error attrs i) as [a|] eqn:N; [|exact I]. apply nth_error_In in N.
    rewrite all_In in A. specialize (A a N). pose proof (ev_ok ev n V) as X.
    destruct (ev_get ev n); apply attr_emits; auto. apply resolve_ok; auto.
  - intro e1. cbn [emits]. intro names'. revert e1. induction names' as [|n names' IH]; intro e1; [exact I|]. cbn [dynamic_loop].
    apply emits_bind; [|intro; apply IH]. destruct (idx_get idx n) as [i|]; [exact I|].
    pose proof (ev_ok ev n V) as X. destruct (ev_get ev n) as [|f r]; [exact I|]. destruct X as [X1 X2].
    apply attr_emits; auto. apply resolve_ok; auto.
Qed.
Lemma close_emits name e : T name -> emits (close_tag name e).
Proof. intro N. unfold close_tag. do 2 step. apply emits_write. fixed. Qed.

(** Start. *)
Definition pair_ok (p : bytes * option (list (value U))) : Prop :=
  T (fst p) /\ match snd p with Some vs => all val_ok vs | None => True end.
Definition arg_ok (n : option (node U)) : Prop := match n with Some (NAttr a) => attr_ok a | _ => True end.
Lemma append_delim_ok d avs vs : T d -> all val_ok avs -> all val_ok vs -> all val_ok (append_delim d avs vs).
Proof.
  intros D. revert avs. induction vs as [|v vs IH]; intros avs A H; [exact A|]. destruct H as [H1 H2]. cbn [append_delim].
  apply IH; auto. apply all_app. split; [|exact (conj H1 I)].
  destruct avs as [|x avs]; auto. apply all_app. split; auto. exact (conj D I).
Qed.
Lemma interpose_ok d vs : T d -> all val_ok vs -> all val_ok (interpose d vs).
Proof.
  intro D. induction vs as [|v vs IH]; intro H; [exact I|]. destruct H as [H1 H2]. cbn [interpose].
  destruct vs; [exact (conj H1 I)|]. split; [exact H1|]. split; [exact D|]. apply IH, H2.
Qed.
Lemma start_add_ok acc a : all pair_ok acc -> attr_ok a -> all pair_ok (start_add acc a).
Proof.
  intros H [N V]. unfold start_add. destruct (bmem (attr_name a) (map fst acc)).
  - induction acc as [|[n x] acc IH]; [exact I|]. destruct H as [H1 H2]. cbn [upd_assoc].
    destruct (beq n (attr_name a)); [|split; auto]. split; [|exact H2]. split; [apply H1|]. cbn [fst snd].
    destruct H1 as [_ H1]. cbn [snd] in H1. destruct a as [m vs|m|m d vs]; cbn; auto.
    destruct V as [D V]. destruct vs as [|v vs]; auto. apply append_delim_ok; auto. destruct x; [exact H1|exact I].
  - apply all_app. split; auto. split; [|exact I]. split; [exact N|]. destruct a as [m vs|m|m d vs]; cbn; auto.
    apply interpose_ok; apply V.
Qed.
Lemma start_attrs_ok l acc : all arg_ok l -> all pair_ok acc -> all pair_ok (start_attrs l acc).
Proof.
  revert acc. induction l as [|n l IH]; intros acc H A; [exact A|]. destruct H as [H1 H2].
  destruct n as [[]|]; cbn [start_attrs]; auto. apply IH; auto. apply start_add_ok; auto.
Qed.
Lemma start_emits fr name l e : okf fr -> T name -> all arg_ok l -> emits (start_tag fr name l e).
Proof.
  intros O N H. unfold start_tag. do 2 step. apply emits_bind; [|intro; apply emits_write; fixed].
  pose proof (start_attrs_ok l [] H I) as P. revert a0. revert P. generalize (start_attrs l []).
  induction l0 as [|[n vs] l0 IH]; intros P e0; [exact I|]. destruct P as [[P1 P2] P3]. cbn [fst snd] in P1, P2. cbn [start_render].
  do 2 step. apply emits_bind; [|intro; apply IH, P3]. destruct vs as [vs|]; [|exact I]. step.
  apply emits_bind; [apply values_emits; auto|intro]. apply emits_write. fixed.
Qed.

(** ** Nodes, as stored *)
Fixpoint node_ok (n : node U) : Prop :=
  match n with
  | NAttr a => attr_ok a
  | NElement name attrs _ conds ns =>
      T name /\ all attr_ok attrs /\ all (fun ca => attr_ok (fst ca)) conds /\ all node_ok ns
  | NVoid name attrs _ conds => T name /\ all attr_ok attrs /\ all (fun ca => attr_ok (fst ca)) conds
  | NText vs | NFragment vs | NComment vs => all val_ok vs
  | NPI name vs => T name /\ all val_ok vs
  | NCollection ns => all node_ok ns
  | NConditional _ attrs ns => all attr_ok attrs /\ all node_ok ns
  | NCollect f => forall c u, of_ctx T c -> all (opt node_ok) (fst (f c u))
  | NImper None => True
  | NImper (Some p) => prog_ok p
  | NIter fn ns => (forall c u, of_ctx T c -> all (of_data T) (fst (fn c u))) /\ all node_ok ns
  | NYield p ns => of_yield T p /\ all node_ok ns
  | NDocument pr ns => opt node_ok pr /\ all node_ok ns
  end
with prog_ok (p : iprog U) : Prop :=
  match p with
  | IRet _ => True
  | IRead k => forall c u, of_ctx T c -> prog_ok (fst (k c u))
  | IWriteString s k | IWriteRaw s k => T s /\ prog_ok k
  | IWriteNodes ns k => all (opt node_ok) ns /\ prog_ok k
  | IStart name _ ns k => T name /\ all (opt node_ok) ns /\ prog_ok k
  | IEnd k | IEndAll k => prog_ok k
  | IRender n inner k =>
      node_ok n /\ match inner with Some fr => okf fr | None => True end /\ forall r e, prog_ok (k r e)
  | IDirect d k => T d /\ forall m e, prog_ok (k m e)
  | ISetError _ k => prog_ok k
  end.

(** Loops over children. *)
Definition quiet1 (n : node U) : Prop := forall fr e, node_ok n -> okf fr -> emits (render n fr e).
Lemma each_emits fr ns : okf fr -> Forall quiet1 ns -> all node_ok ns -> forall e,
  emits (each_assign (fun c e => render c fr e) ns e) /\ emits (each_ignore (fun c e => render c fr e) ns e) /\
  emits (each_until (fun c e => render c fr e) ns e) /\ emits (each_content_until (fun c e => render c fr e) ns e) /\
  emits (each_item (fun c e => render c fr e) ns e).
Proof.
  intros O F. induction F as [|n ns Hn F IH]; intros H e; [repeat split|]. destruct H as [H1 H2].
  specialize (IH H2). pose proof (Hn fr e H1 O) as R. cbn [each_assign each_ignore each_until each_content_until each_item].
  split; [apply emits_bind; [exact R|intros [x y]; apply IH]|].
  split; [apply emits_bind; [exact R|intros [x y]; apply IH]|].
  split; [apply emits_bind; [exact R|intros [[x|] y]; [exact I|apply IH]]|].
  split; [destruct (is_attr n); [apply IH|]; apply emits_bind; [exact R|intros [[x|] y]; [exact I|apply IH]]|].
  apply emits_bind; [exact R|intros [[x|] y]; [exact I|apply IH]].
Qed.
Lemma opts_emits fr ns : okf fr -> Forall (optP quiet1) ns -> all (opt node_ok) ns -> forall e,
  emits (each_content_ignore (fun c e => render c fr e) ns e).
Proof.
  intros O F. induction F as [|n ns Hn F IH]; intros H e; [exact I|]. destruct H as [H1 H2].
  destruct n as [n|]; cbn [each_content_ignore]; [|apply IH, H2]. destruct (is_attr n); [apply IH, H2|].
  apply emits_bind; [apply Hn; auto|]. intros [x y]. apply IH, H2.
Qed.
Lemma item_okf fr it d e : okf fr -> of_data T it -> okf (Frame d it (Some (view fr e))).
Proof. intros O H. split; [exact H|exact O]. Qed.

Lemma yield_emits fr ns : okf fr -> Forall quiet1 ns -> all node_ok ns -> forall p, of_yield T p -> forall d oe ie,
  emits (yield_loop (fun ifr => each_item (fun c e => render c ifr e) ns) fr d p oe ie).
Proof.
  intros O F H. fix IH 1. intros [|it k|k] P d oe ie.
  - exact I.
  - destruct P as [P1 P2]. cbn [yield_loop].
    apply emits_bind; [apply (each_emits _ ns (item_okf fr it _ oe O P1) F H)|]. intros [x y]. apply IH, P2.
  - cbn [yield_loop emits]. intro u. specialize (P (view fr oe) u O). specialize (IH (fst (k (view fr oe) u)) P).
    destruct (k (view fr oe) u) as [p' u']. apply IH.
Qed.

Lemma render_emits :
  (forall n, quiet1 n) /\
  (forall p fr st e, prog_ok p -> okf fr -> all T st -> emits (run_imper p fr st e)).
Proof.
  apply node_iprog_ind; unfold quiet1.
  - intros a fr e H O. cbn [render]. apply emits_bind; [apply attr_emits; auto|]. intro. exact I.
  - intros name attrs idx conds ns F fr e (H1 & H2 & H3 & H4) O. change (all node_ok ns) in H4. cbn [render]. do 2 step.
    apply emits_bind; [apply tag_emits; auto|intro]. step.
    apply emits_bind; [apply each_emits; auto|intro]. apply emits_bind; [apply close_emits; auto|intro]. exact I.
  - intros name attrs idx conds fr e (H1 & H2 & H3) O. cbn [render]. do 2 step.
    apply emits_bind; [apply tag_emits; auto|intro]. step. exact I.
  - intros vs fr e H O. cbn [render]. apply emits_bind; [apply values_emits; auto|intro]. exact I.
  - intros vs fr e H O. cbn [render]. step. apply emits_bind; [apply values_emits; auto|intro]. step. exact I.
  - intros name vs fr e [H1 H2] O. cbn [render]. do 3 step. apply emits_bind; [apply values_emits; auto|intro]. step. exact I.
  - intros vs fr e H O. cbn [render]. apply emits_bind; [apply values_emits; auto|intro]. exact I.
  - intros ns F fr e H O. apply (each_emits fr ns O F H e).
  - intros fn attrs ns F fr e [_ H] O. change (all node_ok ns) in H. cbn [render emits]. intro u.
    destruct (fn (view fr e) u) as [[] u']; [apply (each_emits fr ns O F H e)|exact I].
  - intros f F fr e H O. cbn [render emits]. intro u. specialize (F (view fr e) u).
    assert (X : all (opt node_ok) (fst (f (view fr e) u))) by (apply H, O).
    destruct (f (view fr e) u) as [ns u']. cbn [fst] in *. apply emits_bind; [apply opts_emits; auto|]. intro. exact I.
  - intros fr e _ _. exact I.
  - intros p Hp fr e H O. apply Hp; auto. exact I.
  - intros fn ns F fr e [H1 H2] O. change (all node_ok ns) in H2. cbn [render]. destruct e as [e|]; [exact I|].
    cbn [emits]. intro u. specialize (H1 (view fr None) u O). destruct (fn (view fr None) u) as [items u']. cbn [fst] in *.
    generalize (@None error) at 3 as oe. generalize (@None error) at 2 as ie.
    induction items as [|it items IH]; intros ie oe; [exact I|]. destruct H1 as [I1 I2]. cbn [iter_loop].
    apply emits_bind; [apply (each_emits _ ns (item_okf fr it _ None O I1) F H2)|]. intros [[x|] y]; [exact I|]. apply IH, I2.
  - intros p ns F fr e [H1 H2] O. change (all node_ok ns) in H2. cbn [render]. destruct e as [e|]; [exact I|].
    apply yield_emits; auto.
  - intros pr ns Fp F fr e [H1 H2] O. change (all node_ok ns) in H2. cbn [render]. apply emits_bind.
    + destruct pr as [p|]; [|exact I]. apply emits_bind; [apply Fp; auto|]. intros [x y]. exact I.
    + intro e1. apply emits_bind; [apply (each_emits fr ns O F H2)|]. intro. exact I.
  - intros r fr st e _ _ _. exact I.
  - intros k IH fr st e H O S. cbn [run_imper emits]. intro u. specialize (IH (view fr e) u fr st e).
    specialize (H (view fr e) u O). destruct (k (view fr e) u) as [p u']. apply IH; auto.
  - intros s k IH fr st e [H1 H2] O S. cbn [run_imper]. apply emits_bind; [apply emits_write, T_escape, H1|]. intro. apply IH; auto.
  - intros s k IH fr st e [H1 H2] O S. cbn [run_imper]. step. apply IH; auto.
  - intros ns k F IH fr st e [H1 H2] O S. change (all (opt node_ok) ns) in H1. cbn [run_imper].
    apply emits_bind; [apply opts_emits; auto|]. intro. apply IH; auto.
  - intros name v ns k F IH fr st e (H1 & H2 & H3) O S. change (all (opt node_ok) ns) in H2. cbn [run_imper]. apply emits_bind.
    + apply start_emits; auto. apply all_In. intros [n|] Hn; [|exact I]. rewrite all_In in H2. specialize (H2 _ Hn).
      destruct n; try exact I. exact H2.
    + intro. apply IH; auto. destruct v; auto. split; auto.
  - intros k IH fr st e H O S. cbn [run_imper]. destruct st as [|n st]; [apply IH; auto|]. destruct S as [S1 S2].
    apply emits_bind; [apply close_emits, S1|]. intro. apply IH; auto.
  - intros k IH fr st e H O S. cbn [run_imper]. apply emits_bind; [|intro; apply IH; auto; exact I].
    revert e. induction st as [|n st IHs]; intro e; [exact I|]. destruct S as [S1 S2]. cbn [close_all].
    apply emits_bind; [apply close_emits, S1|]. intro. apply IHs, S2.
  - intros n inner k Hn IH fr st e (H1 & H2 & H3) O S. destruct inner as [fr'|].
    + change (emits ('(r, x) <- render n fr' None ;; run_imper (k r x) fr st e)).
      apply emits_bind; [apply Hn; auto|]. intros [r x]. apply IH; auto.
    + change (emits ('(r, x) <- render n fr e ;; run_imper (k r x) fr st x)).
      apply emits_bind; [apply Hn; auto|]. intros [r x]. apply IH; auto.
  - intros d k IH fr st e [H1 H2] O S. cbn [run_imper emits]. split; [exact H1|]. intros m x. apply IH; auto.
  - intros x k IH fr st e H O S. apply IH; auto.
Qed.

(** ** Constructors *)
Lemma digits_ascii d : asciib (uint_bytes d) = true.
Proof. unfold asciib. induction d; cbn [uint_bytes forallb]; auto. Qed.
Lemma int_ascii z : asciib (format_int z) = true.
Proof. destruct z; apply digits_ascii. Qed.
Lemma data_ok g : of_data T g -> forall u, T (fst (value_to_bytes g u)).
Proof.
  induction g as [|b|b|b|z|n|t|f|f IH|m|t xs F|i] using gval_ind'; intros H u; cbn [value_to_bytes]; try fixed.
  - destruct b; fixed.
  - exact H.
  - apply T_escape, H.
  - apply T_ascii, int_ascii.
  - apply T_ascii, digits_ascii.
  - exact H.
  - apply H.
  - specialize (IH u (H u)). destruct (f u) as [r u']. apply IH.
Qed.
Lemma key_ok k : of_fn T (key_fn k).
Proof.
  intros c u O. unfold key_fn. destruct (beq k (B ".")).
  - apply data_ok. destruct c. apply O.
  - destruct (data_get c k u) as [v|] eqn:D; [|fixed]. apply data_ok. unfold data_get in D.
    destruct (c_data c) as [m|]; [|discriminate]. eapply T_maps. exact D.
Qed.
Lemma node_values_ok n : node_ok n -> all val_ok (node_values n).
Proof.
  induction n as [a|name attrs idx conds contents F|name attrs idx conds|vs|vs|name vs|vs|ns F|fn attrs ns F|f|p|fn ns F|fn ns F|pr ns F]
    using node_simple_ind; intro H; try exact I; try exact H; try apply H.
  - destruct H as [_ H]. destruct a; try exact I; cbn [node_values attr_values]; [exact H|apply H].
  - cbn [node_values]. change (all node_ok ns) in H. rewrite all_In in H. apply all_In. intros v Hv. apply in_flat_map in Hv as (n & Hn & Hv).
    rewrite Forall_forall in F. specialize (F n Hn (H n Hn)). rewrite all_In in F. auto.
Qed.
Definition args_ok (l : list (arg U)) : Prop :=
  all (fun a => match a with
                | ANode n => node_ok n | AVal v => val_ok v | ADyn f => of_fn T f
                | AKey _ => True | AData g => of_data T g end) l.
Lemma new_values_ok l : args_ok l -> forall u, all val_ok (fst (new_values l u)).
Proof.
  induction l as [|a l IH]; intros H u; [exact I|]. destruct H as [H1 H2]. specialize (IH H2). cbn [new_values].
  assert (X : all val_ok (fst (new_value a u))).
  { destruct a as [n|v|f|k|g].
    - apply node_values_ok, H1.
    - exact (conj H1 I).
    - exact (conj H1 I).
    - exact (conj (key_ok k) I).
    - assert (G : all val_ok (fst (let '(b, u') := value_to_bytes g u in ([Val b None []], u')))).
      { pose proof (data_ok g H1 u) as D. destruct (value_to_bytes g u). exact (conj D I). }
      destruct g; exact G || exact I. }
  destruct (new_value a u) as [vs u1]. specialize (IH u1). destruct (new_values l u1) as [vs' u2]. apply all_app. auto.
Qed.
Lemma text_ok l u : args_ok l -> node_ok (fst (Text l u)).
Proof. intro H. pose proof (new_values_ok l H u) as X. unfold Text. destruct (new_values l u). exact X. Qed.
Lemma contents_ok l : args_ok l -> forall u, all node_ok (fst (contents_to_nodes l u)).
Proof.
  induction l as [|a l IH]; intros H u; [exact I|]. cbn [contents_to_nodes].
  assert (X : node_ok (fst (content_to_node a u))).
  { destruct a; try (apply (text_ok [_]); split; [apply H|exact I]). apply H. }
  destruct (content_to_node a u) as [n u1]. specialize (IH (proj2 H) u1). destruct (contents_to_nodes l u1). split; auto.
Qed.
Lemma collect_ok n : node_ok n -> forall c m, let '(a, ca, _) := collect_attrs c n m in
  all attr_ok a /\ all (fun ca => attr_ok (fst ca)) ca.
Proof.
  assert (L : forall ns, Forall (fun n => node_ok n -> forall c m, let '(a, ca, _) := collect_attrs c n m in
      all attr_ok a /\ all (fun ca => attr_ok (fst ca)) ca) ns -> all node_ok ns ->
    forall c m, let '(a, ca, _) := collect_all c ns m in all attr_ok a /\ all (fun ca => attr_ok (fst ca)) ca).
  { clear n. induction 1 as [|n ns Hn F IH]; intros H c m; [split; exact I|]. destruct H as [H1 H2]. cbn [collect_all].
    specialize (Hn H1 c m). destruct (collect_attrs c n m) as [[a1 c1] m1]. specialize (IH H2 c m1).
    destruct (collect_all c ns m1) as [[a2 c2] m2]. split; apply all_app; split; intuition. }
  induction n as [a|name attrs idx conds contents F|name attrs idx conds|vs|vs|name vs|vs|ns F|fn attrs ns F|f|p|fn ns F|fn ns F|pr ns F]
    using node_simple_ind; intros H c m; try (split; exact I).
  - cbn [collect_attrs]. destruct (0 <? s_len c); split; try exact I; exact (conj H I).
  - rewrite collect_coll. apply L; auto.
  - rewrite collect_cond. destruct H as [H1 H2]. change (all node_ok ns) in H2. destruct (append1 m c fn) as [m1 c1].
    specialize (L ns F H2 c1 m1). destruct (collect_all c1 ns m1) as [[a2 c2] m2]. split; [exact I|].
    apply all_app. split; [|apply L]. rewrite all_In in H1. apply all_In. intros x Hx. apply in_map_iff in Hx as (a & <- & Ha). apply H1, Ha.
Qed.
Lemma collect_all_ok ns : all node_ok ns -> forall c m, let '(a, ca, _) := collect_all c ns m in
  all attr_ok a /\ all (fun ca => attr_ok (fst ca)) ca.
Proof.
  induction ns as [|n ns IH]; intros H c m; [split; exact I|]. destruct H as [H1 H2]. cbn [collect_all].
  pose proof (collect_ok n H1 c m) as X. destruct (collect_attrs c n m) as [[a1 c1] m1]. specialize (IH H2 c m1).
  destruct (collect_all c ns m1) as [[a2 c2] m2]. split; apply all_app; split; intuition.
Qed.
Lemma set_nth_ok (l : list (attr U)) i a : all attr_ok l -> attr_ok a -> all attr_ok (set_nth l i a).
Proof.
  revert i. induction l as [|x l IH]; intros i H A; destruct i; cbn [set_nth]; auto; destruct H; split; auto.
Qed.
Lemma add_ok ds : all attr_ok ds -> all attr_ok (fst (add_attributes ds)).
Proof.
  unfold add_attributes. assert (G : forall st, all attr_ok (fst st) -> all attr_ok ds -> all attr_ok (fst (fold_left add_attribute ds st))).
  { induction ds as [|d ds IH]; intros st S H; [exact S|]. destruct H as [H1 H2]. cbn [fold_left]. apply IH; auto.
    destruct st as [l idx]. cbn [fst] in S. cbn [add_attribute]. destruct (idx_get idx (attr_name d)) as [i|].
    - destruct (nth_error l i) as [a|] eqn:N; [|apply set_nth_ok; auto]. apply nth_error_In in N.
      assert (A : attr_ok a) by (rewrite all_In in S; auto).
      destruct a as [n vs|n|n de vs]; try (apply set_nth_ok; auto; fail).
      destruct d as [n' vs'|n'|n' d' vs']; try (apply set_nth_ok; auto; fail). apply set_nth_ok; auto.
      destruct A as (A1 & A2 & A3). destruct H1 as (B1 & B2 & B3). split; [exact A1|]. split; [exact A2|]. apply all_app. auto.
    - cbn [fst]. apply all_app. split; auto. exact (conj H1 I). }
  intro H. apply G; auto. exact I.
Qed.
Lemma element_ok name ns : T name -> all node_ok ns -> node_ok (mk_element name ns) /\ node_ok (mk_void name ns).
Proof.
  intros N H. unfold mk_element, mk_void, attributes_and_contents.
  pose proof (collect_all_ok ns H nil_slice []) as X. destruct (collect_all nil_slice ns []) as [[a c] m]. destruct X as [X1 X2].
  pose proof (add_ok a X1) as Y. destruct (add_attributes a) as [attrs idx]. cbn [fst] in Y.
  assert (Z : all (fun ca : attr U * list (condfn U) => attr_ok (fst ca)) (map (fun '(a, s) => (a, slice_elems m s)) c)).
  { rewrite all_In in X2. apply all_In. intros x Hx. apply in_map_iff in Hx as ([a0 s] & <- & Ha). apply (X2 _ Ha). }
  split.
  - change (T name /\ all attr_ok attrs /\ all (fun ca => attr_ok (fst ca)) (map (fun '(a, s) => (a, slice_elems m s)) c) /\
      all node_ok (filter (fun n => negb (is_attr n)) ns)).
    repeat split; auto. rewrite all_In in H. apply all_In. intros x Hx. apply filter_In in Hx as [Hx _]. auto.
  - cbn [node_ok]. auto.
Qed.
Lemma new_element_ok name l u : T name -> args_ok l ->
  node_ok (fst (NewElement name l u)) /\ node_ok (fst (NewVoidElement name l u)).
Proof.
  intros N H. pose proof (contents_ok l H u) as X. unfold NewElement, NewVoidElement.
  destruct (contents_to_nodes l u) as [ns u1]. apply element_ok; auto.
Qed.
Lemma attribute_ok name l u : T name -> args_ok l -> node_ok (fst (NewAttribute name l u)).
Proof. intros N H. pose proof (new_values_ok l H u) as X. unfold NewAttribute. destruct (new_values l u). exact (conj N X). Qed.
Lemma somes_ok l : all (opt node_ok) l -> all node_ok (somes l).
Proof. induction l as [|[n|] l IH]; intro H; [exact I| |]; destruct H as [H1 H2]; cbn [somes]; [split|]; auto. Qed.
Lemma all_some_ok (l : list (option (node U))) ns : all_some l = Some ns -> all (opt node_ok) l ->
  all node_ok (non_attrs ns) /\ all attr_ok (node_attrs ns).
Proof.
  revert ns. induction l as [|[n|] l IH]; intros ns E H; cbn [all_some] in E; [injection E as <-; split; exact I| |discriminate].
  destruct (all_some l) as [r|]; [|discriminate]. injection E as <-. destruct H as [H1 H2]. destruct (IH r eq_refl H2) as [I1 I2].
  destruct n; split; try exact I2; try (split; [exact H1|exact I1]); try exact I1. exact (conj H1 I2).
Qed.
Lemma conditional_ok fn l n : all (opt node_ok) l -> Conditional fn l = Done n -> node_ok n.
Proof.
  intros H. unfold Conditional. destruct fn as [f|].
  - destruct (all_some l) as [ns|] eqn:E; [|discriminate]. intro Q. injection Q as <-.
    destruct (all_some_ok l ns E H). split; auto.
  - intro Q. injection Q as <-. apply somes_ok, H.
Qed.

Lemma made_ok :
  (forall n, of_node T n -> node_ok n) /\ (forall l, of_args T l -> args_ok l) /\
  (forall v, of_value T v -> val_ok v) /\ (forall l, of_nodes T l -> all (opt node_ok) l) /\
  (forall p, of_prog T p -> prog_ok p).
Proof.
  apply of_mutind.
  - intros name l u N _ H. apply attribute_ok; auto.
  - intros name N. exact (conj N I).
  - intros name d l u N D _ H. pose proof (new_values_ok l H u) as X. unfold NewDelimitedAttribute. destruct (new_values l u).
    exact (conj N (conj D X)).
  - intros l u _ H. apply text_ok, H.
  - intros l u _ H. pose proof (new_values_ok l H u) as X. unfold Comment. destruct (new_values l u). exact X.
  - intros l u _ H. pose proof (new_values_ok l H u) as X. unfold Fragment. destruct (new_values l u). exact X.
  - intros name l u N _ H. pose proof (new_values_ok l H u) as X. unfold PI. destruct (new_values l u). exact (conj N X).
  - intros name l u N _ H. apply new_element_ok; auto.
  - intros name l u N _ H. apply new_element_ok; auto.
  - intros l _ H. apply somes_ok, H.
  - intros fn l n _ H. apply conditional_ok, H.
  - intros key l n _ H. unfold When. destruct (has_prefix _ key); apply conditional_ok, H.
  - intros f _ H. exact H.
  - exact I.
  - intros fn l n Hf _ H. unfold Iterate. destruct fn as [f|]; [|discriminate].
    destruct (all_some l) as [ns|] eqn:E; [|discriminate]. intro Q. injection Q as <-.
    split; [|apply (all_some_ok l ns E H)]. intros c u O. apply (Hf f c u eq_refl O).
  - intros key l n _ H. unfold IterateKey. destruct (all_some l) as [ns|] eqn:E; [|discriminate]. intro Q. injection Q as <-.
    split; [|apply (all_some_ok l ns E H)]. intros c u O. unfold key_items. cbn [fst].
    destruct (data_get c key u) as [v|] eqn:D; [|exact I]. unfold data_get in D. destruct (c_data c) as [m|]; [|discriminate].
    apply T_maps in D. destruct v; try exact I; [|exact D].
    apply all_In. intros x Hx. apply in_map_iff in Hx as (a & <- & _). exact I.
  - intros fn l n Hf _ H. unfold IterateYield. destruct fn as [f|]; [|discriminate].
    destruct (all_some l) as [ns|] eqn:E; [|discriminate]. intro Q. injection Q as <-.
    split; [apply Hf; reflexivity|apply (all_some_ok l ns E H)].
  - intros lang head body u _ [HL _] _ HH _ HB. unfold Document.
    set (f := match lang with AData GNil => (AData GNil, u) | _ => let '(n, u') := NewAttribute (B "lang") [lang] u in (ANode n, u') end).
    assert (X1 : args_ok [fst f]).
    { assert (G : args_ok [fst (let '(n, u') := NewAttribute (B "lang") [lang] u in (ANode n, u'))]).
      { pose proof (attribute_ok (B "lang") [lang] u) as A. destruct (NewAttribute (B "lang") [lang] u). split; [|exact I].
        apply A; [fixed|split; [exact HL|exact I]]. }
      unfold f. destruct lang as [| | | |g]; try exact G. destruct g; exact G || exact (conj I I). }
    destruct f as [la u1]. cbn [fst] in X1.
    assert (X2 : args_ok [fst (match head with [] => (AData GNil, u1) | _ => let '(n, u') := NewElement (B "head") head u1 in (ANode n, u') end)]).
    { destruct head as [|a head]; [exact (conj I I)|]. pose proof (new_element_ok (B "head") (a :: head) u1) as A.
      destruct (NewElement (B "head") (a :: head) u1). split; [|exact I]. apply A; [fixed|exact HH]. }
    destruct (match head with [] => _ | _ => _ end) as [h u2]. cbn [fst] in X2.
    pose proof (new_element_ok (B "body") body u2) as X3. destruct (NewElement (B "body") body u2) as [b u3].
    assert (X4 : node_ok (fst (DocType u3))) by (split; [fixed|split; [fixed|exact I]]). destruct (DocType u3) as [pr u4].
    pose proof (new_element_ok (B "html") [la; h; ANode b] u4) as X5. destruct (NewElement (B "html") [la; h; ANode b] u4) as [ht u5].
    split; [exact X4|]. split; [|exact I]. apply X5; [fixed|]. split; [apply X1|]. split; [apply X2|]. split; [|exact I].
    apply X3; [fixed|exact HB].
  - intros p _ H. exact H.
  - exact I.
  - exact I.
  - intros n l _ H1 _ H2. split; auto.
  - intros v l _ H1 _ H2. split; auto.
  - intros f l H1 _ H2. split; auto.
  - intros k l _ H2. split; [exact I|auto].
  - intros g l H1 _ H2. split; auto.
  - intros a u _ H. pose proof (new_values_ok [a] H u) as X. unfold NewValue. cbn [new_values] in X.
    destruct (new_value a u) as [vs u']. cbn [fst] in X. rewrite app_nil_r in X. destruct vs as [|v [|w vs]].
    + fixed.
    + apply X.
    + exact X.
  - intros l u _ H. pose proof (new_values_ok l H u) as X. unfold NewConcatValue. destruct (new_values l u) as [vs u'].
    destruct vs; [fixed|exact X].
  - exact I.
  - intros n l _ H1 _ H2. split; auto.
  - intros l _ H2. split; [exact I|auto].
  - intros e. exact I.
  - intros k _ H. exact H.
  - intros s k H1 _ H2. split; auto.
  - intros s k H1 _ H2. split; auto.
  - intros l k _ H1 _ H2. split; auto.
  - intros name v l k H1 _ H2 _ H3. split; auto.
  - intros k _ H. exact H.
  - intros k _ H. exact H.
  - intros n inner k _ H1 H2 _ H3. split; auto.
  - intros d k H1 _ H2. split; auto.
  - intros e k _ H. exact H.
Qed.

Lemma texts_written E n fr err s : of_node T n -> of_ctx T (view fr err) ->
  forall c, In c (snd (outcome_of E n fr err s)) -> T (wc_data c).
Proof.
  intros N C. pose proof (proj1 render_emits n fr err (proj1 made_ok n N) C) as X.
  pose proof (emits_run E _ (World [] (fst s) (snd s)) X (fun _ H => match H with end)) as Y.
  unfold outcome_of. destruct (run _ _ _) as [r w]. destruct r. exact Y.
Qed.

End Text.

(** ** UTF-8 and text without NUL *)
Lemma utf8_app a b : utf8 a -> utf8 b -> utf8 (a ++ b).
Proof. induction 1 as [|c s C S IH]; intro H; [exact H|]. rewrite <- app_assoc. constructor; auto. Qed.
Lemma ascii_utf8 b : asciib b = true -> utf8 b.
Proof.
  unfold asciib. induction b as [|c b IH]; intro H; [constructor|]. cbn [forallb] in H. apply andb_true_iff in H as [H1 H2].
  apply andb_true_iff in H1 as [_ H1]. apply Nat.leb_le in H1. apply (utf8_cons [c]); auto. constructor. unfold byte_in. lia.
Qed.
Lemma esc1_cases c : (exists e, esc1 c = e /\ asciib e = true) \/ esc1 c = [c].
Proof.
  destruct c as [[] [] [] [] [] [] [] []]; try (right; reflexivity); try (left; eexists; split; [reflexivity|reflexivity]).
Qed.
Lemma esc1_high c : 128 <= nat_of_ascii c -> esc1 c = [c].
Proof. destruct c as [[] [] [] [] [] [] [] []]; intro H; try reflexivity; cbn in H; lia. Qed.
Lemma escape_utf8 b : utf8 b -> utf8 (html_escape_string b).
Proof.
  rewrite escape_flat. induction 1 as [|c s C S IH]; [constructor|]. rewrite flat_map_app. apply utf8_app; auto.
  assert (Q : utf8 c) by (rewrite <- app_nil_r; constructor; [exact C|constructor]).
  unfold tail, byte_in in *. destruct C as [a A|a b A B'|a b c A B' C' X Y|a b c d A B' C' D X Y]; cbn [flat_map];
    unfold tail, byte_in in *.
  - rewrite app_nil_r. destruct (esc1_cases a) as [(e & -> & E)|E]; [apply ascii_utf8, E|rewrite E; exact Q].
  - rewrite !esc1_high by lia. exact Q.
  - rewrite !esc1_high by lia. exact Q.
  - rewrite !esc1_high by lia. exact Q.
Qed.
Lemma ascii_no_nul b : asciib b = true -> no_nul b.
Proof. intros H N. unfold asciib in H. rewrite forallb_forall in H. specialize (H _ N). discriminate. Qed.
Lemma escape_no_nul b : no_nul b -> no_nul (html_escape_string b).
Proof.
  unfold no_nul. rewrite escape_flat. intros H N. apply in_flat_map in N as (c & Hc & N).
  destruct c as [[] [] [] [] [] [] [] []]; try contradiction; vm_compute in N; repeat (destruct N as [N|N]; [discriminate N|]); contradiction N.
Qed.
Lemma concat_closed (T : bytes -> Prop) l : T [] -> (forall a b, T a -> T b -> T (a ++ b)) ->
  (forall x, In x l -> T x) -> T (concat l).
Proof.
  intros Z A. induction l as [|x l IH]; intro H; [exact Z|]. cbn [concat]. apply A; [apply H; left; reflexivity|].
  apply IH. intros y Hy. apply H. right. exact Hy.
Qed.

Section Claims.
Context {W : UserWorld}.

(** C60.  For every kind of text that includes ASCII and that escaping does not
    leave: if the template, the data maps and the context are made of such text
    then so is the data of every call of Write, whatever the writer answers and
    even when a call has failed before. *)
Theorem C60_kind (T : bytes -> Prop) E n fr err s :
  (forall b, (forall c, In c b -> 1 <= nat_of_ascii c <= 127) -> T b) ->
  (forall b, T b -> T (html_escape_string b)) ->
  of_maps T -> of_ctx T (view fr err) -> of_node T n ->
  forall c, In c (snd (outcome_of E n fr err s)) -> T (wc_data c).
Proof.
  intros A X M C N. apply texts_written; auto. intros b H. apply A. intros c Hc. unfold asciib in H. rewrite forallb_forall in H.
  specialize (H c Hc). apply andb_true_iff in H as [H1 H2]. apply Nat.leb_le in H1. apply Nat.leb_le in H2. lia.
Qed.

(** Valid UTF-8: no call of Write is given part of a character, and the page is
    valid UTF-8. *)
Theorem C60_utf8 E n fr err s :
  of_maps utf8 -> of_ctx utf8 (view fr err) -> of_node utf8 n ->
  (forall c, In c (snd (outcome_of E n fr err s)) -> utf8 (wc_data c)) /\
  utf8 (offered (snd (outcome_of E n fr err s))).
Proof.
  intros M C N. pose proof (texts_written utf8 ascii_utf8 escape_utf8 M E n fr err s N C) as X. split; [exact X|].
  apply (concat_closed utf8); [constructor|apply utf8_app|]. intros x Hx. apply in_map_iff in Hx as (c & <- & Hc). auto.
Qed.
Theorem C60_page o n fr s :
  of_maps utf8 -> of_ctx utf8 (view fr None) -> of_node utf8 n -> utf8 (fst (page o n fr s)).
Proof.
  intros M C N. unfold page. cbn [fst].
  pose proof (texts_written utf8 ascii_utf8 escape_utf8 M (Env healthy o) n fr None s N C) as X.
  rewrite outcome_calls in X. unfold calls in X.
  assert (L : forall A (p : io U A) w, accepted (w_log w) = offered (w_log w) ->
    accepted (w_log (snd (run (Env healthy o) p w))) = offered (w_log (snd (run (Env healthy o) p w)))).
  { intros A p. induction p as [a|d k IH|k IH|ks k IH] using io_ind'; intros w H; cbn [run].
    - exact H.
    - apply IH. cbn [w_log]. unfold accepted, offered in *. rewrite !map_app, !concat_app, H. cbn [map concat wc_n wc_data].
      rewrite firstn_all. reflexivity.
    - specialize (IH (w_u w)). destruct (k (w_u w)) as [q u']. apply IH, H.
    - apply IH, H. }
  rewrite L by reflexivity. apply (concat_closed utf8); [constructor|apply utf8_app|].
  intros x Hx. apply in_map_iff in Hx as (c & <- & Hc). auto.
Qed.

(** No NUL byte. *)
Theorem C60_no_nul E n fr err s :
  of_maps no_nul -> of_ctx no_nul (view fr err) -> of_node no_nul n ->
  ~ In "000"%char (offered (snd (outcome_of E n fr err s))).
Proof.
  intros M C N. pose proof (texts_written no_nul ascii_no_nul escape_no_nul M E n fr err s N C) as X.
  apply (concat_closed no_nul); [intros []|unfold no_nul; intros a b Ha Hb H; apply in_app_iff in H; tauto|].
  intros x Hx. apply in_map_iff in Hx as (c & <- & Hc). auto.
Qed.

End Claims.

(** A heading with a Greek letter and a data entry; half the letter is not UTF-8. *)
Definition greek : bytes := ["206"%char; "177"%char].
Example C60_example :
  let n : node (@U demo) := fst (NewElement (B "h1") [str greek; AKey (B "name")] (st 0)) in
  of_maps utf8 /\ of_ctx utf8 (view fr0 None) /\ of_node utf8 n /\
  fst (page listed n fr0 (st 0, 0)) = B "<h1>" ++ greek ++ B "a&lt;b</h1>" /\ ~ utf8 ["206"%char].
Proof.
  assert (G : utf8 greek) by (apply (utf8_cons greek []); [apply utf8_2; unfold tail, byte_in; cbn; lia|constructor]).
  split; [|split; [exact (conj I I)|split; [|split; [reflexivity|]]]].
  - intros u m k v H. destruct m as [|[|m]]; cbn in H;
      repeat match type of H with context [if ?b then _ else _] => destruct b end; try discriminate; injection H as <-; cbn; auto;
      try (apply ascii_utf8; reflexivity). repeat split. apply ascii_utf8. reflexivity.
  - apply on_element; [apply ascii_utf8; reflexivity|]. apply oa_data; [exact G|]. apply oa_key. apply oa_nil.
  - intro H. inversion H as [|c s C S E]. destruct C; cbn in E; try discriminate. injection E as -> _.
    unfold byte_in in *. cbn in *. lia.
Qed.
