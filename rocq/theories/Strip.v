(** Attributes held by collections and conditionals play no part in rendering
    those nodes: only the element they were given to uses them. *)
From Verif Require Import Bytes IO Nodes Values Render Slices Build NodeInd IOFacts RenderFacts.

Section Strip.
Context {W : UserWorld}.

(** Forget attributes outside elements, everywhere in a node. *)
Fixpoint strip (n : node U) : node U :=
  match n with
  | NAttr _ => NAttr (ABool [])
  | NElement name attrs idx conds ns => NElement name attrs idx conds (map strip ns)
  | NCollection ns => NCollection (filter (fun c => negb (is_attr c)) (map strip ns))
  | NConditional f _ ns => NConditional f [] (map strip ns)
  | NIter f ns => NIter f (map strip ns)
  | NYield f ns => NYield f (map strip ns)
  | NDocument p ns => NDocument p (map strip ns)
  | _ => n
  end.

(** No attribute stands among the contents of an element, conditional,
    iteration or document; true of everything the constructors build. *)
Fixpoint neat (n : node U) : bool :=
  match n with
  | NElement _ _ _ _ ns | NConditional _ _ ns | NIter _ ns | NYield _ ns | NDocument _ ns =>
      forallb (fun c => negb (is_attr c) && neat c) ns
  | NCollection ns => forallb (fun c => is_attr c || neat c) ns
  | _ => true
  end.

Lemma strip_attr n : is_attr (strip n) = is_attr n.
Proof. destruct n; reflexivity. Qed.

Lemma strip_idem n : strip (strip n) = strip n.
Proof.
  assert (G : forall ns : list (node U), Forall (fun n => strip (strip n) = strip n) ns ->
              map strip (map strip ns) = map strip ns).
  { induction 1; simpl; congruence. }
  apply (node_iprog_ind (fun n => strip (strip n) = strip n) (fun _ => True)); intros; auto;
    cbn [strip]; try (rewrite G by assumption; reflexivity).
  f_equal. induction H as [|n' ns Hn _ IH]; [reflexivity|].
  cbn [map filter]. rewrite strip_attr. destruct (is_attr n') eqn:E; cbn [negb]; auto.
  cbn [map filter]. rewrite !strip_attr, E. cbn. rewrite Hn, IH. reflexivity.
Qed.

(** Two programs that behave alike in every environment. *)
Definition same {A} (p q : io U A) : Prop := forall E w, run E p w = run E q w.

Lemma same_bind {A B} (p q : io U A) (f g : A -> io U B) :
  same p q -> (forall a, same (f a) (g a)) -> same (bind p f) (bind q g).
Proof. intros H K E w. rewrite !run_bind, H. destruct (run E q w). apply K. Qed.
Lemma same_refl {A} (p : io U A) : same p p. Proof. intros E w. reflexivity. Qed.
Lemma same_cb {A} (k1 k2 : U -> io U A * U) :
  (forall u, same (fst (k1 u)) (fst (k2 u)) /\ snd (k1 u) = snd (k2 u)) -> same (Cb k1) (Cb k2).
Proof.
  intros H E w. cbn [run]. destruct (H (w_u w)) as [S Q].
  destruct (k1 (w_u w)) as [p1 u1], (k2 (w_u w)) as [p2 u2]. cbn in *. rewrite Q. apply S.
Qed.

Lemma same_iter b1 b2 data parent oerr items :
  (forall fr e, same (b1 fr e) (b2 fr e)) -> forall ierr,
  same (iter_loop b1 data parent oerr items ierr) (iter_loop b2 data parent oerr items ierr).
Proof.
  intro H. induction items as [|x items IH]; intro ierr; cbn [iter_loop]; [apply same_refl|].
  apply same_bind; [apply H|]. intros [[r|] e]; [apply same_refl|apply IH].
Qed.
Lemma same_yield b1 b2 fr : (forall fr e, same (b1 fr e) (b2 fr e)) -> forall p data oerr ierr,
  same (yield_loop b1 fr data p oerr ierr) (yield_loop b2 fr data p oerr ierr).
Proof.
  intro H. fix IH 1. intros [|x p|k] data oerr ierr; cbn [yield_loop].
  - apply same_refl.
  - apply same_bind; [apply H|]. intros [r e]. apply IH.
  - apply same_cb. intro u. specialize (fun c => IH (fst (k c u))).
    specialize (IH (view fr oerr) data oerr ierr).
    destruct (k (view fr oerr) u) as [p' u']. split; [exact IH|reflexivity].
Qed.

Definition alike (n : node U) : Prop :=
  is_attr n = false -> neat n = true -> forall fr e, same (render (strip n) fr e) (render n fr e).

Ltac heads := repeat (apply same_bind; [apply same_refl|intro]).

Lemma alike_map (ns : list (node U)) :
  Forall alike ns -> forallb (fun c => negb (is_attr c) && neat c) ns = true ->
  Forall (fun c => forall fr e, same (render (strip c) fr e) (render c fr e)) ns.
Proof.
  intros F N. rewrite Forall_forall in *. rewrite forallb_forall in N.
  intros c Hc. specialize (N c Hc). apply andb_prop in N. destruct N as [N1 N2].
  apply F; try assumption. apply Bool.negb_true_iff. exact N1.
Qed.

Lemma same_assign fr ns :
  Forall (fun c => forall fr e, same (render (strip c) fr e) (render c fr e)) ns -> forall e,
  same (each_assign (fun c e => render c fr e) (map strip ns) e) (each_assign (fun c e => render c fr e) ns e).
Proof.
  induction 1 as [|c ns Hc _ IH]; intro e; [apply same_refl|].
  cbn [map each_assign]. apply same_bind; [apply Hc|]. intros [x y]. apply IH.
Qed.
Lemma same_ignore fr ns :
  Forall (fun c => forall fr e, same (render (strip c) fr e) (render c fr e)) ns -> forall e,
  same (each_ignore (fun c e => render c fr e) (map strip ns) e) (each_ignore (fun c e => render c fr e) ns e).
Proof.
  induction 1 as [|c ns Hc _ IH]; intro e; [apply same_refl|].
  cbn [map each_ignore]. apply same_bind; [apply Hc|]. intros [x y]. apply IH.
Qed.
Lemma same_until fr ns :
  Forall (fun c => forall fr e, same (render (strip c) fr e) (render c fr e)) ns -> forall e,
  same (each_until (fun c e => render c fr e) (map strip ns) e) (each_until (fun c e => render c fr e) ns e).
Proof.
  induction 1 as [|c ns Hc _ IH]; intro e; [apply same_refl|].
  cbn [map each_until]. apply same_bind; [apply Hc|]. intros [[x|] y]; [apply same_refl|apply IH].
Qed.
Lemma same_item fr ns :
  Forall (fun c => forall fr e, same (render (strip c) fr e) (render c fr e)) ns -> forall e,
  same (each_item (fun c e => render c fr e) (map strip ns) e) (each_item (fun c e => render c fr e) ns e).
Proof.
  induction 1 as [|c ns Hc _ IH]; intro e; [apply same_refl|].
  cbn [map each_item]. apply same_bind; [apply Hc|]. intros [[x|] y]; [apply same_refl|apply IH].
Qed.
Lemma same_content fr ns :
  Forall alike ns -> forallb (fun c => is_attr c || neat c) ns = true -> forall e,
  same (each_content_until (fun c e => render c fr e) (filter (fun c => negb (is_attr c)) (map strip ns)) e)
       (each_content_until (fun c e => render c fr e) ns e).
Proof.
  induction 1 as [|c ns Hc _ IH]; intros N e; [apply same_refl|].
  cbn [forallb] in N. apply andb_prop in N. destruct N as [N1 N2].
  cbn [map filter]. rewrite strip_attr. destruct (is_attr c) eqn:E; cbn [negb].
  - cbn [each_content_until]. rewrite E. apply IH, N2.
  - cbn [each_content_until]. rewrite strip_attr, E.
    apply same_bind; [apply Hc; auto|]. intros [[x|] y]; [apply same_refl|apply IH, N2].
Qed.

Lemma strip_render n : alike n.
Proof.
  apply (node_iprog_ind alike (fun _ => True)); auto; unfold alike;
    try (intros; cbn [strip]; apply same_refl).
  - intros a N. discriminate.
  - intros name attrs idx conds ns F _ N fr e. cbn [strip render]. heads.
    apply same_bind; [|intro; heads; apply same_refl].
    apply same_assign, alike_map; assumption.
  - intros ns F _ N fr e. cbn [strip render]. apply same_content; assumption.
  - intros f attrs ns F _ N fr e. cbn [strip render]. apply same_cb. intro u.
    destruct (f (view fr e) u) as [[] u']; (split; [|reflexivity]); cbn [fst].
    + apply same_until, alike_map; assumption.
    + apply same_refl.
  - intros f ns F _ N fr e. cbn [strip render]. destruct e; [apply same_refl|].
    apply same_cb. intro u. destruct (f (view fr None) u) as [items u']. (split; [|reflexivity]); cbn [fst].
    apply same_iter. intros. apply same_item, alike_map; assumption.
  - intros f ns F _ N fr e. cbn [strip render]. destruct e; [apply same_refl|].
    apply same_yield. intros. apply same_item, alike_map; assumption.
  - intros p ns Hp F _ N fr e. destruct p as [p|]; cbn [strip render].
    all: repeat (apply same_bind; [apply same_refl|let x := fresh in intro x; try destruct x]).
    all: try (apply same_bind; [apply same_ignore, alike_map; assumption|intro; apply same_refl]).
Qed.

(** Equal up to the attributes that do not matter. *)
Lemma strip_same n1 n2 :
  strip n1 = strip n2 -> is_attr n1 = false -> neat n1 = true -> neat n2 = true ->
  forall fr e, same (render n1 fr e) (render n2 fr e).
Proof.
  intros E A N1 N2 fr e Ev w. rewrite <- (strip_render n1 A N1 fr e Ev w), E.
  apply strip_render; auto. rewrite <- strip_attr, <- E, strip_attr. exact A.
Qed.

Lemma neat_strip n : neat (strip n) = neat n.
Proof.
  assert (G : forall ns : list (node U), Forall (fun n => neat (strip n) = neat n) ns ->
    forallb (fun c => negb (is_attr c) && neat c) (map strip ns) =
    forallb (fun c => negb (is_attr c) && neat c) ns).
  { induction 1; cbn [map forallb]; auto. rewrite strip_attr, H, IHForall. reflexivity. }
  apply (node_iprog_ind (fun n => neat (strip n) = neat n) (fun _ => True)); intros; auto;
    cbn [strip neat]; auto.
  induction H as [|c ns Hc _ IH]; [reflexivity|].
  cbn [map filter forallb]. rewrite strip_attr. destruct (is_attr c) eqn:E; cbn [negb]; auto.
  cbn [forallb]. rewrite strip_attr, E, Hc, IH. reflexivity.
Qed.

End Strip.
