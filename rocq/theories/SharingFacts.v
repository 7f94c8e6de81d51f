(** Facts about construction with shared attributes. *)
From Coq Require Import Permutation.
From Verif Require Import Bytes IO Nodes Values Render Slices Build NodeInd IOFacts RenderFacts
  SpecOut AttrFacts Sharing.

Section SnodeInd.
Context {W : UserWorld}.
Variable P : snode -> Prop.
Hypothesis HA : forall l, P (SAttr l).
Hypothesis HL : forall x, P (SLeaf x).
Hypothesis HC : forall ns, Forall P ns -> P (SCollection ns).
Hypothesis HK : forall f attrs ns, Forall P ns -> P (SConditional f attrs ns).
Hypothesis HE : forall name attrs idx conds ns, Forall P ns -> P (SElement name attrs idx conds ns).
Hypothesis HV : forall name attrs idx conds, P (SVoid name attrs idx conds).
Hypothesis HI : forall f ns, Forall P ns -> P (SIter f ns).
Hypothesis HY : forall f ns, Forall P ns -> P (SYield f ns).
Hypothesis HD : forall x ns, Forall P ns -> P (SDocument x ns).
Fixpoint snode_ind' (n : snode) : P n :=
  let go := fix go (l : list snode) : Forall P l :=
    match l with
    | [] => Forall_nil P
    | x :: l' => Forall_cons x (snode_ind' x) (go l')
    end in
  match n with
  | SAttr l => HA l
  | SLeaf x => HL x
  | SCollection ns => HC ns (go ns)
  | SConditional f attrs ns => HK f attrs ns (go ns)
  | SElement name attrs idx conds ns => HE name attrs idx conds ns (go ns)
  | SVoid name attrs idx conds => HV name attrs idx conds
  | SIter f ns => HI f ns (go ns)
  | SYield f ns => HY f ns (go ns)
  | SDocument x ns => HD x ns (go ns)
  end.
End SnodeInd.

Lemma nodup_app {A} (l1 l2 : list A) :
  NoDup (l1 ++ l2) <-> NoDup l1 /\ NoDup l2 /\ (forall x, In x l1 -> ~ In x l2).
Proof.
  split.
  - induction l1 as [|x l1 IH]; simpl; intro H.
    + split; [constructor|]. split; auto.
    + inversion H; subst. destruct (IH H3) as (A1 & A2 & A3). split; [|split; auto].
      * constructor; auto. intro K. apply H2. apply in_or_app. auto.
      * intros y [<-|Hy] K; [|exact (A3 y Hy K)]. apply H2. apply in_or_app. auto.
  - intros (A1 & A2 & A3). apply NoDup_app_iff_local; auto.
Qed.

Lemma nth_set {A} (l : list A) i e j x :
  nth_error l i = Some e ->
  nth_error (set_nth l i x) j = if j =? i then Some x else nth_error l j.
Proof.
  revert i j; induction l as [|y l IH]; intros [|i] [|j] H; simpl in *; try discriminate; auto.
Qed.

Section Facts.
Context {W : UserWorld}.

(** ** Locations *)

(** All locations a node leads to. *)
Fixpoint refs (n : snode) : list loc :=
  match n with
  | SAttr l => [l]
  | SLeaf _ => []
  | SCollection ns => flat_map refs ns
  | SConditional _ attrs ns => attrs ++ flat_map refs ns
  | SElement _ attrs _ conds ns => attrs ++ map fst conds ++ flat_map refs ns
  | SVoid _ attrs _ conds => attrs ++ map fst conds
  | SIter _ ns => flat_map refs ns
  | SYield _ ns => flat_map refs ns
  | SDocument _ ns => flat_map refs ns
  end.

(** The attributes an element given this node takes, and those of them that
    are unconditional. *)
Fixpoint surface (n : snode) : list loc :=
  match n with
  | SAttr l => [l]
  | SCollection ns => flat_map surface ns
  | SConditional _ attrs ns => attrs ++ flat_map surface ns
  | _ => []
  end.
Fixpoint declared (n : snode) : list loc :=
  match n with
  | SAttr l => [l]
  | SCollection ns => flat_map declared ns
  | _ => []
  end.

Lemma map_ext_Forall {A B} (f g : A -> B) l : Forall (fun x => f x = g x) l -> map f l = map g l.
Proof. induction 1; simpl; congruence. Qed.

Lemma read_refs h h' n :
  (forall l, In l (refs n) -> deref h' l = deref h l) -> read h' n = read h n.
Proof.
  assert (G : forall ns : list snode,
    Forall (fun n => (forall l, In l (refs n) -> deref h' l = deref h l) -> read h' n = read h n) ns ->
    (forall l, In l (flat_map refs ns) -> deref h' l = deref h l) -> map (read h') ns = map (read h) ns).
  { intros ns F H. apply map_ext_Forall. rewrite Forall_forall in *. intros x Hx. apply F; auto.
    intros l Hl. apply H. apply in_flat_map. eauto. }
  assert (D : forall ls, (forall l, In l ls -> deref h' l = deref h l) -> map (deref h') ls = map (deref h) ls).
  { intros ls H. apply map_ext_in. auto. }
  assert (K : forall (cs : list (loc * list (condfn U))), (forall l, In l (map fst cs) -> deref h' l = deref h l) ->
    map (fun p => (deref h' (fst p), snd p)) cs = map (fun p => (deref h (fst p), snd p)) cs).
  { intros cs H. apply map_ext_in. intros p Hp. rewrite H; auto. apply in_map. exact Hp. }
  induction n using snode_ind'; cbn [refs read]; intro E; auto.
  - rewrite E; simpl; auto.
  - rewrite G; auto.
  - rewrite D, G; auto; intros; apply E; apply in_or_app; auto.
  - rewrite D, K, G; auto; intros; apply E; apply in_or_app; auto; right; apply in_or_app; auto.
  - rewrite D, K; auto; intros; apply E; apply in_or_app; auto.
  - rewrite G; auto.
  - rewrite G; auto.
  - rewrite G; auto.
Qed.

(** ** What is collected *)

Definition sgo (c : slice) := fix go (ns : list snode) (m : mem (condfn U)) :=
  match ns with
  | [] => ([], [], m)
  | n :: ns' =>
      let '(a1, c1, m1) := scollect c n m in
      let '(a2, c2, m2) := go ns' m1 in
      (a1 ++ a2, c1 ++ c2, m2)
  end.
Definition cgo (c : slice) := fix go (ns : list (node U)) (m : mem (condfn U)) :=
  match ns with
  | [] => ([], [], m)
  | n :: ns' =>
      let '(a1, c1, m1) := collect_attrs c n m in
      let '(a2, c2, m2) := go ns' m1 in
      (a1 ++ a2, c1 ++ c2, m2)
  end.
Lemma sgo_all c ns m : sgo c ns m = scollect_all c ns m.
Proof.
  revert m; induction ns as [|n ns IH]; intro m; [reflexivity|].
  change (sgo c (n :: ns) m) with (let '(a1, c1, m1) := scollect c n m in
    let '(a2, c2, m2) := sgo c ns m1 in (a1 ++ a2, c1 ++ c2, m2)).
  cbn [scollect_all]. destruct (scollect c n m) as [[a1 c1] m1]. rewrite IH. reflexivity.
Qed.
Lemma cgo_all c ns m : cgo c ns m = collect_all c ns m.
Proof.
  revert m; induction ns as [|n ns IH]; intro m; [reflexivity|].
  change (cgo c (n :: ns) m) with (let '(a1, c1, m1) := collect_attrs c n m in
    let '(a2, c2, m2) := cgo c ns m1 in (a1 ++ a2, c1 ++ c2, m2)).
  cbn [collect_all]. destruct (collect_attrs c n m) as [[a1 c1] m1]. rewrite IH. reflexivity.
Qed.
Lemma scollect_coll c ns m : scollect c (SCollection ns) m = scollect_all c ns m.
Proof. rewrite <- sgo_all. reflexivity. Qed.
Lemma collect_coll c (ns : list (node U)) m : collect_attrs c (NCollection ns) m = collect_all c ns m.
Proof. rewrite <- cgo_all. reflexivity. Qed.
Lemma scollect_cond c f attrs ns m :
  scollect c (SConditional f attrs ns) m =
  let '(m1, c1) := append1 m c f in
  let '(_, c2, m2) := scollect_all c1 ns m1 in
  ([], map (fun a => (a, c1)) attrs ++ c2, m2).
Proof.
  change (scollect c (SConditional f attrs ns) m) with
    (let '(m1, c1) := append1 m c f in
     let '(_, c2, m2) := sgo c1 ns m1 in
     (([], map (fun a => (a, c1)) attrs ++ c2, m2) : list loc * list (loc * slice) * mem (condfn U))).
  destruct (append1 m c f) as [m1 c1]. rewrite sgo_all. reflexivity.
Qed.
Lemma collect_cond c f attrs (ns : list (node U)) m :
  collect_attrs c (NConditional f attrs ns) m =
  let '(m1, c1) := append1 m c f in
  let '(_, c2, m2) := collect_all c1 ns m1 in
  ([], map (fun a => (a, c1)) attrs ++ c2, m2).
Proof.
  change (collect_attrs c (NConditional f attrs ns) m) with
    (let '(m1, c1) := append1 m c f in
     let '(_, c2, m2) := cgo c1 ns m1 in
     (([], map (fun a => (a, c1)) attrs ++ c2, m2) : list (attr U) * list (attr U * slice) * mem (condfn U))).
  destruct (append1 m c f) as [m1 c1]. rewrite cgo_all. reflexivity.
Qed.

Definition dcond (h : heap) (p : loc * slice) : attr U * slice := (deref h (fst p), snd p).

(** Collecting commutes with reading. *)
Lemma collect_read h n c m :
  collect_attrs c (read h n) m =
  let '(a, k, m') := scollect c n m in (map (deref h) a, map (dcond h) k, m').
Proof.
  assert (G : forall ns : list snode,
    Forall (fun n => forall c m, collect_attrs c (read h n) m =
      let '(a, k, m') := scollect c n m in (map (deref h) a, map (dcond h) k, m')) ns ->
    forall c m, collect_all c (map (read h) ns) m =
      let '(a, k, m') := scollect_all c ns m in (map (deref h) a, map (dcond h) k, m')).
  { induction 1 as [|n0 ns Hn _ IH]; intros c' m'; [reflexivity|].
    cbn [map collect_all scollect_all]. rewrite Hn.
    destruct (scollect c' n0 m') as [[a1 c1] m1]. rewrite IH.
    destruct (scollect_all c' ns m1) as [[a2 c2] m2]. rewrite !map_app. reflexivity. }
  revert c m. induction n using snode_ind'; intros c m; try reflexivity.
  - cbn [read collect_attrs scollect]. destruct (0 <? s_len c); reflexivity.
  - destruct x; reflexivity.
  - cbn [read]. rewrite collect_coll, scollect_coll. apply G. assumption.
  - cbn [read]. rewrite collect_cond, scollect_cond.
    destruct (append1 m c f) as [m1 c1]. rewrite G by assumption.
    destruct (scollect_all c1 ns m1) as [[a2 c2] m2]. rewrite map_app, !map_map. reflexivity.
Qed.
Lemma collect_all_read h ns c m :
  collect_all c (map (read h) ns) m =
  let '(a, k, m') := scollect_all c ns m in (map (deref h) a, map (dcond h) k, m').
Proof.
  revert m; induction ns as [|n ns IH]; intro m; [reflexivity|].
  cbn [map collect_all scollect_all]. rewrite collect_read.
  destruct (scollect c n m) as [[a1 c1] m1]. rewrite IH.
  destruct (scollect_all c ns m1) as [[a2 c2] m2]. rewrite !map_app. reflexivity.
Qed.

(** The static attributes are the declared ones; all together, the surface. *)
Lemma append1_len {A} (m : mem A) s x : s_len (snd (append1 m s x)) = S (s_len s).
Proof. unfold append1. destruct (s_len s <? s_cap s); reflexivity. Qed.

Lemma perm_shuffle {A} (a b c d : list A) :
  Permutation ((a ++ b) ++ (c ++ d)) ((a ++ c) ++ (b ++ d)).
Proof.
  rewrite <- !app_assoc. apply Permutation_app_head.
  rewrite !app_assoc. apply Permutation_app_tail. apply Permutation_app_comm.
Qed.

Lemma scollect_spec n c m :
  let '(a, k, _) := scollect c n m in
  a = (if 0 <? s_len c then [] else declared n) /\
  Permutation (a ++ map fst k) (surface n).
Proof.
  assert (G : forall ns : list snode,
    Forall (fun n => forall c m, let '(a, k, _) := scollect c n m in
       a = (if 0 <? s_len c then [] else declared n) /\
       Permutation (a ++ map fst k) (surface n)) ns ->
    forall c m, let '(a, k, _) := scollect_all c ns m in
       a = (if 0 <? s_len c then [] else flat_map declared ns) /\
       Permutation (a ++ map fst k) (flat_map surface ns)).
  { induction 1 as [|n' ns Hn _ IH]; intros c' m'.
    - cbn [scollect_all]. destruct (0 <? s_len c'); split; auto.
    - cbn [scollect_all]. specialize (Hn c' m'). destruct (scollect c' n' m') as [[a1 c1] m1].
      destruct Hn as [Ha Hp]. specialize (IH c' m1).
      destruct (scollect_all c' ns m1) as [[a2 c2] m2]. destruct IH as [Hb Hq]. split.
      + rewrite Ha, Hb. destruct (0 <? s_len c'); reflexivity.
      + rewrite map_app. cbn [flat_map].
        eapply Permutation_trans; [|apply Permutation_app; [exact Hp|exact Hq]].
        apply perm_shuffle. }
  revert c m. induction n using snode_ind'; intros c m.
  - cbn [scollect]. destruct (0 <? s_len c) eqn:E; cbn; split; auto.
  - cbn [scollect declared surface map app]. destruct (0 <? s_len c); split; auto.
  - rewrite scollect_coll. exact (G ns H c m).
  - rewrite scollect_cond. pose proof (append1_len m c f) as L.
    destruct (append1 m c f) as [m1 c1]. simpl in L.
    specialize (G ns H c1 m1). destruct (scollect_all c1 ns m1) as [[a2 c2] m2].
    rewrite L in G. destruct G as [-> Hp]. split.
    + cbn [declared]. destruct (0 <? s_len c); reflexivity.
    + cbn [surface app] in *. rewrite map_app, map_map. cbn. rewrite map_id.
      apply Permutation_app_head. exact Hp.
  - cbn [scollect declared surface map app]. destruct (0 <? s_len c); split; auto.
  - cbn [scollect declared surface map app]. destruct (0 <? s_len c); split; auto.
  - cbn [scollect declared surface map app]. destruct (0 <? s_len c); split; auto.
  - cbn [scollect declared surface map app]. destruct (0 <? s_len c); split; auto.
  - cbn [scollect declared surface map app]. destruct (0 <? s_len c); split; auto.
Qed.

Lemma scollect_all_spec ns m :
  let '(a, k, _) := scollect_all nil_slice ns m in
  a = flat_map declared ns /\ Permutation (a ++ map fst k) (flat_map surface ns).
Proof.
  pose proof (scollect_spec (SCollection ns) nil_slice m) as H.
  rewrite scollect_coll in H. exact H.
Qed.

(** ** addAttributes *)

Definition is_delim (a : attr U) : bool := match a with ADelim _ _ _ => true | _ => false end.

Lemma deref_set h e a l :
  e < length h -> deref (set_nth h e a) l = if l =? e then a else deref h l.
Proof.
  unfold deref. revert e l; induction h as [|x h IH]; intros [|e] [|l] L; simpl in *; try lia; auto.
  apply IH. lia.
Qed.
Lemma delim_bound h l : is_delim (deref h l) = true -> l < length h.
Proof.
  intro H. destruct (Nat.lt_ge_cases l (length h)); auto.
  unfold deref in H. rewrite nth_overflow in H by assumption. discriminate.
Qed.

(** An index table that fits the attributes of the element. *)
Definition fits (h : heap) (atts : list loc) (idx : list (bytes * nat)) : Prop :=
  forall nm i e, idx_get idx nm = Some i -> nth_error atts i = Some e ->
                 attr_name (deref h e) = nm.

Lemma idx_get_app i1 nm i name :
  idx_get (i1 ++ [(nm, i)]) name =
  match idx_get i1 name with Some j => Some j | None => if beq nm name then Some i else None end.
Proof. induction i1 as [|[n j] i1 IH]; simpl; [reflexivity|]. destruct (beq n name); auto. Qed.

Definition in_range (atts : list loc) (idx : list (bytes * nat)) : Prop :=
  forall nm i, idx_get idx nm = Some i -> i < length atts.

(** One declaration: it changes one object at most, a delimited one that is
    already there, of the same name as the delimited one being added. *)
Lemma sadd_step h atts idx l :
  fits h atts idx -> in_range atts idx ->
  let '(h', atts', idx') := sadd (h, atts, idx) l in
  fits h' atts' idx' /\ in_range atts' idx' /\
  (forall x, In x atts' -> In x atts \/ x = l) /\
  (forall x, attr_name (deref h' x) = attr_name (deref h x) /\
             is_delim (deref h' x) = is_delim (deref h x)) /\
  (forall x, deref h' x = deref h x \/
     (In x atts /\ is_delim (deref h x) = true /\ is_delim (deref h l) = true /\
      attr_name (deref h x) = attr_name (deref h l))).
Proof.
  intros F R. unfold sadd.
  destruct (idx_get idx (attr_name (deref h l))) as [i|] eqn:E.
  - destruct (nth_error atts i) as [e|] eqn:Ee; [|repeat split; auto].
    pose proof (F _ _ _ E Ee) as N.
    assert (K : let '(h', atts', idx') := (h, set_nth atts i l, idx) in
      fits h' atts' idx' /\ in_range atts' idx' /\
      (forall x, In x atts' -> In x atts \/ x = l) /\
      (forall x, attr_name (deref h' x) = attr_name (deref h x) /\
                 is_delim (deref h' x) = is_delim (deref h x)) /\
      (forall x, deref h' x = deref h x \/
         (In x atts /\ is_delim (deref h x) = true /\ is_delim (deref h l) = true /\
          attr_name (deref h x) = attr_name (deref h l)))).
    { split; [|split; [|split; [|split; [split; reflexivity|left; reflexivity]]]].
      - intros nm j x Hj Hx. rewrite (nth_set _ _ _ _ _ Ee) in Hx.
        destruct (Nat.eqb_spec j i) as [->|Nj].
        + injection Hx as <-.
          rewrite <- N. exact (F _ _ _ Hj Ee).
        + exact (F _ _ _ Hj Hx).
      - intros nm j Hj. rewrite set_nth_length. exact (R _ _ Hj).
      - intros x Hx. apply In_nth_error in Hx. destruct Hx as [j Hj].
        rewrite (nth_set _ _ _ _ _ Ee) in Hj. destruct (j =? i).
        + injection Hj as ->. auto.
        + left. eapply nth_error_In; eauto. }
    destruct (deref h e) as [n1 v1|n1|n d vs] eqn:De; try exact K.
    destruct (deref h l) as [n2 v2|n2|n2 d2 vs2] eqn:Dl; try exact K. clear K.
    assert (Le : e < length h) by (apply delim_bound; rewrite De; reflexivity).
    cbn [attr_name] in *. subst n2.
    assert (Nm : forall x, attr_name (deref (set_nth h e (ADelim n d (vs ++ vs2))) x) = attr_name (deref h x)).
    { intro x. rewrite deref_set by assumption. destruct (Nat.eqb_spec x e) as [->|]; auto.
      rewrite De. reflexivity. }
    split; [|split; [|split; [|split]]].
    + intros nm j x Hj Hx. rewrite Nm. exact (F _ _ _ Hj Hx).
    + exact R.
    + auto.
    + intro x. split; [apply Nm|]. rewrite deref_set by assumption.
      destruct (Nat.eqb_spec x e) as [->|]; auto. rewrite De. reflexivity.
    + intro x. rewrite deref_set by assumption.
      destruct (Nat.eqb_spec x e) as [->|]; auto. right. rewrite De.
      repeat split; auto. eapply nth_error_In; eauto.
  - split; [|split; [|split; [|split; [split; reflexivity|left; reflexivity]]]].
    + intros nm j x Hj Hx. rewrite idx_get_app in Hj.
      destruct (idx_get idx nm) as [j'|] eqn:Ej.
      * injection Hj as ->. rewrite nth_error_app1 in Hx by (eapply R; eauto).
        exact (F _ _ _ Ej Hx).
      * destruct (beq_spec (attr_name (deref h l)) nm) as [<-|]; [|discriminate].
        injection Hj as <-. rewrite nth_error_app2 in Hx by auto. rewrite Nat.sub_diag in Hx.
        injection Hx as <-. reflexivity.
    + intros nm j Hj. rewrite idx_get_app in Hj. rewrite app_length. simpl.
      destruct (idx_get idx nm) as [j'|] eqn:Ej.
      * injection Hj as ->. specialize (R _ _ Ej). lia.
      * destruct (beq _ nm); [|discriminate]. injection Hj as <-. lia.
    + intros x Hx. apply in_app_or in Hx. destruct Hx as [|[<-|[]]]; auto.
Qed.

(** A declaration [l] to which a later delimited declaration of the same name
    is appended. *)
Definition merged_into (h : heap) (ds : list loc) (l : loc) : Prop :=
  exists before d after,
    ds = before ++ d :: after /\ In l before /\
    is_delim (deref h l) = true /\ is_delim (deref h d) = true /\
    attr_name (deref h l) = attr_name (deref h d).

Lemma sadd_frame ds : forall h atts idx,
  fits h atts idx -> in_range atts idx ->
  forall l,
  attr_name (deref (fst (fst (fold_left sadd ds (h, atts, idx)))) l) = attr_name (deref h l) /\
  is_delim (deref (fst (fst (fold_left sadd ds (h, atts, idx)))) l) = is_delim (deref h l) /\
  (deref (fst (fst (fold_left sadd ds (h, atts, idx)))) l = deref h l \/
   exists before d after,
     ds = before ++ d :: after /\ In l (atts ++ before) /\
     is_delim (deref h l) = true /\ is_delim (deref h d) = true /\
     attr_name (deref h l) = attr_name (deref h d)).
Proof.
  induction ds as [|d ds IH]; intros h atts idx F R l; cbn [fold_left].
  - cbn. auto.
  - pose proof (sadd_step h atts idx d F R) as S.
    destruct (sadd (h, atts, idx) d) as [[h1 a1] i1].
    destruct S as (F1 & R1 & In1 & K1 & C1).
    destruct (IH h1 a1 i1 F1 R1 l) as (Hn & Hd & Hc).
    destruct (K1 l) as [Kn Kd].
    split; [congruence|]. split; [congruence|].
    destruct Hc as [Hc|(b & x & a & -> & Hb & Hl & Hx & Hnm)].
    + rewrite Hc. destruct (C1 l) as [E|(Ha & D1 & D2 & E)]; [auto|].
      right. exists [], d, ds. rewrite app_nil_r. auto.
    + right. exists (d :: b), x, a. rewrite <- Kd, <- Kn.
      destruct (K1 x) as [Xn Xd]. rewrite <- Xn, <- Xd.
      repeat split; auto.
      apply in_app_or in Hb. apply in_or_app. cbn.
      destruct Hb as [Hb|Hb]; [|auto]. destruct (In1 _ Hb) as [Q| ->]; auto.
Qed.

(** Without repeated locations, the shared version computes what the version
    on values computes. *)
Lemma nth_error_inj {A} (l : list A) i j x :
  NoDup l -> nth_error l i = Some x -> nth_error l j = Some x -> i = j.
Proof.
  intros N Hi Hj. eapply NoDup_nth_error; eauto.
  - apply nth_error_Some. congruence.
  - congruence.
Qed.

Lemma map_set_nth {A B} (f : A -> B) l i x : map f (set_nth l i x) = set_nth (map f l) i (f x).
Proof. revert i; induction l as [|y l IH]; intros [|i]; simpl; auto. rewrite IH. reflexivity. Qed.

Lemma set_nth_over {A} (l : list A) i x : nth_error l i = None -> set_nth l i x = l.
Proof. revert i; induction l as [|y l IH]; intros [|i] H; simpl in *; try discriminate; auto. rewrite IH; auto. Qed.

Lemma sadd_pure h atts idx l :
  NoDup (atts ++ [l]) ->
  let '(h', atts', idx') := sadd (h, atts, idx) l in
  (map (deref h') atts', idx') = add_attribute (map (deref h) atts, idx) (deref h l) /\
  NoDup atts' /\ (forall x, In x atts' -> In x (atts ++ [l])) /\
  (forall x, ~ In x atts -> deref h' x = deref h x).
Proof.
  intro N. assert (Na : NoDup atts) by (apply nodup_app in N; tauto).
  assert (Nl : ~ In l atts).
  { intro H. apply nodup_app in N. destruct N as (_ & _ & D). apply (D l H). simpl. auto. }
  unfold sadd, add_attribute.
  destruct (idx_get idx (attr_name (deref h l))) as [i|] eqn:E.
  - rewrite nth_error_map. destruct (nth_error atts i) as [e|] eqn:Ee; cbn [option_map].
    2:{ split; [|split; [|split]]; auto.
        - rewrite set_nth_over; [reflexivity|]. rewrite nth_error_map, Ee. reflexivity.
        - intros; apply in_or_app; auto. }
    assert (K : (map (deref h) (set_nth atts i l), idx) = (set_nth (map (deref h) atts) i (deref h l), idx) /\
      NoDup (set_nth atts i l) /\ (forall x, In x (set_nth atts i l) -> In x (atts ++ [l])) /\
      (forall x, ~ In x atts -> deref h x = deref h x)).
    { split; [|split; [|split]]; auto.
      - rewrite map_set_nth. reflexivity.
      - apply NoDup_nth_error. intros a b La Hab. rewrite set_nth_length in La.
        rewrite !(nth_set _ _ _ _ _ Ee) in Hab.
        destruct (Nat.eqb_spec a i) as [->|Ja], (Nat.eqb_spec b i) as [->|Jb]; auto.
        + exfalso. apply Nl. eapply nth_error_In. symmetry. exact Hab.
        + exfalso. apply Nl. eapply nth_error_In. exact Hab.
        + revert Hab. apply NoDup_nth_error; auto.
      - intros x Hx. apply In_nth_error in Hx. destruct Hx as [j Hj].
        rewrite (nth_set _ _ _ _ _ Ee) in Hj. apply in_or_app. destruct (j =? i).
        + injection Hj as ->. simpl. auto.
        + left. eapply nth_error_In; eauto. }
    destruct (deref h e) as [n1 v1|n1|n d vs] eqn:De; try exact K.
    destruct (deref h l) as [n2 v2|n2|n2 d2 vs2] eqn:Dl; try (rewrite <- Dl in *; exact K). clear K.
    assert (Le : e < length h) by (apply delim_bound; rewrite De; reflexivity).
    split; [|split; [|split]]; auto.
    + f_equal.
      clear - Na Ee Le. revert i Ee. induction atts as [|y l IH]; intros [|i] Ee; simpl in *; try discriminate.
      * injection Ee as ->. inversion Na; subst. f_equal.
        -- rewrite deref_set, Nat.eqb_refl by assumption. reflexivity.
        -- apply map_ext_in. intros z Hz. rewrite deref_set by assumption.
           destruct (Nat.eqb_spec z e) as [->|]; [contradiction|reflexivity].
      * inversion Na; subst. rewrite deref_set by assumption.
        destruct (Nat.eqb_spec y e) as [->|].
        -- exfalso. apply H1. eapply nth_error_In; eauto.
        -- f_equal. apply IH; auto.
    + intros; apply in_or_app; auto.
    + intros x Hx. rewrite deref_set by assumption. destruct (Nat.eqb_spec x e) as [->|]; auto.
      exfalso. apply Hx. eapply nth_error_In; eauto.
  - rewrite map_length, map_app. split; [|split; [|split]]; auto.
Qed.

Lemma sadd_pure_fold ds : forall h atts idx,
  NoDup (atts ++ ds) ->
  let '(h', atts', idx') := fold_left sadd ds (h, atts, idx) in
  (map (deref h') atts', idx') = fold_left add_attribute (map (deref h) ds) (map (deref h) atts, idx) /\
  (forall x, In x atts' -> In x (atts ++ ds)) /\
  (forall x, ~ In x (atts ++ ds) -> deref h' x = deref h x).
Proof.
  induction ds as [|d ds IH]; intros h atts idx N; cbn [fold_left map].
  - rewrite app_nil_r. auto.
  - assert (N1 : NoDup (atts ++ [d])).
    { change (d :: ds) with ([d] ++ ds) in N. rewrite app_assoc in N. apply nodup_app in N. tauto. }
    pose proof (sadd_pure h atts idx d N1) as S.
    destruct (sadd (h, atts, idx) d) as [[h1 a1] i1]. destruct S as (E1 & Na & In1 & C1).
    assert (N2 : NoDup (a1 ++ ds)).
    { change (d :: ds) with ([d] ++ ds) in N. rewrite app_assoc in N.
      apply nodup_app in N. destruct N as (_ & Nd & D).
      apply nodup_app. split; [|split]; auto. }
    specialize (IH h1 a1 i1 N2).
    destruct (fold_left sadd ds (h1, a1, i1)) as [[h2 a2] i2]. destruct IH as (E2 & In2 & C2).
    rewrite <- E1.
    assert (M : map (deref h1) ds = map (deref h) ds).
    { apply map_ext_in. intros x Hx. apply C1. intro Ha.
      apply nodup_app in N. destruct N as (_ & _ & D). apply (D x Ha). simpl. auto. }
    rewrite <- M. split; [exact E2|]. split.
    + intros x Hx. apply In2 in Hx. apply in_app_or in Hx. apply in_or_app. cbn.
      destruct Hx as [Hx|Hx]; [|auto]. apply In1 in Hx. apply in_app_or in Hx.
      destruct Hx as [|[<-|[]]]; auto.
    + intros x Hx. rewrite C2.
      * apply C1. intro Ha. apply Hx. apply in_or_app. auto.
      * intro Ha. apply Hx. apply in_app_or in Ha. apply in_or_app. cbn.
        destruct Ha as [Ha|Ha]; [|auto]. apply In1 in Ha. apply in_app_or in Ha.
        destruct Ha as [|[<-|[]]]; auto.
Qed.

End Facts.
