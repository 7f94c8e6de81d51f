(** C31: building an element and the nodes that existed before. *)
From Coq Require Import Permutation ZArith.
From Verif Require Import Bytes IO Nodes Values Render Slices Build NodeInd IOFacts RenderFacts
  SpecOut AttrFacts SpecRun Demo Sharing SharingFacts Strip LinearFacts.

Section PropSharing.
Context {W : UserWorld}.

(** The element step of a history appends to the values of location [x]: the
    attribute [x] is declared for the element, is delimited, and is followed by
    another delimited attribute of the same name. *)
Fixpoint touches (l : list step) (st : heap * list snode) (x : loc) : Prop :=
  match l with
  | [] => False
  | s :: l' =>
      (match s with
       | MElement _ _ is => merged_into (fst st) (flat_map declared (pick (snd st) is)) x
       | _ => False
       end) \/
      touches l' (let '(h', n) := make s (fst st) (snd st) in (h', snd st ++ [n])) x
  end.

(** ** Locations in use are allocated *)

Definition bounded (st : heap * list snode) : Prop :=
  forall n l, In n (snd st) -> In l (refs n) -> l < length (fst st).

Lemma sadd_atts ds : forall h atts idx,
  forall x, In x (snd (fst (fold_left sadd ds (h, atts, idx)))) -> In x (atts ++ ds).
Proof.
  induction ds as [|d ds IH]; intros h atts idx x; cbn [fold_left].
  - cbn. rewrite app_nil_r. auto.
  - unfold sadd at 2.
    assert (K : forall h1 a1 i1, (forall y, In y a1 -> In y atts \/ y = d) ->
      In x (snd (fst (fold_left sadd ds (h1, a1, i1)))) -> In x (atts ++ d :: ds)).
    { intros h1 a1 i1 H L. apply IH in L. apply in_app_or in L. apply in_or_app. cbn.
      destruct L as [L|L]; [|auto]. destruct (H x L) as [|Q]; auto. }
    assert (Hs : forall i y, In y (set_nth atts i d) -> In y atts \/ y = d).
    { clear. induction atts as [|a atts IH]; intros [|i] y; cbn; auto.
      - intros [->|H]; auto.
      - intros [->|H]; auto. destruct (IH i y H); auto. }
    destruct (idx_get idx (attr_name (deref h d))) as [i|].
    + destruct (nth_error atts i) as [e|]; [|apply K; auto].
      destruct (deref h e); try (apply K; apply Hs).
      destruct (deref h d); try (apply K; apply Hs). apply K. auto.
    + apply K. intros y Hy. apply in_app_or in Hy. destruct Hy as [|[<-|[]]]; auto.
Qed.

Lemma build_refs void name items h l :
  In l (refs (snd (build void name items h))) -> In l (flat_map refs items).
Proof.
  unfold build.
  pose proof (scollect_all_spec items []) as SP.
  destruct (scollect_all nil_slice items []) as [[ds cs] m]. destruct SP as [Hds Hperm].
  pose proof (sadd_atts ds h [] []) as SA.
  destruct (fold_left sadd ds (h, [], [])) as [[h' atts] idx]. cbn [fst snd app] in *.
  assert (S : In l ds \/ In l (map fst cs) -> In l (flat_map refs items)).
  { intro K. assert (Q : In l (flat_map surface items)).
    { eapply Permutation_in; [exact Hperm|]. apply in_or_app. exact K. }
    apply in_flat_map in Q. destruct Q as (x & Hx & Lx). apply in_flat_map. exists x. split; auto.
    apply surface_refs. exact Lx. }
  assert (Fst : map fst (map (fun p => (fst p, slice_elems m (snd p))) cs) = map fst cs).
  { rewrite map_map. reflexivity. }
  destruct void; cbn [refs]; rewrite Fst; intro L; apply in_app_or in L; destruct L as [L|L]; auto.
  apply in_app_or in L. destruct L as [L|L]; auto. apply others_in. exact L.
Qed.

Lemma build_length void name items h : length (fst (build void name items h)) = length h.
Proof.
  unfold build. destruct (scollect_all nil_slice items []) as [[ds cs] m].
  pose proof (sadd_length ds (h, [], [])) as SL.
  destruct (fold_left sadd ds (h, [], [])) as [[h' atts] idx]. exact SL.
Qed.

Lemma make_bounded s st :
  bounded st -> let '(h', n) := make s (fst st) (snd st) in bounded (h', snd st ++ [n]).
Proof.
  destruct st as [h ns]. intro Bd. unfold bounded in *. cbn [fst snd] in *.
  assert (P : forall is l, In l (flat_map refs (pick ns is)) -> l < length h).
  { intros is l L. apply in_flat_map in L. destruct L as (x & Hx & Lx). apply pick_in in Hx.
    destruct Hx as (i & _ & E). apply nth_error_In in E. eauto. }
  assert (Po : forall is l, In l (flat_map refs (others_of (pick ns is))) -> l < length h).
  { intros is l L. apply others_in in L. eauto. }
  assert (New : forall n, (forall l, In l (refs n) -> l < length h) ->
    forall n' l, In n' (ns ++ [n]) -> In l (refs n') -> l < length h).
  { intros n Hn n' l Hi Hl. apply in_app_or in Hi. destruct Hi as [Hi|[<-|[]]]; eauto. }
  destruct s as [a|x|is|f is|void name is|f is|f is|x is]; cbn [make].
  - intros n l Hi Hl. rewrite app_length. cbn. apply in_app_or in Hi. destruct Hi as [Hi|[<-|[]]].
    + specialize (Bd n l Hi Hl). lia.
    + destruct Hl as [<-|[]]. lia.
  - apply New. intros l [].
  - apply New. cbn [refs]. eauto.
  - apply New. cbn [refs]. intros l L. apply in_app_or in L. destruct L as [L|L]; eauto.
    apply (P is). unfold sattrs_of in L. apply in_flat_map in L. destruct L as (y & Hy & Ly).
    apply in_flat_map. exists y. split; auto. destruct y; try destruct Ly. left. auto. destruct H.
  - pose proof (build_length void name (pick ns is) h) as BL.
    pose proof (build_refs void name (pick ns is) h) as BR.
    destruct (build void name (pick ns is) h) as [h' n]. cbn [fst snd] in *. rewrite BL.
    apply New. eauto.
  - apply New. cbn [refs]. eauto.
  - apply New. cbn [refs]. eauto.
  - apply New. cbn [refs]. eauto.
Qed.

Lemma history_bounded l : forall st, bounded st -> bounded (history l st).
Proof.
  induction l as [|s l IH]; intros st H; [exact H|]. cbn [history].
  pose proof (make_bounded s st H) as M. destruct (make s (fst st) (snd st)) as [h' n]. auto.
Qed.
Lemma bounded_start : bounded ([], []). Proof. intros n l []. Qed.

(** ** One construction *)

(** What is declared twice is all that changes: an attribute keeps its value
    unless it is delimited and a later one of the same name is given to the
    same element. *)
Lemma make_frame s (h : heap) ns x :
  x < length h ->
  deref (fst (make s h ns)) x = deref h x \/
  match s with
  | MElement _ _ is => merged_into h (flat_map declared (pick ns is)) x
  | _ => False
  end.
Proof.
  intro L. destruct s as [a|y|is|f is|void name is|f is|f is|y is]; cbn [make fst]; auto.
  - left. unfold deref. rewrite app_nth1 by assumption. reflexivity.
  - unfold build. pose proof (scollect_all_spec (pick ns is) []) as SP.
    destruct (scollect_all nil_slice (pick ns is) []) as [[ds cs] m]. destruct SP as [<- _].
    assert (F0 : fits h [] []) by (intros nm i e H; discriminate).
    assert (R0 : in_range [] []) by (intros nm i H; discriminate).
    destruct (sadd_frame ds h [] [] F0 R0 x) as (_ & _ & K).
    destruct (fold_left sadd ds (h, [], [])) as [[h' atts] idx]. exact K.
Qed.

(** C31, for every history of constructions with any sharing: a node renders
    what it rendered before, in every environment, unless one of its attributes
    had a further delimited attribute of the same name appended to it.
    Missing: that case, for which the statement is false (C31_refuted). *)
Theorem C31_unaffected_partial l1 l2 n fr e E w :
  let st := history l1 ([], []) in
  In n (snd st) ->
  (forall x, In x (refs n) -> ~ touches l2 st x) ->
  run E (render (read (fst (history l2 st)) n) fr e) w =
  run E (render (read (fst st) n) fr e) w.
Proof.
  intros st Hn Ht.
  assert (R : read (fst (history l2 st)) n = read (fst st) n); [|rewrite R; reflexivity].
  apply read_refs. intros x Hx.
  assert (Bd : bounded st) by (apply history_bounded, bounded_start).
  specialize (Ht x Hx). pose proof (Bd n x Hn Hx) as L. clearbody st. clear Hn Hx n Bd.
  revert st Ht L. induction l2 as [|s l IH]; intros st Ht L; [reflexivity|].
  cbn [history touches] in *.
  pose proof (make_frame s (fst st) (snd st) x L) as F.
  assert (Len : length (fst st) <= length (fst (make s (fst st) (snd st)))).
  { destruct s as [a|y|is|f is|void name is|f is|f is|y is]; cbn [make fst]; auto.
    - rewrite app_length. lia.
    - rewrite build_length. auto. }
  destruct (make s (fst st) (snd st)) as [h' m]. cbn [fst snd] in *.
  rewrite IH; cbn [fst].
  - destruct F as [F|F]; auto. exfalso. apply Ht. left. exact F.
  - intro K. apply Ht. right. exact K.
  - lia.
Qed.

(** A history in which no element is given two delimited attributes of the same
    name changes nothing that was built before. *)
Theorem C31_no_repeats_partial l1 l2 n fr e E w :
  let st := history l1 ([], []) in
  In n (snd st) -> (forall x, ~ touches l2 st x) ->
  run E (render (read (fst (history l2 st)) n) fr e) w =
  run E (render (read (fst st) n) fr e) w.
Proof. intros st Hn Ht. apply C31_unaffected_partial; auto. Qed.

(** Attributes that are used once.  [flat_map args l] lists all arguments of
    all calls. *)
Definition unshared (l : list step) : Prop :=
  forall i n, nth_error (snd (history l ([], []))) i = Some n -> surface n <> [] ->
  count_occ Nat.eq_dec (flat_map args l) i <= 1.

(** When every node that carries attributes is passed to one constructor at
    most, every other node renders as if nodes were values that nobody can
    change (the model used for all other claims).
    Missing: attribute-carrying nodes passed to more than one constructor. *)
Theorem C31_unshared_partial l i n p fr e E w :
  unshared l ->
  nth_error (snd (history l ([], []))) i = Some n ->
  nth_error (history_pure l []) i = Some p ->
  is_attr p = false ->
  run E (render (read (fst (history l ([], []))) n) fr e) w = run E (render p fr e) w.
Proof.
  intros U Hn Hp A.
  pose proof (Inv_history l [] [] [] [] Inv_start U) as I. cbn [app] in I.
  pose proof (i_strip _ _ _ _ I i n p Hn Hp) as S.
  pose proof (i_neat _ _ _ _ I i p Hp) as Np.
  apply strip_same; auto.
  - rewrite <- strip_attr. etransitivity; [exact (f_equal is_attr S)|]. rewrite strip_attr. exact A.
  - rewrite <- neat_strip. etransitivity; [exact (f_equal neat S)|]. rewrite neat_strip. exact Np.
Qed.

Lemma history_pure_app l1 l2 ps : history_pure (l1 ++ l2) ps = history_pure l2 (history_pure l1 ps).
Proof. revert ps; induction l1; intro ps; cbn; auto. Qed.
Lemma history_app l1 l2 st : history (l1 ++ l2) st = history l2 (history l1 st).
Proof.
  revert st; induction l1 as [|s l1 IH]; intro st; cbn [app history]; auto.
  destruct (make s (fst st) (snd st)). auto.
Qed.
Lemma history_pure_grows l : forall ps, exists extra, history_pure l ps = ps ++ extra.
Proof.
  induction l as [|s l IH]; intro ps; cbn [history_pure].
  - exists []. symmetry. apply app_nil_r.
  - destruct (IH (ps ++ [make_pure s ps])) as [ex E]. exists (make_pure s ps :: ex).
    rewrite E, <- app_assoc. reflexivity.
Qed.
Lemma history_length l : forall st, length (snd (history l st)) = length (snd st) + length l.
Proof.
  induction l as [|s l IH]; intro st; cbn [history length]; [lia|].
  destruct (make s (fst st) (snd st)) as [h n]. rewrite IH. cbn. rewrite app_length. cbn. lia.
Qed.
Lemma history_pure_length l : forall ps, length (history_pure l ps) = length ps + length l.
Proof.
  induction l as [|s l IH]; intro ps; cbn [history_pure length]; [lia|].
  rewrite IH, app_length. cbn. lia.
Qed.
Lemma flat_map_count l1 l2 i :
  count_occ Nat.eq_dec (flat_map args l1) i <= count_occ Nat.eq_dec (flat_map args (l1 ++ l2)) i.
Proof. rewrite flat_map_app, count_occ_app. lia. Qed.

(** So further constructions leave what was built before alone. *)
Theorem C31_history_partial l1 l2 i n fr e E w :
  unshared (l1 ++ l2) ->
  nth_error (snd (history l1 ([], []))) i = Some n ->
  is_sattr n = false ->
  run E (render (read (fst (history (l1 ++ l2) ([], []))) n) fr e) w =
  run E (render (read (fst (history l1 ([], []))) n) fr e) w.
Proof.
  intros U Hn A.
  destruct (history_grows l2 (history l1 ([], []))) as [ex Ex].
  assert (Li : i < length (snd (history l1 ([], [])))) by (apply nth_error_Some; congruence).
  assert (Hn2 : nth_error (snd (history (l1 ++ l2) ([], []))) i = Some n).
  { rewrite history_app, Ex, nth_error_app1; auto. }
  assert (U1 : unshared l1).
  { intros j m Hj Hm. rewrite (flat_map_count l1 l2 j). apply (U j m); auto.
    rewrite history_app, Ex, nth_error_app1; auto. apply nth_error_Some. congruence. }
  rewrite history_length in Li. cbn in Li.
  destruct (nth_error (history_pure l1 []) i) as [p|] eqn:Hp.
  2:{ apply nth_error_None in Hp. rewrite history_pure_length in Hp. cbn in Hp. lia. }
  destruct (history_pure_grows l2 (history_pure l1 [])) as [ey Ey].
  assert (Hp2 : nth_error (history_pure (l1 ++ l2) []) i = Some p).
  { rewrite history_pure_app, Ey, nth_error_app1; auto. rewrite history_pure_length. cbn. lia. }
  assert (Ap : is_attr p = false).
  { pose proof (Inv_history l1 [] [] [] [] Inv_start U1) as I. cbn [app] in I.
    pose proof (i_strip _ _ _ _ I i n p Hn Hp) as S.
    rewrite <- strip_attr. etransitivity; [exact (f_equal is_attr (eq_sym S))|]. rewrite strip_attr. destruct n as [|[]| | | | | | |]; try reflexivity. discriminate. }
  rewrite (C31_unshared_partial (l1 ++ l2) i n p fr e E w U Hn2 Hp2 Ap).
  rewrite (C31_unshared_partial l1 i n p fr e E w U1 Hn Hp Ap). reflexivity.
Qed.

End PropSharing.

(** ** Concrete histories *)

Definition cls (s : string) : step :=
  MAttr (ADelim (B "class") (B " ") [Val (B s) None []]).

(** [c := Class("a"); d1 := Div(c); d2 := Div(c, Class("b"))]. *)
Definition shared_class : list (@step demo) :=
  [cls "a"; MElement false (B "div") [0]; cls "b"].
Definition shared_class_use : list (@step demo) := [MElement false (B "div") [0; 2]].

Definition after (l : list (@step demo)) (s : @heap demo * list (@snode demo)) (i : nat) : bytes :=
  match nth_error (snd s) i with
  | Some n => fst (page listed (read (fst (history l s)) n) fr0 (st 0, 0))
  | None => []
  end.

(** The first div changes when the second one is built. *)
Theorem C31_refuted :
  exists (l1 l2 : list (@step demo)) i,
    let s := history l1 ([], []) in
    after [] s i = B "<div class=""a""></div>" /\
    after l2 s i = B "<div class=""a b""></div>".
Proof. exists shared_class, shared_class_use, 1. vm_compute. split; reflexivity. Qed.

(** One attribute given three times to one element: the value model has three
    copies, the code four. *)
Definition thrice : list (@step demo) := [cls "a"; MElement false (B "p") [0; 0; 0]].
Theorem C31_repeated_refuted :
  after [] (history thrice ([], [])) 1 = B "<p class=""a a a a""></p>" /\
  fst (page listed (nth 1 (history_pure thrice []) (NText [])) fr0 (st 0, 0)) =
  B "<p class=""a a a""></p>".
Proof. vm_compute. split; reflexivity. Qed.

(** The same attribute in two elements is harmless when nothing is appended. *)
Definition reuse : list (@step demo) :=
  [cls "a"; MElement false (B "div") [0]].
Definition reuse_more : list (@step demo) :=
  [MElement false (B "p") [0]; MElement true (B "hr") [0]].
Example reuse_is_fine :
  let s := history reuse ([], []) in
  (exists n, In n (snd s) /\ refs n = [0]) /\
  (forall x, ~ touches reuse_more s x) /\ after reuse_more s 1 = B "<div class=""a""></div>".
Proof.
  intro s. split; [|split].
  - exists (SElement (B "div") [0] [(B "class", 0)] [] []). vm_compute. split; auto.
  - intros x [H|[H|[]]]; cbn in H.
    all: destruct H as (b & d & a & H & L & _).
    all: destruct b as [|? [|]]; try discriminate; destruct L.
  - vm_compute. reflexivity.
Qed.

(** Attributes used once each; the elements are shared freely.  The class of
    the first element is appended to, through a collection. *)
Definition once_each : list (@step demo) :=
  [cls "a"; cls "b"; MCollection [1]; MElement false (B "b") [0; 2];
   MElement false (B "div") [3; 3]; MLeaf (LText [Val (B "x") None []])].
Definition once_more : list (@step demo) :=
  [cls "c"; MConditional (fun _ u => (true, u)) [6]; MElement false (B "p") [4; 7; 5; 5]].
Lemma once_each_unshared : unshared (once_each ++ once_more).
Proof.
  intros i n Hi Hs.
  assert (L : i < 9).
  { change 9 with (length (snd (history (once_each ++ once_more) ([], [])))).
    apply nth_error_Some. congruence. }
  do 9 (destruct i as [|i]; [vm_compute in Hi; injection Hi as <-; vm_compute in *; try lia; congruence|]).
  lia.
Qed.
Example once_each_page :
  after [] (history (once_each ++ once_more) ([], [])) 8 =
  B "<p class=""c""><div><b class=""a b""></b><b class=""a b""></b></div>xx</p>".
Proof. vm_compute. reflexivity. Qed.
