(** Programs of the user (Programs.v), as Go programs: sequences of calls of the
    translated source.  Each call does what the model says. *)
From Coq Require Import ZArith Lia.
From Verif Require Import Bytes IO IOFacts Nodes NodeInd Values Render Build Packages SpecOut AttrFacts Slices Sharing SharingFacts Programs ProgramFacts
  GoSyntax Source GoSem GoRun GoRep GoStep GoOwn RefineNode RefineUser RefineIter RefineAttrs RefineStart RefineNew RefineMake RefineGroup GoShare RefineCollect RefineBuild RefineAdd RefineNewElement RefineVariadic RefineStyle RefineDocument RefineAll.
Local Open Scope nat_scope.
Local Notation "x <-- p ;; q" := (pbind p (fun x => q))
  (at level 100, p at next level, right associativity).

Section Calls.
Context {W : UserWorld}.
Variable M : go_mode.
Hypothesis MO : mode_ok M.
Notation C := (go_config M).
Notation sim := (sim C).

(** ** The Go program

    [vs] and [ys] are the nodes and the values there are. *)
Definition item_gv (vs ys : list gv) (x : item) : gv :=
  match x with
  | INode i => nth i vs VNil
  | IVal i => nth i ys VNil
  | IData g => any_of g
  | IDyn f => VDyn f
  | IKey k => VKey k
  end.
Definition fun_gv {F} (mk : F -> gv) (f : option F) : gv := match f with Some f => mk f | None => VNil end.
(** A slice of the arguments, or nil if there are none. *)
Definition args_slice (xs : list gv) : prog gv := match xs with [] => PRet VNil | _ => new_slice xs end.
Definition go_make (c : kcall) (vs ys : list gv) : prog (list gv) :=
  let items := map (item_gv vs ys) in
  let mems := map (fun i => nth i vs VNil) in
  let go f args := PCall (CFun f) args false PRet in
  match c with
  | KText xs => go "aitch.Text"%string (items xs)
  | KComment xs => go "aitch.Comment"%string (items xs)
  | KFragment xs => go "aitch.Fragment"%string (items xs)
  | KPI name xs => go "aitch.PI"%string (VStr name :: items xs)
  | KDocType => go "aitch.DocType"%string []
  | KAttribute name xs => go "aitch.Attribute"%string (VStr name :: items xs)
  | KNewAttribute name xs => go "aitch.NewAttribute"%string (VBytes name :: items xs)
  | KBoolean name => go "aitch.BooleanAttribute"%string [VStr name]
  | KNewBoolean name => go "aitch.NewBooleanAttribute"%string [VBytes name]
  | KDelimited name d xs => go "aitch.DelimitedAttribute"%string (VStr name :: VStr d :: items xs)
  | KNewDelimited name d xs => go "aitch.NewDelimitedAttribute"%string (VBytes name :: VBytes d :: items xs)
  | KElement name xs => go "aitch.Element"%string (VStr name :: items xs)
  | KVoidElement name xs => go "aitch.VoidElement"%string (VStr name :: items xs)
  | KNewElement name xs => go "aitch.NewElement"%string (VBytes name :: items xs)
  | KNewVoidElement name xs => go "aitch.NewVoidElement"%string (VBytes name :: items xs)
  | KCollection is => go "aitch.Collection"%string (mems is)
  | KConditional f is => go "aitch.Conditional"%string (fun_gv VCond f :: mems is)
  | KWhen key is => go "aitch.When"%string (VStr key :: mems is)
  | KIterate f is => go "aitch.Iterate"%string (fun_gv VItems f :: mems is)
  | KIterateKey key is => go "aitch.IterateKey"%string (VStr key :: mems is)
  | KIterateYield p is => go "aitch.IterateYield"%string (fun_gv VYield p :: mems is)
  | KContentCollect f => go "aitch.ContentCollect"%string [fun_gv VNodes f]
  | KImperative p => go "aitch.Imperative"%string [fun_gv VImper p]
  | KDocument lang head body =>
      hv <-- args_slice (items head);;
      bv <-- args_slice (items body);;
      go "html.Document"%string [item_gv vs ys lang; hv; bv]
  | KStyleProp property xs => go "css.styleAttribute"%string (VBytes property :: items xs)
  end.

(** ** Variadic parameters *)

Lemma builds_variadic ls h f fixed xs r : takes M f (length fixed) ->
  builds M ls (PCall (CFun f) (fixed ++ [pack h xs]) true PRet) (packed h xs) r ->
  builds M ls (PCall (CFun f) (fixed ++ xs) false PRet) h r.
Proof.
  intros T H E w O. specialize (H E w O). destruct (r (w_u w)) as [[[sh' n] u']|].
  - destruct H as (fuel & v & h' & x & R & H1 & H2 & H3 & H4). exists (S fuel), v, h', x. split; [apply run_variadic; auto|].
    split; [exact H1|]. split; [|split; [|exact H4]].
    + intros l Hl. specialize (H2 l Hl). pose proof (grown_length _ _ (packed_grown h xs)). lia.
    + eapply changes_trans; [apply changes_grown, (packed_grown h xs)|exact H3].
  - destruct H as (fuel & w' & R). exists (S fuel), w'. apply run_variadic; auto.
Qed.

(** ** Leaves, attributes, groups *)

Lemma builds_leaf ls h sh p (mk : U -> node U * U) (mk' : U -> leaf * U) : sinv M ls h sh ->
  sim p h (cb mk) (returns M h) -> (forall u, mk u = (read_leaf (fst (mk' u)), snd (mk' u))) ->
  builds M ls p h (kalways (fun u => let '(x, u') := mk' u in ((sh, SLeaf x), u'))).
Proof.
  intros I H K E w O. destruct (sim_never _ _ _ _ _ H E w O) as (n & a & h' & RR & v & -> & H1 & H2).
  unfold cb, kalways in *. cbn [run] in *. rewrite K in RR, H1. destruct (mk' (w_u w)) as [x u']. cbn [run fst snd] in *.
  exists n, v, h', []. rewrite app_nil_r. split; [exact RR|]. split; [eapply sinv_grown; eauto|]. split; [intros l []|].
  split; [apply changes_grown, H2|exact H1].
Qed.
Lemma builds_does ls h sh p (x : leaf) : sinv M ls h sh -> does M p h (just (Done (read_leaf x))) -> builds M ls p h (kgroup sh (Done (SLeaf x))).
Proof.
  intros I H E w O. destruct (H E w O) as (n & v & h' & RR & H1 & H2). cbn [kgroup].
  exists n, v, h', []. rewrite app_nil_r. split; [exact RR|]. split; [eapply sinv_grown; eauto|]. split; [intros l []|].
  split; [apply changes_grown, H2|exact H1].
Qed.
Lemma builds_empty ls h sh p : sinv M ls h sh -> does M p h (just (Done (NCollection []))) -> builds M ls p h (kgroup sh (Done (SCollection []))).
Proof.
  intros I H E w O. destruct (H E w O) as (n & v & h' & RR & H1 & H2). cbn [kgroup].
  exists n, v, h', []. rewrite app_nil_r. split; [exact RR|]. split; [eapply sinv_grown; eauto|]. split; [intros l []|].
  split; [apply changes_grown, H2|]. cbn [opt_of node_rep srep] in *. destruct H1 as (l & -> & sv & xs & H3 & H4 & H5). exists l, sv, xs. auto.
Qed.

Definition of_attr (sh : Sharing.heap) (r : outcome (option (node U) * U)) : outcome ((Sharing.heap * option snode) * U) :=
  match r with
  | Done (Some (NAttr a), u) => Done ((sh ++ [a], Some (SAttr (length sh))), u)
  | Done (_, u) => Done ((sh, None), u)
  | Panic => Panic
  end.
Lemma builds_attr ls h sh p r : sinv M ls h sh -> does_of M (new_attr M h) p h r -> builds M ls p h (fun u => of_attr sh (r u)).
Proof.
  intros I H E w O. specialize (H E w O). destruct (r (w_u w)) as [[n u']|]; [|exact H]. destruct H as (fuel & v & h' & RR & H1 & H2).
  destruct n as [n|]; cbn [opt_of] in H1.
  - destruct H1 as (l & a & -> & -> & Hl & Ha & Ht). cbn [of_attr]. exists fuel, (VPtr l), h', [l]. split; [exact RR|].
    split; [eapply sinv_attr; eauto|]. split; [intros x [<-|[]]; exact Hl|]. split; [apply changes_grown, H2|].
    cbn [opt_of srep]. exists l. split; [|reflexivity]. rewrite <- (si_len _ _ _ _ I). rewrite nth_error_app2, Nat.sub_diag by auto. reflexivity.
  - subst v. cbn [of_attr]. exists fuel, VNil, h', []. rewrite app_nil_r. split; [exact RR|]. split; [eapply sinv_grown; eauto|]. split; [intros l []|].
    split; [apply changes_grown, H2|reflexivity].
Qed.

Definition sgroup (g : group snode) : snode :=
  match g with
  | GColl ns => SCollection ns
  | GCond f ats ns => SConditional f (sattrs_of ats) ns
  | GIter f ns => SIter f ns
  | GYield p ns => SYield p ns
  end.
Lemma sgroup_rep ls h h' sh v g : grown h h' -> made_of M (read sh) (srep M ls h) h' v g -> srep M ls h' v (sgroup g).
Proof.
  intro G. assert (SR : forall v n, srep M ls h v n -> srep M ls h' v n) by (intros; eapply srep_grown; eauto).
  destruct g; cbn [made_of sgroup srep].
  - intros (l & sv & xs & -> & H1 & H2 & H3). exists l, sv, xs. split; [auto|]. split; [auto|]. split; [auto|]. eapply all2_mono; eauto.
  - intros (l & sv & av & fv & xs & zs & -> & H1 & H2 & H3 & H4 & H5 & H6). exists l, sv, av, fv, xs, zs. split; [auto|]. split; [auto|]. split; [auto|].
    split; [eapply all2_mono; eauto|]. split; [auto|]. split; [|auto]. clear H4 H1.
    revert zs H5. induction ats as [|a ats IH]; intros zs H5; cbn [all2] in H5; [subst; reflexivity|].
    destruct H5 as (z & zs' & -> & (Hz & Ha) & Hr). rewrite read_is_attr in Ha. destruct a; try discriminate Ha.
    cbn [sattrs_of flat_map app all2]. exists z, zs'. split; [reflexivity|]. split; [exact Hz|]. apply IH, Hr.
  - intros (l & sv & fv & xs & -> & H1 & H2 & H3 & H4). exists l, sv, fv, xs. split; [auto|]. split; [auto|]. split; [auto|]. split; [eapply all2_mono; eauto|auto].
  - intros (l & sv & xs & -> & H1 & H2 & H3). exists l, sv, xs. split; [auto|]. split; [auto|]. split; [auto|]. eapply all2_mono; eauto.
Qed.
Lemma builds_group ls h sh p r r' : sinv M ls h sh -> does_of M (made_of M (read sh) (srep M ls h)) p h (just r) -> r' = gmap sgroup r ->
  builds M ls p h (kgroup sh r').
Proof.
  intros I H -> E w O. specialize (H E w O). destruct r as [g|]; [|exact H]. cbn [just gmap kgroup] in *. destruct H as (fuel & v & h' & RR & H1 & H2).
  exists fuel, v, h', []. rewrite app_nil_r. split; [exact RR|]. split; [eapply sinv_grown; eauto|]. split; [intros l []|].
  split; [apply changes_grown, H2|]. eapply sgroup_rep; eauto.
Qed.
Lemma g_sattrs (sh : Sharing.heap) l : sattrs_of (g_attrs (read sh) l) = sattrs_of l.
Proof.
  unfold g_attrs. induction l as [|n l IH]; [reflexivity|]. cbn [filter]. rewrite read_is_attr. destruct n; cbn [is_sattr sattrs_of flat_map app]; try exact IH.
  f_equal. exact IH.
Qed.
Lemma g_sothers (sh : Sharing.heap) l : g_others (read sh) l = others_of l.
Proof. unfold g_others, others_of. apply filter_ext. intro n. rewrite read_is_attr. reflexivity. Qed.
Lemma k_cond (sh : Sharing.heap) f l : kcond f l = gmap sgroup (gConditional (read sh) (Some f) l).
Proof. unfold kcond, kall, gConditional, g_all. destruct (all_some l); [|reflexivity]. cbn [gmap sgroup]. rewrite g_sattrs, g_sothers. reflexivity. Qed.

(** ** Arguments *)

(** The results so far. *)
Record krep (ls : list loc) (h : heap) (s : kstate) (vs ys : list gv) : Prop := {
  kr_inv : sinv M ls h (k_heap s);
  kr_nodes : all2 (opt_of (srep M ls h)) vs (k_nodes s);
  kr_vals : all2 (val_rep M h) ys (k_vals s)
}.
Lemma all2_nth {X Y} (R : X -> Y -> Prop) d e : R d e -> forall ys xs i, all2 R xs ys -> R (nth i xs d) (nth i ys e).
Proof.
  intro D. induction ys as [|y ys IH]; intros xs i H; cbn [all2] in H; [subst; destruct i; exact D|].
  destruct H as (x & xs' & -> & H1 & H2). destruct i; cbn [nth]; auto.
Qed.
Lemma all2_maps {X Y Z} (R : X -> Y -> Prop) (f : Z -> X) (g : Z -> Y) : (forall z, R (f z) (g z)) -> forall l, all2 R (map f l) (map g l).
Proof. intro H. induction l as [|z l IH]; cbn [map all2]; [reflexivity|]. eexists _, _. split; [reflexivity|]. auto. Qed.

Lemma node_arg ls h s vs ys i : krep ls h s vs ys -> opt_of (srep M ls h) (nth i vs VNil) (node_at (k_nodes s) i).
Proof. intro K. apply all2_nth; [reflexivity|apply (kr_nodes _ _ _ _ _ K)]. Qed.
Lemma all2_nth_opt {Y} (R : gv -> Y -> Prop) : forall ys xs i, all2 R xs ys ->
  match nth_error ys i with Some y => R (nth i xs VNil) y | None => nth i xs VNil = VNil end.
Proof.
  induction ys as [|y ys IH]; intros xs i H; cbn [all2] in H; [subst; destruct i; reflexivity|].
  destruct H as (x & xs' & -> & H1 & H2). destruct i; cbn [nth nth_error]; auto. apply IH, H2.
Qed.
Lemma nil_arg h : arg_rep M h VNil (AData GNil).
Proof. left. reflexivity. Qed.
Lemma item_rep ls h s vs ys x : krep ls h s vs ys -> arg_rep M h (item_gv vs ys x) (item_arg (k_heap s) (k_nodes s) (k_vals s) x).
Proof.
  intro K. destruct x as [i|i|g|f|k]; cbn [item_gv item_arg].
  - pose proof (node_arg _ _ _ _ _ i K) as H. destruct (node_at (k_nodes s) i) as [n|]; cbn [opt_of] in H; [|rewrite H; apply nil_arg].
    cbn [arg_rep]. eapply srep_read; [apply (kr_inv _ _ _ _ _ K)|exact H].
  - pose proof (all2_nth_opt _ _ _ i (kr_vals _ _ _ _ _ K)) as H. destruct (nth_error (k_vals s) i); [exact H|]. rewrite H. apply nil_arg.
  - left. reflexivity.
  - reflexivity.
  - reflexivity.
Qed.
Lemma items_rep ls h s vs ys xs : krep ls h s vs ys ->
  arg_list M (packed h (map (item_gv vs ys) xs)) (pack h (map (item_gv vs ys) xs)) (map (item_arg (k_heap s) (k_nodes s) (k_vals s)) xs).
Proof.
  intro K. eexists. split; [apply pack_slice|]. eapply all2_mono with (R := arg_rep M h); [intros v a; apply arg_grown, packed_grown|].
  apply all2_maps. intro x. eapply item_rep; eauto.
Qed.
Definition item_sarg (h : Sharing.heap) (ns : list (option snode)) (vals : list (value U)) (x : item) : sarg :=
  match x with
  | INode i => match node_at ns i with Some n => SNode n | None => SOther (AData GNil) end
  | _ => SOther (item_arg h ns vals x)
  end.
Lemma item_sarg_rep ls h s vs ys x : krep ls h s vs ys -> sarg_rep M ls h (item_gv vs ys x) (item_sarg (k_heap s) (k_nodes s) (k_vals s) x).
Proof.
  intro K. pose proof (item_rep ls h s vs ys x K) as HA. destruct x as [i|i|g|f|k]; cbn [item_gv item_sarg item_arg sarg_rep] in *; auto.
  - pose proof (node_arg _ _ _ _ _ i K) as H. destruct (node_at (k_nodes s) i) as [n|]; cbn [opt_of sarg_rep] in *; auto.
  - destruct (nth_error (k_vals s) i); auto.
Qed.
Lemma item_sargs sh ns vals xs u : scontents (map (item_sarg sh ns vals) xs) u = item_contents sh ns vals xs u.
Proof.
  revert u. induction xs as [|x xs IH]; intro u; cbn [map scontents item_contents]; [reflexivity|].
  assert (E : scontent (item_sarg sh ns vals x) u = item_content sh ns vals x u).
  { destruct x as [i|i|g|f|k]; cbn [item_sarg item_content item_arg]; try reflexivity. destruct (node_at ns i); reflexivity. }
  rewrite E. destruct (item_content sh ns vals x u) as [n u1]. rewrite IH. reflexivity.
Qed.
Lemma mems_rep ls h s vs ys is : krep ls h s vs ys ->
  list_of (srep M ls (packed h (map (fun i => nth i vs VNil) is))) (packed h (map (fun i => nth i vs VNil) is)) (pack h (map (fun i => nth i vs VNil) is)) (map (node_at (k_nodes s)) is).
Proof.
  intro K. eexists. split; [apply pack_slice|]. eapply all2_mono with (R := opt_of (srep M ls h)); [|apply all2_maps; intro i; eapply node_arg; eauto].
  intros v [n|]; cbn [opt_of]; auto. apply srep_grown, packed_grown.
Qed.

(** ** Documents *)

Lemma builds_document ls p h (mk : U -> (Sharing.heap * snode) * U) : sim p h (cb mk) (document_made M ls h) ->
  builds M ls p h (kalways mk).
Proof.
  intros H E w O. destruct (sim_never _ _ _ _ _ H E w O) as (n & a & h' & RR & v & x & -> & H1 & H2 & H3 & H4). unfold cb, kalways in *. cbn [run] in *.
  destruct (mk (w_u w)) as [[sh' nd] u']. cbn [run fst snd] in *. exists n, v, h', x. split; [exact RR|]. split; [exact H1|]. split; [exact H2|]. split; [exact H3|exact H4].
Qed.
Lemma simb_args_slice {A' B'} xs (f : gv -> prog A') h (m : io U B') Q :
  sim (f (pack h xs)) (packed h xs) m Q -> sim (pbind (args_slice xs) f) h m Q.
Proof. destruct xs as [|x xs]; cbn [args_slice pack packed]; [exact (fun K => K)|]. apply simb_new_slice. Qed.
Lemma kept_pack ls h sh xs args : sinv M ls h sh -> all2 (sarg_rep M ls h) xs args -> kept M ls (packed h xs) (pack h xs) args.
Proof.
  intros I H. exists xs. split; [apply pack_slice|]. split; [eapply all2_mono; [|exact H]; intros v a; apply sarg_grown, packed_grown|].
  destruct xs as [|x xs]; [exact Logic.I|]. cbn [pack packed free_at]. intros p sv Hp Hv. apply (vslice_grown M ls h _ sh) in Hv; [|exact I|apply grown_app|exact Hp].
  pose proof (si_spare _ _ _ _ I p sv Hp Hv) as Hs. destruct sv; cbn [not_at spare] in *; auto. destruct Hs as (cs & Hc & _). apply nth_lt in Hc. unfold loc in *. lia.
Qed.
Lemma kept_grown ls h h' sh v args : sinv M ls h sh -> grown h h' -> kept M ls h v args -> kept M ls h' v args.
Proof. intros I G. apply kept_changes; [apply changes_grown, G|eapply spares_grown; eauto]. Qed.
Lemma item_sarg_heap sh sh' ns vals x : item_sarg sh ns vals x = item_sarg sh' ns vals x.
Proof. destruct x; reflexivity. Qed.
Lemma kdocument_sargs sh ns vals lang head body u :
  sdocument (item_arg sh ns vals lang) (map (item_sarg sh ns vals) head) (map (item_sarg sh ns vals) body) sh u = kdocument sh ns vals lang head body u.
Proof.
  unfold sdocument, kdocument.
  assert (E1 : lang_step (item_arg sh ns vals lang) sh u = (let '(h1, langAtt, u1) := match item_arg sh ns vals lang with
    | AData GNil => (sh, None, u)
    | a => let '(vs, u') := new_values [a] u in (sh ++ [APlain (B "lang") vs], Some (SAttr (length sh)), u')
    end in ((h1, langAtt), u1))).
  { unfold lang_step. destruct (item_arg sh ns vals lang) as [n|x|f|k|g]; try (destruct (new_values _ u); reflexivity). destruct g; try reflexivity; destruct (new_values _ u); reflexivity. }
  rewrite E1. destruct (match item_arg sh ns vals lang with AData GNil => _ | _ => _ end) as [[h1 la] u1]. cbn [fst snd].
  assert (SC : forall h1 xs u, scontents (map (item_sarg sh ns vals) xs) u = item_contents h1 ns vals xs u).
  { intros h2 xs u0. rewrite <- item_sargs. f_equal. apply map_ext. intro. apply item_sarg_heap. }
  assert (E2 : head_step (map (item_sarg sh ns vals) head) h1 u1 = (let '(h2, headNode, u2) := match head with
    | [] => (h1, None, u1)
    | _ => let '(l, u') := item_contents h1 ns vals head u1 in let '(h', n) := build false (B "head") l h1 in (h', Some n, u')
    end in ((h2, headNode), u2))).
  { destruct head as [|x head]; [reflexivity|]. unfold head_step. change (map (item_sarg sh ns vals) (x :: head)) with (item_sarg sh ns vals x :: map (item_sarg sh ns vals) head).
    cbv iota. change (item_sarg sh ns vals x :: map (item_sarg sh ns vals) head) with (map (item_sarg sh ns vals) (x :: head)). unfold build_args. rewrite (SC h1).
    destruct (item_contents h1 ns vals (x :: head) u1) as [l u']. destruct (build _ _ l h1). reflexivity. }
  rewrite E2. destruct (match head with [] => _ | _ => _ end) as [[h2 hd] u2]. cbn [fst snd].
  unfold build_args at 1. rewrite (SC h2). destruct (item_contents h2 ns vals body u2) as [l u3]. destruct (build false (B "body") l h2) as [h3 bd]. cbn [fst snd].
  unfold doctype. destruct (new_values _ u3) as [vs u4].
  unfold build_args. change [opt_sarg la; opt_sarg hd; SNode bd] with (map (item_sarg h3 [la; hd; Some bd] []) [INode 0; INode 1; INode 2]). rewrite item_sargs.
  destruct (item_contents h3 _ _ _ u4) as [l' u5]. destruct (build false (B "html") l' h3). reflexivity.
Qed.
Lemma item_nil ls h s vs ys x : krep ls h s vs ys -> item_arg (k_heap s) (k_nodes s) (k_vals s) x = AData GNil -> item_gv vs ys x = VNil.
Proof.
  intro K. destruct x as [i|i|g|f|k]; cbn [item_gv item_arg].
  - pose proof (node_arg _ _ _ _ _ i K) as H. destruct (node_at (k_nodes s) i) as [n|]; cbn [opt_of] in H; [discriminate|auto].
  - pose proof (all2_nth_opt _ _ _ i (kr_vals _ _ _ _ _ K)) as H. destruct (nth_error (k_vals s) i); [discriminate|auto].
  - intro E. injection E as ->. reflexivity.
  - discriminate.
  - discriminate.
Qed.

(** ** One call *)
Ltac takes_it := eexists _, _, _; split; [reflexivity|reflexivity].
Ltac variadic fixed := apply (builds_variadic _ _ _ fixed); [takes_it|]; cbn [app].

Lemma new_values_leaf args (k : list (value U) -> leaf) (mk : list (value U) -> node U) u : (forall vs, read_leaf (k vs) = mk vs) ->
  (let '(vs, u') := new_values args u in (mk vs, u')) =
  (read_leaf (fst (let '(vs, u') := new_values args u in (k vs, u'))), snd (let '(vs, u') := new_values args u in (k vs, u'))).
Proof. intro H. destruct (new_values args u). cbn [fst snd]. rewrite H. reflexivity. Qed.

Theorem go_make_builds c ls h s vs ys : krep ls h s vs ys ->
  builds M ls (go_make c vs ys) h (kmake (m_panics M) c (k_heap s) (k_nodes s) (k_vals s)).
Proof.
  intro K. pose proof (kr_inv _ _ _ _ _ K) as I. destruct s as [sh ns vals out]. cbn [k_heap k_nodes k_vals] in *.
  assert (IP : forall xs, sinv M ls (packed h xs) sh) by (intro xs; eapply sinv_grown; [exact I|apply packed_grown]).
  assert (Leaf : forall p h1 args (k : list (value U) -> leaf) (mk : list (value U) -> node U),
    sinv M ls h1 sh -> (forall vs, read_leaf (k vs) = mk vs) ->
    sim p h1 (cb (fun u => let '(vs, u') := new_values args u in (mk vs, u'))) (returns M h1) ->
    builds M ls p h1 (kalways (fun u => let '(vs, u') := new_values args u in ((sh, SLeaf (k vs)), u')))).
  { intros p h1 args k mk I1 Hk H. eapply builds_eq; [|eapply (builds_leaf ls h1 sh p _ (fun u => let '(vs, u') := new_values args u in (k vs, u'))); [exact I1|exact H|]].
    - intro u. unfold kalways. destruct (new_values args u). reflexivity.
    - intro u. apply new_values_leaf, Hk. }
  assert (Att : forall p h1 args (k : list (value U) -> attr U), sinv M ls h1 sh ->
    sim p h1 (cb (fun u => let '(vs, u') := new_values args u in (NAttr (k vs), u'))) (returns_of (new_attr M h1) h1) ->
    builds M ls p h1 (kalways (fun u => let '(vs, u') := new_values args u in ((sh ++ [k vs], SAttr (length sh)), u')))).
  { intros p h1 args k I1 H. eapply builds_eq; [|eapply builds_attr; [exact I1|]; eapply does_node; exact H].
    intro u. unfold kalways. destruct (new_values args u). reflexivity. }
  assert (AttC : forall p h1 name args (k : list (value U) -> attr U), sinv M ls h1 sh ->
    does_of M (new_attr M h1) p h1 (checked (m_panics M) name (fun u => let '(vs, u') := new_values args u in (NAttr (k vs), u'))) ->
    builds M ls p h1 (kchecked (m_panics M) name sh (fun u => let '(vs, u') := new_values args u in ((sh ++ [k vs], SAttr (length sh)), u')))).
  { intros p h1 name args k I1 H. eapply builds_eq; [|eapply builds_attr; [exact I1|exact H]].
    intro u. unfold checked, kchecked. destruct (valid_name name); [destruct (new_values args u); reflexivity|]. destruct (m_panics M); reflexivity. }
  assert (SA : forall xs, all2 (sarg_rep M ls (packed h (map (item_gv vs ys) xs))) (map (item_gv vs ys) xs) (map (item_sarg sh ns vals) xs)).
  { intro xs. eapply all2_mono with (R := sarg_rep M ls h); [intros v a; apply sarg_grown, packed_grown|]. apply all2_maps. intro x. eapply (item_sarg_rep ls h (KState sh ns vals out)); eauto. }
  assert (BA : forall void name xs u, build_args void name (map (item_sarg sh ns vals) xs) sh u = (let '(l, u') := item_contents sh ns vals xs u in (Sharing.build void name l sh, u'))).
  { intros void name xs u. unfold build_args. rewrite item_sargs. reflexivity. }
  assert (Gr : forall xs, forall v y, srep M ls (packed h xs) v y -> node_rep M (packed h xs) v (read sh y)) by (intros xs v y; eapply srep_read; apply IP).
  assert (IR := items_rep ls h (KState sh ns vals out) vs ys). cbn [k_heap k_nodes k_vals] in IR.
  assert (MR := mems_rep ls h (KState sh ns vals out) vs ys). cbn [k_heap k_nodes k_vals] in MR.
  destruct c; cbn [go_make kmake].
  - variadic (@nil gv). eapply Leaf; [apply IP| |apply (Text_spec M MO), IR, K]. reflexivity.
  - variadic (@nil gv). eapply Leaf; [apply IP| |apply (Comment_spec M MO), IR, K]. reflexivity.
  - variadic (@nil gv). eapply Leaf; [apply IP| |apply (Fragment_spec M MO), IR, K]. reflexivity.
  - variadic [VStr name]. eapply Leaf; [apply IP| |apply (PI_spec M MO), IR, K]. reflexivity.
  - eapply Leaf; [exact I| |apply (DocType_spec M MO)]. reflexivity.
  - variadic [VStr name]. eapply AttC; [apply IP|]. apply (Attribute_made M MO), IR, K.
  - variadic [VBytes name]. eapply Att; [apply IP|]. apply (NewAttribute_spec M MO); [reflexivity|apply IR, K].
  - eapply builds_eq; [|eapply (AttC _ h name [] (fun _ => ABool name)); [exact I|]; apply BooleanAttribute_made]. reflexivity.
  - eapply builds_eq; [|eapply (Att _ h [] (fun _ => ABool name)); [exact I|]]; [reflexivity|]. cbn [new_values].
    eapply sim_cb_pure; [reflexivity|]. apply NewBooleanAttribute_spec. reflexivity.
  - variadic [VStr name; VStr delim]. eapply AttC; [apply IP|]. apply (DelimitedAttribute_made M MO), IR, K.
  - variadic [VBytes name; VBytes delim]. eapply Att; [apply IP|]. apply (NewDelimitedAttribute_spec M MO); [reflexivity|reflexivity|apply IR, K].
  - variadic [VStr name]. eapply builds_eq; [|eapply Element_builds; [exact MO|apply IP|apply pack_slice|apply SA]].
    intro u. unfold checked_build, kchecked. rewrite BA. reflexivity.
  - variadic [VStr name]. eapply builds_eq; [|eapply VoidElement_builds; [exact MO|apply IP|apply pack_slice|apply SA]].
    intro u. unfold checked_build, kchecked. rewrite BA. reflexivity.
  - variadic [VBytes name]. eapply builds_eq; [|eapply builds_element; eapply NewElement_spec; [exact MO|apply IP|reflexivity|apply pack_slice|apply SA]].
    intro u. unfold kalways. rewrite BA. reflexivity.
  - variadic [VBytes name]. eapply builds_eq; [|eapply builds_element; eapply NewVoidElement_spec; [exact MO|apply IP|reflexivity|apply pack_slice|apply SA]].
    intro u. unfold kalways. rewrite BA. reflexivity.
  - variadic (@nil gv). eapply builds_group; [apply IP|eapply Collection_made; [apply Gr|apply MR, K]|]. reflexivity.
  - variadic [fun_gv VCond f]. destruct f as [f|].
    + eapply builds_group; [apply IP|eapply Conditional_made with (fn := Some f); [apply Gr| |apply MR, K]|apply k_cond].
      split; [discriminate|]. apply cond_user.
    + eapply builds_group; [apply IP|eapply Conditional_made with (fn := None); [apply Gr|reflexivity|apply MR, K]|reflexivity].
  - variadic [VStr key]. eapply builds_group; [apply IP|eapply (When_made M MO); [apply Gr|apply MR, K]|].
    unfold gWhen. destruct (has_prefix _ _); apply k_cond.
  - variadic [fun_gv VItems f]. destruct f as [f|].
    + eapply builds_group; [apply IP|eapply Iterate_made with (fn := Some f); [apply Gr| |apply MR, K]|].
      * split; [discriminate|]. apply items_user.
      * unfold kall, gIterate, g_all. destruct (all_some _); [|reflexivity]. cbn [gmap sgroup]. rewrite g_sothers. reflexivity.
    + apply (builds_group ls _ sh _ Panic Panic); [apply IP| |reflexivity]. eapply Iterate_made with (fn := None); [apply Gr|reflexivity|apply MR, K].
  - variadic [VStr key]. eapply builds_group; [apply IP|eapply (IterateKey_made M MO); [apply Gr|apply MR, K]|].
    unfold kall, gIterateKey, g_all. destruct (all_some _); [|reflexivity]. cbn [gmap sgroup]. rewrite g_sothers. reflexivity.
  - variadic [fun_gv VYield p]. destruct p as [f|].
    + eapply builds_group; [apply IP|eapply IterateYield_made with (fn := Some f); [apply Gr| |apply MR, K]|].
      * split; [discriminate|reflexivity].
      * unfold kall, gIterateYield, g_all. destruct (all_some _); [|reflexivity]. cbn [gmap sgroup]. rewrite g_sothers. reflexivity.
    + apply (builds_group ls _ sh _ Panic Panic); [apply IP| |reflexivity]. eapply IterateYield_made with (fn := None); [apply Gr|reflexivity|apply MR, K].
  - destruct f as [f|].
    + apply builds_does; [exact I|]. apply (ContentCollect_spec M (VNodes f) (Some f)). split; [discriminate|reflexivity].
    + apply builds_empty; [exact I|]. apply (ContentCollect_spec M VNil None). reflexivity.
  - apply builds_does; [exact I|]. apply (Imperative_spec M p).
  - eapply builds_eq; [|eapply builds_document with (mk := sdocument (item_arg sh ns vals lang) (map (item_sarg sh ns vals) head) (map (item_sarg sh ns vals) body) sh)].
    { intro u. unfold kalways. rewrite kdocument_sargs. reflexivity. }
    assert (SH : forall xs, all2 (sarg_rep M ls h) (map (item_gv vs ys) xs) (map (item_sarg sh ns vals) xs)).
    { intro xs. apply all2_maps. intro x. eapply (item_sarg_rep ls h (KState sh ns vals out)); eauto. }
    apply simb_args_slice, simb_args_slice.
    set (h1 := packed h (map (item_gv vs ys) head)). set (h2 := packed h1 (map (item_gv vs ys) body)).
    assert (G1 : grown h h1) by apply packed_grown. assert (G2 : grown h1 h2) by apply packed_grown.
    assert (I1 : sinv M ls h1 sh) by apply IP. assert (I2 : sinv M ls h2 sh) by (eapply sinv_grown; eauto).
    eapply GoRun.sim_conseq; [eapply (Document_spec M MO ls h2 sh); [exact I2| | | |]|].
    + eapply arg_grown; [exact (grown_trans _ _ _ G1 G2)|]. apply (item_rep ls h (KState sh ns vals out)), K.
    + apply (item_nil ls h (KState sh ns vals out)), K.
    + eapply kept_grown; [exact I1|exact G2|]. eapply kept_pack; eauto.
    + eapply kept_pack; [exact I1|]. eapply all2_mono; [|apply SH]. intros v a. apply sarg_grown, G1.
    + intros rs h' r (v & x & -> & H1 & H2 & H3 & H4). exists v, x. split; [reflexivity|]. split; [exact H1|].
      pose proof (grown_length _ _ G1). pose proof (grown_length _ _ G2). split; [intros l Hl; specialize (H2 l Hl); unfold loc in *; lia|].
      split; [|exact H4]. eapply changes_trans; [apply changes_grown; exact (grown_trans _ _ _ G1 G2)|exact H3].
  - variadic [VBytes property].
    eapply builds_eq; [|eapply (Att _ _ (map (item_arg sh ns vals) xs) (styled property)); [apply IP|]; eapply sim_model_eq; [|apply (styleAttribute_spec M MO), IR, K]].
    + intro u. cbn [kmake]. unfold kalways. rewrite kstyle_eq. reflexivity.
    + intros E w. unfold cb, style_attribute, NewConcatValue, NewDelimitedAttribute. cbn [new_values new_value value_to_bytes run].
      destruct (new_values _ (w_u w)). reflexivity.
Qed.
End Calls.
