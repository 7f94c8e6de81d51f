(** C29, exactly: the tag that [Start] writes for any attributes. *)
From Coq Require Import List Ascii String Lia.
From Verif Require Import Bytes IO Nodes Values Render Build SpecRun SpecOut SpecElem SpecStart
  IOFacts TagFacts AttrFacts RenderFacts PageFacts PropElements PropImperative Demo PropGroups.
Import ListNotations.
Local Open Scope string_scope.
Local Open Scope list_scope.

Section Start.
Context {W : UserWorld}.

Lemma cut_snoc ds (a : attr U) :
  cut (ds ++ [a]) =
  match a with ADelim _ _ _ => (fst (cut ds), snd (cut ds) ++ [a]) | _ => (Some a, []) end.
Proof.
  induction ds as [|x ds IH]; [destruct a; reflexivity|].
  cbn [app cut]. rewrite IH. destruct a as [n vs|n|n d vs]; try reflexivity.
  destruct (cut ds) as [[b|] t]; destruct x; reflexivity.
Qed.

(** The values of [attached], with delimiters as values. *)
Fixpoint glue (begun : bool) (l : list (bytes * value U)) : list (value U) :=
  match l with
  | [] => []
  | (d, v) :: l' => (if begun then [Val d None []] else []) ++ v :: glue true l'
  end.

Lemma svals_cons fr v vs u :
  svals fr (v :: vs) u = let '(b1, u1) := sval fr v u in let '(b2, u2) := svals fr vs u1 in (b1 ++ b2, u2).
Proof. rewrite (svals_app fr [v] vs), svals_one. reflexivity. Qed.

Lemma glue_joined fr l : forall b u, svals fr (glue b l) u = joined fr b l u.
Proof.
  induction l as [|[d v] l IH]; intros b u; [reflexivity|]. cbn [glue joined].
  destruct b; cbn [app]; rewrite !svals_cons; cbn [sval].
  - rewrite svals_cons. destruct (sval fr v u) as [x u1]. rewrite IH. destruct (joined fr true l u1). reflexivity.
  - destruct (sval fr v u) as [x u1]. rewrite IH. destruct (joined fr true l u1). reflexivity.
Qed.

Definition begun {A} (l : list A) : bool := match l with [] => false | _ => true end.

Lemma glue_app b l1 l2 : glue b (l1 ++ l2) = glue b l1 ++ glue (b || begun l1) l2.
Proof.
  revert b; induction l1 as [|[d v] l1 IH]; intro b; cbn [app glue begun].
  - rewrite Bool.orb_false_r. reflexivity.
  - rewrite IH, Bool.orb_true_r, <- app_assoc. cbn [orb app]. reflexivity.
Qed.

Lemma append_glue d vs : forall avs, append_delim d avs vs = avs ++ glue (begun avs) (map (pair d) vs).
Proof.
  induction vs as [|v vs IH]; intro avs; cbn [append_delim map glue]; [rewrite app_nil_r; reflexivity|].
  rewrite IH. destruct avs as [|x avs]; [reflexivity|]. cbn [begun app].
  rewrite <- !app_assoc. reflexivity.
Qed.

Lemma interpose_glue d vs : interpose d vs = glue false (map (pair d) vs).
Proof.
  rewrite <- (append_interpose d [] vs : append_delim d [] vs = interpose d vs).
  rewrite append_glue. reflexivity.
Qed.

Definition base (o : option (attr U)) : option (list (value U)) :=
  match o with Some (APlain _ vs) => Some vs | Some _ => None | None => Some [] end.
Definition bvals (o : option (list (value U))) := match o with Some l => l | None => [] end.

Lemma cut_base ds : match fst (cut ds) with Some (ADelim _ _ _) => False | _ => True end.
Proof.
  induction ds as [|x ds IH]; [exact I|]. cbn [cut]. destruct (cut ds) as [[b|] t]; cbn in *; auto.
  destruct x; exact I.
Qed.

Lemma attached_app (l1 l2 : list (attr U)) : attached (l1 ++ l2) = attached l1 ++ attached l2.
Proof. apply flat_map_app. Qed.

Lemma st_eff_cut ds : ds <> [] ->
  st_eff ds = match base (fst (cut ds)), attached (snd (cut ds)) with
              | None, [] => None
              | b, l => Some (bvals b ++ glue (begun (bvals b)) l)
              end.
Proof.
  induction ds as [|a ds IH] using rev_ind; [congruence|]. intros _.
  rewrite st_eff_snoc, cut_snoc. destruct a as [n vs|n|n d vs].
  - cbn. rewrite app_nil_r. destruct ds; reflexivity.
  - cbn. destruct ds; reflexivity.
  - cbn [fst snd]. rewrite attached_app. cbn [attached flat_map]. rewrite app_nil_r.
    destruct ds as [|x ds].
    { cbn. rewrite interpose_glue. reflexivity. }
    rewrite IH by discriminate. set (D := x :: ds).
    destruct vs as [|v vs]; [cbn [map st_next]; rewrite app_nil_r; reflexivity|].
    assert (N : forall l : list (bytes * value U), l ++ map (pair d) (v :: vs) <> []).
    { intros [|? ?]; discriminate. }
    unfold st_next. destruct (base (fst (cut D))) as [b|]; cbn [bvals].
    + f_equal. rewrite append_glue, <- app_assoc, glue_app.
      destruct (attached (snd (cut D))) as [|[d' v'] l].
      * cbn [begun app glue]. rewrite app_nil_r, Bool.orb_false_r. reflexivity.
      * cbn [begun]. rewrite Bool.orb_true_r. f_equal. f_equal. f_equal. destruct b; reflexivity.
    + destruct (attached (snd (cut D))) as [|[d' v'] l].
      * cbn [app map]. rewrite append_glue. reflexivity.
      * cbn [app map]. rewrite append_glue. f_equal. cbn [glue begun app].
        rewrite glue_app, Bool.orb_true_l. reflexivity.
Qed.

Lemma started_eff fr n ds u : ds <> [] -> sstart_attr fr (n, st_eff ds) u = started fr n ds u.
Proof.
  intro N. rewrite st_eff_cut by auto. unfold started. pose proof (cut_base ds) as CB.
  destruct (cut ds) as [[[m vs|m|m d vs]|] t]; cbn [fst snd base] in *; [| |destruct CB|].
  - unfold sstart_attr, with_values. cbn [fst snd sattr bvals]. rewrite svals_app.
    destruct (svals fr vs u) as [b1 u1]. rewrite glue_joined. fold (begun vs).
    destruct (joined fr (begun vs) (attached t) u1) as [b2 u2]. rewrite <- !app_assoc. reflexivity.
  - destruct (attached t) as [|p l] eqn:E; [reflexivity|].
    unfold sstart_attr, with_values. rewrite E. cbn [fst snd sattr bvals app begun]. rewrite glue_joined. change (svals fr [] u) with (@nil ascii, u). cbn iota.
    destruct (joined fr false (p :: l) u) as [b2 u2]. reflexivity.
  - unfold sstart_attr, with_values. cbn [fst snd sattr bvals app begun]. rewrite glue_joined. change (svals fr [] u) with (@nil ascii, u). cbn iota.
    destruct (joined fr false (attached t) u) as [b2 u2]. reflexivity.
Qed.

(** Start writes each name once, in the order of first declaration, with the
    value that [started] gives. *)
Theorem C29_exact o name v l e fr s :
  let ds := start_args l in
  page o (Imperative (Some (IStart name v l (IRet e)))) fr s =
  let '(bs, u1) := mapS (fun n => started fr n (declared n ds)) (names_of ds) (fst s) in
  (B "<" ++ name ++ concat bs ++ B ">", (u1, snd s)).
Proof.
  intro ds. rewrite page_hrun. unfold Imperative. cbn [render run_imper]. rewrite hrun_bind, h_start.
  unfold liftU, sstart. rewrite start_attrs_fold. fold ds. rewrite start_spec.
  assert (X : forall ns u, (forall n, In n ns -> In n (names_of ds)) ->
     mapS (sstart_attr fr) (map (fun n => (n, st_eff (declared n ds))) ns) u =
     mapS (fun n => started fr n (declared n ds)) ns u).
  { induction ns as [|n ns IH]; intros u H; [reflexivity|]. cbn [map mapS]. rewrite started_eff.
    - destruct (started fr n (declared n ds) u) as [b u1]. rewrite IH by (intros; apply H; right; auto).
      reflexivity.
    - intro Z. assert (In n (map (@attr_name U) ds)) as Y by (apply names_of_spec, H; left; auto).
      apply in_map_iff in Y as (x & X1 & X2).
      assert (In x (declared n ds)) as Y. { apply filter_In. split; auto. rewrite X1. apply beq_refl. }
      rewrite Z in Y. destruct Y. }
  rewrite X by auto. destruct (mapS _ (names_of ds) (fst s)) as [bs u1]. cbn.
  rewrite app_nil_r. reflexivity.
Qed.

(** [cut] really cuts at the last declaration that is not delimited. *)
Theorem C29_cut_last (pre t : list (attr U)) a :
  is_delim a = false -> (forall x, In x t -> is_delim x = true) -> cut (pre ++ a :: t) = (Some a, t).
Proof.
  intros A T. revert pre a A. induction t as [|x t IH] using rev_ind; intros pre a A.
  - rewrite cut_snoc. destruct a; try discriminate; reflexivity.
  - rewrite app_comm_cons, app_assoc, cut_snoc, IH; auto.
    + specialize (T x ltac:(apply in_or_app; right; left; auto)). destruct x; try discriminate. reflexivity.
    + intros y Y. apply T, in_or_app. auto.
Qed.
Theorem C29_cut_none (t : list (attr U)) :
  (forall x, In x t -> is_delim x = true) -> cut t = (None, t).
Proof.
  induction t as [|x t IH] using rev_ind; intros T; [reflexivity|].
  rewrite cut_snoc, IH by (intros; apply T, in_or_app; auto).
  specialize (T x ltac:(apply in_or_app; right; left; auto)). destruct x; try discriminate. reflexivity.
Qed.

End Start.

(** ** Example: four declarations of one name, of all kinds. *)
Definition mixed : list (attr (@U demo)) :=
  [deli "class" "a"; plain "class" "b"; deli "class" "c"; ADelim (B "class") (B ",") [Val (B "d") None []];
   ABool (B "hidden"); ADelim (B "rel") (B ";") []].
Example C29_exact_example :
  fst (page listed (Imperative (Some (IStart (B "p") false (map (fun a => Some (NAttr a)) mixed) (IRet None)))) fr0 (st 0, 0))
  = B "<p class=""b c,d"" hidden rel="""">" /\
  cut mixed = (Some (ABool (B "hidden")), [ADelim (B "rel") (B ";") []]) /\
  fst (started fr0 (B "class") (declared (B "class") mixed) (st 0)) = B " class=""b c,d""".
Proof. vm_compute. auto. Qed.
