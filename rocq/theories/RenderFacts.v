(** On a healthy writer, rendering produces the reference output. *)
From Coq Require Import Permutation.
From Verif Require Import Bytes IO IOFacts Escape Nodes NodeInd Values Render SpecOut.

Section Facts.
Context {W : UserWorld}.
Variable o : order.

Notation hrun := (hrun o).

Lemma all_Forall {X} (P : X -> Prop) l : all P l <-> Forall P l.
Proof.
  induction l as [|x l IH]; simpl; split; intro H; auto.
  - destruct H. constructor; tauto.
  - inversion H; subst. tauto.
Qed.

Lemma ltb_len (d : bytes) : (0 <? length d) = match d with [] => false | _ => true end.
Proof. destruct d; reflexivity. Qed.

Definition nonempty (b : bytes) : bool := match b with [] => false | _ => true end.

Lemma h_ctx_write d u t : hrun (ctx_write d None) u t = (None, d, u, t).
Proof. simpl. rewrite app_nil_r. reflexivity. Qed.

Lemma nonempty_app a b : nonempty (a ++ b) = nonempty a || nonempty b.
Proof. destruct a; reflexivity. Qed.

Definition vgo (fr : frame U) := fix go (cs : list (value U)) (l : nat) (err : option error)
         : io U (bool * option error) :=
         match cs with
         | [] => Ret (0 <? l, err)
         | c :: cs' =>
             '(written, e) <- value_render fr c err ;;
             go cs' (if written then S l else l) e
         end.
Definition sgo (fr : frame U) := fix go (cs : list (value U)) (u : U) : bytes * U :=
         match cs with
         | [] => ([], u)
         | c :: cs' => let '(b1, u1) := sval fr c u in
                       let '(b2, u2) := go cs' u1 in (b1 ++ b2, u2)
         end.

Lemma h_value v fr u t :
  hrun (value_render fr v None) u t =
  let '(b, u') := sval fr v u in ((nonempty b, None), b, u', t).
Proof.
  revert u t. induction v as [b d cs IH] using value_ind'; intros u t.
  destruct d as [f|].
  - simpl. destruct (f (view fr None) u) as [data u'] eqn:E. simpl.
    rewrite ltb_len, app_nil_r. reflexivity.
  - assert (G : forall l u t,
      hrun (vgo fr cs l None) u t =
      let '(b, u') := sgo fr cs u in ((0 <? l) || nonempty b, None, b, u', t)).
    { clear b u t. induction cs as [|c cs IHcs]; intros l u t.
      - simpl. rewrite orb_false_r. reflexivity.
      - inversion IH as [|? ? Hc Hcs]; subst. cbn [vgo sgo].
        rewrite hrun_bind, Hc. destruct (sval fr c u) as [b1 u1].
        fold (vgo fr). rewrite (IHcs Hcs). fold (sgo fr).
        destruct (sgo fr cs u1) as [b2 u2].
        rewrite nonempty_app. destruct (nonempty b1); simpl; [|reflexivity].
        rewrite orb_true_r. reflexivity. }
    destruct cs as [|c0 cs0].
    { simpl. rewrite ltb_len, app_nil_r. reflexivity. }
    change (hrun (vgo fr (c0 :: cs0) 0 None) u t =
      let '(b, u') := sgo fr (c0 :: cs0) u in (nonempty b, None, b, u', t)).
    rewrite G. destruct (sgo fr (c0 :: cs0) u). reflexivity.
Qed.

Lemma h_values vs fr u t :
  hrun (values_render fr vs None) u t =
  let '(b, u') := svals fr vs u in (None, b, u', t).
Proof.
  revert u t; induction vs as [|v vs IH]; intros u t; simpl; auto.
  rewrite hrun_bind, h_value. unfold svals. simpl.
  destruct (sval fr v u) as [b1 u1]. rewrite IH. unfold svals.
  destruct (mapS (sval fr) vs u1) as [bs u2]. reflexivity.
Qed.

Lemma h_delim delim vs fr s u t :
  hrun (delim_render fr delim vs s None) u t =
  let '(bs, u') := mapS (sval fr) vs u in
  (None, (if s then match vs with [] => [] | _ => delim end else []) ++ djoin delim bs, u', t).
Proof.
  revert s u t; induction vs as [|v vs IH]; intros s u t; simpl.
  - destruct s; reflexivity.
  - assert (H : forall u t, hrun (if s then ctx_write delim None else Ret None) u t =
                   (None, (if s then delim else []), u, t)).
    { intros. destruct s; [apply h_ctx_write|reflexivity]. }
    rewrite hrun_bind, H, hrun_bind, h_value.
    destruct (sval fr v u) as [b1 u1]. rewrite IH.
    assert (Hl : forall u, length (fst (mapS (sval fr) vs u)) = length vs).
    { clear. induction vs as [|v vs IHv]; intro u; simpl; auto.
      destruct (sval fr v u) as [y u1]. specialize (IHv u1).
      destruct (mapS (sval fr) vs u1) as [ys u2]. simpl in *. lia. }
    specialize (Hl u1).
    destruct (mapS (sval fr) vs u1) as [bs u2]. simpl in Hl.
    f_equal. f_equal. f_equal. f_equal. f_equal.
    destruct b1; simpl; auto.
    destruct vs, bs; try discriminate; reflexivity.
Qed.

Lemma h_attr a fr u t :
  hrun (attr_render fr a None) u t =
  let '(b, u') := sattr fr a u in (None, b, u', t).
Proof.
  destruct a as [name vs|name|name delim vs]; cbn [attr_render sattr].
  - rewrite hrun_bind, h_ctx_write, hrun_bind, h_ctx_write, hrun_bind, h_ctx_write,
      hrun_bind, h_values. unfold svals.
    destruct (mapS (sval fr) vs u) as [bs u1]. rewrite h_ctx_write.
    rewrite !app_assoc. reflexivity.
  - rewrite hrun_bind, h_ctx_write, h_ctx_write. reflexivity.
  - rewrite hrun_bind, h_ctx_write, hrun_bind, h_ctx_write, hrun_bind, h_ctx_write,
      hrun_bind, h_delim.
    destruct (mapS (sval fr) vs u) as [bs u1]. rewrite h_ctx_write.
    simpl app at 5. rewrite !app_assoc. reflexivity.
Qed.

Lemma h_attrs l fr u t :
  hrun (attrs_render fr l None) u t =
  let '(b, u') := sattrs fr l u in (None, b, u', t).
Proof.
  revert u t; induction l as [|a l IH]; intros u t; simpl; auto.
  rewrite hrun_bind, h_attr. unfold sattrs. simpl.
  destruct (sattr fr a u) as [b1 u1]. rewrite IH. unfold sattrs.
  destruct (mapS (sattr fr) l u1) as [bs u2]. reflexivity.
Qed.

Lemma h_conds cs fr u t :
  hrun (conds_eval fr None cs) u t =
  let '(b, u') := sconds fr cs u in (b, [], u', t).
Proof.
  revert u t; induction cs as [|f cs IH]; intros u t; simpl; auto.
  destruct (f (view fr None) u) as [b u']. destruct b; [apply IH|reflexivity].
Qed.

Lemma h_active cas fr u t :
  hrun (active_attrs fr None cas) u t =
  let '(l, u') := sactive fr cas u in (l, [], u', t).
Proof.
  revert u t; induction cas as [|[a cs] cas IH]; intros u t; simpl; auto.
  rewrite hrun_bind, h_conds. unfold sactive. simpl.
  destruct (sconds fr cs u) as [b u1]. rewrite hrun_bind, IH. unfold sactive.
  destruct (mapS _ cas u1) as [l u2]. simpl.
  destruct b; reflexivity.
Qed.

(** ** The attribute table *)

Lemma idx_get_combine l k name :
  idx_get (combine l (seq k (length l))) name =
  match find (fun p => beq (fst p) name) (combine l (seq k (length l))) with
  | Some p => Some (snd p) | None => None end.
Proof.
  revert k; induction l as [|x l IH]; intro k; simpl; auto.
  destruct (beq x name); auto.
Qed.

Lemma table_get attrs idx name :
  table_ok attrs idx ->
  match idx_get idx name with
  | Some i => nth_error attrs i = static_of attrs name
  | None => None = static_of attrs name
  end.
Proof.
  intros [-> _]. unfold static_of.
  assert (G : forall k pre,
    length pre = k ->
    match idx_get (combine (map (@attr_name U) attrs) (seq k (length attrs))) name with
    | Some i => nth_error (pre ++ attrs) i = find (fun a => beq (attr_name a) name) attrs
    | None => None = find (fun a => beq (attr_name a) name) attrs
    end).
  { induction attrs as [|a attrs IH]; intros k pre Hk; simpl; auto.
    destruct (beq (attr_name a) name) eqn:E.
    - rewrite nth_error_app2 by lia. subst k. rewrite Nat.sub_diag. reflexivity.
    - specialize (IH (S k) (pre ++ [a])). rewrite app_length in IH. simpl in IH.
      rewrite <- app_assoc in IH. apply IH. lia. }
  apply (G 0 []). reflexivity.
Qed.

Lemma idx_get_In attrs idx name :
  table_ok attrs idx -> In name (map fst idx) -> exists a, static_of attrs name = Some a.
Proof.
  intros [-> _] H. unfold static_of.
  destruct (find (fun a => beq (attr_name a) name) attrs) as [a|] eqn:E; eauto.
  exfalso. apply in_map_iff in H as ([n i] & <- & H). apply in_combine_l in H.
  apply in_map_iff in H as (a & <- & H).
  pose proof (find_none _ _ E a H) as F. simpl in F. rewrite beq_refl in F. discriminate.
Qed.

Lemma table_keys attrs idx : table_ok attrs idx -> map fst idx = map (@attr_name U) attrs.
Proof.
  intros [-> _].
  assert (G : forall (l : list bytes) k, map fst (combine l (seq k (length l))) = l).
  { induction l as [|x l IH]; intro k; simpl; f_equal; auto. }
  rewrite <- (map_length (@attr_name U) attrs). apply G.
Qed.

Lemma h_attr_k a fr u t : hrun (attr_render fr a None) u t =
  let '(b, u') := sattr fr a u in (None, b, u', t).
Proof. apply h_attr. Qed.

Lemma sattrs_app l1 l2 fr u :
  sattrs fr (l1 ++ l2) u =
  let '(b1, u1) := sattrs fr l1 u in
  let '(b2, u2) := sattrs fr l2 u1 in (b1 ++ b2, u2).
Proof.
  revert u; induction l1 as [|a l1 IH]; intro u.
  - unfold sattrs at 2. simpl. destruct (sattrs fr l2 u). reflexivity.
  - unfold sattrs in *. simpl. destruct (sattr fr a u) as [b u1].
    specialize (IH u1). destruct (mapS (sattr fr) (l1 ++ l2) u1) as [x u2].
    destruct (mapS (sattr fr) l1 u1) as [y u3]. simpl.
    destruct (mapS (sattr fr) l2 u3) as [z u4].
    injection IH as -> ->. rewrite app_assoc. reflexivity.
Qed.

Lemma h_static attrs idx ev names fr u t :
  table_ok attrs idx -> (forall n, In n names -> In n (map fst idx)) ->
  hrun (static_loop fr attrs idx ev names None) u t =
  let '(b, u') := sattrs fr (flat_map (shown attrs ev) names) u in (None, b, u', t).
Proof.
  intros T. revert u t; induction names as [|n names IH]; intros u t H; [reflexivity|].
  cbn [static_loop flat_map]. rewrite hrun_bind, sattrs_app.
  pose proof (table_get attrs idx n T) as G.
  destruct (idx_get_In attrs idx n T (H n (or_introl eq_refl))) as (a & Ha).
  rewrite Ha in G. destruct (idx_get idx n) as [i|]; [|discriminate G]. rewrite G.
  unfold shown at 1. rewrite Ha.
  assert (S1 : forall a, sattrs fr [a] u = sattr fr a u).
  { intro a'. unfold sattrs. simpl. destruct (sattr fr a' u). simpl.
    rewrite app_nil_r. reflexivity. }
  destruct (ev_get ev n) as [|e es]; rewrite h_attr, S1.
  - destruct (sattr fr a u) as [b1 u1]. rewrite IH by (intros; apply H; right; auto).
    destruct (sattrs fr (flat_map (shown attrs ev) names) u1). reflexivity.
  - destruct (sattr fr (resolve_static a (e :: es)) u) as [b1 u1].
    rewrite IH by (intros; apply H; right; auto).
    destruct (sattrs fr (flat_map (shown attrs ev) names) u1). reflexivity.
Qed.

Lemma h_dynamic attrs idx ev names fr u t :
  table_ok attrs idx ->
  hrun (dynamic_loop fr idx ev names None) u t =
  let '(b, u') := sattrs fr (flat_map (shown attrs ev)
                     (filter (fun n => negb (is_static attrs n)) names)) u in (None, b, u', t).
Proof.
  intros T. revert u t; induction names as [|n names IH]; intros u t; [reflexivity|].
  cbn [dynamic_loop filter]. rewrite hrun_bind.
  pose proof (table_get attrs idx n T) as G. unfold is_static at 1.
  destruct (static_of attrs n) as [a|] eqn:Ha.
  - destruct (idx_get idx n) as [i|]; [|discriminate G]. simpl. rewrite IH.
    destruct (sattrs fr (flat_map (shown attrs ev) (filter (fun n => negb (is_static attrs n)) names)) u). reflexivity.
  - assert (idx_get idx n = None) as ->.
    { destruct (idx_get idx n) as [i|] eqn:E; auto. exfalso.
      assert (In n (map fst idx)).
      { clear - E. induction idx as [|[m j] idx IHi]; simpl in *; [discriminate|].
        destruct (beq_spec m n); [left; auto|right; auto]. }
      destruct (idx_get_In attrs idx n T H) as (x & Hx). congruence. }
    cbn [negb]. cbn [flat_map]. rewrite sattrs_app. unfold shown at 1. rewrite Ha.
    assert (S1 : forall a, sattrs fr [a] u = sattr fr a u).
    { intro a'. unfold sattrs. simpl. destruct (sattr fr a' u). simpl.
      rewrite app_nil_r. reflexivity. }
    destruct (ev_get ev n) as [|e es].
    + simpl. rewrite IH. destruct (sattrs fr _ u). reflexivity.
    + rewrite h_attr, S1. destruct (sattr fr (resolve_dynamic e es) u) as [b1 u1].
      rewrite IH. destruct (sattrs fr _ u1). reflexivity.
Qed.

Lemma h_attributes attrs idx conds fr u t :
  ord_ok o -> table_ok attrs idx ->
  hrun (render_attributes fr attrs idx conds None) u t =
  let '(l, s1) := tag_attrs o fr attrs conds (u, t) in
  let '(b, s2) := liftU (sattrs fr l) s1 in (None, b, fst s2, snd s2).
Proof.
  intros O T. unfold render_attributes, tag_attrs. rewrite hrun_bind, h_active.
  simpl fst. simpl snd. destruct (sactive fr conds u) as [ev u1]. destruct ev as [|e ev].
  - rewrite h_attrs. unfold liftU. simpl. destruct (sattrs fr attrs u1). reflexivity.
  - remember (e :: ev) as EV. cbn [IOFacts.hrun]. rewrite hrun_bind.
    rewrite (table_keys attrs idx T).
    rewrite h_static; auto.
    + unfold liftU. cbn [fst snd]. rewrite sattrs_app.
      destruct (sattrs fr (flat_map (shown attrs EV) (o t (map (@attr_name U) attrs))) u1) as [b1 u2].
      cbn [IOFacts.hrun]. rewrite (h_dynamic attrs); auto.
      destruct (sattrs fr _ u2) as [b2 u3]. reflexivity.
    + intros n Hn. rewrite (table_keys attrs idx T).
      eapply Permutation_in; [symmetry; apply (O t)|exact Hn].
Qed.

(** ** Nodes *)

Lemma h_close name u t : hrun (close_tag name None) u t = (None, endtag name, u, t).
Proof.
  unfold close_tag, endtag. rewrite hrun_bind, h_ctx_write, hrun_bind, h_ctx_write, h_ctx_write.
  reflexivity.
Qed.

Lemma h_close_all stack u t :
  hrun (close_all stack None) u t = (None, concat (map endtag stack), u, t).
Proof.
  revert u t; induction stack as [|n s IH]; intros u t; [reflexivity|].
  cbn [close_all map concat].
  rewrite hrun_bind, h_close, IH. reflexivity.
Qed.

Lemma h_start_render l fr u t :
  hrun (start_render fr l None) u t =
  let '(bs, u') := mapS (sstart_attr fr) l u in (None, concat bs, u', t).
Proof.
  revert u t; induction l as [|[name vs] l IH]; intros u t; [reflexivity|].
  cbn [start_render mapS]. unfold sstart_attr at 1. cbn [fst snd].
  rewrite hrun_bind, h_ctx_write, hrun_bind, h_ctx_write, hrun_bind.
  destruct vs as [vs|].
  - rewrite hrun_bind, h_ctx_write, hrun_bind, h_values. unfold sattr.
    destruct (svals fr vs u) as [b u1]. rewrite h_ctx_write, IH.
    destruct (mapS (sstart_attr fr) l u1) as [bs u2]. cbn [concat].
    rewrite <- !app_assoc. reflexivity.
  - cbn [IOFacts.hrun]. rewrite IH.
    destruct (mapS (sstart_attr fr) l u) as [bs u2]. cbn [concat].
    rewrite <- !app_assoc. reflexivity.
Qed.

Lemma h_start name attrs fr u t :
  hrun (start_tag fr name attrs None) u t =
  let '(b, u') := sstart fr name attrs u in (None, b, u', t).
Proof.
  unfold start_tag, sstart.
  rewrite hrun_bind, h_ctx_write, hrun_bind, h_ctx_write, hrun_bind, h_start_render.
  destruct (mapS (sstart_attr fr) (start_attrs attrs []) u) as [bs u1].
  rewrite h_ctx_write. rewrite <- ?app_assoc. reflexivity.
Qed.

Definition good (n : node U) : Prop :=
  quiet n -> tables_ok n -> forall fr u t,
  hrun (render n fr None) u t =
  let '(b, s') := snode o n fr (u, t) in ((None, None), b, fst s', snd s').
Definition goodp (p : iprog U) : Prop :=
  quiet_prog p -> tables_ok_prog p -> forall fr stack u t,
  hrun (run_imper p fr stack None) u t =
  let '(b, s') := simper o p fr stack (u, t) in ((None, None), b, fst s', snd s').

Lemma seqS_cons {X} (f : X -> St -> bytes * St) x l s :
  seqS f (x :: l) s = let '(b1, s1) := f x s in
               let '(b2, s2) := seqS f l s1 in (b1 ++ b2, s2).
Proof. reflexivity. Qed.
Lemma each_assign_cons (r : renderer) c ns e :
  each_assign r (c :: ns) e = ('(x, _) <- r c e ;; each_assign r ns x).
Proof. reflexivity. Qed.
Lemma each_ignore_cons (r : renderer) c ns e :
  each_ignore r (c :: ns) e = ('(_, e') <- r c e ;; each_ignore r ns e').
Proof. reflexivity. Qed.
Lemma each_until_cons (r : renderer) c ns e :
  each_until r (c :: ns) e =
  ('(x, _) <- r c e ;; match x with None => each_until r ns None | Some x => Ret (Some x, Some x) end).
Proof. reflexivity. Qed.
Lemma each_content_until_cons (r : renderer) c ns e :
  each_content_until r (c :: ns) e =
  if is_attr c then each_content_until r ns e
  else ('(x, _) <- r c e ;; match x with None => each_content_until r ns None
                                  | Some x => Ret (Some x, Some x) end).
Proof. reflexivity. Qed.
Lemma each_content_ignore_cons (r : renderer) c ns e :
  each_content_ignore r (c :: ns) e =
  match c with
  | None => each_content_ignore r ns e
  | Some c => if is_attr c then each_content_ignore r ns e
              else ('(_, e') <- r c e ;; each_content_ignore r ns e')
  end.
Proof. destruct c; reflexivity. Qed.
Lemma each_item_cons (r : renderer) c ns e :
  each_item r (c :: ns) e =
  ('(x, e') <- r c e ;; match x with None => each_item r ns e' | Some x => Ret (Some x, e') end).
Proof. reflexivity. Qed.

(** Sequences of nodes, in the shapes the code uses. *)
Lemma h_seq_element ns fr u t :
  Forall good ns -> all quiet ns -> all tables_ok ns ->
  hrun (each_assign (fun c e => render c fr e) ns None) u t =
  let '(b, s') := seqS (fun c s => snode o c fr s) ns (u, t) in (None, b, fst s', snd s').
Proof.
  intro G. revert u t; induction G as [|n ns Hn G IH]; intros u t Q T; [reflexivity|].
  rewrite seqS_cons, each_assign_cons.
  simpl in Q, T. destruct Q as [Q1 Q2], T as [T1 T2].
  rewrite hrun_bind, (Hn Q1 T1).
  destruct (snode o n fr (u, t)) as [b1 [u1 t1]]. cbn [fst snd]. rewrite (IH u1 t1 Q2 T2).
  destruct (seqS _ ns (u1, t1)) as [b2 s2]. reflexivity.
Qed.

Lemma h_seq_ignore ns fr u t :
  Forall good ns -> all quiet ns -> all tables_ok ns ->
  hrun (each_ignore (fun c e => render c fr e) ns None) u t =
  let '(b, s') := seqS (fun c s => snode o c fr s) ns (u, t) in (None, b, fst s', snd s').
Proof.
  intro G. revert u t; induction G as [|n ns Hn G IH]; intros u t Q T; [reflexivity|].
  rewrite seqS_cons, each_ignore_cons.
  simpl in Q, T. destruct Q as [Q1 Q2], T as [T1 T2].
  rewrite hrun_bind, (Hn Q1 T1).
  destruct (snode o n fr (u, t)) as [b1 [u1 t1]]. cbn [fst snd]. rewrite (IH u1 t1 Q2 T2).
  destruct (seqS _ ns (u1, t1)) as [b2 s2]. reflexivity.
Qed.

Lemma h_seq_cond ns fr u t :
  Forall good ns -> all quiet ns -> all tables_ok ns ->
  hrun (each_until (fun c e => render c fr e) ns None) u t =
  let '(b, s') := seqS (fun c s => snode o c fr s) ns (u, t) in ((None, None), b, fst s', snd s').
Proof.
  intro G. revert u t; induction G as [|n ns Hn G IH]; intros u t Q T; [reflexivity|].
  rewrite seqS_cons, each_until_cons.
  simpl in Q, T. destruct Q as [Q1 Q2], T as [T1 T2].
  rewrite hrun_bind, (Hn Q1 T1).
  destruct (snode o n fr (u, t)) as [b1 [u1 t1]]. cbn [fst snd]. rewrite (IH u1 t1 Q2 T2).
  destruct (seqS _ ns (u1, t1)) as [b2 s2]. reflexivity.
Qed.

Lemma h_seq_coll ns fr u t :
  Forall good ns -> all quiet ns -> all tables_ok ns ->
  hrun (each_content_until (fun c e => render c fr e) ns None) u t =
  let '(b, s') := seqS (fun c s => if is_attr c then ([], s) else snode o c fr s) ns (u, t) in
  ((None, None), b, fst s', snd s').
Proof.
  intro G. revert u t; induction G as [|n ns Hn G IH]; intros u t Q T; [reflexivity|].
  rewrite seqS_cons, each_content_until_cons.
  simpl in Q, T. destruct Q as [Q1 Q2], T as [T1 T2].
  destruct (is_attr n).
  - rewrite (IH u t Q2 T2).
    destruct (seqS _ ns (u, t)) as [b2 s2]. reflexivity.
  - rewrite hrun_bind, (Hn Q1 T1).
    destruct (snode o n fr (u, t)) as [b1 [u1 t1]]. cbn [fst snd]. rewrite (IH u1 t1 Q2 T2).
    destruct (seqS _ ns (u1, t1)) as [b2 s2]. reflexivity.
Qed.

Definition sopt (fr : frame U) (c : option (node U)) (s : St) : bytes * St :=
  match c with
  | Some c => if is_attr c then ([], s) else snode o c fr s
  | None => ([], s)
  end.

Lemma h_seq_opt ns fr u t :
  Forall (optP good) ns -> all (opt quiet) ns -> all (opt tables_ok) ns ->
  hrun (each_content_ignore (fun c e => render c fr e) ns None) u t =
  let '(b, s') := seqS (sopt fr) ns (u, t) in (None, b, fst s', snd s').
Proof.
  intro G. revert u t; induction G as [|n ns Hn G IH]; intros u t Q T; [reflexivity|].
  rewrite seqS_cons, each_content_ignore_cons.
  simpl in Q, T. destruct Q as [Q1 Q2], T as [T1 T2].
  unfold sopt at 1. destruct n as [n|]; [simpl in Hn; destruct (is_attr n)|].
  - rewrite (IH u t Q2 T2). destruct (seqS (sopt fr) ns (u, t)) as [b2 s2]. reflexivity.
  - rewrite hrun_bind, (Hn Q1 T1).
    destruct (snode o n fr (u, t)) as [b1 [u1 t1]]. cbn [fst snd]. rewrite (IH u1 t1 Q2 T2).
    destruct (seqS (sopt fr) ns (u1, t1)) as [b2 s2]. reflexivity.
  - rewrite (IH u t Q2 T2). destruct (seqS (sopt fr) ns (u, t)) as [b2 s2]. reflexivity.
Qed.

Lemma h_seq_iter ns fr u t :
  Forall good ns -> all quiet ns -> all tables_ok ns ->
  hrun (each_item (fun c e => render c fr e) ns None) u t =
  let '(b, s') := seqS (fun c s => snode o c fr s) ns (u, t) in ((None, None), b, fst s', snd s').
Proof.
  intro G. revert u t; induction G as [|n ns Hn G IH]; intros u t Q T; [reflexivity|].
  rewrite seqS_cons, each_item_cons.
  simpl in Q, T. destruct Q as [Q1 Q2], T as [T1 T2].
  rewrite hrun_bind, (Hn Q1 T1).
  destruct (snode o n fr (u, t)) as [b1 [u1 t1]]. cbn [fst snd]. rewrite (IH u1 t1 Q2 T2).
  destruct (seqS _ ns (u1, t1)) as [b2 s2]. reflexivity.
Qed.

Lemma h_iter body sbody fr items u t :
  (forall ifr u t, hrun (body ifr None) u t =
     let '(b, s') := sbody ifr (u, t) in ((None, None), b, fst s', snd s')) ->
  hrun (iter_loop body (f_data fr) (view fr None) None items None) u t =
  let '(b, s') := siter sbody fr items (u, t) in ((None, None), b, fst s', snd s').
Proof.
  intro H. revert u t; induction items as [|it items IH]; intros u t; [reflexivity|].
  cbn [iter_loop siter]. rewrite hrun_bind, H.
  destruct (sbody _ (u, t)) as [b1 [u1 t1]]. cbn [fst snd]. rewrite IH.
  destruct (siter sbody fr items (u1, t1)) as [b2 s2]. reflexivity.
Qed.

Lemma h_yield body sbody fr (p : yprog U) :
  (forall ifr u t, hrun (body ifr None) u t =
     let '(b, s') := sbody ifr (u, t) in ((None, None), b, fst s', snd s')) ->
  forall data u t,
  hrun (yield_loop body fr data p None None) u t =
  let '(b, s') := syield sbody fr data p (u, t) in ((None, None), b, fst s', snd s').
Proof.
  intro H.
  assert (Hind : forall Pr : yprog U -> Prop, Pr YRet ->
    (forall it k, Pr k -> Pr (YYield it k)) ->
    (forall k, (forall c u, Pr (fst (k c u))) -> Pr (YRead k)) -> forall q, Pr q).
  { intros Pr H1 H2 H3. fix F 1. intros [|it k|k]; [exact H1|apply H2, F|].
    apply H3. intros c u. apply F. }
  induction p as [|it k IH|k IH] using Hind; intros data u t.
  - reflexivity.
  - cbn [yield_loop syield]. rewrite hrun_bind, H.
    destruct (sbody _ (u, t)) as [b1 [u1 t1]]. cbn [fst snd]. rewrite IH.
    destruct (syield sbody fr _ k (u1, t1)) as [b2 s2]. reflexivity.
  - cbn [yield_loop syield IOFacts.hrun fst snd].
    specialize (IH (view fr None) u). destruct (k (view fr None) u) as [p' u'].
    apply IH.
Qed.

Theorem render_good : ord_ok o -> (forall n, good n) /\ (forall p, goodp p).
Proof.
  intro O. apply node_iprog_ind; unfold good, goodp.
  - (* attr *) intros a _ _ fr u t. cbn [render snode]. rewrite hrun_bind, h_attr.
    unfold liftU. cbn [fst snd]. destruct (sattr fr a u) as [b u1]. simpl.
    rewrite app_nil_r. reflexivity.
  - (* element *) intros name attrs idx conds contents IH Q T fr u t.
    simpl in Q, T. destruct T as [T1 T2]. cbn [render snode].
    rewrite hrun_bind, h_ctx_write, hrun_bind, h_ctx_write, hrun_bind, h_attributes by auto.
    unfold stag. destruct (tag_attrs o fr attrs conds (u, t)) as [l s1].
    destruct (liftU (sattrs fr l) s1) as [b2 [u2 t2]]. cbn [fst snd].
    rewrite hrun_bind, h_ctx_write, hrun_bind, h_seq_element by auto.
    destruct (seqS (fun c s => snode o c fr s) contents (u2, t2)) as [b3 [u3 t3]]. cbn [fst snd].
    rewrite hrun_bind, h_close. cbn [IOFacts.hrun]. rewrite app_nil_r, <- !app_assoc. reflexivity.
  - (* void *) intros name attrs idx conds _ T fr u t.
    simpl in T. cbn [render snode].
    rewrite hrun_bind, h_ctx_write, hrun_bind, h_ctx_write, hrun_bind, h_attributes by auto.
    unfold stag. destruct (tag_attrs o fr attrs conds (u, t)) as [l s1].
    destruct (liftU (sattrs fr l) s1) as [b2 [u2 t2]]. cbn [fst snd].
    rewrite hrun_bind, h_ctx_write. cbn [IOFacts.hrun]. rewrite app_nil_r. reflexivity.
  - (* text *) intros vs _ _ fr u t. cbn [render snode]. rewrite hrun_bind, h_values.
    unfold liftU. cbn [fst snd]. destruct (svals fr vs u) as [b u1]. simpl.
    rewrite app_nil_r. reflexivity.
  - (* comment *) intros vs _ _ fr u t. cbn [render snode].
    rewrite hrun_bind, h_ctx_write, hrun_bind, h_values.
    unfold liftU. cbn [fst snd]. destruct (svals fr vs u) as [b u1].
    rewrite hrun_bind, h_ctx_write. cbn [IOFacts.hrun fst snd]. rewrite app_nil_r. reflexivity.
  - (* pi *) intros name vs _ _ fr u t. cbn [render snode].
    rewrite hrun_bind, h_ctx_write, hrun_bind, h_ctx_write, hrun_bind, h_ctx_write,
      hrun_bind, h_values.
    unfold liftU. cbn [fst snd]. destruct (svals fr vs u) as [b u1].
    rewrite hrun_bind, h_ctx_write. cbn [IOFacts.hrun fst snd]. rewrite app_nil_r. reflexivity.
  - (* fragment *) intros vs _ _ fr u t. cbn [render snode]. rewrite hrun_bind, h_values.
    unfold liftU. cbn [fst snd]. destruct (svals fr vs u) as [b u1]. simpl.
    rewrite app_nil_r. reflexivity.
  - (* collection *) intros ns IH Q T fr u t. simpl in Q, T. cbn [render snode].
    apply h_seq_coll; auto.
  - (* conditional *) intros fn attrs ns IH Q T fr u t. simpl in Q, T.
    cbn [render snode IOFacts.hrun]. unfold liftU. cbn [fst snd].
    destruct (fn (view fr None) u) as [b u1]. destruct b; [|reflexivity].
    apply h_seq_cond; auto.
  - (* collect *) intros f IH Q T fr u t. simpl in Q, T.
    cbn [render snode IOFacts.hrun fst snd].
    specialize (IH (view fr None) u). specialize (Q (view fr None) u). specialize (T (view fr None) u).
    destruct (f (view fr None) u) as [ns u1]. cbn [fst] in *.
    rewrite hrun_bind, h_seq_opt by auto. fold (sopt fr).
    destruct (seqS (sopt fr) ns (u1, t)) as [b2 [u2 t2]]. simpl. rewrite app_nil_r. reflexivity.
  - (* imperative *) reflexivity.
  - intros p IH Q T fr u t. simpl in Q, T. cbn [render snode]. apply IH; auto.
  - (* iterate *) intros fn ns IH Q T fr u t. simpl in Q, T.
    cbn [render snode IOFacts.hrun]. unfold liftU. cbn [fst snd].
    destruct (fn (view fr None) u) as [items u1].
    apply h_iter. intros. apply h_seq_iter; auto.
  - (* yield *) intros fn ns IH Q T fr u t. simpl in Q, T. cbn [render snode].
    apply h_yield. intros. apply h_seq_iter; auto.
  - (* document *) intros pr ns Hpr IH Q T fr u t. simpl in Q, T.
    destruct Q as [Q1 Q2], T as [T1 T2]. cbn [render snode]. rewrite hrun_bind.
    destruct pr as [p|].
    + simpl in Hpr, Q1, T1. rewrite hrun_bind, Hpr by auto.
      destruct (snode o p fr (u, t)) as [b [u1 t1]]. cbn [IOFacts.hrun fst snd].
      rewrite hrun_bind, h_seq_ignore by auto.
      destruct (seqS (fun c s => snode o c fr s) ns (u1, t1)) as [b2 [u2 t2]].
      cbn [IOFacts.hrun fst snd]. rewrite !app_nil_r. reflexivity.
    + cbn [IOFacts.hrun]. rewrite hrun_bind, h_seq_ignore by auto.
      destruct (seqS (fun c s => snode o c fr s) ns (u, t)) as [b2 [u2 t2]].
      cbn [IOFacts.hrun fst snd]. rewrite !app_nil_r. reflexivity.
  - (* IRet *) intros e Q _ fr stack u t. simpl in Q. rewrite Q. reflexivity.
  - (* IRead *) intros k IH Q T fr stack u t. simpl in Q, T.
    cbn [run_imper simper IOFacts.hrun fst snd].
    specialize (IH (view fr None) u (Q (view fr None) u eq_refl) (T _ _)).
    destruct (k (view fr None) u) as [p' u']. apply IH.
  - intros s k IH Q T fr stack u t. simpl in Q, T. cbn [run_imper simper].
    rewrite hrun_bind, h_ctx_write, IH by auto.
    destruct (simper o k fr stack (u, t)) as [b s']. reflexivity.
  - intros s k IH Q T fr stack u t. simpl in Q, T. cbn [run_imper simper].
    rewrite hrun_bind, h_ctx_write, IH by auto.
    destruct (simper o k fr stack (u, t)) as [b s']. reflexivity.
  - (* nodes *) intros ns k Hns IH Q T fr stack u t. simpl in Q, T.
    destruct Q as [Q1 Q2], T as [T1 T2]. cbn [run_imper simper].
    rewrite hrun_bind, h_seq_opt by auto. fold (sopt fr).
    destruct (seqS _ ns (u, t)) as [b1 [u1 t1]]. cbn [fst snd]. rewrite IH by auto.
    destruct (simper o k fr stack (u1, t1)) as [b s']. reflexivity.
  - (* start *) intros name v attrs k _ IH Q T fr stack u t. simpl in Q, T.
    cbn [run_imper simper]. rewrite hrun_bind, h_start. unfold liftU. cbn [fst snd].
    destruct (sstart fr name attrs u) as [b u1]. rewrite IH by auto. cbn [fst snd].
    destruct (simper o k fr _ (u1, t)) as [b2 s2]. reflexivity.
  - (* end *) intros k IH Q T fr stack u t. simpl in Q, T. cbn [run_imper simper].
    destruct stack as [|n s]; [apply IH; auto|].
    rewrite hrun_bind, h_close, IH by auto.
    destruct (simper o k fr s (u, t)) as [b s']. reflexivity.
  - (* endall *) intros k IH Q T fr stack u t. simpl in Q, T. cbn [run_imper simper].
    rewrite hrun_bind, h_close_all, IH by auto.
    destruct (simper o k fr [] (u, t)) as [b s']. reflexivity.
  - (* render *) intros n inner k Hn IH Q T fr stack u t.
    destruct Q as [Q1 Q2], T as [T1 T2]. destruct inner as [fr'|].
    + change (simper o (IRender n (Some fr') k) fr stack (u, t)) with
        (let '(b1, s1) := snode o n fr' (u, t) in
         let '(b2, s2) := simper o (k None None) fr stack s1 in (b1 ++ b2, s2)).
      cbn [run_imper]. rewrite hrun_bind, Hn by auto.
      destruct (snode o n fr' (u, t)) as [b1 [u1 t1]]. cbn [fst snd].
      rewrite (IH None None Q2 (T2 None None)).
      destruct (simper o (k None None) fr stack (u1, t1)) as [b s']. reflexivity.
    + change (simper o (IRender n None k) fr stack (u, t)) with
        (let '(b1, s1) := snode o n fr (u, t) in
         let '(b2, s2) := simper o (k None None) fr stack s1 in (b1 ++ b2, s2)).
      cbn [run_imper]. rewrite hrun_bind, Hn by auto.
      destruct (snode o n fr (u, t)) as [b1 [u1 t1]]. cbn [fst snd].
      rewrite (IH None None Q2 (T2 None None)).
      destruct (simper o (k None None) fr stack (u1, t1)) as [b s']. reflexivity.
  - (* direct *) intros d k IH Q T fr stack u t. simpl in Q, T. cbn [run_imper simper IOFacts.hrun].
    rewrite (IH (length d) None Q (T _ _)). destruct (simper o _ fr stack (u, t)) as [b s']. reflexivity.
  - (* set error *) intros e k IH Q T fr stack u t. simpl in Q, T. destruct Q as [-> Q].
    cbn [run_imper simper]. apply IH; auto.
Qed.

End Facts.
