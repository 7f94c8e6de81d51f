(** How the objects of the Go program represent the values of the model: contexts,
    values, attributes, nodes on the heap. *)
From Coq Require Import ZArith Lia.
From Verif Require Import Bytes IO IOFacts Nodes NodeInd Slices GoSyntax Source GoSem GoRun.
Local Open Scope nat_scope.

Section Lists.
Context {A : Type}.
Implicit Types l : list A.
Lemma length_set_nth l i x : length (set_nth l i x) = length l.
Proof. revert i. induction l as [|y l IH]; intros [|i]; cbn [set_nth length]; auto. Qed.
Lemma nth_set_same l i x : i < length l -> nth_error (set_nth l i x) i = Some x.
Proof. revert i. induction l as [|y l IH]; intros [|i] H; cbn [set_nth length nth_error] in *; try lia; auto. apply IH. lia. Qed.
Lemma nth_set_other l i j x : i <> j -> nth_error (set_nth l i x) j = nth_error l j.
Proof. revert i j. induction l as [|y l IH]; intros [|i] [|j] H; cbn [set_nth nth_error]; auto; try lia. Qed.
Lemma nth_app_new l x : nth_error (l ++ [x]) (length l) = Some x.
Proof. rewrite nth_error_app2, Nat.sub_diag by lia. reflexivity. Qed.
Lemma nth_app_old l r i x : nth_error l i = Some x -> nth_error (l ++ r) i = Some x.
Proof. intro H. rewrite nth_error_app1; [exact H|]. apply nth_error_Some. congruence. Qed.
Lemma nth_lt l i x : nth_error l i = Some x -> i < length l.
Proof. intro H. apply nth_error_Some. congruence. Qed.

Definition all2 {B} (R : A -> B -> Prop) : list A -> list B -> Prop :=
  fix go l r :=
  match r with
  | [] => l = []
  | y :: r' => exists x l', l = x :: l' /\ R x y /\ go l' r'
  end.
End Lists.

(** The program under consideration; the rest of the configuration: the value of
    PanicOnInvalidName, which Go types the numbers of the data model have, and
    what html/template takes for identifiers and makes of a text, and the nodes
    user code has at hand. *)
Record go_mode {W : UserWorld} := Mode {
  m_panics : bool; m_int : string; m_uint : string; m_float : string;
  m_letters : bytes -> bool; m_parse : bytes -> option (list Template.piece);
  m_types : Reflect.decls * Reflect.implements * Reflect.gtype;
  m_known : heap -> node U -> option gv }.
Arguments Mode {W}.
Definition no_types : Reflect.decls * Reflect.implements * Reflect.gtype := ([], fun _ _ => false, Reflect.TOther 0).
Definition go_config {W : UserWorld} (M : go_mode) : config :=
  Config source (m_panics M) (m_int M) (m_uint M) (m_float M) (m_letters M) (m_parse M) (m_types M) (m_known M).

Section Rep.
Context {W : UserWorld}.
Context {FL : floor}.

Variable M : go_mode.
Notation C := (go_config M).
Notation sim := (sim C).

(** ** Heaps

    [kept lc h h']: every object of [h] other than the context at [lc] is in [h']
    unchanged; so is the parent of that context. *)
Definition kept (lc : loc) (h h' : heap) : Prop :=
  (exists fs, nth_error h lc = Some (OStruct "Context" fs)) /\
  (exists fs fs', nth_error h lc = Some (OStruct "Context" fs) /\ nth_error h' lc = Some (OStruct "Context" fs') /\
                  assoc "Parent" fs' = assoc "Parent" fs) /\
  forall l o, l <> lc -> nth_error h l = Some o -> nth_error h' l = Some o.

Lemma kept_trans lc h h1 h2 : kept lc h h1 -> kept lc h1 h2 -> kept lc h h2.
Proof.
  intros (H1 & (f1 & f2 & A1 & A2 & A3) & H3) (H4 & (f3 & f4 & A4 & A5 & A6) & H6). split; [|split]; auto.
  exists f1, f4. split; [auto|]. split; [auto|]. congruence.
Qed.

(** [grown h h']: nothing changed, new objects only. *)
Definition grown (h h' : heap) : Prop := exists x, h' = h ++ x.
Lemma grown_refl h : grown h h.
Proof. exists []. rewrite app_nil_r. reflexivity. Qed.
Lemma grown_app h x : grown h (h ++ x).
Proof. exists x. reflexivity. Qed.
Lemma grown_trans h h1 h2 : grown h h1 -> grown h1 h2 -> grown h h2.
Proof. intros [x ->] [y ->]. exists (x ++ y). rewrite app_assoc. reflexivity. Qed.
Lemma grown_nth h h' l o : grown h h' -> nth_error h l = Some o -> nth_error h' l = Some o.
Proof. intros [x ->] H. apply nth_app_old, H. Qed.

(** ** Contexts *)

(** The parent of a context is older than the context. *)
Inductive parent_rep (h : heap) : loc -> gv -> option (ctx U) -> Prop :=
| pr_none b : parent_rep h b VNil None
| pr_some b l e d g pv p :
    l < b -> nth_error h l = Some (ctx_obj e d g pv) -> parent_rep h l pv p ->
    parent_rep h b (VPtr l) (Some (Ctx e d g p)).

(** [base <= l]: the context may be assigned to. *)
Definition ctx_at (h : heap) (l : loc) (fr : frame U) (e : option error) : Prop :=
  exists pv, nth_error h l = Some (ctx_obj e (f_data fr) (f_cargo fr) pv) /\
             parent_rep h l pv (f_parent fr) /\ base <= l.

Lemma parent_snapshot h b v p : parent_rep h b v p ->
  exists n, match v, p with
            | VNil, None => True
            | VPtr l, Some c => snapshot n h l = Some c
            | _, _ => False
            end.
Proof.
  induction 1 as [b|b l e d g pv p Hl Ho Hp (n & IH)]; [exists 0; exact I|].
  exists (S n). cbn [snapshot]. rewrite Ho. unfold ctx_obj.
  destruct pv, p; try contradiction; destruct e, d, g; lazy -[snapshot]; try rewrite IH; reflexivity.
Qed.
Lemma ctx_snap h l fr e : ctx_at h l fr e -> snap h l (view fr e).
Proof.
  intros (pv & Ho & Hp & _). unfold snap, view.
  destruct (parent_snapshot h (S l) (VPtr l) (Some (Ctx e (f_data fr) (f_cargo fr) (f_parent fr)))) as (n & H).
  - econstructor; eauto.
  - exists n. exact H.
Qed.

Lemma parent_kept lc h h' b v p : kept lc h h' -> b <= lc -> parent_rep h b v p -> parent_rep h' b v p.
Proof.
  intros K Hb H. revert Hb. induction H as [b|b l e d g pv p Hl Ho Hp IH]; intro Hb; [constructor|].
  econstructor; eauto.
  - destruct K as (_ & _ & K). apply K; [lia|exact Ho].
  - apply IH. lia.
Qed.
Lemma parent_grown h h' b v p : grown h h' -> parent_rep h b v p -> parent_rep h' b v p.
Proof. intros G H. induction H; econstructor; eauto using grown_nth. Qed.
Lemma ctx_grown h h' l fr e : grown h h' -> ctx_at h l fr e -> ctx_at h' l fr e.
Proof. intros G (pv & H1 & H2 & H3). exists pv. split; [|split]; eauto using grown_nth, parent_grown. Qed.
Lemma ctx_kept_other h h' l lc fr e : kept lc h h' -> l < lc -> ctx_at h l fr e -> ctx_at h' l fr e.
Proof.
  intros K Hl (pv & H1 & H2 & H3). exists pv. split; [|split; [|exact H3]].
  - destruct K as (_ & _ & K). apply K; [lia|exact H1].
  - apply (parent_kept lc h); auto. lia.
Qed.
Lemma grown_kept h h' l fr e : grown h h' -> ctx_at h l fr e -> kept l h h'.
Proof.
  intros G (pv & H1 & H2). split; [|split].
  - eexists. exact H1.
  - eexists _, _. split; [exact H1|]. split; [eapply grown_nth; eauto|reflexivity].
  - intros. eapply grown_nth; eauto.
Qed.
Lemma kept_refl h l fr e : ctx_at h l fr e -> kept l h h.
Proof. apply grown_kept, grown_refl. Qed.

(** Assigning Error. *)
Definition with_error (h : heap) (l : loc) (fr : frame U) (e : option error) (pv : gv) : heap :=
  set_nth h l (ctx_obj e (f_data fr) (f_cargo fr) pv).
Lemma ctx_set_error h l fr e e' pv :
  nth_error h l = Some (ctx_obj e (f_data fr) (f_cargo fr) pv) -> parent_rep h l pv (f_parent fr) /\ base <= l ->
  kept l h (with_error h l fr e' pv) /\ ctx_at (with_error h l fr e' pv) l fr e'.
Proof.
  intros H1 [H2 H3]. unfold with_error. pose proof (nth_lt _ _ _ H1) as L.
  assert (K : kept l h (set_nth h l (ctx_obj e' (f_data fr) (f_cargo fr) pv))).
  { split; [|split].
    - eexists. exact H1.
    - eexists _, _. split; [exact H1|]. split; [apply nth_set_same, L|reflexivity].
    - intros l' o Hn Ho. rewrite nth_set_other by auto. exact Ho. }
  split; [exact K|]. exists pv. split; [apply nth_set_same, L|]. split; [|exact H3]. apply (parent_kept l h); auto.
Qed.

End Rep.

(** ** Slices *)

Section Nodes.
Context {W : UserWorld}.
Variable M : go_mode.
Notation C := (go_config M).
Notation sim := (sim C).

Definition slice_is (h : heap) (v : gv) (xs : list gv) : Prop :=
  match v with
  | VNil => xs = []
  | VSlice l n => exists cs, nth_error h l = Some (OArr cs) /\ n <= length cs /\ xs = firstn n cs
  | _ => False
  end.
Lemma slice_grown h h' v xs : grown h h' -> slice_is h v xs -> slice_is h' v xs.
Proof. intros G. destruct v; cbn [slice_is]; auto. intros (cs & H1 & H2). exists cs. split; [eapply grown_nth; eauto|auto]. Qed.
Lemma slice_kept lc h h' v xs : kept lc h h' -> slice_is h v xs -> slice_is h' v xs.
Proof.
  intros ((fs & F) & _ & K). destruct v; cbn [slice_is]; auto. intros (cs & H1 & H2). exists cs. split; [|auto].
  apply K; [|exact H1]. intros ->. congruence.
Qed.

(** ** Functions

    A function of the user, or a closure of the library, that makes no call of
    the writer: it may look at the context and at the user's state, change that
    state, and add objects to the heap. *)
Definition cb {D : Type} (fn : U -> D * U) : io U D := Cb (fun u => let '(d, u') := fn u in (Ret d, u')).
Lemma sim_cb {FL : floor} {P : panics} {A B D} (p : prog A) h (fn : U -> D * U) (k : D -> io U B) Q :
  sim p h (bind (cb fn) k) Q -> sim p h (Cb (fun u => let '(d, u') := fn u in (k d, u'))) Q.
Proof.
  apply sim_model_eq. intros E w. unfold cb. cbn [bind run]. destruct (fn (w_u w)) as [d u']. reflexivity.
Qed.

Definition dyn_fun (v : gv) (f : dynfn U) : Prop :=
  v <> VNil /\
  forall (FL : floor) h lc fr e, ctx_at h lc fr e ->
  sim (body_of C (CVal v) [VPtr lc] false) h (cb (f (view fr e)))
    (fun vs h' d => exists bv, vs = [bv] /\ bytes_of bv = Some d /\ grown h h').
Definition dyn_rep (v : gv) (f : option (dynfn U)) : Prop :=
  match f with None => v = VNil | Some f => dyn_fun v f end.
Definition cond_fun (v : gv) (f : condfn U) : Prop :=
  v <> VNil /\
  forall (FL : floor) h lc fr e, ctx_at h lc fr e ->
  sim (body_of C (CVal v) [VPtr lc] false) h (cb (f (view fr e))) (fun vs h' b => vs = [VBool b] /\ grown h h').
(** The items of an iteration: a slice of the heap or one of the user's. *)
Definition items_are (h : heap) (v : gv) (xs : list (gval U)) : Prop :=
  (exists b, v = VAny (GSlice b xs)) \/ slice_is h v (map any_of xs).
Definition items_fun (v : gv) (f : ctx U -> U -> list (gval U) * U) : Prop :=
  forall (FL : floor) h lc fr e, ctx_at h lc fr e ->
  sim (body_of C (CVal v) [VPtr lc] false) h (cb (f (view fr e)))
    (fun vs h' xs => exists r, vs = [r] /\ items_are h' r xs /\ grown h h').

(** ** Values, attributes, nodes *)

Fixpoint val_rep (h : heap) (v : gv) (x : value U) {struct x} : Prop :=
  let 'Val b dyn concats := x in
  exists bv dv sv xs,
    v = VStruct "Value" [("value"%string, bv); ("dynamicFunc"%string, dv); ("concats"%string, sv)] /\
    bytes_of bv = Some b /\ dyn_rep dv dyn /\ slice_is h sv xs /\ all2 (val_rep h) xs concats.

Definition vals_rep (h : heap) (v : gv) (vs : list (value U)) : Prop :=
  exists xs, slice_is h v xs /\ all2 (val_rep h) xs vs.

Definition attr_rep (h : heap) (v : gv) (a : attr U) : Prop :=
  match a with
  | APlain n vs =>
      exists l nv sv, v = VPtr l /\
        nth_error h l = Some (OStruct "attribute" [("name"%string, nv); ("values"%string, sv)]) /\
        bytes_of nv = Some n /\ vals_rep h sv vs
  | ABool n =>
      exists l nv, v = VPtr l /\
        nth_error h l = Some (OStruct "booleanAttribute" [("name"%string, nv)]) /\ bytes_of nv = Some n
  | ADelim n d vs =>
      exists l nv dv sv, v = VPtr l /\
        nth_error h l = Some (OStruct "delimitedAttribute"
          [("name"%string, nv); ("delimiter"%string, dv); ("values"%string, sv)]) /\
        bytes_of nv = Some n /\ bytes_of dv = Some d /\ vals_rep h sv vs
  end.
Definition attrs_rep (h : heap) (v : gv) (l : list (attr U)) : Prop :=
  exists xs, slice_is h v xs /\ all2 (attr_rep h) xs l.
Definition cattr_rep (h : heap) (v : gv) (c : attr U * list (condfn U)) : Prop :=
  exists av sv xs,
    v = VStruct "conditionalAttribute" [("attribute"%string, av); ("conditions"%string, sv)] /\
    attr_rep h av (fst c) /\ slice_is h sv xs /\ all2 cond_fun xs (snd c).
Definition cattrs_rep (h : heap) (v : gv) (l : list (attr U * list (condfn U))) : Prop :=
  exists xs, slice_is h v xs /\ all2 (cattr_rep h) xs l.
Definition idx_obj (idx : list (bytes * nat)) : obj :=
  OMap (map (fun '(n, i) => (n, VInt (Z.of_nat i))) idx).
Definition idx_rep (h : heap) (v : gv) (idx : list (bytes * nat)) : Prop :=
  exists l, v = VMap l /\ nth_error h l = Some (idx_obj idx).

Fixpoint node_rep (h : heap) (v : gv) (n : node U) {struct n} : Prop :=
  match n with
  | NAttr a => attr_rep h v a
  | _ =>
      exists l, v = VPtr l /\
      match n with
      | NAttr _ => False
      | NElement name attrs idx conds ns =>
          exists nv av iv cv sv xs,
            nth_error h l = Some (OStruct "element"
              [("name"%string, nv); ("attributes"%string, av); ("attIndices"%string, iv);
               ("conditionals"%string, cv); ("contents"%string, sv)]) /\
            bytes_of nv = Some name /\ attrs_rep h av attrs /\ idx_rep h iv idx /\
            cattrs_rep h cv conds /\ slice_is h sv xs /\ all2 (node_rep h) xs ns
      | NVoid name attrs idx conds =>
          exists nv av iv cv,
            nth_error h l = Some (OStruct "voidElement"
              [("name"%string, nv); ("attributes"%string, av); ("attIndices"%string, iv);
               ("conditionals"%string, cv)]) /\
            bytes_of nv = Some name /\ attrs_rep h av attrs /\ idx_rep h iv idx /\
            cattrs_rep h cv conds
      | NText vs =>
          exists sv, nth_error h l = Some (OStruct "text" [("values"%string, sv)]) /\ vals_rep h sv vs
      | NComment vs =>
          exists sv, nth_error h l = Some (OStruct "comment" [("values"%string, sv)]) /\ vals_rep h sv vs
      | NPI name vs =>
          exists nv sv,
            nth_error h l = Some (OStruct "pi" [("name"%string, nv); ("values"%string, sv)]) /\
            bytes_of nv = Some name /\ vals_rep h sv vs
      | NFragment vs =>
          exists sv, nth_error h l = Some (OStruct "fragment" [("values"%string, sv)]) /\ vals_rep h sv vs
      | NCollection ns =>
          exists sv xs, nth_error h l = Some (OStruct "collection" [("nodes"%string, sv)]) /\
            slice_is h sv xs /\ all2 (node_rep h) xs ns
      | NConditional f attrs ns =>
          exists sv av fv xs,
            nth_error h l = Some (OStruct "conditional"
              [("nodes"%string, sv); ("attributes"%string, av); ("fn"%string, fv)]) /\
            slice_is h sv xs /\ all2 (node_rep h) xs ns /\ attrs_rep h av attrs /\ cond_fun fv f
      | NCollect f =>
          nth_error h l = Some (OStruct "contentCollector" [("collector"%string, VNodes f)])
      | NImper p =>
          nth_error h l = Some (OStruct "imperative"
            [("fn"%string, match p with Some p => VImper p | None => VNil end)])
      | NIter f ns =>
          exists sv fv xs,
            nth_error h l = Some (OStruct "iterator" [("nodes"%string, sv); ("fn"%string, fv)]) /\
            slice_is h sv xs /\ all2 (node_rep h) xs ns /\ items_fun fv f
      | NYield p ns =>
          exists sv xs,
            nth_error h l = Some (OStruct "yieldIterator" [("fn"%string, VYield p); ("nodes"%string, sv)]) /\
            slice_is h sv xs /\ all2 (node_rep h) xs ns
      | NDocument prologue ns =>
          exists pv sv xs,
            nth_error h l = Some (OStruct "document" [("prologue"%string, pv); ("contents"%string, sv)]) /\
            (match prologue with Some n => node_rep h pv n | None => pv = VNil end) /\
            slice_is h sv xs /\ all2 (node_rep h) xs ns
      end
  end.
Definition nodes_rep (h : heap) (v : gv) (ns : list (node U)) : Prop :=
  exists xs, slice_is h v xs /\ all2 (node_rep h) xs ns.

(** ** What stays true while the program runs

    [keeps h h']: all objects but contexts are unchanged. *)
Definition keeps (h h' : heap) : Prop :=
  forall l o, (forall fs, o <> OStruct "Context" fs) -> nth_error h l = Some o -> nth_error h' l = Some o.
Lemma kept_keeps lc h h' : kept lc h h' -> keeps h h'.
Proof.
  intros ((fs & F) & _ & K) l o Hn Ho. apply K; [|exact Ho]. intros ->. rewrite F in Ho. inversion Ho. subst. eapply Hn; eauto.
Qed.
Lemma grown_keeps h h' : grown h h' -> keeps h h'.
Proof. intros G l o _ Ho. eapply grown_nth; eauto. Qed.

Lemma slice_keeps h h' v xs : keeps h h' -> slice_is h v xs -> slice_is h' v xs.
Proof.
  intros K. destruct v; cbn [slice_is]; auto. intros (cs & H1 & H2). exists cs. split; [|auto]. apply K; [discriminate|auto].
Qed.
Lemma all2_impl {X Y} (R R' : X -> Y -> Prop) ys : Forall (fun y => forall x, R x y -> R' x y) ys ->
  forall xs, all2 R xs ys -> all2 R' xs ys.
Proof.
  induction 1 as [|y ys Hy _ IH]; intros xs; cbn [all2]; auto. intros (x & xs' & -> & Hx & Hr). exists x, xs'. auto.
Qed.
Lemma all2_length {X Y} (R : X -> Y -> Prop) ys : forall xs, all2 R xs ys -> length xs = length ys.
Proof.
  induction ys as [|y ys IH]; cbn [all2]; [intros xs ->; auto|]. intros xs (x & xs' & -> & _ & H). cbn [length]. rewrite (IH _ H). auto.
Qed.
Lemma all2_mono {X Y} (R R' : X -> Y -> Prop) ys xs : (forall x y, R x y -> R' x y) -> all2 R xs ys -> all2 R' xs ys.
Proof. intro H. apply all2_impl. induction ys; constructor; auto. Qed.

Lemma val_keeps h h' : keeps h h' -> forall x v, val_rep h v x -> val_rep h' v x.
Proof.
  intro K. induction x as [b dyn cs IH] using NodeInd.value_ind'; intro v. cbn [val_rep].
  intros (bv & dv & sv & xs & -> & H1 & H2 & H3 & H4). exists bv, dv, sv, xs. repeat (split; auto).
  - eapply slice_keeps; eauto.
  - eapply all2_impl; eauto.
Qed.
Lemma vals_keeps h h' v vs : keeps h h' -> vals_rep h v vs -> vals_rep h' v vs.
Proof.
  intros K (xs & H1 & H2). exists xs. split; [eapply slice_keeps; eauto|]. eapply all2_mono; [|exact H2].
  intros x y. apply val_keeps, K.
Qed.
Ltac keep K := first [apply K; [discriminate|assumption] | eapply slice_keeps; eassumption | eapply vals_keeps; eassumption].
Lemma attr_keeps h h' v a : keeps h h' -> attr_rep h v a -> attr_rep h' v a.
Proof.
  intro K. destruct a as [n vs|n|n d vs]; cbn [attr_rep].
  - intros (l & nv & sv & -> & H1 & H2 & H3). exists l, nv, sv. repeat split; auto; keep K.
  - intros (l & nv & -> & H1 & H2). exists l, nv. repeat split; auto; keep K.
  - intros (l & nv & dv & sv & -> & H1 & H2 & H3 & H4). exists l, nv, dv, sv. repeat split; auto; keep K.
Qed.
Lemma attrs_keeps h h' v a : keeps h h' -> attrs_rep h v a -> attrs_rep h' v a.
Proof.
  intros K (xs & H1 & H2). exists xs. split; [keep K|]. eapply all2_mono; [|exact H2].
  intros x y. apply attr_keeps, K.
Qed.
Lemma cattr_keeps h h' v a : keeps h h' -> cattr_rep h v a -> cattr_rep h' v a.
Proof.
  intros K (av & sv & xs & -> & H1 & H2 & H3). exists av, sv, xs. repeat split; auto; [|keep K]. eapply attr_keeps; eauto.
Qed.
Lemma cattrs_keeps h h' v a : keeps h h' -> cattrs_rep h v a -> cattrs_rep h' v a.
Proof.
  intros K (xs & H1 & H2). exists xs. split; [keep K|]. eapply all2_mono; [|exact H2].
  intros x y. apply cattr_keeps, K.
Qed.
Lemma idx_keeps h h' v a : keeps h h' -> idx_rep h v a -> idx_rep h' v a.
Proof. intros K (l & -> & H). exists l. split; [auto|keep K]. Qed.

Lemma node_keeps h h' : keeps h h' -> forall n v, node_rep h v n -> node_rep h' v n.
Proof.
  intro K.
  apply (NodeInd.node_ind' (fun n => forall v, node_rep h v n -> node_rep h' v n) (fun _ => True)); auto; cbn [node_rep];
    [intros a v|intros name attrs idx conds ns IH v|intros name attrs idx conds v|intros vs v|intros vs v|intros name vs v
    |intros vs v|intros ns IH v|intros f attrs ns IH v|intros f _ v|intros v|intros p _ v|intros f ns IH v|intros p ns IH v
    |intros pr ns IHp IH v].
  - apply attr_keeps, K.
  - intros (l & -> & nv & av & iv & cv & sv & xs & H1 & H2 & H3 & H4 & H5 & H6 & H7). exists l. split; auto.
    exists nv, av, iv, cv, sv, xs.
    repeat split; auto; try keep K; [eapply attrs_keeps|eapply idx_keeps|eapply cattrs_keeps|eapply all2_impl]; eauto.
  - intros (l & -> & nv & av & iv & cv & H1 & H2 & H3 & H4 & H5). exists l. split; auto.
    exists nv, av, iv, cv.
    repeat split; auto; try keep K; [eapply attrs_keeps|eapply idx_keeps|eapply cattrs_keeps]; eauto.
  - intros (l & -> & sv & H1 & H2). exists l. split; auto. exists sv. split; keep K.
  - intros (l & -> & sv & H1 & H2). exists l. split; auto. exists sv. split; keep K.
  - intros (l & -> & nv & sv & H1 & H2 & H3). exists l. split; auto. exists nv, sv. repeat split; auto; keep K.
  - intros (l & -> & sv & H1 & H2). exists l. split; auto. exists sv. split; keep K.
  - intros (l & -> & sv & xs & H1 & H2 & H3). exists l. split; auto. exists sv, xs.
    repeat split; try keep K. eapply all2_impl; eauto.
  - intros (l & -> & sv & av & fv & xs & H1 & H2 & H3 & H4 & H5). exists l. split; auto. exists sv, av, fv, xs.
    split; [keep K|]. split; [keep K|]. split; [eapply all2_impl; eauto|]. split; [eapply attrs_keeps; eauto|exact H5].
  - intros (l & -> & H1). exists l. split; auto. keep K.
  - intros (l & -> & H1). exists l. split; auto. keep K.
  - intros (l & -> & H1). exists l. split; auto. keep K.
  - intros (l & -> & sv & fv & xs & H1 & H2 & H3 & H4). exists l. split; auto. exists sv, fv, xs.
    repeat split; auto; try keep K. eapply all2_impl; eauto.
  - intros (l & -> & sv & xs & H1 & H2 & H3). exists l. split; auto. exists sv, xs.
    repeat split; auto; try keep K. eapply all2_impl; eauto.
  - intros (l & -> & pv & sv & xs & H1 & H2 & H3 & H4). exists l. split; auto. exists pv, sv, xs.
    repeat split; auto; try keep K; [|eapply all2_impl; eauto]. destruct pr; auto.
Qed.
Lemma nodes_keeps h h' v ns : keeps h h' -> nodes_rep h v ns -> nodes_rep h' v ns.
Proof.
  intros K (xs & H1 & H2). exists xs. split; [keep K|]. eapply all2_mono; [|exact H2].
  intros x y. apply node_keeps, K.
Qed.

End Nodes.
