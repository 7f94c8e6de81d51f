(** GenerateCode of packages html and svg in the Go source does what
    Generator.v says. *)
From Coq Require Import ZArith Lia.
From Verif Require Import Bytes IO IOFacts Nodes Values Build Slices
  GoSyntax SourceLib Source GoSem GoRun GoRep GoStep GoOwn RefineStart RefineMake Generator.
From Verif Require Tables.
Local Open Scope nat_scope.
Local Notation "x <-- p ;; q" := (pbind p (fun x => q))
  (at level 100, p at next level, right associativity).

(** ** The parts of the function *)

Definition statements (fd : fundecl) : list stmt :=
  match fd with Fun _ _ _ (SBlock ss) => ss | _ => [] end.
Fixpoint closure_in (x : string) (ss : list stmt) : fundecl :=
  match ss with
  | SDefine [y] [EClosure f] :: ss' => if String.eqb y x then f else closure_in x ss'
  | _ :: ss' => closure_in x ss'
  | [] => Fun [] false [] SSkip
  end.
Ltac parts t :=
  eval lazy [statements closure_in nth skipn String.eqb Ascii.eqb Bool.eqb f_html_GenerateCode f_svg_GenerateCode] in t.
Definition d_funcName : fundecl := ltac:(let r := parts (closure_in "funcName" (statements f_html_GenerateCode)) in exact r).
Definition d_write : fundecl := ltac:(let r := parts (closure_in "write" (statements f_html_GenerateCode)) in exact r).
Definition d_inc : fundecl := ltac:(let r := parts (closure_in "incIndent" (statements f_html_GenerateCode)) in exact r).
Definition d_dec : fundecl := ltac:(let r := parts (closure_in "decIndent" (statements f_html_GenerateCode)) in exact r).
Definition d_escape : fundecl := ltac:(let r := parts (closure_in "escape" (statements f_html_GenerateCode)) in exact r).
Definition d_html_start : fundecl := ltac:(let r := parts (closure_in "writeElementStart" (statements f_html_GenerateCode)) in exact r).
Definition d_svg_start : fundecl := ltac:(let r := parts (closure_in "writeElementStart" (statements f_svg_GenerateCode)) in exact r).

Ltac enter_closure :=
  apply sim_call; cbn [body_of];
  lazymatch goal with
  | |- @GoRun.sim _ ?C ?FL0 ?P _ _ (pbind (call_fun ?C' ?fd ?cap ?args ?sp) ?f) ?h ?m ?Q =>
      let fd' := eval unfold fd in fd in
      let X' := head_red (call_fun C' fd' cap args sp) in
      change (@GoRun.sim _ C FL0 P _ _ (pbind X' f) h m Q)
  end.
Ltac ext :=
  lazymatch goal with
  | |- @GoRun.sim _ ?C ?FL0 ?P _ _ (pbind (external ?C' ?x ?args ?sp) ?f) ?h ?m ?Q =>
      let r := eval lazy [external String.eqb Ascii.eqb Bool.eqb] in (external C' x args sp) in
      change (@GoRun.sim _ C FL0 P _ _ (pbind r f) h m Q)
  end; steps.

(** The variables left after a block, when some have been assigned in it. *)
Ltac depth l := lazymatch l with _ :: ?t => let n := depth t in constr:(S n) | _ => constr:(0) end.
Ltac drop n l := lazymatch n with 0 => l | S ?m => lazymatch l with _ :: ?t => drop m t end end.
Ltac left_of a b ::=
  let m := depth a in let n := depth b in let d := eval cbn [Nat.sub] in (n - m) in drop d b.
Lemma leave_by {W : UserWorld} (a b r : venv) d : length b = d + length a -> skipn d b = r -> leave a b = r.
Proof. intros H <-. unfold leave. replace (length b - length a) with d by lia. reflexivity. Qed.
Ltac prove_left ::=
  first [reflexivity | apply leave_same | apply leave_one | apply leave_two | apply leave_three |
  lazymatch goal with |- leave ?a ?b = _ =>
    let m := depth a in let n := depth b in let d := eval cbn [Nat.sub] in (n - m) in
    apply (leave_by a b _ d); [cbn [length]; lia|reflexivity] end].

Section Refine.
Context {W : UserWorld}.
Variable M : go_mode.
Notation C := (go_config M).
Notation sim := (sim C).

(** ** Names of functions *)

Lemma B_app a b : B (a ++ b)%string = B a ++ B b.
Proof. unfold B. induction a as [|c a IH]; [reflexivity|]. cbn [append list_ascii_of_string app]. f_equal. exact IH. Qed.
Lemma last_index_none c s : forall i r, ~ In c s -> last_index_from c s i r = r.
Proof.
  induction s as [|x s IH]; intros i r H; [reflexivity|]. cbn [last_index_from]. destruct (Ascii.eqb_spec x c) as [->|]; [exfalso; apply H; left; reflexivity|].
  apply IH. intro X. apply H. right. exact X.
Qed.
Lemma last_index_app c p q : forall i r, ~ In c q -> last_index_from c (p ++ c :: q) i r = Z.of_nat (i + length p).
Proof.
  induction p as [|x p IH]; intros i r H.
  - cbn [app last_index_from length]. rewrite Ascii.eqb_refl, last_index_none by exact H. rewrite Nat.add_0_r. reflexivity.
  - cbn [app last_index_from length]. rewrite IH by exact H. f_equal. lia.
Qed.
Lemma sub_string_end b lo : lo <= length b ->
  sub_slice (VStr b) (Some (VInt (Z.of_nat lo))) None = @PRet W gv (VStr (skipn lo b)).
Proof.
  intros H1. cbn [sub_slice]. rewrite !(proj2 (Z.leb_le _ _)) by lia. rewrite !Nat2Z.id.
  rewrite !(proj2 (Nat.leb_le _ _)) by lia. cbn [andb]. unfold Escape.subslice. do 2 f_equal. apply firstn_all2. rewrite skipn_length. lia.
Qed.
Lemma simb_lib name args sp {A' B'} (f : list gv -> prog A') h (m : io U B') Q :
  lookup_fun C name = None -> sim (pbind (library_method C name args) f) h m Q ->
  sim (pbind (PCall (CFun name) args sp PRet) f) h m Q.
Proof. intros H K. apply simb_call. cbn [body_of]. rewrite H. apply K. Qed.

Definition funcname_ok (pkg : bytes) (c : gv) : Prop :=
  forall q h, ~ In "/"%char q -> 
  sim (PCall (CVal c) [VStruct "func" [("name"%string, VStr (B "github.com/go-andiamo/aitch" ++ "/"%char :: q))]] false PRet) h (Ret tt)
    (fun vs h' _ => vs = [VStr q] /\ h' = h).
Ltac lib :=
  eapply simb_lib; [reflexivity|];
  lazymatch goal with
  | |- @GoRun.sim _ ?C ?FL0 ?P _ _ (pbind (library_method ?c0 ?x ?args) ?f) ?h ?m ?Q =>
      let r := eval lazy [library_method String.eqb Ascii.eqb Bool.eqb] in (library_method c0 x args) in
      change (@GoRun.sim _ C FL0 P _ _ (pbind r f) h m Q)
  end; steps.
Lemma funcName_spec pkg en : funcname_ok pkg (VClo d_funcName en).
Proof.
  intros q h H. set (p := B "github.com/go-andiamo/aitch"). enter_closure. steps. ext. lib.
  replace (beq (B "func") (B "func")) with true by reflexivity. steps. lib. ext. lib.
  lazymatch goal with |- context [external ?C ?x ?a ?s] => 
    apply (simb_eq M) with (X' := PRet [VInt (last_index "/"%char (p ++ "/"%char :: q))]); [reflexivity|] end. steps.
  unfold last_index. rewrite last_index_app by exact H. replace (0 <? Z.of_nat (0 + length p))%Z with true by reflexivity. steps.
  replace (Z.of_nat (0 + length p) + 1)%Z with (Z.of_nat (S (length p))) by reflexivity.
  eapply simb_eq; [apply sub_string_end; rewrite app_length; cbn [length]; lia|]. steps.
  replace (skipn (S (length p)) (p ++ "/"%char :: q)) with q by reflexivity. apply sim_ret. auto.
Qed.

(** ** Escaping *)
Definition escape_ok (c : gv) : Prop :=
  forall s h, sim (PCall (CVal c) [VStr s] false PRet) h (Ret tt) (fun vs h' _ => vs = [VStr (escape s)] /\ h' = h).
Lemma escape_spec en : escape_ok (VClo d_escape en).
Proof.
  intros s h. enter_closure. steps.
  do 4 (lazymatch goal with |- context [external ?C ?x [VStr ?a; VStr ?o; VStr ?n; VInt _] ?sp] =>
    apply (simb_eq M) with (X' := PRet [VStr (replace1 (List.hd Ascii.zero o) n a)]); [reflexivity|] end; steps).
  apply sim_ret. auto.
Qed.

(** ** The variables that closures assign *)
Section Boxes.
Variables li le : loc.
Hypothesis LE : li <> le.
Definition box (v : gv) : obj := OStruct "box" [("v"%string, v)].
Definition others (h h' : @heap W) : Prop :=
  forall l o, l <> li -> l <> le -> nth_error h l = Some o -> nth_error h' l = Some o.
Lemma others_refl h : others h h. Proof. unfold others. auto. Qed.
Lemma others_trans h1 h2 h3 : others h1 h2 -> others h2 h3 -> others h1 h3.
Proof. unfold others. auto. Qed.

Lemma simb_set_err h n e e' (en : venv) {A' B'} (f : venv -> prog A') (m : io U B') Q :
  nth_error h li = Some (box (VBytes n)) -> nth_error h le = Some (box e) ->
  (forall h', nth_error h' li = Some (box (VBytes n)) -> nth_error h' le = Some (box e') -> others h h' -> sim (f en) h' m Q) ->
  sim (pbind (store (RField (VPtr le) "v") e' en) f) h m Q.
Proof.
  intros HI HE K. eapply simb_set_field; [exact HE|reflexivity|]. cbn [set_assoc String.eqb Ascii.eqb Bool.eqb]. apply K.
  - rewrite nth_set_other by auto. exact HI.
  - apply nth_set_same. eapply nth_lt; eauto.
  - intros l o H1 H2 H. rewrite nth_set_other by auto. exact H.
Qed.
Lemma simb_set_indent h n n' e (en : venv) {A' B'} (f : venv -> prog A') (m : io U B') Q :
  nth_error h li = Some (box (VBytes n)) -> nth_error h le = Some (box e) ->
  (forall h', nth_error h' li = Some (box (VBytes n')) -> nth_error h' le = Some (box e) -> others h h' -> sim (f en) h' m Q) ->
  sim (pbind (store (RField (VPtr li) "v") (VBytes n') en) f) h m Q.
Proof.
  intros HI HE K. eapply simb_set_field; [exact HI|reflexivity|]. cbn [set_assoc String.eqb Ascii.eqb Bool.eqb]. apply K.
  - apply nth_set_same. eapply nth_lt; eauto.
  - rewrite nth_set_other by auto. exact HE.
  - intros l o H1 H2 H. rewrite nth_set_other by auto. exact H.
Qed.
Definition boxes (h : heap) (n : nat) (e : option error) : Prop :=
  nth_error h li = Some (box (VBytes (tabs n))) /\ nth_error h le = Some (box (verr e)).

(** [_, err = w.Write(...)] *)
Ltac wr :=
  eapply simb_writer; [reflexivity|]; 
  let k := fresh "k" in let e := fresh "e" in intros k e; steps;
  lazymatch goal with
  | HI : nth_error ?h li = Some _, HE : nth_error ?h le = Some _ |- @GoRun.sim _ _ _ _ _ _ _ ?h _ _ =>
      eapply simb_set_err; [exact HI|exact HE|];
      let h' := fresh "h" in let HI' := fresh "HI" in let HE' := fresh "HE" in let O := fresh "O" in
      intros h' HI' HE' O
  end; unfold box in *; steps.
Ltac chain := repeat first [apply others_refl | eapply others_trans; [eassumption|]].

Definition write_ok (c : gv) : Prop :=
  forall s n e h, boxes h n e ->
  sim (PCall (CVal c) [VStr s] false PRet) h (writes e (line n s))
    (fun vs h' e' => vs = [] /\ boxes h' n e' /\ others h h').
Lemma write_spec en :
  assoc "w" en = Some VWriter -> assoc "indent" en = Some (VPtr li) -> assoc "err" en = Some (VPtr le) -> assoc "nl" en = Some (VBytes [nl]) ->
  write_ok (VClo d_write en).
Proof.
  intros E1 E2 E3 E4 s n e h (HI & HE). unfold box in *. enter_closure. cbn [line writes]. steps. wr. wr. wr.
  apply sim_ret. split; [reflexivity|]. split; [split; assumption|chain].
Qed.
Definition inc_ok (c : gv) : Prop :=
  forall n e h, boxes h n e ->
  sim (PCall (CVal c) [] false PRet) h (Ret tt) (fun vs h' _ => vs = [] /\ boxes h' (S n) e /\ others h h').
Lemma inc_spec en :
  assoc "indent" en = Some (VPtr li) -> assoc "tab" en = Some (VInt 9) -> inc_ok (VClo d_inc en).
Proof.
  intros E1 E2 n e h (HI & HE). unfold box in *. enter_closure. steps.
  apply (simb_eq M) with (X' := PRet [VBytes (tabs n ++ [tab])]); [reflexivity|]. steps.
  eapply simb_set_indent; [exact HI|exact HE|]. intros h1 HI1 HE1 O1. steps. apply sim_ret.
  split; [reflexivity|]. split; [|exact O1]. split; [|exact HE1]. rewrite HI1. do 3 f_equal. unfold tabs. cbn [repeat]. rewrite repeat_cons. reflexivity.
Qed.
Definition dec_ok (c : gv) : Prop :=
  forall n e h, boxes h n e ->
  sim (PCall (CVal c) [] false PRet) h (Ret tt) (fun vs h' _ => vs = [] /\ boxes h' (pred n) e /\ others h h').
Lemma simb_len_bytes b sp h {A' B'} (f : list gv -> prog A') (m : io U B') Q :
  sim (f [VInt (Z.of_nat (length b))]) h m Q -> sim (pbind (external C "len" [VBytes b] sp) f) h m Q.
Proof. intro K. exact K. Qed.
Lemma dec_spec en : assoc "indent" en = Some (VPtr li) -> dec_ok (VClo d_dec en).
Proof.
  intros E1 n e h (HI & HE). unfold box in *. enter_closure. steps. apply simb_len_bytes. steps.
  unfold tabs. rewrite repeat_length, pos_of_nat. destruct n as [|n].
  - cbn [Nat.ltb Nat.leb]. steps. apply sim_ret. split; [reflexivity|]. split; [split; assumption|apply others_refl].
  - cbn [Nat.ltb Nat.leb]. steps. apply simb_len_bytes. steps. unfold tabs. rewrite repeat_length.
    replace (Z.of_nat (S n) - 1)%Z with (Z.of_nat n) by lia.
    apply (simb_eq M) with (X' := PRet (VBytes (tabs n))).
    { cbn [sub_slice]. rewrite (proj2 (Z.leb_le 0 (Z.of_nat n))) by lia. rewrite Nat2Z.id, repeat_length. rewrite (proj2 (Nat.leb_le n (S n))) by lia.
      cbn [andb Nat.leb]. unfold Escape.subslice, tabs. rewrite Nat.sub_0_r. cbn [skipn]. do 2 f_equal. clear. revert n. 
      assert (X : forall k n, k <= n -> firstn k (repeat tab n) = repeat tab k).
      { induction k; intros [|n] L; auto; [lia|]. cbn [repeat firstn]. f_equal. apply IHk. lia. }
      intro n. apply X. lia. }
    steps. eapply simb_set_indent; [exact HI|exact HE|]. intros h1 HI1 HE1 O1. steps. apply sim_ret.
    split; [reflexivity|]. split; [split; assumption|exact O1].
Qed.

(** ** Elements and their attributes *)
Definition func_map (pkg : string) (t : list (string * string)) : list (bytes * gv) :=
  map (fun '(k, f) => (B k, func_value (pkg ++ "." ++ f)%string)) t.
Definition plain (s : string) : bool := negb (existsb (Ascii.eqb "/"%char) (B s)).
Definition plain_names (t : list (string * string)) : bool := forallb (fun '(_, f) => plain f) t.
Lemma look_funcs pkg t k :
  match look (table t) k with
  | Some f' => exists f, In f (map snd t) /\ f' = B f /\ bassoc k (func_map pkg t) = Some (func_value (pkg ++ "." ++ f)%string)
  | None => bassoc k (func_map pkg t) = None
  end.
Proof.
  induction t as [|[k' f] t IH]; [reflexivity|]. cbn [table map look func_map bassoc fst snd]. destruct (beq (B k') k).
  - exists f. split; [left; reflexivity|auto].
  - fold (table t). fold (func_map pkg t). destruct (look (table t) k) as [f'|]; [|exact IH]. destruct IH as (f0 & H1 & H2 & H3). exists f0. split; [right; exact H1|auto].
Qed.
Lemma plain_in t f : plain_names t = true -> In f (map snd t) -> ~ In "/"%char (B f).
Proof.
  intros H I X. unfold plain_names in H. rewrite forallb_forall in H. apply in_map_iff in I. destruct I as ([k f0] & <- & I).
  specialize (H _ I). cbn [snd] in *. unfold plain in H. apply negb_true_iff in H. assert (Y : existsb (Ascii.eqb "/"%char) (B f0) = true); [|congruence].
  apply existsb_exists. eexists. split; [exact X|apply Ascii.eqb_refl].
Qed.
Variables (pkg : string).
Hypothesis PKG : (pkg = "html" \/ pkg = "svg")%string.
Lemma func_value_name f : func_value (pkg ++ "." ++ f)%string =
  VStruct "func" [("name"%string, VStr (B "github.com/go-andiamo/aitch" ++ "/"%char :: B pkg ++ B "." ++ B f))] :> gv.
Proof.
  unfold func_value. do 4 f_equal. rewrite <- !B_app. destruct PKG as [->| ->]; reflexivity.
Qed.
Lemma simb_funcname c t f h {A' B'} (k : list gv -> prog A') (m : io U B') Q :
  funcname_ok (B pkg) c -> plain_names t = true -> In f (map snd t) ->
  sim (k [VStr (B pkg ++ B "." ++ B f)]) h m Q ->
  sim (pbind (PCall (CVal c) [func_value (pkg ++ "." ++ f)%string] false PRet) k) h m Q.
Proof.
  intros Hc Ht Hf K. rewrite func_value_name. eapply sim_bind_l.
  - apply Hc. intro X. rewrite in_app_iff in X. destruct X as [X|X].
    + destruct PKG as [->| ->]; cbn in X; intuition discriminate.
    + rewrite in_app_iff in X. destruct X as [X|X]; [cbn in X; intuition discriminate|]. eapply plain_in; eauto.
  - intros vs h' (-> & ->). exact K.
Qed.
Lemma simb_escape c s h {A' B'} (k : list gv -> prog A') (m : io U B') Q :
  escape_ok c -> sim (k [VStr (escape s)]) h m Q -> sim (pbind (PCall (CVal c) [VStr s] false PRet) k) h m Q.
Proof. intros Hc K. eapply sim_bind_l; [apply Hc|]. intros vs h' (-> & ->). exact K. Qed.

Lemma writes_app e a b E w : run E (writes (U := U) e (a ++ b)) w = run E (bind (writes e a) (fun e' => writes e' b)) w.
Proof.
  revert e w. induction a as [|d a IH]; intros e w; [reflexivity|]. cbn [app writes bind run]. destruct (e_wr E (w_log w) d) as [x e']. apply IH.
Qed.

(** The range over the attributes. *)
Lemma sim_range_kv {B'} body x v h sv pre y ys en (m : io U B') Q :
  slice_is h sv (pre ++ y :: ys) -> String.eqb x "_" = false -> String.eqb v "_" = false ->
  sim (pbind (body ((v, y) :: (x, VInt (Z.of_nat (length pre))) :: en))
         (fun '(f, en2) =>
            match f with
            | FNext | FContinue => range_with body x v (slice_items sv (length (pre ++ [y])) (length ys)) (leave en en2)
            | FBreak => PRet (FNext, leave en en2)
            | FReturn vs => PRet (FReturn vs, leave en en2)
            end)) h m Q ->
  sim (range_with body x v (slice_items sv (length pre) (S (length ys))) en) h m Q.
Proof.
  intros Hs Hx Hv H. rewrite app_length, Nat.add_1_r in H. unfold slice_items in *. cbn [seq map range_with]. eapply simb_slice_item; [exact Hs| |].
  - rewrite nth_error_app2, Nat.sub_diag by lia. reflexivity.
  - cbn beta iota. cbn [push pbind]. rewrite Hx, Hv. exact H.
Qed.

Definition loop_body (fd : fundecl) : stmt :=
  match nth 5 (statements fd) SSkip with SRange _ _ _ b => b | _ => SSkip end.
Definition html_attr_body : stmt := ltac:(let r := eval lazy [statements loop_body nth d_html_start] in (loop_body d_html_start) in exact r).
Definition svg_attr_body : stmt := ltac:(let r := eval lazy [statements loop_body nth d_svg_start] in (loop_body d_svg_start) in exact r).

Definition bool_map (l : list string) : list (bytes * gv) := map (fun k => (B k, VBool true)) l.
Lemma bool_lookup l k : bassoc k (bool_map l) = if bmem k (map B l) then Some (VBool true) else @None gv.
Proof.
  induction l as [|x l IH]; [reflexivity|]. cbn [bool_map map bassoc]. unfold bmem in *. cbn [existsb]. 
  replace (beq k (B x)) with (beq (B x) k) by (destruct (beq_spec (B x) k), (beq_spec k (B x)); congruence).
  destruct (beq (B x) k); [reflexivity|exact IH].
Qed.

Variable g : dialect.
Variables (elems attrs : list (string * string)) (bools : list string).
Hypothesis G1 : g_pkg g = B pkg.
Hypothesis G2 : g_elems g = table elems.
Hypothesis G3 : g_attrs g = table attrs.
Hypothesis G4 : g_bools g = map B bools.
Hypothesis PE : plain_names elems = true.
Hypothesis PA : plain_names attrs = true.
Variables l1 l2 l3 : loc.
Definition maps (h : heap) : Prop :=
  nth_error h l1 = Some (OMap (func_map pkg elems)) /\ nth_error h l2 = Some (OMap (func_map pkg attrs)) /\
  ((pkg = "svg"%string /\ bools = []) \/ (l3 <> li /\ l3 <> le /\ nth_error h l3 = Some (OMap (bool_map bools)))).
Hypothesis L1 : l1 <> li /\ l1 <> le.
Hypothesis L2 : l2 <> li /\ l2 <> le.
Lemma maps_others h h' : others h h' -> maps h -> maps h'.
Proof. intros O (H1 & H2 & H3). split; [apply O; tauto|]. split; [apply O; tauto|]. destruct H3 as [H3|(X & Y & H3)]; [auto|right]. split; [exact X|]. split; [exact Y|]. apply O; auto. Qed.
Definition away (v : gv) : Prop := match v with VSlice l _ => l <> li /\ l <> le | _ => True end.
Lemma slice_others h h' v xs : others h h' -> away v -> slice_is h v xs -> slice_is h' v xs.
Proof. intros O A H. destruct v; cbn [slice_is away] in *; auto. destruct H as (cs & H1 & H2). exists cs. split; [apply O; tauto|exact H2]. Qed.

Lemma simb_lower s sp h {A' B'} (f : list gv -> prog A') (m : io U B') Q :
  sim (f [VStr (to_lower s)]) h m Q -> sim (pbind (external C "strings.ToLower" [VStr s] sp) f) h m Q.
Proof. intro K. exact K. Qed.
(** The next attribute. *)
Ltac next_attr IH Hs :=
  lazymatch goal with
  | |- @GoRun.sim _ ?C ?FL0 ?P _ _ (range_with ?b _ _ (slice_items ?av (length (map _ ?pre ++ [attribute_value ?a])) (length (map _ ?ats))) _) ?h (writes ?e _) _ =>
      let H := fresh in
      assert (H : match pre ++ [a] with [] => true | _ => false end = false) by (destruct pre; reflexivity);
      specialize (IH (pre ++ [a]) h e); rewrite H in IH;
      let K := fresh in
      assert (K : length (map (attribute_value (W := W)) pre ++ [attribute_value a]) = length (map (attribute_value (W := W)) (pre ++ [a]))) by (rewrite map_app; reflexivity);
      rewrite K, (map_length (attribute_value (W := W)) ats); eapply sim_conseq;
      [apply IH; [split; assumption|eapply maps_others; [|eassumption]; chain|rewrite <- app_assoc; eapply slice_others; [| |exact Hs]; [chain|assumption]]
      |let X := fresh in intros ? ? ? (-> & X & ?); split; [reflexivity|]; split; [exact X|eapply others_trans; [|eassumption]; chain]]
  end.
Ltac one_attr IH Hs HM HF HS key :=
  steps; apply simb_lower; steps;
  lazymatch goal with |- @GoRun.sim _ _ _ _ _ _ _ ?h _ _ =>
    let X := fresh in assert (X : maps h) by (eapply maps_others; [|exact HM]; chain); destruct X as (_ & X & _);
    eapply simb_index_map; [exact X|]; clear X
  end;
  let X := fresh in pose proof (look_funcs pkg attrs (to_lower key)) as X; unfold attr_writes; rewrite G3;
  let f := fresh "f" in let f' := fresh "f" in
  destruct (look (table attrs) (to_lower key)) as [f'|];
  [ let H1 := fresh "IN" in let H2 := fresh in destruct X as (f & H1 & -> & H2); rewrite H2; unfold func_name; rewrite G1; steps
  | rewrite X; steps; cbn [app writes]; wr; wr; wr; eapply simb_escape; [exact HS|]; steps; wr; wr; next_attr IH Hs].
Ltac name_attr HF :=
  lazymatch goal with IN : In ?f (map snd attrs) |- _ =>
    eapply (simb_funcname _ attrs f); [exact HF|exact PA|exact IN|] end; steps.
Ltac bool_attr IH Hs HM HF HS key :=
  apply simb_lower; steps;
  lazymatch goal with |- @GoRun.sim _ _ _ _ _ _ _ ?h _ _ =>
    let X := fresh in let Y := fresh in assert (X : maps h) by (eapply maps_others; [|exact HM]; chain); destruct X as (_ & _ & [(X & Y)|(_ & _ & X)]); [exfalso; congruence|];
    eapply simb_index_map; [exact X|]; clear X
  end; rewrite bool_lookup, G4; destruct (bmem (to_lower key) (map B bools)); steps;
  [ name_attr HF; cbn [app writes]; wr; wr; next_attr IH Hs
  | name_attr HF; cbn [app writes]; wr; wr; eapply simb_escape; [exact HS|]; steps; wr; wr; next_attr IH Hs ].
Lemma html_attr_turns n av en cf ce : pkg = "html"%string ->
  assoc "w" en = Some VWriter -> assoc "err" en = Some (VPtr le) -> assoc "attrMap" en = Some (VMap l2) -> assoc "boolAttrs" en = Some (VMap l3) ->
  assoc "funcName" en = Some cf -> assoc "escape" en = Some ce -> funcname_ok (B pkg) cf -> escape_ok ce -> away av ->
  forall ats pre h e, boxes h n e -> maps h -> slice_is h av (map attribute_value (pre ++ ats)) ->
  sim (range_with (exec C html_attr_body) "i" "a" (slice_items av (length (map attribute_value pre)) (length ats)) en) h
    (writes e (attrs_writes g (match pre with [] => true | _ => false end) ats))
    (fun r h' e' => r = (FNext, en) /\ boxes h' n e' /\ others h h').
Proof.
  intros PH E1 E2 E3 E4 E5 E6 HF HS HA. induction ats as [|[key val] ats IH]; intros pre h e HB HM Hs.
  - cbn [length range_with attrs_writes writes]. apply sim_ret. split; [reflexivity|]. split; [exact HB|apply others_refl].
  - pose proof Hs as Hs'. rewrite map_app in Hs'. cbn [map] in Hs'. replace (length ((key, val) :: ats)) with (S (length (map (attribute_value (W := W)) ats))) by (rewrite map_length; reflexivity).
    eapply sim_range_kv; [exact Hs'|reflexivity|reflexivity|]. unfold html_attr_body. steps. rewrite pos_of_nat, map_length. fold html_attr_body. destruct HB as (HI & HE). unfold box in *.
    cbn [attrs_writes]. destruct pre as [|p pre]; cbn [length Nat.ltb Nat.leb]; cbn [app writes].
    + one_attr IH Hs HM HF HS key. bool_attr IH Hs HM HF HS key.
    + steps. wr. one_attr IH Hs HM HF HS key. bool_attr IH Hs HM HF HS key.
Qed.
Ltac plain_attr PB IH Hs HM HF HS key :=
  rewrite G4, PB; replace (bmem (to_lower key) (map B [])) with false by reflexivity; cbv iota;
  name_attr HF;  cbn [app writes]; wr; wr; eapply simb_escape; [exact HS|]; steps; wr; wr; next_attr IH Hs.
Lemma svg_attr_turns n av en cf ce : bools = [] ->
  assoc "w" en = Some VWriter -> assoc "err" en = Some (VPtr le) -> assoc "attrMap" en = Some (VMap l2) ->
  assoc "funcName" en = Some cf -> assoc "escape" en = Some ce -> funcname_ok (B pkg) cf -> escape_ok ce -> away av ->
  forall ats pre h e, boxes h n e -> maps h -> slice_is h av (map attribute_value (pre ++ ats)) ->
  sim (range_with (exec C svg_attr_body) "i" "a" (slice_items av (length (map attribute_value pre)) (length ats)) en) h
    (writes e (attrs_writes g (match pre with [] => true | _ => false end) ats))
    (fun r h' e' => r = (FNext, en) /\ boxes h' n e' /\ others h h').
Proof.
  intros PB E1 E2 E3 E5 E6 HF HS HA. induction ats as [|[key val] ats IH]; intros pre h e HB HM Hs.
  - cbn [length range_with attrs_writes writes]. apply sim_ret. split; [reflexivity|]. split; [exact HB|apply others_refl].
  - pose proof Hs as Hs'. rewrite map_app in Hs'. cbn [map] in Hs'. replace (length ((key, val) :: ats)) with (S (length (map (attribute_value (W := W)) ats))) by (rewrite map_length; reflexivity).
    eapply sim_range_kv; [exact Hs'|reflexivity|reflexivity|]. unfold svg_attr_body. steps. rewrite pos_of_nat, map_length. fold svg_attr_body. destruct HB as (HI & HE). unfold box in *.
    cbn [attrs_writes]. destruct pre as [|p pre]; cbn [length Nat.ltb Nat.leb]; cbn [app writes].
    + one_attr IH Hs HM HF HS key. plain_attr PB IH Hs HM HF HS key.
    + steps. wr. one_attr IH Hs HM HF HS key. plain_attr PB IH Hs HM HF HS key.
Qed.

Lemma html_attr_all n av en cf ce ats h e : pkg = "html"%string ->
  assoc "w" en = Some VWriter -> assoc "err" en = Some (VPtr le) -> assoc "attrMap" en = Some (VMap l2) -> assoc "boolAttrs" en = Some (VMap l3) ->
  assoc "funcName" en = Some cf -> assoc "escape" en = Some ce -> funcname_ok (B pkg) cf -> escape_ok ce -> away av ->
  boxes h n e -> maps h -> slice_is h av (map attribute_value ats) ->
  sim (range_with (exec C html_attr_body) "i" "a" (slice_items av 0 (length ats)) en) h (writes e (attrs_writes g true ats))
    (fun r h' e' => r = (FNext, en) /\ boxes h' n e' /\ others h h').
Proof. intros. eapply (html_attr_turns n av en cf ce) with (pre := []); eassumption. Qed.
Lemma svg_attr_all n av en cf ce ats h e : bools = [] ->
  assoc "w" en = Some VWriter -> assoc "err" en = Some (VPtr le) -> assoc "attrMap" en = Some (VMap l2) ->
  assoc "funcName" en = Some cf -> assoc "escape" en = Some ce -> funcname_ok (B pkg) cf -> escape_ok ce -> away av ->
  boxes h n e -> maps h -> slice_is h av (map attribute_value ats) ->
  sim (range_with (exec C svg_attr_body) "i" "a" (slice_items av 0 (length ats)) en) h (writes e (attrs_writes g true ats))
    (fun r h' e' => r = (FNext, en) /\ boxes h' n e' /\ others h h').
Proof. intros. eapply (svg_attr_turns n av en cf ce) with (pre := []); eassumption. Qed.
Definition start_ok (c : gv) : Prop :=
  forall name ats av self n e h, boxes h n e -> maps h -> slice_is h av (map attribute_value ats) -> away av ->
  sim (PCall (CVal c) [VStr name; av; VBool self] false PRet) h (writes e (element_start g n name ats self))
    (fun vs h' e' => vs = [] /\ boxes h' (if self then n else S n) e' /\ others h h').
Ltac start_elem HF HM name :=
  apply simb_lower; steps;
  eapply simb_index_map; [exact (proj1 HM)|];
  let X := fresh in pose proof (look_funcs pkg elems (to_lower name)) as X; unfold element_start; rewrite G2;
  let f := fresh "f" in let f' := fresh "f" in
  destruct (look (table elems) (to_lower name)) as [f'|];
  [ let H1 := fresh "IN" in let H2 := fresh in destruct X as (f & H1 & -> & H2); rewrite H2; unfold func_name; rewrite G1; steps;
    eapply (simb_funcname _ elems f); [exact HF|exact PE|exact H1|]; steps
  | rewrite X; steps ].
Ltac attr_range av HM Hs HA HF HS ats turns :=
  lazymatch goal with |- @GoRun.sim _ _ _ _ _ _ _ ?h _ _ =>
    eapply simb_range; [eapply slice_others; [| |exact Hs]; [chain|exact HA]|]; steps;
    eapply sim_model_eq; [intros; symmetry; apply writes_app|];
    rewrite map_length; lazymatch goal with |- context [attrs_writes g true (?a :: ?l)] => change (slice_items av 0 (S (length l))) with (slice_items av 0 (length (a :: l))) | _ => idtac end; eapply sim_bind;
    [ eapply turns; [first [reflexivity|eassumption]..|split; eassumption|eapply maps_others; [|exact HM]; chain|eapply slice_others; [| |exact Hs]; [chain|exact HA]]
    | let X := fresh in let O := fresh in let HI := fresh "HI" in let HE := fresh "HE" in intros ? ? ? (-> & (HI & HE) & O); unfold box in *; steps ]
  end.
Ltac start_done := apply sim_ret; split; [reflexivity|]; split; [split; assumption|chain].
Ltac start_rest av HB HM Hs HA HF HS HC ats self turns :=
  let HI := fresh "HI" in let HE := fresh "HE" in
  destruct HB as (HI & HE); unfold box in *; cbn [app writes]; steps; wr; wr;
  destruct self; cbn [andb]; steps;
  [ eapply simb_len; [eapply slice_others; [| |exact Hs]; [chain|exact HA]|]; steps; rewrite map_length; destruct ats as [|? ?]; cbn [length];
    [ replace (Z.of_nat 0 =? 0)%Z with true by reflexivity; steps; wr; start_done
    | lazymatch goal with |- context [(Z.of_nat (S ?k) =? 0)%Z] => replace (Z.of_nat (S k) =? 0)%Z with false by reflexivity end; steps;
      attr_range av HM Hs HA HF HS ats turns; cbn [app writes]; wr; wr; start_done ]
  | attr_range av HM Hs HA HF HS ats turns;
    eapply simb_len; [eapply slice_others; [| |exact Hs]; [chain|exact HA]|]; steps; rewrite map_length, pos_of_nat; destruct ats as [|? ?]; cbn [length Nat.ltb Nat.leb app writes]; steps;
    [|wr]; wr;
    (eapply sim_bind_l; [apply HC; split; eassumption|]; let X := fresh in let O := fresh in intros ? ? (-> & X & O); destruct X; steps; start_done) ].
Lemma html_start_spec en cf ce ci : pkg = "html"%string ->
  assoc "w" en = Some VWriter -> assoc "err" en = Some (VPtr le) -> assoc "indent" en = Some (VPtr li) ->
  assoc "elemMap" en = Some (VMap l1) -> assoc "attrMap" en = Some (VMap l2) -> assoc "boolAttrs" en = Some (VMap l3) ->
  assoc "funcName" en = Some cf -> assoc "escape" en = Some ce -> assoc "incIndent" en = Some ci ->
  funcname_ok (B pkg) cf -> escape_ok ce -> inc_ok ci ->
  start_ok (VClo d_html_start en).
Proof.
  intros PH E1 E2 E3 E4 E5 E6 E7 E8 E9 HF HS HI name ats av self n e h HB HM Hs HA. enter_closure. steps. fold html_attr_body.
  start_elem HF HM name.
  - start_rest av HB HM Hs HA HF HS HI ats self (html_attr_all n av).
  - rewrite <- (app_assoc (B "aitch.Element(""") name (B """, ")). start_rest av HB HM Hs HA HF HS HI ats self (html_attr_all n av).
Qed.
Lemma svg_start_spec en cf ce ci : bools = [] ->
  assoc "w" en = Some VWriter -> assoc "err" en = Some (VPtr le) -> assoc "indent" en = Some (VPtr li) ->
  assoc "elemMap" en = Some (VMap l1) -> assoc "attrMap" en = Some (VMap l2) ->
  assoc "funcName" en = Some cf -> assoc "escape" en = Some ce -> assoc "incIndent" en = Some ci ->
  funcname_ok (B pkg) cf -> escape_ok ce -> inc_ok ci ->
  start_ok (VClo d_svg_start en).
Proof.
  intros PH E1 E2 E3 E4 E5 E7 E8 E9 HF HS HI name ats av self n e h HB HM Hs HA. enter_closure. steps. fold svg_attr_body.
  start_elem HF HM name.
  - start_rest av HB HM Hs HA HF HS HI ats self (svg_attr_all n av).
  - rewrite <- (app_assoc (B "aitch.Element(""") name (B """, ")). start_rest av HB HM Hs HA HF HS HI ats self (svg_attr_all n av).
Qed.
End Boxes.
End Refine.
