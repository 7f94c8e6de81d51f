(** C78: what nodes say about themselves, context.New, Nbsp and Nbsps, against
    the Go source. *)
From Coq Require Import ZArith Lia.
From Verif Require Import Bytes IO IOFacts Nodes Values Render Build Accessors SpecOut SpecRun PropAccessors PropValues
  GoSyntax SourceLib Source GoSem GoRun GoRep GoStep RefineNode RefineUser RefineIter RefineAll RefineSmall PropGo GoExamples Demo.
Local Open Scope nat_scope.
Local Notation "x <-- p ;; q" := (pbind p (fun x => q))
  (at level 100, p at next level, right associativity).

Section Claims.
Context {W : UserWorld}.
Variable M : go_mode.
Hypothesis MO : mode_ok M.
Notation C := (go_config M).

(** Every node answers, without any write or callback, and nothing changes. *)
Theorem C78_type n h v E w : node_rep M h v n -> ord_ok (e_ord E) ->
  exists k, go_run C k E (invoke v "Type" [] false) h w = Some (ROk [VInt (type_number (type_of n))] h w).
Proof. intros H O. destruct (sim_never _ _ _ _ _ (Type_spec M n v h H) E w O) as (k & a & h' & R & -> & ->). eauto. Qed.
Theorem C78_name n h v E w : node_rep M h v n -> ord_ok (e_ord E) ->
  exists k, go_run C k E (invoke v "Name" [] false) h w = Some (ROk [VStr (name_of n)] h w).
Proof. intros H O. destruct (sim_never _ _ _ _ _ (Name_spec M n v h H) E w O) as (k & a & h' & R & -> & ->). eauto. Qed.

(** New makes a context with the data, the cargo and the writer it is given,
    with no parent and no error, and changes nothing that there was. *)
Definition data_value (d : option mref) : gv := match d with Some m => VAny (GMap m) | None => VNil end.
Theorem C78_new h d g E w : ord_ok (e_ord E) ->
  exists k x, go_run C k E (PCall (CFun "context.New") [VWriter; data_value d; any_of g] false PRet) h w = Some (ROk [VPtr (length h)] (h ++ [x]) w) /\
    ctx_at (h ++ [x]) (length h) (Frame d g None) None.
Proof.
  intro O. destruct (sim_never _ _ _ _ _ (New_spec M VWriter (data_value d) (any_of g) h) E w O) as (k & a & h' & R & -> & ->).
  eexists k, _. split; [exact R|]. exists VNil. split; [|split; [constructor|apply Nat.le_0_l]]. rewrite nth_error_app2, Nat.sub_diag by lia. reflexivity.
Qed.

(** So a program can ask a node for its type and its name, make a context and
    render the node in it; elements, attributes and processing instructions begin
    with the name that they told. *)
Definition ask_and_render (v : gv) (d : option mref) (g : gval U) : prog (list gv * list gv * list gv) :=
  t <-- invoke v "Type" [] false ;; nm <-- invoke v "Name" [] false ;;
  cs <-- PCall (CFun "context.New") [VWriter; data_value d; any_of g] false PRet ;;
  r <-- invoke v "Render" cs false ;; PRet (t, nm, r).
Theorem C78_starts o n h v d g u tick : node_rep M h v n -> SpecOut.tables_ok n -> ord_ok o ->
  exists k t nm r h' w', go_run C k (Env healthy o) (ask_and_render v d g) h (World [] u tick) = Some (ROk ([VInt t], [VStr nm], [verr r]) h' w') /\
    (t = 0%Z -> exists rest, accepted (w_log w') = B "<" ++ nm ++ rest) /\
    (t = 1%Z -> exists rest, accepted (w_log w') = B " " ++ nm ++ rest) /\
    (t = 4%Z -> exists x rest, nm = B "!" ++ x /\ accepted (w_log w') = B "<" ++ nm ++ B " " ++ rest).
Proof.
  intros H T O.
  assert (S : GoRun.sim C (ask_and_render v d g) h (render n (Frame d g None) None)
    (fun a h' b => a = ([VInt (type_number (type_of n))], [VStr (name_of n)], [verr (fst b)]))).
  { unfold ask_and_render. eapply sim_bind_l; [apply Type_spec, H|]. intros a h1 [-> ->].
    eapply sim_bind_l; [apply Name_spec, H|]. intros a h1 [-> ->].
    eapply sim_bind_l; [apply New_spec|]. intros a h1 [-> ->]. apply sim_eta_model.
    eapply sim_bind; [apply (proj1 (every_node M MO) n (h ++ _) (length h) (Frame d g None) None v)|].
    - exists VNil. split; [|split; [constructor|apply Nat.le_0_l]]. rewrite nth_error_app2, Nat.sub_diag by lia. reflexivity.
    - eapply node_keeps; [|exact H]. apply grown_keeps, grown_app.
    - exact T.
    - intros a h1 b (-> & _). apply sim_ret. reflexivity. }
  destruct (sim_never _ _ _ _ _ S (Env healthy o) (World [] u tick) O) as (k & a & h' & R & ->).
  do 6 eexists. split; [exact R|].
  pose proof (C62_element o n (Frame d g None) (u, tick)) as H1. pose proof (C62_attribute o n (Frame d g None) (u, tick)) as H2.
  pose proof (C62_pi o n (Frame d g None) (u, tick)) as H3. unfold page in *. cbn [fst snd] in *.
  split; [|split]; intro X.
  - apply H1. destruct (type_of n); try discriminate X; reflexivity.
  - apply H2. destruct (type_of n); try discriminate X; reflexivity.
  - assert (Y : type_of n = PINode) by (destruct (type_of n); try discriminate X; reflexivity).
    destruct (H3 Y) as [rest E]. destruct n; try discriminate Y. cbn [name_of] in *. eauto.
Qed.

(** Non-breaking spaces: as many as asked for, none for a number that is not
    positive. *)
Theorem C78_nbsp h E w : ord_ok (e_ord E) ->
  exists k, go_run C k E (PCall (CFun "aitch.Nbsp") [] false PRet) h w = Some (ROk [VBytes (B "&nbsp;")] h w).
Proof. intro O. destruct (sim_never _ _ _ _ _ (Nbsp_spec M h) E w O) as (k & a & h' & R & -> & ->). exists k. exact R. Qed.
Theorem C78_nbsps n h E w : ord_ok (e_ord E) ->
  exists k v, go_run C k E (PCall (CFun "aitch.Nbsps") [VInt n] false PRet) h w = Some (ROk [v] h w) /\
    bytes_of v = Some (concat (repeat (B "&nbsp;") (Z.to_nat n))) /\ (v = VNil <-> (n <= 0)%Z).
Proof.
  intro O. destruct (sim_never _ _ _ _ _ (Nbsps_spec M n h) E w O) as (k & a & h' & R & -> & ->).
  eexists k, _. split; [exact R|]. rewrite <- C46_nbsps. destruct (Z.leb_spec n 0) as [L|L].
  - split; [unfold Nbsps; rewrite (proj2 (Z.leb_le n 0) L); reflexivity|]. tauto.
  - split; [reflexivity|]. split; [discriminate|lia].
Qed.
End Claims.

(** ** Cases *)
Example C78_case : exists h v, node_rep the_mode h v busy_node /\ SpecOut.tables_ok busy_node /\ mode_ok the_mode.
Proof. destruct C69_example as (h & v & lc & H1 & _ & H2 & H3). eauto. Qed.
Definition asked (n : node (@U demo)) : option (list gv * list gv * list gv * bytes) :=
  match go_run (go_config the_mode) 3000 E0 (v <-- reify (go_config the_mode) n ;; ask_and_render v None GNil) [] (World [] (st 0) 0) with
  | Some (ROk r _ w) => Some (r, accepted (w_log w))
  | _ => None
  end.
Example asks_run :
  asked (NElement (B "p") [] [] [] [NText [Val (B "x") None []]]) = Some ([VInt 0], [VStr (B "p")], [VNil], B "<p>x</p>") /\
  asked (NAttr (ABool (B "open"))) = Some ([VInt 1], [VStr (B "open")], [VNil], B " open") /\
  asked (NPI (B "doctype") [Val (B "html") None []]) = Some ([VInt 4], [VStr (B "!doctype")], [VNil], B "<!doctype html>" ++ ["010"%char]) /\
  asked (NYield YRet []) = Some ([VInt 11], [VStr (B "!yield_iterator")], [VNil], []).
Proof. vm_compute. repeat split; reflexivity. Qed.
Example nbsps_run :
  match go_run (go_config the_mode) 3000 E0 (PCall (W := demo) (CFun "aitch.Nbsps") [VInt 2] false PRet) [] (World [] (st 0) 0) with
  | Some (ROk r _ w) => Some r | _ => None end = Some [VBytes (B "&nbsp;&nbsp;")].
Proof. vm_compute. reflexivity. Qed.
