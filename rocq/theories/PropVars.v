(** C55: htmx.Vars and htmx.Var. *)
From Coq Require Import ZArith Lia.
From Verif Require Import Bytes IO IOFacts Escape Nodes Values Render Build SpecOut SpecRun RenderFacts
  PageFacts SpecElem Api ApiFacts PropValues PropElements Tables Packages PropPackages Demo.
Local Open Scope string_scope.
Local Open Scope list_scope.

Section Vars.
Context {W : UserWorld}.
Variables (o : order) (fr : frame U).

(** The calls [Var(n1, v1), Var(n2, v2), …], made one after the other. *)
Fixpoint var_list (l : list (bytes * arg U)) (u : U) : list (value U) * U :=
  match l with
  | [] => ([], u)
  | (n, v) :: l' => let '(x, u1) := Var n v u in let '(xs, u2) := var_list l' u1 in (x :: xs, u2)
  end.

(** The specification.  What each value shows by itself; the names with them;
    commas in between. *)
Fixpoint shown_values (l : list (bytes * arg U)) (u : U) (s : U * nat) : list bytes * (U * nat) :=
  match l with
  | [] => ([], s)
  | (_, v) :: l' =>
      let '(n, u1) := Text [v] u in
      let '(b, s1) := page o n fr s in
      let '(bs, s2) := shown_values l' u1 s1 in (b :: bs, s2)
  end.
Definition pair (n b : bytes) : bytes := html_escape_string n ++ B ": " ++ b.
Fixpoint pairs (l : list (bytes * arg U)) (bs : list bytes) : list bytes :=
  match l, bs with (n, _) :: l', b :: bs' => pair n b :: pairs l' bs' | _, _ => [] end.
Fixpoint commas (l : list bytes) : bytes :=
  match l with [] => [] | [x] => x | x :: l' => x ++ B ", " ++ commas l' end.

Lemma pair_nonempty n b : pair n b <> [].
Proof. unfold pair. destruct (html_escape_string n); discriminate. Qed.
Lemma pairs_nonempty : forall l bs, Forall (fun b => b <> []) (pairs l bs).
Proof. induction l as [|[n v] l IH]; intros [|b bs]; cbn [pairs]; constructor; auto using pair_nonempty. Qed.
Lemma delimited_commas l : Forall (fun b => b <> []) l -> delimited (B ", ") l = commas l.
Proof.
  intro F. unfold delimited.
  assert (E : filter (fun v => negb (beq v [])) l = l).
  { induction F as [|b l H F IH]; [reflexivity|]. cbn [filter]. destruct (beq_spec b []); [contradiction|]. cbn. rewrite IH. reflexivity. }
  rewrite E. replace (separated (B ", ") l) with (commas l) by (clear; induction l as [|a [|b l] IH]; auto; cbn [commas separated] in *; congruence).
  destruct l as [|b l]; [reflexivity|].
  assert (N : last (b :: l) [] <> []).
  { clear E. revert b F. induction l as [|c l IH]; intros b F; [inversion F; auto|]. inversion F; subst. apply IH. auto. }
  match goal with |- context [beq ?x ?y] => destruct (beq_spec x y) as [e|e] end; [contradiction|]. apply app_nil_r.
Qed.

Lemma var_sval n v u :
  let '(x, u1) := Var n v u in
  u1 = snd (Text [v] u) /\
  forall s, sval fr x s = (let '(b, s') := svals fr (fst (new_values [v] u)) s in (pair n b, s')).
Proof.
  unfold Var, NewConcatValue, Text. cbn [new_values new_value value_to_bytes].
  destruct (new_value v u) as [vs u1]. cbn [app fst snd]. split; [reflexivity|]. intro s.
  rewrite sval_group by discriminate. rewrite app_nil_r.
  change (Val (html_escape_string n) None [] :: Val (B ": ") None [] :: vs)
    with ([Val (html_escape_string n) None []] ++ [Val (B ": ") None []] ++ vs).
  rewrite !svals_app, !svals_one. cbn [sval]. rewrite svals_app, svals_one. cbn [sval].
  destruct (svals fr vs s) as [b s']. reflexivity.
Qed.

Lemma var_values : forall l u s,
  (let '(bs, s') := shown_values l u s in
   mapS (sval fr) (fst (var_list l u)) (fst s) = (pairs l bs, fst s') /\ snd s' = snd s).
Proof.
  induction l as [|[n v] l IH]; intros u s; cbn [var_list shown_values]; [cbn; auto|].
  pose proof (var_sval n v u) as V. destruct (Var n v u) as [x u1]. destruct V as [E V].
  destruct (Text [v] u) as [t u1'] eqn:T. cbn [snd] in E. subst u1'.
  assert (P : page o t fr s = (let '(b, s') := svals fr (fst (new_values [v] u)) (fst s) in (b, (s', snd s)))).
  { unfold Text in T. destruct (new_values [v] u) as [vs u2]. injection T as <- _. rewrite page_text. reflexivity. }
  rewrite P. destruct (svals fr (fst (new_values [v] u)) (fst s)) as [b s'] eqn:Sv.
  pose proof (IH u1 (s', snd s)) as I1. destruct (shown_values l u1 (s', snd s)) as [bs s''].
  destruct I1 as [I1 I2]. cbn [fst snd] in *.
  destruct (var_list l u1) as [xs u2]. cbn [fst snd mapS] in *. rewrite V, Sv, I1. auto.
Qed.

Lemma values_args vs (u : U) : new_values (map AVal vs) u = (vs, u).
Proof. induction vs as [|v vs IH]; [reflexivity|]. cbn [map new_values new_value]. rewrite IH. reflexivity. Qed.

(** One call of Vars: each pair as its name, a colon and its value; nothing is
    left out, whatever the values show. *)
Theorem C55_vars l u s :
  let '(xs, u1) := var_list l u in
  let '(bs, s') := shown_values l u s in
  In ("Vars", KDelim "hx-vars" ", ") htmx_attribute_functions /\
  exists n, call (KDelim "hx-vars" ", ") (map AVal xs) u1 = Some n /\
    page o (fst n) fr s = (B " hx-vars=""" ++ commas (pairs l bs) ++ B """", s').
Proof.
  pose proof (var_values l u s) as V. destruct (var_list l u) as [xs u1].
  destruct (shown_values l u s) as [bs s'] eqn:S. destruct V as [V1 V2]. cbn [fst snd] in *.
  split; [vm_compute; auto 60|]. eexists. split; [reflexivity|].
  unfold NewDelimitedAttribute. rewrite values_args. cbn [fst]. rewrite page_attr. unfold liftU. cbn [sattr].
  rewrite V1. rewrite djoin_delimited.
  rewrite delimited_commas by apply pairs_nonempty. destruct s'. cbn [fst snd] in *. subst. reflexivity.
Qed.

(** Several calls in one element: one attribute with all the pairs. *)
Fixpoint vars_calls (ls : list (list (bytes * arg U))) (u : U) : list (attr U) * U :=
  match ls with
  | [] => ([], u)
  | l :: ls' =>
      let '(xs, u1) := var_list l u in
      let '(n, u2) := NewDelimitedAttribute (B "hx-vars") (B ", ") (map AVal xs) u1 in
      let '(rest, u3) := vars_calls ls' u2 in (node_attrs [n] ++ rest, u3)
  end.
Lemma vars_calls_values : forall ls u,
  Forall (fun a => exists vs, a = ADelim (B "hx-vars") (B ", ") vs) (fst (vars_calls ls u)) /\
  (ls <> [] -> fst (vars_calls ls u) <> []) /\
  flat_map vals (fst (vars_calls ls u)) = fst (var_list (concat ls) u) /\
  snd (vars_calls ls u) = snd (var_list (concat ls) u).
Proof.
  induction ls as [|l ls IH]; intro u; cbn [vars_calls concat]; [cbn; auto|].
  assert (A : forall l r u, var_list (l ++ r) u =
    (let '(xs, u1) := var_list l u in let '(ys, u2) := var_list r u1 in (xs ++ ys, u2))).
  { clear. induction l as [|[n v] l IH]; intros r u; cbn [app var_list]; [destruct (var_list r u); reflexivity|].
    destruct (Var n v u) as [x u1]. rewrite IH. destruct (var_list l u1) as [xs u2].
    destruct (var_list r u2). reflexivity. }
  rewrite A. destruct (var_list l u) as [xs u1]. unfold NewDelimitedAttribute. rewrite values_args.
  destruct (IH u1) as (I1 & I2 & I3 & I4). destruct (vars_calls ls u1) as [rest u3].
  destruct (var_list (concat ls) u1) as [ys u4]. cbn [fst snd] in *. repeat split; auto; try discriminate.
  - cbn. constructor; eauto.
  - cbn. rewrite I3. reflexivity.
Qed.
Theorem C55_merged ls u s :
  ls <> [] ->
  exists a, effective (fst (vars_calls ls u)) = Some a /\
    page o (NAttr a) fr s =
    (let '(bs, s') := shown_values (concat ls) u s in
     (B " hx-vars=""" ++ commas (pairs (concat ls) bs) ++ B """", s')).
Proof.
  intro N. destruct (vars_calls_values ls u) as (V1 & V2 & V3 & _). specialize (V2 N).
  destruct (fst (vars_calls ls u)) as [|a l]; [congruence|].
  inversion V1 as [|x y [vs ->] D' Ex]; subst.
  rewrite C10_all_delimited.
  2: { eapply Forall_impl; [|exact D']. intros b [w ->]. reflexivity. }
  eexists. split; [reflexivity|]. rewrite page_attr. unfold liftU. cbn [sattr].
  cbn [flat_map vals] in V3. rewrite V3. pose proof (var_values (concat ls) u s) as V.
  destruct (shown_values (concat ls) u s) as [bs s'] eqn:S. destruct V as [W1 W2].
  rewrite W1, djoin_delimited, delimited_commas by apply pairs_nonempty.
  destruct s'. cbn [fst snd] in *. subst. reflexivity.
Qed.

End Vars.

(** ** Example *)

Example C55_example :
  let ls := [[(B "a<b", AData (GInt 1%Z)); (B "x", AData GNil)]; [(B "y", AKey (B "k"))]] in
  fst (page listed (fst (NewElement (B "p") (map (fun a => ANode (NAttr a)) (fst (vars_calls ls (st 0)))) (st 0))) fr0 (st 0, 0))
  = B "<p hx-vars=""a&lt;b: 1, x: , y: ""></p>".
Proof. vm_compute. reflexivity. Qed.
