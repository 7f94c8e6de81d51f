(** C75: the code generators, against the Go source. *)
From Coq Require Import ZArith Permutation Lia.
From Verif Require Import Bytes IO IOFacts SpecHtml Nodes Values Build SpecRun Generator SpecGo SpecGen GenFacts PropErrors PropGenerator
  Rebuild SpecRebuild PropRebuild GoSyntax SourceLib Source GoSem GoRun GoRep GoStep RefineIter RefineGenLoop RefineGenMain GoExamples Demo.
Local Open Scope nat_scope.

(** GenerateCode writes and does nothing else: no user code is called and no
    map is ranged over. *)
Lemma writes_still {U} E ds : forall err (w : world U),
  w_u (snd (run E (writes err ds) w)) = w_u w /\ w_tick (snd (run E (writes err ds) w)) = w_tick w.
Proof.
  induction ds as [|d ds IH]; intros err w; [split; reflexivity|]. cbn [writes run]. destruct (e_wr E (w_log w) d) as [n e].
  destruct (IH e (World (w_log w ++ [WCall d n e]) (w_u w) (w_tick w))) as [H1 H2]. split; [exact H1|exact H2].
Qed.
Lemma loop_still {U} E g fin ts : forall n err (w : world U),
  w_u (snd (run E (loop g ts fin n err) w)) = w_u w /\ w_tick (snd (run E (loop g ts fin n err) w)) = w_tick w.
Proof.
  induction ts as [|t ts IH]; intros n [e|] w; cbn [loop]; try (split; reflexivity).
  - destruct fin as [e|]; [split; reflexivity|]. apply writes_still.
  - destruct (tok_writes g n t) as [ds n']. rewrite IOFacts.run_bind. pose proof (writes_still E ds None w) as X.
    destruct (run E (writes None ds) w) as [e w']. cbn [snd] in X. destruct X as [<- <-]. apply IH.
Qed.
Lemma generate_still {U} E g ts fin (w : world U) :
  w_u (snd (run E (generate g ts fin) w)) = w_u w /\ w_tick (snd (run E (generate g ts fin) w)) = w_tick w.
Proof.
  unfold generate. rewrite IOFacts.run_bind. pose proof (writes_still E (line 0 (B "var template = aitch.Collection(")) None w) as X.
  destruct (run E (writes None _) w) as [e w']. cbn [snd] in X. destruct X as [<- <-]. apply loop_still.
Qed.

(** Nor does what it writes depend on that state. *)
Section Any.
Context {U1 U2 : Type}.
Variables (E : env) (g : dialect).
Definition same_run {A} (p1 : io U1 A) (p2 : io U2 A) : Prop :=
  forall w1 w2, w_log w1 = w_log w2 -> fst (run E p1 w1) = fst (run E p2 w2) /\ w_log (snd (run E p1 w1)) = w_log (snd (run E p2 w2)).
Lemma writes_any ds : forall err, same_run (writes err ds) (writes err ds).
Proof.
  induction ds as [|d ds IH]; intros err w1 w2 L; [split; [reflexivity|exact L]|]. cbn [writes run]. rewrite L. destruct (e_wr E (w_log w2) d) as [n e].
  apply IH. reflexivity.
Qed.
Lemma same_bind {A A'} (p1 : io U1 A) (p2 : io U2 A) (k1 : A -> io U1 A') (k2 : A -> io U2 A') :
  same_run p1 p2 -> (forall a, same_run (k1 a) (k2 a)) -> same_run (bind p1 k1) (bind p2 k2).
Proof.
  intros H1 H2 w1 w2 L. rewrite !IOFacts.run_bind. destruct (H1 w1 w2 L) as [X1 X2].
  destruct (run E p1 w1) as [a1 w1'], (run E p2 w2) as [a2 w2']. cbn [fst snd] in *. subst a2. apply H2, X2.
Qed.
Lemma loop_any fin ts : forall n err, same_run (loop g ts fin n err) (loop g ts fin n err).
Proof.
  induction ts as [|t ts IH]; intros n [e|]; cbn [loop]; try (intros w1 w2 L; split; [reflexivity|exact L]).
  - destruct fin; [intros w1 w2 L; split; [reflexivity|exact L]|]. apply writes_any.
  - destruct (tok_writes g n t) as [ds n']. apply same_bind; [apply writes_any|]. intro a. apply IH.
Qed.
Lemma generate_any ts fin : same_run (generate g ts fin) (generate g ts fin).
Proof. apply same_bind; [apply writes_any|]. intro a. apply loop_any. Qed.
End Any.

(** The two packages, with the names of their functions. *)
Inductive generator : string -> dialect -> Prop :=
| Gen_html : generator "html.GenerateCode" html_dialect
| Gen_svg : generator "svg.GenerateCode" svg_dialect.
Lemma generator_dialect f g : generator f g -> a_dialect g.
Proof. intros []; [left|right]; reflexivity. Qed.

Section Claims.
Context {W : UserWorld}.
Variable M : go_mode.
Notation C := (go_config M).

(** [produces E f w ts fin r l]: the call [f(reader, w)], where reading the
    input gives the tokens [ts] and then the error [fin], returns [r], after
    the calls [l] of Write.  It does not panic, it leaves the state of the user
    alone, and this from any heap. *)
Definition produces (E : env) (f : string) (wr : gv) (ts : list gtok) (fin : error) (r : gv) (l : list wcall) : Prop :=
  forall h u t, exists k h',
    go_run C k E (PCall (CFun f) [VReader ts fin; wr] false PRet) h (World [] u t) = Some (ROk [r] h' (World l u t)).
Definition a_writer (v : gv) : Prop := v = VNil \/ v = VWriter.

(** The source does what the model does. *)
Theorem C75_generated E f g wr ts fin :
  ord_ok (e_ord E) -> generator f g -> a_writer wr ->
  exists e l, produces E f wr ts fin (verr e) l /\ forall u, generated (U := U) E g ts (fin' fin) u = (e, l).
Proof.
  intros O G Hw.
  assert (Z : exists e l, forall u t, fst (run E (generate g ts (fin' fin)) (World (U := U) [] u t)) = e /\ w_log (snd (run E (generate g ts (fin' fin)) (World [] u t))) = l).
  { eexists _, _. intros u t. apply (generate_any E g ts (fin' fin) _ (World (U := unit) [] tt 0)). reflexivity. }
  destruct Z as (e & l & Z). exists e, l. split.
  - intros h u t. destruct (generate_still E g ts (fin' fin) (World [] u t)) as [S1 S2]. destruct (Z u t) as [Z1 Z2].
    assert (D : exists k vs h', go_run C k E (PCall (CFun f) [VReader ts fin; wr] false PRet) h (World [] u t) = Some (ROk vs h' (snd (run E (generate g ts (fin' fin)) (World [] u t)))) /\
      vs = [verr (fst (run E (generate g ts (fin' fin)) (World [] u t)))]).
    { destruct G; [exact (sim_never _ _ _ _ _ (html_generate M ts fin wr h Hw) E (World [] u t) O)|exact (sim_never _ _ _ _ _ (svg_generate M ts fin wr h Hw) E (World [] u t) O)]. }
    destruct D as (k & vs & h' & R & ->). rewrite Z1 in R. exists k, h'. rewrite R. cbn [w_u w_tick] in S1, S2.
    destruct (snd (run E (generate g ts (fin' fin)) (World [] u t))) as [l' u' t']. cbn [w_log w_u w_tick] in *. subst. reflexivity.
  - intro u. destruct (Z u 0) as [Z1 Z2]. unfold generated. destruct (run E (generate g ts (fin' fin)) (World [] u 0)) as [r w]. cbn [fst snd] in *. congruence.
Qed.
Lemma generated_unit E f g wr ts fin :
  ord_ok (e_ord E) -> generator f g -> a_writer wr ->
  exists e l, produces E f wr ts fin (verr e) l /\ generated (U := unit) E g ts (fin' fin) tt = (e, l).
Proof.
  intros O G Hw. destruct (generated (U := unit) E g ts (fin' fin) tt) as [e l] eqn:Q. exists e, l. split; [|reflexivity].
  destruct (C75_generated E f g wr ts fin O G Hw) as (e' & l' & HP & HG). intros h u t.
  specialize (HG u). unfold generated in *. destruct (generate_any E g ts (fin' fin) (World (U := U) [] u 0) (World (U := unit) [] tt 0) eq_refl) as [X1 X2].
  destruct (run E (generate g ts (fin' fin)) (World [] u 0)) as [r1 w1], (run E (generate g ts (fin' fin)) (World [] tt 0)) as [r2 w2]. cbn [fst snd] in *.
  injection HG as <- <-. injection Q as <- <-. subst r2. rewrite <- X2. apply HP.
Qed.

(** The input read to its end and everything written: no error, and the code
    of the tokens. *)
Theorem C75_code o f g wr ts :
  ord_ok o -> generator f g -> a_writer wr ->
  exists l, produces (Env healthy o) f wr ts io_EOF VNil l /\ accepted l = code g ts.
Proof.
  intros O G Hw. destruct (generated_unit (Env healthy o) f g wr ts io_EOF O G Hw) as (e & l & HP & HG).
  pose proof (C40_output (U := unit) g ts o tt) as [A1 A2]. change (fin' io_EOF) with (@None error) in HG. rewrite HG in A1, A2. cbn [fst snd] in *. subst e.
  exists l. split; [exact HP|exact A2].
Qed.

(** So a document of which the names can be quoted becomes a Go declaration of
    the calls that stand for it, indented by depth, and Go text if the tokens
    are text; running the declaration gives the document back, where C53 says so. *)
Theorem C75_declares o f g wr ds :
  ord_ok o -> generator f g -> a_writer wr -> Forall names_quotable (flat_map stream ds) ->
  exists l, produces (Env healthy o) f wr (flat_map stream ds) io_EOF VNil l /\
    declares (accepted l) (B "template") (SpecGo.ECall (B "aitch") (B "Collection") (flat_map (exprs g) ds)) /\
    well_indented (accepted l) /\
    (Forall token_text (flat_map stream ds) -> text (accepted l)).
Proof.
  intros O G Hw Q. destruct (C75_code o f g wr (flat_map stream ds) O G Hw) as (l & HP & HA). exists l. rewrite HA.
  pose proof (generator_dialect f g G) as D. destruct (C39_code_partial g ds D Q) as [X1 X2]. split; [exact HP|]. split; [exact X1|]. split; [exact X2|].
  apply C38_source, D.
Qed.
Theorem C75_matched o f g wr ts :
  ord_ok o -> generator f g -> a_writer wr -> Forall names_quotable ts ->
  exists l, produces (Env healthy o) f wr ts io_EOF VNil l /\
    (matched 0 ts <-> exists e, declares (accepted l) (B "template") e).
Proof.
  intros O G Hw Q. destruct (C75_code o f g wr ts O G Hw) as (l & HP & HA). exists l. rewrite HA. split; [exact HP|].
  apply C39_matched; [eapply generator_dialect, G|exact Q].
Qed.
Theorem C75_rebuilds o f g wr fr ds u s :
  ord_ok o -> generator f g -> a_writer wr -> Forall (rebuildable g) ds ->
  exists l e n b,
    produces (Env healthy o) f wr (flat_map stream ds) io_EOF VNil l /\
    declares (accepted l) (B "template") e /\ Rebuild.eval e u = Some (ANode n, u) /\
    page o n fr s = (b, s) /\ tokenizes b (flat_map doc_tokens ds).
Proof.
  intros O G Hw F. destruct (C75_code o f g wr (flat_map stream ds) O G Hw) as (l & HP & HA).
  destruct (C53_rebuilds_partial g (generator_dialect f g G) o fr ds u s O F) as (e & n & b & X). exists l, e, n, b. rewrite HA. split; [exact HP|exact X].
Qed.

(** Errors: the result is the error of the last write, or else that of the
    reader, io.EOF not counted; a writer that keeps failing is reported; one
    that dies has got a beginning of the code. *)
Theorem C75_errors E f g wr ts fin :
  ord_ok (e_ord E) -> generator f g -> a_writer wr ->
  exists e l, produces E f wr ts fin (verr e) l /\
    e = match last_error l with Some e' => Some e' | None => if fin =? io_EOF then None else Some fin end /\
    (keeps_failing (e_wr E) -> failed l = true -> e <> None) /\
    (dying (e_wr E) -> fin = io_EOF -> exists more, code g ts = accepted l ++ more).
Proof.
  intros O G Hw. destruct (generated_unit E f g wr ts fin O G Hw) as (e & l & HP & HG). exists e, l. split; [exact HP|].
  pose proof (C40_last_write E g ts (fin' fin) tt) as L. rewrite HG in L. split; [exact L|]. split.
  - intro K. pose proof (C40_reported_partial E g ts (fin' fin) tt K) as R. rewrite HG in R. exact R.
  - intros D ->. destruct E as [wrt o]. destruct (C40_prefix (U := unit) wrt o g ts tt D) as [more Hm]. change (fin' io_EOF) with (@None error) in HG. rewrite HG in Hm. exists more. exact Hm.
Qed.
End Claims.

(** A failure in the middle is lost by the source too (C40). *)
Theorem C75_lost_write M : exists E ts l, ord_ok (e_ord E) /\
  produces (W := demo) M E "html.GenerateCode" VWriter ts io_EOF VNil l /\ failed l = true /\ accepted l <> code html_dialect ts.
Proof.
  exists (Env second_fails (fun _ ks => ks)), [].
  assert (O : ord_ok (e_ord (Env second_fails (fun _ ks => ks)))) by (intros ? ?; apply Permutation_refl).
  destruct (generated_unit (W := demo) M _ _ _ VWriter [] io_EOF O Gen_html (or_intror eq_refl)) as (e & l & HP & HG).
  exists l. vm_compute in HG. injection HG as <- <-. split; [exact O|]. split; [exact HP|]. split; [vm_compute; reflexivity|vm_compute; discriminate].
Qed.

(** The functions of the source, run. *)
Definition source_code (f : string) (ts : list gtok) (fin : error) (wr : gv (W := demo)) (E : env) : option (list gv * bytes) :=
  match go_run (go_config the_mode) 4900 E (PCall (CFun f) [VReader ts fin; wr] false PRet) [] (World [] (st 0) 0) with
  | Some (ROk vs _ w) => Some (vs, accepted (w_log w))
  | _ => None
  end.
Example C75_example :
  source_code "html.GenerateCode" (flat_map stream sample) io_EOF VNil E0 = Some ([VNil], code html_dialect (flat_map stream sample)) /\
  source_code "svg.GenerateCode" (flat_map stream sample) io_EOF VWriter E0 = Some ([VNil], code svg_dialect (flat_map stream sample)) /\
  source_code "svg.GenerateCode" [GSelf (B "circle") [(B "r", B "1")]] 3 VWriter E0 =
    Some ([VErr 3], B "var template = aitch.Collection(
	svg.Circle(svg.R(""1"")),
") /\
  source_code "html.GenerateCode" (flat_map stream sample) io_EOF VWriter (Env (dies_after 40 7) (fun _ ks => ks)) =
    Some ([VErr 7], firstn 40 (code html_dialect (flat_map stream sample))).
Proof. vm_compute. auto. Qed.
Example C75_hyps : Forall names_quotable (flat_map stream sample) /\ ord_ok (e_ord E0) /\ dying (dies_after 40 7).
Proof. split; [exact sample_names|]. split; [intros ? ?; apply Permutation_refl|]. apply dies_after_dying. Qed.
