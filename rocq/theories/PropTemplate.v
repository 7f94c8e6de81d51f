(** C44: executing a template (and C33 for templates). *)
From Coq Require Import Lia.
From Verif Require Import Bytes IO Nodes Values Render Build IOFacts SpecRun Template Demo PageFacts
  SpecSteady SteadyFacts PropConcurrent.

Section Props.
Context {W : UserWorld}.

(** A call of Execute: the error returned, and the world afterwards. *)
Definition executed (E : env) (t : template) (data : option mref) (cargo : gval U) (s : U * nat)
  : option error * world U := run E (execute t data cargo) (World [] (fst s) (snd s)).

(** What NewTemplate accepts: every token has a node. *)
Theorem C44_new_template ps nm :
  NoDup (map fst nm) ->
  (exists t, new_template ps nm = Some t) <->
  (forall i k, In (PToken i k) ps -> exists n, In (k, Some n) nm).
Proof.
  intro N.
  assert (F : forall k n, func_of (func_map nm) k = Some n <-> In (k, Some n) nm).
  { intros k n. induction nm as [|[k' [n'|]] nm IH]; cbn [map fst] in N; inversion N as [|? ? N1 N2]; subst.
    - split; [discriminate|intros []].
    - cbn [func_map flat_map snd fst app func_of]. fold (func_map nm). destruct (beq_spec k' k) as [->|D].
      + split.
        * intro E. inversion E; subst. left. reflexivity.
        * intros [E|X]; [inversion E; reflexivity|]. exfalso. apply N1. apply (in_map fst) in X. exact X.
      + rewrite (IH N2). split; [intro X; right; exact X|]. intros [E|X]; [inversion E; congruence|exact X].
    - cbn [func_map flat_map snd fst app]. fold (func_map nm). rewrite (IH N2).
      split; [intro X; right; exact X|]. intros [E|X]; [discriminate|exact X]. }
  unfold new_template. induction ps as [|[x|i k] ps IH]; cbn [parse].
  - split; [intros _ i k []|]. intros _. exists []. reflexivity.
  - split.
    + intros [t H]. destruct (parse ps (func_map nm)) as [t'|]; [|discriminate].
      intros i k [X|X]; [discriminate|]. eapply (proj1 IH); eauto.
    + intro H. destruct (proj2 IH) as [t' E]; [intros j k'' X; apply (H j); right; exact X|]. rewrite E. cbn. eauto.
  - split.
    + intros [t H] i' k' [X|X].
      * inversion X; subst. destruct (func_of (func_map nm) k') as [n|] eqn:E; [|discriminate].
        exists n. apply F. exact E.
      * eapply (proj1 IH); [|exact X]. destruct (func_of (func_map nm) k); [|discriminate].
        destruct (parse ps (func_map nm)) as [t'|]; [eauto|discriminate].
    + intro H. destruct (H i k) as [n Hn]; [left; reflexivity|]. apply F in Hn. rewrite Hn.
      destruct (proj2 IH) as [t' E]; [intros j k'' X; apply (H j); right; exact X|]. rewrite E. cbn. eauto.
Qed.

(** The output of a template piece by piece: a text is itself; a token is what
    its node renders with a context of its own with the given data and cargo.
    Where html/template expects an attribute, nodes of other kinds are followed
    by its mark for unsafe content.  (Nodes that fail come below.) *)
Definition mark (inside : bool) (n : node U) : bytes :=
  match inside, n with
  | false, _ | true, NAttr _ => []
  | true, _ => B "ZgotmplZ"
  end.
Lemma filtered_mark i n : filtered i n = mark i n.
Proof. destruct i, n; reflexivity. Qed.
Inductive spliced (o : order) (nm : node_map) (fr : frame U) : list piece -> U * nat -> bytes -> U * nat -> Prop :=
| spliced_end s : spliced o nm fr [] s [] s
| spliced_text x ps s b s' : spliced o nm fr ps s b s' -> spliced o nm fr (PText x :: ps) s (x ++ b) s'
| spliced_node i k n ps s b1 s1 b2 s2 :
    In (k, Some n) nm -> result o n fr s = (None, None) -> page o n fr s = (b1, s1) ->
    spliced o nm fr ps s1 b2 s2 -> spliced o nm fr (PToken i k :: ps) s (b1 ++ mark i n ++ b2) s2.

Lemma func_of_in nm k n : NoDup (map fst nm) -> In (k, Some n) nm -> func_of (func_map nm) k = Some n.
Proof.
  intro N. induction nm as [|[k' [n'|]] nm IH]; cbn [map fst] in N; inversion N as [|? ? N1 N2]; subst; [intros []| |].
  - cbn [func_map flat_map snd fst app func_of]. fold (func_map nm). intros [E|X].
    + inversion E; subst. rewrite beq_refl. reflexivity.
    + destruct (beq_spec k' k) as [->|D]; [|auto]. exfalso. apply N1. apply (in_map fst) in X. exact X.
  - cbn [func_map flat_map snd fst app]. fold (func_map nm). intros [E|X]; [discriminate|auto].
Qed.

Lemma hrun_page o n fr s :
  hrun o (render n fr None) (fst s) (snd s) =
  (result o n fr s, fst (page o n fr s), fst (snd (page o n fr s)), snd (snd (page o n fr s))).
Proof.
  pose proof (run_hrun o (render n fr None) (World [] (fst s) (snd s))) as H. cbn [w_u w_tick w_log] in H.
  destruct (hrun o (render n fr None) (fst s) (snd s)) as [[[a b] u] t].
  unfold result, page. destruct (run (Env healthy o) (render n fr None) (World [] (fst s) (snd s))) as [a' w'].
  cbn [fst snd]. destruct H as (<- & -> & <- & <-). reflexivity.
Qed.

Lemma hrun_exec_spliced o nm fr ps s b s' : NoDup (map fst nm) -> spliced o nm fr ps s b s' ->
  exists t, parse ps (func_map nm) = Some t /\
    forall t2, hrun o (exec (t ++ t2) fr None) (fst s) (snd s) =
      (let '(r, b2, u, k) := hrun o (exec t2 fr None) (fst s') (snd s') in (r, b ++ b2, u, k)).
Proof.
  intros N H. induction H as [s|x ps s b s' H IH|i k n ps s b1 s1 b2 s2 Hn Hr Hp H IH].
  - exists []. split; [reflexivity|]. intro t2. cbn [app].
    destruct (hrun o (exec t2 fr None) (fst s) (snd s)) as [[[? ?] ?] ?]. reflexivity.
  - destruct IH as (t & P & R). exists (TText x :: t). cbn [parse]. rewrite P. split; [reflexivity|].
    intro t2. cbn [app exec hrun]. rewrite R.
    destruct (hrun o (exec t2 fr None) (fst s') (snd s')) as [[[? ?] ?] ?]. rewrite app_assoc. reflexivity.
  - destruct IH as (t & P & R). exists (TNode i n :: t). cbn [parse]. rewrite (func_of_in nm k n N Hn), P.
    split; [reflexivity|]. intro t2. cbn [app exec]. rewrite hrun_bind, hrun_page, Hr, Hp. cbn [fst snd hrun length].
    rewrite R. destruct (hrun o (exec t2 fr None) (fst s2) (snd s2)) as [[[? ?] ?] ?]. rewrite filtered_mark.
    rewrite <- !app_assoc. reflexivity.
Qed.

Lemma executed_hrun o t data cargo s r c b u k :
  hrun o (exec t (Frame data cargo None) None) (fst s) (snd s) = (r, c, b, u, k) ->
  exists w, executed (Env healthy o) t data cargo s = (r, w) /\ accepted (w_log w) = b /\ w_u w = u /\ w_tick w = k.
Proof.
  intro R. pose proof (run_hrun o (exec t (Frame data cargo None) None) (World [] (fst s) (snd s))) as Q.
  cbn [w_u w_tick w_log] in Q. rewrite R in Q. unfold executed, execute. rewrite run_bind.
  destruct (run (Env healthy o) (exec t (Frame data cargo None) None) (World [] (fst s) (snd s))) as [a w].
  destruct Q as (-> & Q2 & Q3 & Q4). exists w. cbn [run]. auto.
Qed.

(** C44.  With a writer that accepts everything, Execute returns nil and has
    written the texts and what the nodes render, in order. *)
Theorem C44_splices o nm ps data cargo s b s' :
  NoDup (map fst nm) -> spliced o nm (Frame data cargo None) ps s b s' ->
  exists t w, new_template ps nm = Some t /\
    executed (Env healthy o) t data cargo s = (None, w) /\
    accepted (w_log w) = b /\ (w_u w, w_tick w) = s'.
Proof.
  intros N H. destruct (hrun_exec_spliced o nm (Frame data cargo None) ps s b s' N H) as (t & P & R).
  specialize (R []). rewrite app_nil_r in R. cbn [exec hrun] in R. rewrite app_nil_r in R.
  destruct (executed_hrun o t data cargo s _ _ _ _ _ R) as (w & Q1 & Q2 & Q3 & Q4).
  exists t, w. rewrite Q3, Q4. destruct s'. auto.
Qed.

(** Tokens inside tags stand for attributes: then the output is the texts and what
    the nodes render, and nothing else. *)
Inductive in_place (o : order) (nm : node_map) (fr : frame U) : list piece -> U * nat -> bytes -> U * nat -> Prop :=
| place_end s : in_place o nm fr [] s [] s
| place_text x ps s b s' : in_place o nm fr ps s b s' -> in_place o nm fr (PText x :: ps) s (x ++ b) s'
| place_node i k n ps s b1 s1 b2 s2 :
    In (k, Some n) nm -> (i = true -> exists a, n = NAttr a) -> result o n fr s = (None, None) -> page o n fr s = (b1, s1) ->
    in_place o nm fr ps s1 b2 s2 -> in_place o nm fr (PToken i k :: ps) s (b1 ++ b2) s2.
Lemma in_place_spliced o nm fr ps s b s' : in_place o nm fr ps s b s' -> spliced o nm fr ps s b s'.
Proof.
  induction 1 as [s|x ps s b s' H IH|i k n ps s b1 s1 b2 s2 Hn Hi Hr Hp H IH]; [constructor|constructor; exact IH|].
  change (b1 ++ b2) with (b1 ++ [] ++ b2). replace (@nil ascii) with (mark i n); [econstructor; eauto|].
  destruct i; [|reflexivity]. destruct (Hi eq_refl) as [a ->]. reflexivity.
Qed.
Theorem C44_in_place o nm ps data cargo s b s' :
  NoDup (map fst nm) -> in_place o nm (Frame data cargo None) ps s b s' ->
  exists t w, new_template ps nm = Some t /\
    executed (Env healthy o) t data cargo s = (None, w) /\
    accepted (w_log w) = b /\ (w_u w, w_tick w) = s'.
Proof. intros N H. apply (C44_splices o nm ps data cargo s b s' N). apply in_place_spliced, H. Qed.
(** Any other node inside a tag: html/template's mark comes after it. *)
Theorem C44_misplaced o nm x k n y data cargo s b s' :
  NoDup (map fst nm) -> In (k, Some n) nm -> is_attr n = false ->
  result o n (Frame data cargo None) s = (None, None) -> page o n (Frame data cargo None) s = (b, s') ->
  exists t w, new_template [PText x; PToken true k; PText y] nm = Some t /\
    executed (Env healthy o) t data cargo s = (None, w) /\ accepted (w_log w) = x ++ b ++ B "ZgotmplZ" ++ y.
Proof.
  intros N Hn Ha Hr Hp.
  destruct (C44_splices o nm [PText x; PToken true k; PText y] data cargo s (x ++ b ++ mark true n ++ y ++ []) s' N) as (t & w & H1 & H2 & H3 & _).
  - constructor. econstructor; eauto. constructor. constructor.
  - exists t, w. rewrite H3, app_nil_r. destruct n; try discriminate Ha; auto.
Qed.

(** C44.  At the first node that fails Execute stops: what that node wrote is
    the last output, and its error is returned. *)
Theorem C44_stops o nm ps1 i k n e ps2 t data cargo s b s1 :
  NoDup (map fst nm) -> spliced o nm (Frame data cargo None) ps1 s b s1 ->
  In (k, Some n) nm -> fst (result o n (Frame data cargo None) s1) = Some e ->
  new_template (ps1 ++ PToken i k :: ps2) nm = Some t ->
  exists w, executed (Env healthy o) t data cargo s = (Some e, w) /\
    accepted (w_log w) = b ++ fst (page o n (Frame data cargo None) s1).
Proof.
  intros N H Hn He P. set (fr := Frame data cargo None) in *.
  destruct (hrun_exec_spliced o nm fr ps1 s b s1 N H) as (t1 & P1 & R).
  assert (exists t2, t = t1 ++ TNode i n :: t2) as [t2 ->].
  { unfold new_template in P. clear - P P1 N Hn. revert t1 t P P1.
    induction ps1 as [|[x|i1 k1] ps1 IH]; intros t1 t P P1; cbn [parse app] in *.
    - rewrite (func_of_in nm k n N Hn) in P. destruct (parse ps2 (func_map nm)) as [t2|]; [|discriminate].
      cbn in P. inversion P; inversion P1; subst. exists t2. reflexivity.
    - destruct (parse ps1 (func_map nm)) as [u1|]; [|discriminate].
      destruct (parse (ps1 ++ PToken i k :: ps2) (func_map nm)) as [u|]; [|discriminate].
      destruct (IH u1 u eq_refl eq_refl) as [t2 ->]. cbn in P, P1. inversion P; inversion P1; subst. exists t2. reflexivity.
    - destruct (func_of (func_map nm) k1) as [m|]; [|discriminate].
      destruct (parse ps1 (func_map nm)) as [u1|]; [|discriminate].
      destruct (parse (ps1 ++ PToken i k :: ps2) (func_map nm)) as [u|]; [|discriminate].
      destruct (IH u1 u eq_refl eq_refl) as [t2 ->]. cbn in P, P1. inversion P; inversion P1; subst. exists t2. reflexivity. }
  specialize (R (TNode i n :: t2)). cbn [exec] in R. rewrite hrun_bind, hrun_page in R.
  destruct (result o n fr s1) as [r c] eqn:Er. cbn [fst] in He. subst r. cbn [hrun] in R. rewrite app_nil_r in R.
  destruct (executed_hrun o _ data cargo s _ _ _ _ _ R) as (w & Q1 & Q2 & _). exists w. auto.
Qed.

(** C44.  The same for every writer, at every point of an execution. *)
Lemma run_exec_app E fr t2 : forall t1 cerr w,
  run E (exec (t1 ++ t2) fr cerr) w =
  (let '((r, c), w1) := run E (exec t1 fr cerr) w in
   match r with Some _ => ((r, c), w1) | None => run E (exec t2 fr c) w1 end).
Proof.
  induction t1 as [|[x|i n] t1 IH]; intros cerr w; cbn [app exec run].
  - reflexivity.
  - destruct (e_wr E (w_log w) x) as [m [e|]]; [reflexivity|apply IH].
  - rewrite !run_bind. destruct (run E (render n fr cerr) w) as [[[e|] c] w']; [reflexivity|]. cbn [run].
    destruct (e_wr E (w_log w') (filtered i n)) as [m [e|]]; [reflexivity|apply IH].
Qed.
Theorem C44_stops_any_writer E t1 i n t2 data cargo s c w1 e c2 w2 :
  run E (exec t1 (Frame data cargo None) None) (World [] (fst s) (snd s)) = ((None, c), w1) ->
  run E (render n (Frame data cargo None) c) w1 = ((Some e, c2), w2) ->
  executed E (t1 ++ TNode i n :: t2) data cargo s = (Some e, w2).
Proof.
  intros H1 H2. unfold executed, execute. rewrite run_bind, run_exec_app, H1. cbn [exec].
  rewrite run_bind, H2. reflexivity.
Qed.

(** C44.  With a writer that dies at any point, Execute returns nil only if
    every write succeeded, and the output is always a prefix of the full one. *)
Theorem C44_write_errors E t data cargo s :
  dying (e_wr E) ->
  (fst (executed E t data cargo s) = None -> failed (w_log (snd (executed E t data cargo s))) = false) /\
  exists more, accepted (w_log (snd (executed (Env healthy (e_ord E)) t data cargo s))) =
               accepted (w_log (snd (executed E t data cargo s))) ++ more.
Proof.
  intro Dy. split.
  - unfold executed, execute. set (fr := Frame data cargo None).
    assert (G : forall t cerr w, failed (w_log w) = false ->
      fst (fst (run E (exec t fr cerr) w)) = None -> failed (w_log (snd (run E (exec t fr cerr) w))) = false).
    { clear t. induction t as [|[x|i n] t IH]; intros cerr w F H.
      - exact F.
      - cbn [exec run] in *. destruct (e_wr E (w_log w) x) as [m [e|]]; [cbn in H; discriminate|].
        apply IH; auto. cbn [w_log]. rewrite failed_app, F. reflexivity.
      - cbn [exec] in *. rewrite run_bind in *. destruct (run E (render n fr cerr) w) as [[r c] w'].
        destruct r as [e|]; [cbn in H; discriminate|]. cbn [run] in *.
        destruct (failed (w_log w')) eqn:F'.
        + exfalso. pose proof (Dy (w_log w') (filtered i n)) as X. rewrite F' in X.
          destruct (e_wr E (w_log w') (filtered i n)) as [m [e|]]; cbn [snd] in X; [cbn in H; discriminate|destruct X; congruence].
        + destruct (e_wr E (w_log w') (filtered i n)) as [m [e|]]; [cbn in H; discriminate|].
          apply IH; auto. cbn [w_log]. rewrite failed_app, F'. reflexivity. }
    specialize (G t None (World [] (fst s) (snd s)) eq_refl). rewrite run_bind.
    destruct (run E (exec t fr None) (World [] (fst s) (snd s))) as [[r c] w]. cbn in *. exact G.
  - destruct E as [wr o]. cbn [e_wr e_ord] in *. apply dying_prefix. exact Dy.
Qed.

(** Templates all of whose nodes only read state. *)
Definition steady_template (t : template) : Prop :=
  Forall (fun p => match p with TText _ => True | TNode _ n => steady n end) t.
Lemma execute_idle t data cargo : steady_template t -> idle (execute t data cargo).
Proof.
  intro H. unfold execute. apply idle_bind; [|intros []; exact I]. generalize (@None error).
  induction H as [|[x|i n] t Hp H IH]; intro cerr; [exact I| |]; cbn [exec].
  - cbn [idle]. intros m [e|]; [exact I|apply IH].
  - apply idle_bind; [apply (proj1 render_idle); exact Hp|]. intros [[r|] c]; [exact I|].
    cbn [idle]. intros m [e|]; [exact I|apply IH].
Qed.

(** One call of Execute as a goroutine. *)
Record tcall := TCall { tc_env : env; tc_template : template; tc_data : option mref; tc_cargo : gval U }.
Definition spawn_execute (c : tcall) : task (option error) :=
  Task (tc_env c) (execute (tc_template c) (tc_data c) (tc_cargo c)) [] 0.

(** C33.  Concurrent executions of templates, for every schedule. *)
Theorem C33_executions calls sched u i c t :
  Forall (fun x => steady_template (tc_template x)) calls ->
  nth_error calls i = Some c ->
  nth_error (snd (together sched u (map spawn_execute calls))) i = Some t ->
  fst (together sched u (map spawn_execute calls)) = u /\
  (exists more, w_log (snd (executed (tc_env c) (tc_template c) (tc_data c) (tc_cargo c) (u, 0))) = k_log t ++ more) /\
  (forall r, k_prog t = Ret r ->
     executed (tc_env c) (tc_template c) (tc_data c) (tc_cargo c) (u, 0) = (r, World (k_log t) u (k_tick t))).
Proof.
  intros H Hc Ht.
  assert (I : Forall (fun t => idle (k_prog t)) (map spawn_execute calls)).
  { rewrite Forall_map. eapply Forall_impl; [|exact H]. intros x Hx. apply execute_idle. exact Hx. }
  assert (Hs : nth_error (map spawn_execute calls) i = Some (spawn_execute c)) by (rewrite nth_error_map, Hc; reflexivity).
  destruct (concurrently (map spawn_execute calls) sched u i (spawn_execute c) t I Hs Ht) as (A & B & _).
  split; [exact A|]. split; [exact B|]. intros r Hr.
  destruct (together_rest sched u _ I) as [_ F].
  pose proof (forall2_nth _ _ _ _ _ _ F Hs Ht) as R. cbv beta in R. unfold rest at 1 in R. rewrite Hr in R.
  cbn [run] in R. unfold executed. cbn [fst snd]. unfold rest in R. cbn [spawn_execute k_env k_prog k_log k_tick] in R.
  symmetry. exact R.
Qed.

(** C44.  Executions share no context: after any number of executions of any
    such templates, an execution does what it does the first time. *)
Fixpoint after_executions (h : list tcall) (u : U) : U :=
  match h with
  | [] => u
  | c :: h' => after_executions h' (w_u (snd (executed (tc_env c) (tc_template c) (tc_data c) (tc_cargo c) (u, 0))))
  end.
Theorem C44_no_shared_context h E t data cargo u :
  Forall (fun x => steady_template (tc_template x)) h ->
  executed E t data cargo (after_executions h u, 0) = executed E t data cargo (u, 0).
Proof.
  intro H. f_equal. f_equal. revert u. induction H as [|c h Hc H IH]; intro u; [reflexivity|].
  cbn [after_executions]. rewrite IH. unfold executed. rewrite idle_run; [reflexivity|].
  apply execute_idle. exact Hc.
Qed.

(** ** C61 *)

(** A Go identifier in ASCII. *)
Definition identifier (k : bytes) : Prop :=
  exists c k', k = c :: k' /\ In c (B "_abcdefghijklmnopqrstuvwxyzABCDEFGHIJKLMNOPQRSTUVWXYZ") /\
    forall d, In d k' -> In d (B "_abcdefghijklmnopqrstuvwxyzABCDEFGHIJKLMNOPQRSTUVWXYZ0123456789").
Definition in_ascii (k : bytes) : Prop := forall c, In c k -> nat_of_ascii c < 128.

Lemma In_byte c (l : bytes) : In c l <-> existsb (Ascii.eqb c) l = true.
Proof.
  rewrite existsb_exists. split.
  - intro H. exists c. split; [exact H|apply Ascii.eqb_refl].
  - intros (x & H & E). apply Ascii.eqb_eq in E. subst. exact H.
Qed.
Lemma first_char c : (Ascii.eqb c "_" || is_letter c) =
  existsb (Ascii.eqb c) (B "_abcdefghijklmnopqrstuvwxyzABCDEFGHIJKLMNOPQRSTUVWXYZ").
Proof. destruct c as [[] [] [] [] [] [] [] []]; reflexivity. Qed.
Lemma next_char c : (Ascii.eqb c "_" || is_letter c || is_digit c) =
  existsb (Ascii.eqb c) (B "_abcdefghijklmnopqrstuvwxyzABCDEFGHIJKLMNOPQRSTUVWXYZ0123456789").
Proof. destruct c as [[] [] [] [] [] [] [] []]; reflexivity. Qed.
Lemma func_name_ascii other k : in_ascii k -> (func_name other k = true <-> identifier k).
Proof.
  intro A. unfold func_name.
  assert (X : existsb (fun c => 128 <=? nat_of_ascii c) k = false).
  { apply not_true_iff_false. intro X. apply existsb_exists in X as (c & Hc & X). apply Nat.leb_le in X. specialize (A c Hc). lia. }
  rewrite X. destruct k as [|c k]; [split; [discriminate|intros (c & k & E & _); discriminate]|].
  rewrite first_char, andb_true_iff, <- In_byte, forallb_forall. split.
  - intros [H1 H2]. exists c, k. repeat split; auto. intros d Hd. apply In_byte. rewrite <- next_char. auto.
  - intros (c' & k' & E & H1 & H2). injection E as <- <-. split; auto. intros d Hd. rewrite next_char. apply In_byte. auto.
Qed.

(** C61.  NewTemplate panics exactly if a node stands under a key that is not an
    identifier, whether or not the template uses it.  Otherwise it returns a
    template if all tokens have nodes, and an error if not. *)
Theorem C61_panics other ps nm :
  (forall k n, In (k, n) nm -> in_ascii k) ->
  NewTemplate other ps nm = Panic <-> exists k n, In (k, Some n) nm /\ ~ identifier k.
Proof.
  intro A. unfold NewTemplate. destruct (forallb _ _) eqn:F.
  - split; [discriminate|]. intros (k & n & H & X). exfalso. apply X. apply (func_name_ascii other); [apply (A k (Some n) H)|].
    rewrite forallb_forall in F. apply (F (k, n)). unfold func_map. apply in_flat_map. exists (k, Some n). split; [exact H|left; reflexivity].
  - split; [intros _|reflexivity]. apply not_true_iff_false in F.
    assert (X : exists kn, In kn (func_map nm) /\ func_name other (fst kn) = false).
    { clear A. induction (func_map nm) as [|x l IH]; [exfalso; apply F; reflexivity|]. cbn [forallb] in F.
      destruct (func_name other (fst x)) eqn:E; [|exists x; split; [left; reflexivity|exact E]].
      destruct (IH F) as (y & H1 & H2). exists y. split; [right; exact H1|exact H2]. }
    destruct X as ([k n] & H & E). unfold func_map in H. apply in_flat_map in H as ([k' [n'|]] & H & X); [|destruct X].
    destruct X as [X|[]]. injection X as <- <-. exists k', n'. split; [exact H|]. cbn [fst] in E.
    intro I. apply (func_name_ascii other) in I; [congruence|]. apply (A k' (Some n') H).
Qed.
Lemma identifier_ascii k : identifier k -> in_ascii k.
Proof.
  assert (L : forall l : bytes, forallb (fun c => nat_of_ascii c <? 128) l = true -> forall c, In c l -> nat_of_ascii c < 128).
  { intros l H c Hc. rewrite forallb_forall in H. apply Nat.ltb_lt, H, Hc. }
  intros (c & k' & -> & H1 & H2) d [<-|Hd].
  - revert H1. apply L. reflexivity.
  - specialize (H2 d Hd). revert H2. apply L. reflexivity.
Qed.
Lemma new_template_option other ps nm :
  (forall k n, In (k, Some n) nm -> identifier k) -> NewTemplate other ps nm = Done (new_template ps nm).
Proof.
  intro I. unfold NewTemplate. assert (F : forallb (fun kn => func_name other (fst kn)) (func_map nm) = true); [|rewrite F; reflexivity].
  apply forallb_forall. intros [k n] H. unfold func_map in H. apply in_flat_map in H as ([k' [n'|]] & H & X); [|destruct X].
  destruct X as [X|[]]. injection X as <- <-. cbn [fst]. specialize (I k' n' H).
  apply func_name_ascii; [apply identifier_ascii|]; exact I.
Qed.
Theorem C61_new_partial other ps nm :
  NoDup (map fst nm) -> (forall k n, In (k, Some n) nm -> identifier k) ->
  ((forall i k, In (PToken i k) ps -> exists n, In (k, Some n) nm) <-> exists t, NewTemplate other ps nm = Done (Some t)) /\
  (~ (forall i k, In (PToken i k) ps -> exists n, In (k, Some n) nm) <-> NewTemplate other ps nm = Done None).
Proof.
  intros N I. rewrite (new_template_option other ps nm I). rewrite <- (C44_new_template ps nm N). split.
  - split; intros [t E]; exists t; congruence.
  - destruct (new_template ps nm) as [t|]; split; try discriminate; try reflexivity.
    + intro X. exfalso. apply X. exists t. reflexivity.
    + intros _ [t E]. discriminate.
Qed.
(** MustNewTemplate returns the template that NewTemplate returns, and panics in
    all other cases. *)
Theorem C61_must other ps nm :
  (forall t, MustNewTemplate other ps nm = Done t <-> NewTemplate other ps nm = Done (Some t)) /\
  (MustNewTemplate other ps nm = Panic <-> NewTemplate other ps nm = Done None \/ NewTemplate other ps nm = Panic).
Proof.
  unfold MustNewTemplate. destruct (NewTemplate other ps nm) as [[t|]|]; split; try (intro t'); split;
    intro H; try discriminate H; try (injection H as ->); auto; try (destruct H; discriminate).
Qed.

End Props.

(** ** Cases *)

Definition tmpl : list piece := [PText (B "<html"); PToken true (B "lang"); PText (B ">"); PToken false (B "body"); PText (B "</html>")].
Definition lang_node : node (@U demo) := NAttr (APlain (B "lang") [Val [] (Some (fun c u => (B "en", u))) []]).
Definition body_node : node (@U demo) :=
  NElement (B "p") [] [] [] [NText [Val [] (Some (fun _ u => (if Nat.leb 1 u then B "hi" else B "ho", u))) []]].
Definition nmap : @node_map demo := [(B "lang", Some lang_node); (B "unused", None); (B "body", Some body_node)].
Example tmpl_splices : exists b s', spliced listed nmap fr0 tmpl (st 1, 0) b s' /\
  NoDup (map fst nmap) /\ b = B "<html lang=""en""><p>hi</p></html>".
Proof.
  exists (B "<html" ++ B " lang=""en""" ++ mark true lang_node ++ B ">" ++ B "<p>hi</p>" ++ mark false body_node ++ B "</html>" ++ []), (st 1, 0). split; [|split].
  - apply spliced_text. eapply spliced_node; [left; reflexivity|vm_compute; reflexivity|vm_compute; reflexivity|].
    apply spliced_text. eapply spliced_node; [right; right; left; reflexivity|vm_compute; reflexivity|vm_compute; reflexivity|].
    apply spliced_text. apply spliced_end.
  - repeat constructor; cbn; intro X; repeat destruct X as [X|X]; discriminate X || exact X.
  - reflexivity.
Qed.
Example tmpl_in_place : exists b s', in_place listed nmap fr0 tmpl (st 1, 0) b s' /\ b = B "<html lang=""en""><p>hi</p></html>".
Proof.
  exists (B "<html" ++ B " lang=""en""" ++ B ">" ++ B "<p>hi</p>" ++ B "</html>" ++ []), (st 1, 0). split; [|reflexivity].
  apply place_text. eapply place_node; [left; reflexivity|intros _; eexists; reflexivity|vm_compute; reflexivity|vm_compute; reflexivity|].
  apply place_text. eapply place_node; [right; right; left; reflexivity|discriminate|vm_compute; reflexivity|vm_compute; reflexivity|].
  apply place_text. apply place_end.
Qed.
(** A paragraph inside a tag. *)
Example misplaced : exists n s', In (B "body", Some n) nmap /\ is_attr n = false /\ result listed n fr0 (st 1, 0) = (None, None) /\
  page listed n fr0 (st 1, 0) = (B "<p>hi</p>", s').
Proof. eexists _, _. split; [right; right; left; reflexivity|]. split; [reflexivity|]. split; vm_compute; reflexivity. Qed.
(** A node that fails: the rest is not written. *)
Definition failing : @node_map demo :=
  [(B "x", Some (NImper (Some (IWriteRaw (B "a") (IRet (Some 7)))))) ].
Example failing_stops : exists t w,
  new_template ([PText (B "1")] ++ PToken false (B "x") :: [PText (B "2")]) failing = Some t /\
  spliced listed failing fr0 [PText (B "1")] (st 0, 0) (B "1" ++ []) (st 0, 0) /\
  fst (result listed (NImper (Some (IWriteRaw (B "a") (IRet (Some 7))))) fr0 (st 0, 0)) = Some 7 /\
  executed (Env healthy listed) t (Some 0) GNil (st 0, 0) = (Some 7, w) /\ accepted (w_log w) = B "1a".
Proof.
  eexists _, _. split; [vm_compute; reflexivity|]. split; [apply spliced_text, spliced_end|].
  split; [vm_compute; reflexivity|]. split; vm_compute; reflexivity.
Qed.
(** Two executions at once. *)
Example executions_interleaved : exists t c,
  new_template tmpl nmap = Some t /\ steady_template t /\
  nth_error (snd (together (concat (repeat [0; 1; 1] 20)) (st 1)
    (map spawn_execute [TCall (Env healthy listed) t (Some 0) GNil; TCall (Env (dies_after 8 3) listed) t None GNil]))) 0 = Some c /\
  k_prog c = Ret None /\ accepted (k_log c) = B "<html lang=""en""><p>hi</p></html>".
Proof.
  eexists _, _. split; [vm_compute; reflexivity|]. split; [repeat constructor|].
  split; [vm_compute; reflexivity|]. split; vm_compute; reflexivity.
Qed.
Example dying_case : dying (dies_after 8 3). Proof. apply dies_after_dying. Qed.

(** C61 is false without the condition on keys: a key that no token can name. *)
Theorem C61_refuted : exists nm : @node_map demo,
  NoDup (map fst nm) /\ forall other, NewTemplate other [PText (B "hello")] nm = Panic.
Proof.
  exists [(B "main-menu", Some (NText []))]. split; [|reflexivity]. constructor; [intros []|constructor].
Qed.
Example C61_example : exists t, (forall k n, In (k, Some n) nmap -> identifier k) /\
  NewTemplate (fun _ => false) tmpl nmap = Done (Some t) /\ NewTemplate (fun _ => false) (PToken false (B "foot") :: tmpl) nmap = Done None.
Proof.
  eexists. split; [|split; reflexivity]. intros k n H. apply (func_name_ascii (fun _ => false)).
  - intros c Hc. cbn in H. assert (L : forall l : bytes, forallb (fun c => nat_of_ascii c <? 128) l = true -> In c l -> nat_of_ascii c < 128).
    { intros l X Y. rewrite forallb_forall in X. apply Nat.ltb_lt, X, Y. }
    decompose [or] H; try contradiction; match goal with E : (_, _) = _ |- _ => injection E as <- _ end; revert Hc; apply L; reflexivity.
  - cbn in H. decompose [or] H; try contradiction; match goal with E : (_, _) = _ |- _ => injection E as <- _ end; reflexivity.
Qed.
