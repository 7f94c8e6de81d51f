(** C06 for templates of any kind: whatever the callbacks do, the output is a
    properly nested sequence of tokens. *)
From Coq Require Import ZArith.
From Verif Require Import Bytes IO IOFacts Escape SpecEscape EscapeFacts SpecHtml HtmlFacts Nodes NodeInd
  Values Render Slices Build Api SpecOut SpecRun SpecElem RenderFacts AttrFacts ApiFacts PageFacts
  CondFacts TagFacts PropValues Demo PropElements SpecTemplate PropHtml SpecSafe.

Section Safe.
Context {W : UserWorld}.
Variables (o : order) (void : bytes -> bool).

Definition good (b : bytes) : Prop := exists ts, feed Data b = (ts, Data) /\ well_nested void ts.

Lemma good_nil : good [].
Proof. exists []. split; [reflexivity|constructor]. Qed.
Lemma good_app a b : good a -> good b -> good (a ++ b).
Proof.
  intros (t1 & F1 & N1) (t2 & F2 & N2). exists (t1 ++ t2). split.
  - apply (feed_seq Data a b t1 Data t2 Data); auto.
  - apply well_nested_app; auto.
Qed.
Lemma good_inert b : inert b -> good b.
Proof. intro I. exists (map TChar (decode b)). split; [apply feed_inert; auto|apply well_nested_chars]. Qed.

Lemma good_seqS {X} (f : X -> St -> bytes * St) l s :
  (forall x s, In x l -> good (fst (f x s))) -> good (fst (seqS f l s)).
Proof.
  revert s; induction l as [|x l IH]; intros s H; [apply good_nil|]. rewrite seqS_cons.
  pose proof (H x s (or_introl eq_refl)) as G. destruct (f x s) as [b1 s1].
  specialize (IH s1 (fun y s' Hy => H y s' (or_intror Hy))). destruct (seqS f l s1) as [b2 s2].
  apply good_app; auto.
Qed.

(** Values. *)
Definition okf (fr : frame U) : Prop := tidy (f_cargo fr).

Lemma value_ind' (P : value U -> Prop) :
  (forall b d cs, Forall P cs -> P (Val b d cs)) -> forall v, P v.
Proof.
  intro H. fix IH 1. intros [b d cs]. apply H. induction cs as [|c cs IHc]; constructor; [apply IH|exact IHc].
Qed.

Lemma sval_inert fr v u : okf fr -> safe_val v -> inert (fst (sval fr v u)).
Proof.
  intro K. revert u; induction v as [b d cs F] using value_ind'; intros u H. destruct d as [f|].
  - cbn [sval safe_val] in *. apply H. exact K.
  - destruct cs as [|c cs]; [exact H|]. cbn [safe_val] in H.
    change (all safe_val (c :: cs)) in H. rewrite sval_group by discriminate.
    revert u; generalize dependent (c :: cs). intros l F H. unfold svals.
    induction F as [|x l Fx F IH]; intro u; [apply inert_nil|]. destruct H as [H1 H2].
    cbn [mapS]. specialize (Fx u H1). destruct (sval fr x u) as [b1 u1].
    specialize (IH H2 u1). destruct (mapS (sval fr) l u1) as [bs u2]. cbn [fst concat] in *.
    apply inert_app; auto.
Qed.

Lemma mapS_inert fr vs u : okf fr -> all safe_val vs ->
  forall b, In b (fst (mapS (sval fr) vs u)) -> inert b.
Proof.
  intro K. revert u; induction vs as [|v vs IH]; intros u H b Hb; [destruct Hb|]. destruct H as [H1 H2].
  cbn [mapS] in Hb. pose proof (sval_inert fr v u K H1) as Iv. destruct (sval fr v u) as [b1 u1].
  specialize (IH u1 H2 b). destruct (mapS (sval fr) vs u1) as [bs u2]. destruct Hb as [<-|Hb]; auto.
Qed.
Lemma svals_inert fr vs u : okf fr -> all safe_val vs -> inert (fst (svals fr vs u)).
Proof.
  intros K H. unfold svals. pose proof (mapS_inert fr vs u K H) as I.
  destruct (mapS (sval fr) vs u) as [bs u']. apply (feed_inerts bs). auto.
Qed.

(** Tags. *)
Lemma sattr_pending fr a u t st : okf fr -> safe_attr a -> pending t st ->
  exists st' t', feed st (fst (sattr fr a u)) = ([], st') /\ pending t' st' /\
    t_end t' = t_end t /\ t_name t' = t_name t.
Proof.
  intros K [V H] P.
  assert (Sh : forall n v, t_end (add_attr t n v) = t_end t /\ t_name (add_attr t n v) = t_name t).
  { intros n v. unfold add_attr. destruct (bmem n _); auto. }
  destruct a as [n vs|n|n d vs]; cbn [sattr attr_name] in *.
  - pose proof (svals_inert fr vs u K H) as I. destruct (svals fr vs u) as [b u']. cbn [fst] in *.
    destruct (pending_value t st n b P V I) as (st' & F & G). exists st'. eexists. split; eauto.
  - destruct (pending_bool t st n P V) as (st' & F & G). exists st'. eexists. split; eauto.
  - destruct H as [Id H]. pose proof (mapS_inert fr vs u K H) as I.
    destruct (mapS (sval fr) vs u) as [bs u']. cbn [fst] in *.
    destruct (pending_value t st n (djoin d bs) P V) as (st' & F & G); [apply djoin_inert; auto|].
    exists st'. eexists. split; eauto.
Qed.

Lemma concat_pending {X} (f : X -> U -> bytes * U) (Q : X -> Prop) l u t st :
  (forall x u t st, Q x -> pending t st -> exists st' t', feed st (fst (f x u)) = ([], st') /\ pending t' st' /\
     t_end t' = t_end t /\ t_name t' = t_name t) ->
  all Q l -> pending t st ->
  exists st' t', feed st (concat (fst (mapS f l u))) = ([], st') /\ pending t' st' /\
     t_end t' = t_end t /\ t_name t' = t_name t.
Proof.
  intro H. revert u t st; induction l as [|x l IH]; intros u t st A P.
  - exists st, t. auto.
  - destruct A as [A1 A2]. cbn [mapS]. destruct (H x u t st A1 P) as (st1 & t1 & F1 & P1 & E1 & N1).
    destruct (f x u) as [b u1]. destruct (IH u1 t1 st1 A2 P1) as (st2 & t2 & F2 & P2 & E2 & N2).
    destruct (mapS f l u1) as [bs u2]. cbn [fst concat] in *. exists st2, t2.
    split; [apply (feed_seq st b _ [] st1 [] st2); auto|]. repeat split; auto; congruence.
Qed.

(** Opening tags, whatever attributes they have. *)
Definition opens (name b : bytes) : Prop :=
  exists ats, feed Data b = ([TStart (map lower name) ats false], content_state (map lower name)).

Lemma opens_tag {X} (f : X -> U -> bytes * U) (Q : X -> Prop) name l u :
  (forall x u t st, Q x -> pending t st -> exists st' t', feed st (fst (f x u)) = ([], st') /\ pending t' st' /\
     t_end t' = t_end t /\ t_name t' = t_name t) ->
  all Q l -> valid_name name = true ->
  opens name (B "<" ++ name ++ concat (fst (mapS f l u)) ++ B ">").
Proof.
  intros H A V.
  destruct (concat_pending f Q l u _ _ H A (pd_name (Tag false (map lower name) []))) as (st & t & F & P & E & N).
  cbn [t_end t_name] in E, N. exists (t_attrs t). rewrite app_assoc.
  apply (feed_seq Data (B "<" ++ name) _ [] (TagName (Tag false (map lower name) [])) _ _);
    [apply feed_open_name; auto|].
  apply (feed_seq _ _ _ [] st [TStart (map lower name) (t_attrs t) false] _ F).
  rewrite (pending_close t st P). unfold emit, after. rewrite E, N. reflexivity.
Qed.

Lemma all_values_safe l : all safe_attr l -> all safe_val (all_values l).
Proof.
  induction l as [|a l IH]; intro H; [exact I|]. destruct H as [[_ H1] H2]. unfold all_values. cbn [flat_map].
  apply all_In. intros v Hv. apply in_app_iff in Hv as [Hv|Hv].
  - destruct a; cbn [attr_values] in Hv; [| destruct Hv|destruct H1 as [_ H1]]; rewrite all_In in H1; auto.
  - specialize (IH H2). rewrite all_In in IH. apply IH. exact Hv.
Qed.

Lemma merged_safe n d vs es : safe_attr (ADelim n d vs) -> all safe_attr es ->
  safe_attr (ADelim n d (vs ++ all_values es)).
Proof.
  intros [V [Id H]] He. split; [exact V|]. split; auto. rewrite all_In in *. intros v Hv.
  apply in_app_iff in Hv as [Hv|Hv]; auto. apply all_values_safe in He. rewrite all_In in He. auto.
Qed.

Lemma last_in {X} (l : list X) d : In (last l d) (d :: l).
Proof.
  induction l as [|x l IH]; [left; reflexivity|]. destruct l as [|y l]; [right; left; reflexivity|].
  change (last (x :: y :: l) d) with (last (y :: l) d). destruct IH as [IH|IH]; [left; auto|right; right; auto].
Qed.

Lemma shown_safe attrs active n : all safe_attr attrs -> all safe_attr active ->
  all safe_attr (shown attrs active n).
Proof.
  intros H1 H2. unfold shown.
  assert (G : all safe_attr (ev_get active n)).
  { rewrite all_In in *. intros a Ha. apply filter_In in Ha as [Ha _]. auto. }
  assert (L : forall a es, safe_attr a -> all safe_attr es -> safe_attr (last es a)).
  { intros a es Ha He. rewrite all_In in He. destruct (last_in es a) as [E|E]; [rewrite <- E; auto|auto]. }
  destruct (static_of attrs n) as [a|] eqn:S.
  - assert (Ha : safe_attr a). { apply find_some in S as [S _]. rewrite all_In in H1. auto. }
    destruct (ev_get active n) as [|e es]; (split; [|exact I]); auto.
    unfold resolve_static. destruct a; [apply L|apply L|apply merged_safe]; auto.
  - destruct (ev_get active n) as [|e es]; [exact I|]. destruct G as [Ge Ges]. split; [|exact I].
    unfold resolve_dynamic. destruct e; [apply L|apply L|apply merged_safe]; auto.
Qed.

Lemma flat_safe {X} (f : X -> list (attr U)) l : (forall x, all safe_attr (f x)) -> all safe_attr (flat_map f l).
Proof.
  intro H. apply all_In. intros a Ha. apply in_flat_map in Ha as (x & _ & Hx). specialize (H x).
  rewrite all_In in H. auto.
Qed.

Lemma sactive_safe fr conds u : all (fun ca => safe_attr (fst ca)) conds ->
  all safe_attr (fst (sactive fr conds u)).
Proof.
  unfold sactive. revert u; induction conds as [|[a cs] conds IH]; intros u H; [exact I|]. destruct H as [H1 H2].
  cbn [mapS fst snd]. destruct (sconds fr cs u) as [b u1]. specialize (IH u1 H2).
  destruct (mapS _ conds u1) as [l u2]. cbn [fst concat] in *.
  destruct b; [split; auto|auto].
Qed.

Lemma tag_attrs_safe fr attrs conds s : all safe_attr attrs -> all (fun ca => safe_attr (fst ca)) conds ->
  all safe_attr (fst (tag_attrs o fr attrs conds s)).
Proof.
  intros H1 H2. unfold tag_attrs. pose proof (sactive_safe fr conds (fst s) H2) as A.
  destruct (sactive fr conds (fst s)) as [active u']. cbn [fst] in A. destruct active as [|a act]; [exact H1|].
  cbn [fst]. apply all_In. intros x Hx. apply in_app_iff in Hx as [Hx|Hx].
  - pose proof (flat_safe (shown attrs (a :: act)) (o (snd s) (map (@attr_name U) attrs))
                  (fun n => shown_safe attrs (a :: act) n H1 A)) as F. rewrite all_In in F. auto.
  - pose proof (flat_safe (shown attrs (a :: act))
                  (filter (fun n => negb (is_static attrs n)) (o (S (snd s)) (ev_names (a :: act))))
                  (fun n => shown_safe attrs (a :: act) n H1 A)) as F. rewrite all_In in F. auto.
Qed.

Lemma stag_opens fr name attrs conds s : okf fr -> valid_name name = true ->
  all safe_attr attrs -> all (fun ca => safe_attr (fst ca)) conds ->
  opens name (fst (stag o fr name attrs conds s)).
Proof.
  intros K V H1 H2. unfold stag. pose proof (tag_attrs_safe fr attrs conds s H1 H2) as A.
  destruct (tag_attrs o fr attrs conds s) as [l s1]. cbn [fst] in A.
  pose proof (opens_tag (sattr fr) safe_attr name l (fst s1)
    (fun x u t st => sattr_pending fr x u t st K) A V) as G.
  unfold liftU, sattrs. destruct (mapS (sattr fr) l (fst s1)) as [bs u']. exact G.
Qed.

(** Start. *)
Definition safe_pair (p : bytes * option (list (value U))) : Prop :=
  valid_name (fst p) = true /\ opt (all safe_val) (snd p).

Lemma safe_delim d : inert d -> safe_val (Val d None []).
Proof. auto. Qed.
Lemma all_app {X} (P : X -> Prop) l1 l2 : all P (l1 ++ l2) <-> all P l1 /\ all P l2.
Proof.
  rewrite !all_In. split.
  - intro H. split; intros x Hx; apply H; apply in_app_iff; auto.
  - intros [H1 H2] x Hx. apply in_app_iff in Hx as [Hx|Hx]; auto.
Qed.

Lemma append_delim_safe d avs vs : inert d -> all safe_val avs -> all safe_val vs ->
  all safe_val (append_delim d avs vs).
Proof.
  intro Id. revert avs; induction vs as [|v vs IH]; intros avs H1 H2; cbn [append_delim]; auto.
  destruct H2 as [H2 H3]. apply IH; auto. apply all_app. split; [|split; [auto|exact I]].
  destruct avs; [exact I|]. apply all_app. split; auto. split; [exact Id|exact I].
Qed.
Lemma interpose_safe d vs : inert d -> all safe_val vs -> all safe_val (interpose d vs).
Proof.
  intros Id. induction vs as [|v vs IH]; intro H; [exact I|]. destruct H as [H1 H2].
  destruct vs as [|w vs]; [split; [auto|exact I]|].
  change (interpose d (v :: w :: vs)) with (v :: Val d None [] :: interpose d (w :: vs)).
  split; auto. split; [exact Id|]. apply IH. auto.
Qed.

Lemma upd_safe l name f : all safe_pair l ->
  (forall old, opt (all safe_val) old -> opt (all safe_val) (f old)) -> all safe_pair (upd_assoc l name f).
Proof.
  intros H F. induction l as [|[n x] l IH]; [exact I|]. destruct H as [[H1 H2] H3]. cbn [upd_assoc].
  destruct (beq n name); split; auto; split; auto. apply F. auto.
Qed.

Lemma start_add_safe acc a : all safe_pair acc -> safe_attr a -> all safe_pair (start_add acc a).
Proof.
  intros H [V S]. unfold start_add. destruct (bmem _ _).
  - apply upd_safe; auto. intros old Ho. destruct a as [n vs|n|n d vs]; cbn [opt]; auto.
    destruct S as [Id S]. destruct vs as [|v vs]; auto. cbn [opt]. apply append_delim_safe; auto.
    destruct old; [exact Ho|exact I].
  - apply all_app. split; auto. split; [|exact I]. split; [exact V|].
    destruct a as [n vs|n|n d vs]; cbn [snd opt]; auto. destruct S. apply interpose_safe; auto.
Qed.
Lemma start_attrs_safe l acc : all safe_arg l -> all safe_pair acc -> all safe_pair (start_attrs l acc).
Proof.
  revert acc; induction l as [|x l IH]; intros acc H1 H2; [exact H2|]. destruct H1 as [H1 H3].
  destruct x as [n|]; [|apply IH; auto]. destruct n; cbn [start_attrs]; apply IH; auto.
  apply start_add_safe; auto.
Qed.
Lemma sstart_attr_pending fr p u t st : okf fr -> safe_pair p -> pending t st ->
  exists st' t', feed st (fst (sstart_attr fr p u)) = ([], st') /\ pending t' st' /\
    t_end t' = t_end t /\ t_name t' = t_name t.
Proof.
  intros K [V H] P. destruct p as [n [vs|]]; unfold sstart_attr; cbn [fst snd] in *.
  - apply sattr_pending; auto. split; auto.
  - apply (sattr_pending fr (ABool n) u t st); auto. split; auto.
Qed.
Lemma sstart_opens fr name attrs u : okf fr -> valid_name name = true -> all safe_arg attrs ->
  opens name (fst (sstart fr name attrs u)).
Proof.
  intros K V H. unfold sstart.
  pose proof (opens_tag (sstart_attr fr) safe_pair name (start_attrs attrs []) u
    (fun x u t st => sstart_attr_pending fr x u t st K) (start_attrs_safe attrs [] H I) V) as G.
  destruct (mapS _ _ u). exact G.
Qed.

(** Elements. *)
Lemma opens_void name b : opens name b -> void (map lower name) = true -> markup_name name -> good b.
Proof.
  intros (ats & F) V M. unfold markup_name in M. rewrite M in F.
  exists [TStart (map lower name) ats false]. split; auto. apply wn_void; [auto|constructor].
Qed.

(** A processing instruction is read as a comment or a doctype. *)
Lemma feed_bogus b d : (forall c, In c b -> is c ">" = false) -> feed (Bogus d) b = ([], Bogus (d ++ b)).
Proof.
  revert d; induction b as [|c b IH]; intros d H; [rewrite app_nil_r; reflexivity|].
  cbn [feed step]. rewrite (H c (or_introl eq_refl)), IH by (intros; apply H; right; auto).
  rewrite <- app_assoc. reflexivity.
Qed.
Lemma good_pi name b : valid_name name = true -> inert b ->
  good (B "<!" ++ name ++ B " " ++ b ++ [">"%char; "010"%char]).
Proof.
  intros V Ib. pose proof (valid_chars name V) as C. destruct name as [|c name]; [discriminate|].
  exists [declaration ((c :: name) ++ B " " ++ b); TChar "010"]. split; [|unfold declaration; destruct (beq _ _); repeat constructor].
  apply (feed_seq Data (B "<!") _ [] MarkupDecl [declaration ((c :: name) ++ B " " ++ b); TChar "010"] Data); [reflexivity|].
  assert (N : forall x, In x ((c :: name) ++ B " " ++ b) -> is x ">" = false).
  { intros x Hx. rewrite !in_app_iff in Hx. destruct Hx as [Hx|[Hx|Hx]].
    - rewrite forallb_forall in C. apply name_char_plain. apply C. auto.
    - destruct Hx as [<-|[]]. reflexivity.
    - apply (not_markup x). apply (proj1 Ib). auto. }
  replace ((c :: name) ++ B " " ++ b ++ [">"%char; "010"%char])
    with (c :: (name ++ B " " ++ b) ++ [">"%char; "010"%char]) by (cbn [app]; rewrite <- !app_assoc; reflexivity).
  cbn [valid_name] in V. apply andb_true_iff in V as [V _].
  change (feed MarkupDecl (?x :: ?l)) with (let '(t1, s1) := step MarkupDecl x in let '(t2, s2) := feed s1 l in (t1 ++ t2, s2)).
  cbn [step].
  assert (is c "-" = false) as -> by (apply Ascii.eqb_neq; intros ->; discriminate V).
  rewrite (N c) by (left; reflexivity).
  rewrite feed_app, feed_bogus by (intros x Hx; apply N; right; exact Hx). reflexivity.
Qed.

Lemma good_comment b : inert b -> good (B "<!--" ++ b ++ B "-->").
Proof.
  intro Ib. exists [TComment b]. split; [|repeat constructor]. apply feed_whole_comment.
  intros c Hc. apply (not_markup c). apply (proj1 Ib). auto.
Qed.

(** Iteration. *)
Lemma good_siter body fr items s : (forall ifr s, okf ifr -> good (fst (body ifr s))) ->
  all tidy items -> good (fst (siter body fr items s)).
Proof.
  intro H. revert s; induction items as [|it items IH]; intros s T; [apply good_nil|]. destruct T as [T1 T2].
  cbn [siter]. pose proof (H (Frame (item_data it (f_data fr)) it (Some (view fr None))) s T1) as G.
  destruct (body _ s) as [b1 s1]. specialize (IH s1 T2). destruct (siter body fr items s1) as [b2 s2].
  apply good_app; auto.
Qed.
Lemma good_syield body fr : okf fr -> (forall ifr s, okf ifr -> good (fst (body ifr s))) ->
  forall p data s, safe_yield p -> good (fst (syield body fr data p s)).
Proof.
  intros K H. fix IH 1. intros [|it p|k] data s T.
  - apply good_nil.
  - destruct T as [T1 T2]. cbn [syield]. cbv zeta.
    pose proof (H (Frame (item_data it data) it (Some (view fr None))) s T1) as G.
    destruct (body _ s) as [b1 s1]. pose proof (IH p (item_data it data) s1 T2) as G2. clear IH.
    destruct (syield body fr (item_data it data) p s1) as [b2 s2]. apply good_app; auto.
  - cbn [syield]. cbn [safe_yield] in T. specialize (T (view fr None) (fst s) K).
    pose proof (IH (fst (k (view fr None) (fst s))) data (snd (k (view fr None) (fst s)), snd s) T) as G. clear IH.
    destruct (k (view fr None) (fst s)) as [p' u']. exact G.
Qed.

(** Output inside open elements [stack]. *)
Inductive closing : list bytes -> list token -> Prop :=
| cl_nil l : well_nested void l -> closing [] l
| cl_cons n st l1 l2 : well_nested void l1 -> closing st l2 -> void (map lower n) = false ->
    closing (n :: st) (l1 ++ TEnd (map lower n) :: l2).
Definition fits (stack : list bytes) (b : bytes) : Prop :=
  exists ts, feed Data b = (ts, Data) /\ closing stack ts.

Lemma closing_app st l m : well_nested void l -> closing st m -> closing st (l ++ m).
Proof.
  intros H1 H2. inversion H2; subst.
  - constructor. apply well_nested_app; auto.
  - rewrite app_assoc. constructor; auto. apply well_nested_app; auto.
Qed.
Lemma fits_app st a b : good a -> fits st b -> fits st (a ++ b).
Proof.
  intros (t1 & F1 & N1) (t2 & F2 & N2). exists (t1 ++ t2). split.
  - apply (feed_seq Data a b t1 Data t2 Data); auto.
  - apply closing_app; auto.
Qed.
Lemma fits_end n st b : valid_name n = true -> void (map lower n) = false -> fits st b ->
  fits (n :: st) (endtag n ++ b).
Proof.
  intros V D (ts & F & C). exists ([TEnd (map lower n)] ++ ts). split.
  - apply (feed_seq Data (endtag n) b _ Data ts Data); auto. unfold endtag. apply feed_end_tag. auto.
  - apply (cl_cons n st [] ts); auto. constructor.
Qed.
Lemma fits_start n st a b : opens n a -> markup_name n -> fits (n :: st) b -> fits st (a ++ b).
Proof.
  intros (ats & F1) M (ts & F2 & C). unfold markup_name in M. rewrite M in F1.
  exists ([TStart (map lower n) ats false] ++ ts). split.
  - apply (feed_seq Data a b _ Data ts Data); auto.
  - inversion C; subst. change ([TStart (map lower n) ats false] ++ l1 ++ TEnd (map lower n) :: l2)
      with ((TStart (map lower n) ats false :: l1 ++ TEnd (map lower n) :: []) ++ l2) || idtac.
    replace ([TStart (map lower n) ats false] ++ l1 ++ TEnd (map lower n) :: l2)
      with ((TStart (map lower n) ats false :: l1 ++ TEnd (map lower n) :: []) ++ l2)
      by (cbn [app]; rewrite <- app_assoc; reflexivity).
    apply closing_app; auto. apply wn_element; auto. constructor.
Qed.
Definition closable (st : list bytes) : Prop :=
  Forall (fun n => valid_name n = true /\ void (map lower n) = false) st.

Lemma text_nodes_inert ns fr s : okf fr -> all (safe void) ns -> forallb is_text_node ns = true ->
  inert (fst (seqS (fun c s => snode o c fr s) ns s)).
Proof.
  intro K. revert s; induction ns as [|n ns IH]; intros s H T; [apply inert_nil|].
  cbn [forallb] in T. apply andb_true_iff in T as [T1 T2]. destruct H as [H1 H2]. rewrite seqS_cons.
  destruct n; try discriminate T1. cbn [snode]. unfold liftU.
  change (all safe_val vs) in H1. pose proof (svals_inert fr vs (fst s) K H1) as Iv.
  destruct (svals fr vs (fst s)) as [b u']. specialize (IH (u', snd s) H2 T2).
  destruct (seqS _ ns (u', snd s)) as [b2 s2]. apply inert_app; auto.
Qed.

Lemma snode_good :
  (forall n, safe void n -> forall fr s, okf fr -> good (fst (snode o n fr s))) /\
  (forall p, forall st, safe_prog void p st -> closable st -> forall fr s, okf fr ->
     fits st (fst (simper o p fr st s))).
Proof.
  assert (Seq : forall ns, Forall (fun n => safe void n -> forall fr s, okf fr -> good (fst (snode o n fr s))) ns ->
    all (safe void) ns -> forall fr s, okf fr -> good (fst (seqS (fun c s => snode o c fr s) ns s))).
  { intros ns F A fr s K. apply good_seqS. intros x s' Hx. rewrite Forall_forall in F. rewrite all_In in A. auto. }
  assert (Opt : forall ns, Forall (optP (fun n => safe void n -> forall fr s, okf fr -> good (fst (snode o n fr s)))) ns ->
    all (opt (fun n => is_attr n = true \/ safe void n)) ns -> forall fr s, okf fr ->
    good (fst (seqS (fun c s => match c with
                       | Some c => if is_attr c then ([], s) else snode o c fr s
                       | None => ([], s)
                       end) ns s))).
  { intros ns F A fr s K. apply good_seqS. intros x s' Hx. rewrite Forall_forall in F. rewrite all_In in A.
    specialize (F x Hx). specialize (A x Hx). destruct x as [n|]; [|apply good_nil]. cbn [opt optP] in *.
    destruct (is_attr n); [apply good_nil|]. apply F; auto. destruct A; [discriminate|auto]. }
  apply node_iprog_ind.
  - intros a [].
  - intros name attrs idx conds contents F H fr s K.
    change (safe_name void name contents /\ all safe_attr attrs /\ all (fun ca => safe_attr (fst ca)) conds /\
            all (safe void) contents) in H.
    destruct H as ((V & Vo & NP & Tx) & A1 & A2 & A3). cbn [snode].
    pose proof (stag_opens fr name attrs conds s K V A1 A2) as (ats & Op).
    destruct (stag o fr name attrs conds s) as [b1 s1]. cbn [fst] in Op.
    destruct (in_dec bytes_dec (map lower name) (rcdata_names ++ rawtext_names)) as [Sp|Sp].
    + pose proof (text_nodes_inert contents fr s1 K A3 (Tx Sp)) as Ib. pose proof (special_letters name Sp) as L.
      destruct (seqS _ contents s1) as [b2 s2]. cbn [fst] in *.
      assert (E : exists ts refs, content_state (map lower name) = RawData refs (map lower name) /\
        feed (RawData refs (map lower name)) b2 = (ts, RawData refs (map lower name)) /\ well_nested void ts).
      { unfold content_state. apply in_app_iff in Sp. rewrite <- !bmem_In in Sp.
        destruct (bmem (map lower name) rcdata_names).
        - exists (map TChar (decode b2)), true. split; auto. split; [|apply well_nested_chars].
          apply feed_rcdata. apply inert_pieces. auto.
        - destruct Sp as [Sp|Sp]; [discriminate|]. rewrite Sp. exists (map TChar b2), false. split; auto.
          split; [|apply well_nested_chars]. apply feed_rawtext. intros c Hc. apply (not_markup c).
          apply (proj1 Ib). auto. }
      destruct E as (ts & refs & E1 & E2 & E3). rewrite E1 in Op.
      exists ([TStart (map lower name) ats false] ++ ts ++ [TEnd (map lower name)]). split.
      * apply (feed_seq Data b1 _ _ _ _ Data Op). apply (feed_seq _ b2 _ ts _ _ Data E2).
        apply feed_raw_end; auto.
      * apply wn_element; auto. constructor.
    + rewrite special_state in Op by auto.
      pose proof (Seq contents F A3 fr s1 K) as (ts & F2 & N2).
      destruct (seqS _ contents s1) as [b2 s2]. cbn [fst] in *.
      exists ([TStart (map lower name) ats false] ++ ts ++ [TEnd (map lower name)]). split.
      * apply (feed_seq Data b1 _ _ Data _ Data Op). apply (feed_seq _ b2 _ ts Data _ Data F2).
        apply feed_end_tag. auto.
      * apply wn_element; auto. constructor.
  - intros name attrs idx conds (V & Vo & M & A1 & A2) fr s K. cbn [snode].
    apply (opens_void name); auto. apply stag_opens; auto.
  - intros vs H fr s K. cbn [snode]. change (all safe_val vs) in H. unfold liftU.
    pose proof (svals_inert fr vs (fst s) K H). destruct (svals fr vs (fst s)). apply good_inert. auto.
  - intros vs H fr s K. cbn [snode]. change (all safe_val vs) in H. unfold liftU.
    pose proof (svals_inert fr vs (fst s) K H). destruct (svals fr vs (fst s)). apply good_comment. auto.
  - intros name vs [V H] fr s K. cbn [snode]. unfold liftU.
    pose proof (svals_inert fr vs (fst s) K H). destruct (svals fr vs (fst s)). apply good_pi; auto.
  - intros vs H fr s K. cbn [snode]. change (all safe_val vs) in H. unfold liftU.
    pose proof (svals_inert fr vs (fst s) K H). destruct (svals fr vs (fst s)). apply good_inert. auto.
  - intros ns F H fr s K. cbn [snode]. apply good_seqS. intros x s' Hx. cbn [safe] in H.
    rewrite all_In in H. specialize (H x Hx). rewrite Forall_forall in F.
    destruct (is_attr x); [apply good_nil|]. apply F; auto. destruct H; [discriminate|auto].
  - intros fn attrs ns F H fr s K. cbn [snode]. change (all (safe void) ns) in H.
    unfold liftU. destruct (fn (view fr None) (fst s)) as [b u']. destruct b; [|apply good_nil].
    apply Seq; auto.
  - intros f F H fr s K. cbn [snode]. cbn [safe] in H. specialize (H (view fr None) (fst s) K).
    specialize (F (view fr None) (fst s)). destruct (f (view fr None) (fst s)) as [ns u1]. apply Opt; auto.
  - intros _ fr s K. apply good_nil.
  - intros p Hp H fr s K. change (safe_prog void p []) in H.
    destruct (Hp [] H (Forall_nil _) fr s K) as (ts & F & C). inversion C; subst.
    exists ts. change (snode o (NImper (Some p)) fr s) with (simper o p fr [] s). auto.
  - intros fn ns F [H1 H2] fr s K. cbn [snode]. specialize (H1 (view fr None) (fst s) K).
    unfold liftU. destruct (fn (view fr None) (fst s)) as [items u1].
    apply good_siter; auto.
  - intros p ns F [H1 H2] fr s K. cbn [snode]. apply good_syield; auto.
  - intros pr ns Fp F [H1 H2] fr s K. cbn [snode].
    assert (G : good (fst (match pr with Some p => snode o p fr s | None => ([], s) end))).
    { destruct pr; [apply Fp; auto|apply good_nil]. }
    destruct (match pr with Some p => snode o p fr s | None => ([], s) end) as [b1 s1].
    pose proof (Seq ns F H2 fr s1 K) as G2. destruct (seqS _ ns s1) as [b2 s2]. apply good_app; auto.
  - intros e st H Cl fr s K. change (st = []) in H. subst. exists []. split; [reflexivity|repeat constructor].
  - intros k Hk st H Cl fr s K. change (forall c u, tidy (c_cargo c) -> safe_prog void (fst (k c u)) st) in H.
    specialize (H (view fr None) (fst s) K).
    specialize (Hk (view fr None) (fst s) st H Cl fr (snd (k (view fr None) (fst s)), snd s) K).
    change (simper o (IRead k) fr st s) with
      (let '(p', u') := k (view fr None) (fst s) in simper o p' fr st (u', snd s)).
    destruct (k (view fr None) (fst s)) as [p' u']. exact Hk.
  - intros x k Hk st H Cl fr s K. change (safe_prog void k st) in H. specialize (Hk st H Cl fr s K).
    change (simper o (IWriteString x k) fr st s) with
      (let '(b, s1) := simper o k fr st s in (html_escape_string x ++ b, s1)).
    destruct (simper o k fr st s) as [b s1]. apply fits_app; auto. apply good_inert. apply escape_inert.
  - intros x k Hk st H Cl fr s K. change (inert x /\ safe_prog void k st) in H. destruct H as [H1 H].
    specialize (Hk st H Cl fr s K).
    change (simper o (IWriteRaw x k) fr st s) with
      (let '(b, s1) := simper o k fr st s in (x ++ b, s1)).
    destruct (simper o k fr st s) as [b s1]. apply fits_app; auto. apply good_inert. auto.
  - intros ns k Fn Hk st H Cl fr s K.
    change (all (opt (fun n => is_attr n = true \/ safe void n)) ns /\ safe_prog void k st) in H.
    destruct H as [H1 H]. pose proof (Opt ns Fn H1 fr s K) as G.
    change (simper o (IWriteNodes ns k) fr st s) with
      (let '(b1, s1) := seqS (fun c s => match c with
                       | Some c => if is_attr c then ([], s) else snode o c fr s
                       | None => ([], s)
                       end) ns s in
       let '(b2, s2) := simper o k fr st s1 in (b1 ++ b2, s2)).
    destruct (seqS _ ns s) as [b1 s1]. specialize (Hk st H Cl fr s1 K).
    destruct (simper o k fr st s1) as [b2 s2]. apply fits_app; auto.
  - intros name v attrs k _ Hk st H Cl fr s K.
    change (valid_name name = true /\ void (map lower name) = v /\ markup_name name /\
      all safe_arg attrs /\ safe_prog void k (if v then st else name :: st)) in H.
    destruct H as (V & Vo & M & A & H).
    change (simper o (IStart name v attrs k) fr st s) with
      (let '(b1, s1) := liftU (sstart fr name attrs) s in
       let '(b2, s2) := simper o k fr (if v then st else name :: st) s1 in (b1 ++ b2, s2)).
    unfold liftU. pose proof (sstart_opens fr name attrs (fst s) K V A) as Op.
    destruct (sstart fr name attrs (fst s)) as [b1 u1]. cbn [fst] in Op.
    assert (Cl' : closable (if v then st else name :: st)). { destruct v; auto. constructor; auto. }
    specialize (Hk _ H Cl' fr (u1, snd s) K). destruct (simper o k fr _ (u1, snd s)) as [b2 s2]. cbn [fst] in *.
    destruct v.
    + apply fits_app; auto. apply (opens_void name); auto.
    + apply (fits_start name); auto.
  - intros k Hk st H Cl fr s K. change (safe_prog void k (tl st)) in H.
    change (simper o (IEnd k) fr st s) with
      (match st with [] => simper o k fr [] s
       | n :: st' => let '(b, s1) := simper o k fr st' s in (endtag n ++ b, s1) end).
    destruct st as [|n st].
    + apply (Hk [] H Cl fr s K).
    + inversion Cl; subst. specialize (Hk st H H3 fr s K). destruct (simper o k fr st s) as [b s1].
      destruct H2. apply fits_end; auto.
  - intros k Hk st H Cl fr s K. change (safe_prog void k []) in H.
    change (simper o (IEndAll k) fr st s) with
      (let '(b, s1) := simper o k fr [] s in (concat (map endtag st) ++ b, s1)).
    specialize (Hk [] H (Forall_nil _) fr s K). destruct (simper o k fr [] s) as [b s1]. cbn [fst] in *.
    induction Cl as [|n st [V D] Cl IH]; [exact Hk|]. cbn [map concat]. rewrite <- app_assoc.
    apply fits_end; auto.
  - intros n inner k Hn Hk st H Cl fr s K.
    change (safe void n /\ match inner with Some fr' => tidy (f_cargo fr') | None => True end /\
      forall r e, safe_prog void (k r e) st) in H. destruct H as (H1 & H2 & H3).
    change (simper o (IRender n inner k) fr st s) with
      (let '(b1, s1) := snode o n (match inner with Some fr' => fr' | None => fr end) s in
       let '(b2, s2) := simper o (k None None) fr st s1 in (b1 ++ b2, s2)).
    assert (K' : okf (match inner with Some fr' => fr' | None => fr end)) by (destruct inner; auto).
    pose proof (Hn H1 _ s K') as G. destruct (snode o n _ s) as [b1 s1].
    specialize (Hk None None st (H3 None None) Cl fr s1 K).
    destruct (simper o (k None None) fr st s1) as [b2 s2]. apply fits_app; auto.
  - intros d k Hk st H Cl fr s K. change (inert d /\ forall m e, safe_prog void (k m e) st) in H. destruct H as [H1 H].
    specialize (Hk (length d) None st (H _ _) Cl fr s K).
    change (simper o (IDirect d k) fr st s) with
      (let '(b, s1) := simper o (k (length d) None) fr st s in (d ++ b, s1)).
    destruct (simper o _ fr st s) as [b s1]. apply fits_app; auto. apply good_inert. auto.
  - intros e k Hk st H Cl fr s K. apply (Hk st H Cl fr s K).
Qed.

(** C06, for every template made with the package: if its values are inert, its
    names valid and its Imperative functions close what they open, the output
    is read as a properly nested sequence of tags, text and comments. *)
Theorem C06_any_template n fr s :
  ord_ok o -> usable n -> safe void n -> tidy (f_cargo fr) ->
  exists ts, tokenizes (fst (page o n fr s)) ts /\ well_nested void ts.
Proof.
  intros O [A Q] S K. rewrite page_snode by (auto; apply (proj1 api_tables n A)).
  apply (proj1 snode_good n S fr s K).
Qed.

End Safe.

(** ** Constructors make safe nodes *)

Section Constructors.
Context {W : UserWorld}.
Variable void : bytes -> bool.

(** Arguments that carry no markup. *)
Definition safe_argument (a : arg U) : Prop :=
  match a with
  | ANode (NAttr a) => safe_attr a
  | ANode n => safe void n
  | AVal v => safe_val v
  | ADyn f => forall c u, tidy (c_cargo c) -> inert (fst (f c u))
  | AKey _ => True
  | AData g => tidy g
  end.

Lemma tidy_bytes g u : tidy g -> inert (fst (value_to_bytes g u)).
Proof.
  revert u. generalize g. fix IH 1. intros [|b|b|x|z|n|t|f|f|m|t xs|i] u H; cbn [value_to_bytes]; try apply inert_nil.
  - apply (plain_inert _ (bool_plain b)) || (destruct b; [apply (plain_inert _ (bool_plain true))|apply (plain_inert _ (bool_plain false))]).
  - exact H.
  - apply escape_inert.
  - apply plain_inert. apply int_plain.
  - apply plain_inert. apply digits_plain.
  - exact H.
  - apply H.
  - cbn [tidy] in H. specialize (H u). pose proof (IH (fst (f u)) (snd (f u)) H) as G. clear IH.
    destruct (f u) as [r u']. exact G.
Qed.

(** A dynamic key, when the data is tidy. *)
Theorem C06_key_safe k : tidy_world -> safe_val (Val [] (Some (key_fn k)) []).
Proof.
  intro T. cbn [safe_val]. intros c u K. unfold key_fn. destruct (beq k (B ".")); [apply tidy_bytes; auto|].
  unfold data_get. destruct (c_data c) as [m|]; [|apply inert_nil].
  destruct (mget u m k) as [v|] eqn:E; [|apply inert_nil]. apply tidy_bytes. eapply T. eauto.
Qed.

Lemma new_value_safe a u : tidy_world -> (forall n, a <> ANode n) -> safe_argument a ->
  all safe_val (fst (new_value a u)).
Proof.
  intros T N H. destruct a as [n|v|f|k|g].
  - destruct (N n eq_refl).
  - split; [exact H|exact I].
  - split; [exact H|exact I].
  - split; [apply C06_key_safe; auto|exact I].
  - assert (G : forall g, tidy g -> all safe_val (fst (let '(b, u') := value_to_bytes g u in ([Val b None []], u')))).
    { intros g0 H0. pose proof (tidy_bytes g0 u H0) as Ib. destruct (value_to_bytes g0 u). split; [exact Ib|exact I]. }
    destruct g; try (apply G; exact H). exact I.
Qed.

Lemma new_values_safe l u : tidy_world -> (forall n, ~ In (ANode n) l) -> all safe_argument l ->
  all safe_val (fst (new_values l u)).
Proof.
  intro T. revert u; induction l as [|a l IH]; intros u N H; [exact I|]. destruct H as [H1 H2].
  cbn [new_values]. assert (G : all safe_val (fst (new_value a u))).
  { apply new_value_safe; auto. intros n ->. apply (N n). left. auto. }
  destruct (new_value a u) as [vs u1]. specialize (IH u1 (fun n Hn => N n (or_intror Hn)) H2).
  destruct (new_values l u1) as [vs' u2]. apply all_app. auto.
Qed.

Theorem C06_text_safe l u : tidy_world -> (forall n, ~ In (ANode n) l) -> all safe_argument l ->
  safe void (fst (Text l u)) /\ safe void (fst (Comment l u)) /\ safe void (fst (Fragment l u)).
Proof.
  intros T N H. pose proof (new_values_safe l u T N H) as G. unfold Text, Comment, Fragment.
  destruct (new_values l u). auto.
Qed.
Theorem C06_attribute_safe name d l u : tidy_world -> (forall n, ~ In (ANode n) l) -> all safe_argument l ->
  valid_name name = true -> inert d ->
  safe_argument (ANode (fst (NewAttribute name l u))) /\
  safe_argument (ANode (NewBooleanAttribute name)) /\
  safe_argument (ANode (fst (NewDelimitedAttribute name d l u))).
Proof.
  intros T N H V Id. pose proof (new_values_safe l u T N H) as G. unfold NewAttribute, NewDelimitedAttribute.
  destruct (new_values l u) as [vs u']. cbn [fst] in G.
  split; [exact (conj V G)|]. split; [exact (conj V I)|exact (conj V (conj Id G))].
Qed.

Definition ok_item (n : node U) : Prop := match n with NAttr a => safe_attr a | _ => safe void n end.

Lemma items_safe args u : tidy_world -> all safe_argument args ->
  all ok_item (fst (contents_to_nodes args u)).
Proof.
  intro T. revert u; induction args as [|a args IH]; intros u H; [exact I|]. destruct H as [H1 H2].
  cbn [contents_to_nodes]. assert (G : ok_item (fst (content_to_node a u))).
  { assert (Tx : (forall n, a <> ANode n) -> ok_item (fst (Text [a] u))).
    { intro N. destruct (C06_text_safe [a] u T) as (S & _ & _).
      - intros n [E|[]]. apply (N n). auto.
      - exact (conj H1 I).
      - unfold Text in *. destruct (new_values [a] u). exact S. }
    destruct a as [n|v|f|k|g]; [destruct n; exact H1|..]; apply Tx; discriminate. }
  destruct (content_to_node a u) as [n u1]. specialize (IH u1 H2).
  destruct (contents_to_nodes args u1) as [ns u2]. split; auto.
Qed.

(** The attributes found among the content, in collections and conditionals too. *)
Fixpoint inner_attrs (n : node U) : list (attr U) :=
  match n with
  | NAttr a => [a]
  | NCollection ns => flat_map inner_attrs ns
  | NConditional _ attrs ns => attrs ++ flat_map inner_attrs ns
  | _ => []
  end.

Lemma static_inner n a : In a (static_decls n) -> In a (inner_attrs n).
Proof.
  revert a. apply (node_simple_ind (fun n => forall a, In a (static_decls n) -> In a (inner_attrs n)));
    try (intros; cbn in *; tauto).
  intros ns F a H. cbn [static_decls inner_attrs] in *. apply in_flat_map in H as (x & Hx & H).
  apply in_flat_map. exists x. split; auto. rewrite Forall_forall in F. apply F; auto.
Qed.
Lemma cond_inner n : forall ch a, In a (map fst (cond_decls ch n)) -> In a (inner_attrs n).
Proof.
  apply (node_simple_ind (fun n => forall ch a, In a (map fst (cond_decls ch n)) -> In a (inner_attrs n)));
    try (intros; cbn in *; tauto).
  - intros a ch x H. cbn in H. destruct ch; cbn in *; tauto.
  - intros ns F ch a H. cbn [cond_decls inner_attrs] in *. apply in_map_iff in H as (p & <- & H).
    apply in_flat_map in H as (x & Hx & H). apply in_flat_map. exists x. split; auto.
    rewrite Forall_forall in F. apply (F x Hx ch). apply in_map. auto.
  - intros fn attrs ns F ch a H. cbn [cond_decls inner_attrs] in *. rewrite map_app, map_map in H. cbn [fst] in H.
    rewrite map_id in H. apply in_app_iff in H as [H|H]; apply in_app_iff; auto. right.
    apply in_map_iff in H as (p & <- & H). apply in_flat_map in H as (x & Hx & H). apply in_flat_map.
    exists x. split; auto. rewrite Forall_forall in F. apply (F x Hx (ch ++ [fn])). apply in_map. auto.
Qed.

Lemma stored_in (ds : list (attr U)) : all safe_attr ds -> all safe_attr (fst (add_attributes ds)).
Proof.
  intro H. rewrite stored_spec. apply all_In. intros a Ha. unfold tag_spec in Ha.
  apply in_flat_map in Ha as (n & _ & Ha). cbn [declared filter] in Ha. rewrite resolve_none in Ha.
  assert (D : all safe_attr (declared n ds)).
  { rewrite all_In in *. intros x Hx. apply filter_In in Hx as [Hx _]. auto. }
  revert Ha. generalize dependent (declared n ds). clear. intros ds D Ha.
  assert (FD : all safe_attr (final_delims ds)).
  { rewrite all_In in *. intros x Hx. apply D. unfold final_delims in Hx. rewrite <- in_rev in Hx.
    assert (X : forall l : list (attr U), In x (while_delim l) -> In x l).
    { clear. induction l as [|y l IH]; cbn [while_delim]; auto. destruct (is_delim y); [|intros []].
      intros [E|E]; [left; auto|right; auto]. }
    apply X in Hx. rewrite <- in_rev in Hx. auto. }
  assert (VV : all safe_val (flat_map vals (final_delims ds))).
  { revert FD. generalize (final_delims ds). clear. intros l H. apply all_In. intros v Hv.
    apply in_flat_map in Hv as (a & Ha & Hv). rewrite all_In in H. destruct (H a Ha) as [_ S].
    destruct a; cbn [vals] in Hv; [|destruct Hv|destruct S as [_ S]]; rewrite all_In in S; auto. }
  unfold effective in Ha. destruct (final_delims ds) as [|f fs] eqn:E.
  - destruct (rev ds) as [|x r] eqn:R; [destruct Ha|]. destruct Ha as [<-|[]]. rewrite all_In in D.
    apply D. apply in_rev. rewrite R. left. auto.
  - destruct f as [| |n0 d vs]; [destruct Ha|destruct Ha|]. destruct Ha as [<-|[]].
    destruct FD as [[V [Id _]] _]. split; [exact V|]. split; auto.
Qed.

(** Elements made from safe arguments are safe. *)
Theorem C06_element_safe name args u :
  tidy_world -> all safe_argument args ->
  valid_name name = true -> content_state (map lower name) = Data ->
  all safe_attr (flat_map inner_attrs (fst (contents_to_nodes args u))) ->
  (void (map lower name) = false -> safe void (fst (NewElement name args u))) /\
  (void (map lower name) = true -> safe void (fst (NewVoidElement name args u))).
Proof.
  intros T H V M AA. pose proof (items_safe args u T H) as It.
  unfold NewElement, NewVoidElement. destruct (contents_to_nodes args u) as [ns u']. cbn [fst] in *.
  rewrite all_In in AA.
  pose proof (attributes_shape ns) as Sh. unfold mk_element, mk_void.
  destruct (attributes_and_contents ns) as [[a c] cs]. destruct Sh as (-> & Hc & ->).
  assert (A1 : all safe_attr (fst (add_attributes (flat_map static_decls ns)))).
  { apply stored_in. apply all_In. intros x Hx. apply AA. apply in_flat_map in Hx as (n & Hn & Hx).
    apply in_flat_map. exists n. split; auto. apply static_inner. auto. }
  assert (A2 : all (fun ca : attr U * list (condfn U) => safe_attr (fst ca)) c).
  { apply all_In. intros x Hx. apply AA. assert (Hx' : In (fst x) (map fst c)) by (apply in_map; auto).
    rewrite Hc in Hx'. apply in_map_iff in Hx' as (p & Ep & Hp). apply in_flat_map in Hp as (n & Hn & Hp).
    apply in_flat_map. exists n. split; auto. rewrite <- Ep. apply (cond_inner n []). apply in_map. auto. }
  destruct (add_attributes (flat_map static_decls ns)) as [attrs idx]. cbn [fst] in A1.
  assert (NS : ~ In (map lower name) (rcdata_names ++ rawtext_names) /\ map lower name <> B "plaintext").
  { unfold content_state in M. rewrite in_app_iff, <- !bmem_In.
    destruct (bmem _ rcdata_names); [discriminate|]. destruct (bmem _ rawtext_names); [discriminate|].
    destruct (beq_spec (map lower name) (B "plaintext")); [discriminate|]. split; [intros [X|X]; discriminate|auto]. }
  split; intro Vo.
  - change (safe_name void name (filter (fun n => negb (is_attr n)) ns) /\ all safe_attr attrs /\
      all (fun ca => safe_attr (fst ca)) c /\ all (safe void) (filter (fun n => negb (is_attr n)) ns)).
    destruct NS as [NS1 NS2]. split; [repeat split; auto; intro X; contradiction|]. split; auto. split; auto.
    apply all_In. intros n Hn. apply filter_In in Hn as [Hn E]. rewrite all_In in It. specialize (It n Hn).
    destruct n; try exact It. discriminate E.
  - cbn [safe]. repeat split; auto.
Qed.

End Constructors.

(** ** Example: a page with a dynamic key, a condition, an iteration and an
    imperative part, on the data of the demo world *)

Lemma demo_tidy : tidy_world.
Proof.
  intros u m k v H. cbn in H. unfold demo_map in H. destruct m as [|[|m]]; [| |discriminate].
  - destruct (beq k (B "name")); [injection H as <-; exact I|].
    destruct (beq k (B "on")); [injection H as <-; exact I|].
    destruct (beq k (B "off")); [injection H as <-; exact I|].
    destruct (beq k (B "items")); [injection H as <-; exact (conj I (conj I I))|discriminate].
  - destruct (beq k (B "count")); [injection H as <-; exact I|discriminate].
Qed.

Definition safe_page : node (@U demo) :=
  fst (NewElement (B "div")
    [ANode (fst (NewAttribute (B "title") [AKey (B "name")] (st 0)));
     ANode (NIter (key_items (B "items")) [NText [Val [] (Some (key_fn (B "."))) []]]);
     ANode (Imperative (Some (IStart (B "p") false [] (IWriteString evil (IEnd (IRet None))))));
     AData (GString evil)] (st 0)).
Example C06_any_example : exists ts,
  tokenizes (fst (page listed safe_page fr0 (st 3, 0))) ts /\ well_nested html_void ts.
Proof.
  apply C06_any_template; [apply listed_ok| | |exact I].
  - split.
    + apply api_element. intros n Hn. destruct Hn as [E|[E|[E|[E|[]]]]]; try discriminate E; injection E as <-.
      * apply (api_attribute (B "title") [AKey (B "name")] (st 0)).
      * apply (api_iterate_key (B "items") [Some (NText [Val [] (Some (key_fn (B "."))) []])]); [|reflexivity].
        intros c [E|[]]. injection E as <-. apply (api_text [AKey (B ".")] (st 0)).
      * apply (@api_imperative demo (IStart (B "p") false [] (IWriteString evil (IEnd (IRet None))))). repeat constructor.
    + apply quiet_element. cbn. repeat split; auto.
  - apply C06_element_safe; try reflexivity; [apply demo_tidy| |].
    + split; [apply (C06_attribute_safe html_void (B "title") [] [AKey (B "name")] (st 0) demo_tidy);
        [intros n [E|[]]; discriminate E|exact (conj I I)|reflexivity|apply inert_nil]|].
      split.
      { split.
        - intros c u K. unfold key_items. cbn [fst]. destruct (data_get c (B "items") u) as [v|] eqn:E; [|exact I].
          assert (T : tidy v). { unfold data_get in E. destruct (c_data c); [|discriminate]. eapply demo_tidy. eauto. }
          destruct v; try exact I.
          + clear. induction b; cbn; [exact I|split; [exact I|auto]].
          + exact T.
        - split; [|exact I]. split; [|exact I]. apply C06_key_safe. apply demo_tidy. }
      split; [|exact (conj I I)]. cbn. repeat split; reflexivity.
    + cbn. split; [|exact I]. split; [reflexivity|]. split; [|exact I]. apply C06_key_safe. apply demo_tidy.
Qed.
Example C06_any_output :
  fst (page listed safe_page fr0 (st 3, 0)) =
  B "<div title=""a&lt;b"">x7<p>" ++ html_escape_string evil ++ B "</p>" ++ html_escape_string evil ++ B "</div>".
Proof. vm_compute. reflexivity. Qed.
