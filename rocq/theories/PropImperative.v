(** C28-C30: imperative nodes, and attributes where content is expected. *)
From Verif Require Import Bytes IO IOFacts Escape Nodes NodeInd Values Render Build SpecOut SpecElem
  RenderFacts AttrFacts Api ApiFacts SpecRun PageFacts TagFacts Demo PropElements PropGroups PropIteration.

Section Imperative.
Context {W : UserWorld}.

(** ** C28 *)

(** The operations of an ImperativeContext, and what reaches the document. *)
Inductive iop : Type :=
| OWriteString (x : bytes) | OWriteRaw (x : bytes) | OWriteNodes (ns : list (option (node U)))
| OStart (name : bytes) (isVoid : bool) (attrs : list (option (node U))) | OEnd | OEndAll
| ORender (n : node U) (inner : option (frame U)) | ODirect (x : bytes) | OSetError (e : option error).
Inductive item : Type :=
| Open (name attrs : bytes) | Void (name attrs : bytes) | Close (name : bytes) | Other (b : bytes).
Definition item_bytes (i : item) : bytes :=
  match i with
  | Open n a | Void n a => B "<" ++ n ++ a ++ B ">"
  | Close n => B "</" ++ n ++ B ">"
  | Other b => b
  end.

(** [trace o fr p st s ops items st' s']: the function [p], called with the
    elements [st] started and not yet closed (the most recent first), in state
    [s], performs [ops], which put [items] into the document, leaving [st']
    unclosed. *)
Inductive trace (o : order) (fr : frame U)
  : iprog U -> list bytes -> U * nat -> list iop -> list item -> list bytes -> U * nat -> Prop :=
| t_return e st s : trace o fr (IRet e) st s [] [] st s
| t_look k p' u' st s ops items st' s' :
    k (view fr None) (fst s) = (p', u') ->
    trace o fr p' st (u', snd s) ops items st' s' ->
    trace o fr (IRead k) st s ops items st' s'
| t_string x k st s ops items st' s' :
    trace o fr k st s ops items st' s' ->
    trace o fr (IWriteString x k) st s (OWriteString x :: ops) (Other (html_escape_string x) :: items) st' s'
| t_raw x k st s ops items st' s' :
    trace o fr k st s ops items st' s' ->
    trace o fr (IWriteRaw x k) st s (OWriteRaw x :: ops) (Other x :: items) st' s'
| t_nodes ns k st s b s1 ops items st' s' :
    pages o (content_args ns) fr s = (b, s1) ->
    trace o fr k st s1 ops items st' s' ->
    trace o fr (IWriteNodes ns k) st s (OWriteNodes ns :: ops) (Other b :: items) st' s'
| t_start name attrs a u1 k st s ops items st' s' :
    trace o fr k (name :: st) (u1, snd s) ops items st' s' ->
    trace o fr (IStart name false attrs k) st s (OStart name false attrs :: ops) (Open name a :: items) st' s'
| t_start_void name attrs a u1 k st s ops items st' s' :
    trace o fr k st (u1, snd s) ops items st' s' ->
    trace o fr (IStart name true attrs k) st s (OStart name true attrs :: ops) (Void name a :: items) st' s'
| t_end name k st s ops items st' s' :
    trace o fr k st s ops items st' s' ->
    trace o fr (IEnd k) (name :: st) s (OEnd :: ops) (Close name :: items) st' s'
| t_end_none k s ops items st' s' :
    trace o fr k [] s ops items st' s' ->
    trace o fr (IEnd k) [] s (OEnd :: ops) items st' s'
| t_end_all k st s ops items st' s' :
    trace o fr k [] s ops items st' s' ->
    trace o fr (IEndAll k) st s (OEndAll :: ops) (map Close st ++ items) st' s'
| t_render n inner k st s b s1 ops items st' s' :
    page o n (match inner with Some fr' => fr' | None => fr end) s = (b, s1) ->
    trace o fr (k None None) st s1 ops items st' s' ->
    trace o fr (IRender n inner k) st s (ORender n inner :: ops) (Other b :: items) st' s'
| t_direct x k st s ops items st' s' :
    trace o fr (k (length x) None) st s ops items st' s' ->
    trace o fr (IDirect x k) st s (ODirect x :: ops) (Other x :: items) st' s'
| t_set_error e k st s ops items st' s' :
    trace o fr k st s ops items st' s' ->
    trace o fr (ISetError e k) st s (OSetError e :: ops) items st' s'.

Fixpoint usable_prog (p : iprog U) : Prop :=
  match p with
  | IRet e => e = None
  | IRead k => forall c u, c_error c = None -> usable_prog (fst (k c u))
  | IWriteString _ k | IWriteRaw _ k | IStart _ _ _ k | IEnd k | IEndAll k => usable_prog k
  | IWriteNodes ns k => usable_opts ns /\ usable_prog k
  | IRender n _ k => usable n /\ usable_prog (k None None)
  | IDirect x k => usable_prog (k (length x) None)
  | ISetError e k => e = None /\ usable_prog k
  end.

Lemma seq_content o ns fr s :
  ord_ok o -> usable_opts ns ->
  seqS (fun c s => match c with
                   | Some c => if is_attr c then ([], s) else snode o c fr s
                   | None => ([], s)
                   end) ns s = pages o (content_args ns) fr s.
Proof.
  intros O H. revert s; induction ns as [|n ns IH]; intro s; [reflexivity|].
  rewrite seqS_cons. assert (H' : usable_opts ns) by (intros c Hc; apply H; right; auto).
  destruct n as [n|].
  - assert (Hn : usable n) by (apply H; left; auto).
    destruct (is_attr n) eqn:A.
    + destruct n; try discriminate. rewrite IH by auto.
      change (content_args (Some (NAttr a) :: ns)) with (content_args ns).
      destruct (pages o (content_args ns) fr s); reflexivity.
    + assert (content_args (Some n :: ns) = n :: content_args ns) as ->.
      { destruct n; try discriminate; reflexivity. }
      cbn [pages]. rewrite page_snode by (auto; first [apply (proj1 api_tables), Hn | apply Hn]).
      destruct (snode o n fr s) as [b1 s1]. rewrite IH by auto. reflexivity.
  - rewrite IH by auto. change (content_args (None :: ns)) with (content_args ns).
    destruct (pages o (content_args ns) fr s); reflexivity.
Qed.

Lemma simper_trace o fr p st s :
  ord_ok o -> usable_prog p ->
  exists ops items st', trace o fr p st s ops items st' (snd (simper o p fr st s)) /\
    fst (simper o p fr st s) = concat (map item_bytes items).
Proof.
  intros O. revert st s. revert p. fix IH 1. intros p st s H.
  destruct p as [e|k|x k|x k|ns k|name v attrs k|k|k|n inner k|d k|e k].
  - exists [], [], st. split; [constructor|reflexivity].
  - cbn [simper]. pose proof (IH (fst (k (view fr None) (fst s)))) as X. clear IH.
    specialize (H (view fr None) (fst s) eq_refl).
    destruct (k (view fr None) (fst s)) as [p' u'] eqn:K.
    destruct (X st (u', snd s) H) as (ops & items & st' & T & Eq).
    exists ops, items, st'. split; [|exact Eq]. eapply t_look; eauto.
  - cbn [simper]. destruct (IH k st s H) as (ops & items & st' & T & Eq).
    destruct (simper o k fr st s) as [b s1]. cbn [fst snd] in *.
    eexists _, _, st'. split; [eapply t_string; exact T|]. cbn. rewrite Eq. reflexivity.
  - cbn [simper]. destruct (IH k st s H) as (ops & items & st' & T & Eq).
    destruct (simper o k fr st s) as [b s1]. cbn [fst snd] in *.
    eexists _, _, st'. split; [eapply t_raw; exact T|]. cbn. rewrite Eq. reflexivity.
  - destruct H as [H1 H2].
    change (simper o (IWriteNodes ns k) fr st s) with
      (let '(b1, s1) := seqS (fun c s => match c with
                       | Some c => if is_attr c then ([], s) else snode o c fr s
                       | None => ([], s)
                       end) ns s in
       let '(b2, s2) := simper o k fr st s1 in (b1 ++ b2, s2)).
    rewrite seq_content by auto.
    destruct (pages o (content_args ns) fr s) as [b1 s1] eqn:P.
    destruct (IH k st s1 H2) as (ops & items & st' & T & Eq).
    destruct (simper o k fr st s1) as [b s2]. cbn [fst snd] in *.
    eexists _, _, st'. split; [eapply t_nodes; [exact P|exact T]|]. cbn. rewrite Eq. reflexivity.
  - cbn [simper]. unfold liftU, sstart.
    destruct (mapS (sstart_attr fr) (start_attrs attrs []) (fst s)) as [bs u1].
    destruct (IH k (if v then st else name :: st) (u1, snd s) H) as (ops & items & st' & T & Eq).
    destruct (simper o k fr (if v then st else name :: st) (u1, snd s)) as [b s2]. cbn [fst snd] in *.
    destruct v.
    + eexists _, (Void name (concat bs) :: items), st'. split; [eapply t_start_void; exact T|].
      cbn. rewrite Eq, <- !app_assoc. reflexivity.
    + eexists _, (Open name (concat bs) :: items), st'. split; [eapply t_start; exact T|].
      cbn. rewrite Eq, <- !app_assoc. reflexivity.
  - cbn [simper]. destruct st as [|n st].
    + destruct (IH k [] s H) as (ops & items & st' & T & Eq).
      eexists _, _, st'. split; [eapply t_end_none; exact T|exact Eq].
    + destruct (IH k st s H) as (ops & items & st' & T & Eq).
      destruct (simper o k fr st s) as [b s1]. cbn [fst snd] in *.
      eexists _, _, st'. split; [eapply t_end; exact T|]. cbn. rewrite Eq.
      unfold endtag. cbn. rewrite <- !app_assoc. reflexivity.
  - cbn [simper]. destruct (IH k [] s H) as (ops & items & st' & T & Eq).
    destruct (simper o k fr [] s) as [b s1]. cbn [fst snd] in *.
    eexists _, _, st'. split; [eapply t_end_all; exact T|].
    rewrite map_app, concat_app, Eq, map_map. reflexivity.
  - destruct H as [H1 H2].
    change (simper o (IRender n inner k) fr st s) with
      (let '(b1, s1) := snode o n (match inner with Some fr' => fr' | None => fr end) s in
       let '(b2, s2) := simper o (k None None) fr st s1 in (b1 ++ b2, s2)).
    rewrite <- page_snode by (auto; first [apply (proj1 api_tables), H1 | apply H1]).
    destruct (page o n _ s) as [b1 s1] eqn:P.
    destruct (IH (k None None) st s1 H2) as (ops & items & st' & T & Eq).
    destruct (simper o (k None None) fr st s1) as [b s2]. cbn [fst snd] in *.
    eexists _, _, st'. split; [eapply t_render; [exact P|exact T]|]. cbn. rewrite Eq. reflexivity.
  - cbn [simper]. destruct (IH (k (length d) None) st s H) as (ops & items & st' & T & Eq).
    destruct (simper o _ fr st s) as [b s1]. cbn [fst snd] in *.
    eexists _, _, st'. split; [eapply t_direct; exact T|]. cbn. rewrite Eq. reflexivity.
  - cbn [simper]. destruct H as [_ H]. destruct (IH k st s H) as (ops & items & st' & T & Eq).
    eexists _, _, st'. split; [eapply t_set_error; exact T|exact Eq].
Qed.

Lemma usable_prog_quiet p : usable_prog p -> quiet_prog p.
Proof.
  revert p. fix IH 1. intros p H. destruct p as [e|k|x k|x k|ns k|name v attrs k|k|k|n inner k|d k|e k].
  - exact H.
  - change (forall c u, c_error c = None -> quiet_prog (fst (k c u))).
    intros c u E. exact (IH (fst (k c u)) (H c u E)).
  - exact (IH k H).
  - exact (IH k H).
  - destruct H as [H1 H2]. split; [|exact (IH k H2)]. apply all_In. intros [c|] Hc; [|exact I].
    apply (H1 c Hc).
  - exact (IH k H).
  - exact (IH k H).
  - exact (IH k H).
  - destruct H as [H1 H2]. split; [apply H1|exact (IH (k None None) H2)].
  - exact (IH (k (length d) None) H).
  - destruct H as [H1 H2]. split; [exact H1|exact (IH k H2)].
Qed.

(** C28.  What an Imperative node writes is what the operations performed put
    into the document: End closes the most recently started element that is
    still unclosed, or nothing; EndAll closes all of them, the most recent
    first.  WriteNodes, WriteString and WriteRaw (C30) as in [trace]. *)
Theorem C28_operations o p fr s :
  ord_ok o -> api_prog p -> usable_prog p ->
  exists ops items st', trace o fr p [] s ops items st' (snd (page o (Imperative (Some p)) fr s)) /\
    fst (page o (Imperative (Some p)) fr s) = concat (map item_bytes items).
Proof.
  intros O A H. rewrite page_snode; auto.
  - apply simper_trace; auto.
  - apply (proj1 api_tables). apply api_imperative. exact A.
  - apply (usable_prog_quiet p H).
Qed.

(** Properly nested sequences of tags. *)
Inductive nested : list item -> Prop :=
| n_nil : nested []
| n_other b l : nested l -> nested (Other b :: l)
| n_void n a l : nested l -> nested (Void n a :: l)
| n_element n a l1 l2 : nested l1 -> nested l2 -> nested (Open n a :: l1 ++ Close n :: l2).

(** ... followed by the closing tags of [st]. *)
Fixpoint closes (st : list bytes) (l : list item) : Prop :=
  match st with
  | [] => nested l
  | n :: st' => exists l1 l2, nested l1 /\ l = l1 ++ Close n :: l2 /\ closes st' l2
  end.
Lemma closes_cons st i l :
  (forall l, nested l -> nested (i :: l)) -> closes st l -> closes st (i :: l).
Proof.
  intros H C. destruct st as [|n st]; [apply H, C|]. destruct C as (l1 & l2 & C1 & -> & C2).
  exists (i :: l1), l2. auto.
Qed.
Lemma trace_closes o fr p st s ops items st' s' :
  trace o fr p st s ops items st' s' -> st' = [] -> closes st items.
Proof.
  induction 1; intro E; subst; try (specialize (IHtrace eq_refl)).
  - constructor.
  - auto.
  - apply closes_cons; auto. intros; constructor; auto.
  - apply closes_cons; auto. intros; constructor; auto.
  - apply closes_cons; auto. intros; constructor; auto.
  - destruct IHtrace as (l1 & l2 & C1 & -> & C2). destruct st as [|m st].
    + apply n_element; auto.
    + destruct C2 as (l3 & l4 & C3 & -> & C4). exists (Open name a :: l1 ++ Close name :: l3), l4.
      split; [apply n_element; auto|]. split; auto. cbn. rewrite <- app_assoc. reflexivity.
  - apply closes_cons; auto. intros; constructor; auto.
  - exists [], items. split; [constructor|auto].
  - auto.
  - clear H. induction st as [|n st IH]; [exact IHtrace|]. exists [], (map Close st ++ items).
    split; [constructor|]. auto.
  - apply closes_cons; auto. intros; constructor; auto.
  - apply closes_cons; auto. intros; constructor; auto.
  - auto.
Qed.
Lemma trace_end_all o fr p st s ops items st' s' :
  trace o fr p st s ops items st' s' -> forall pre, ops = pre ++ [OEndAll] -> st' = [].
Proof.
  induction 1; intros pre E.
  - destruct pre; discriminate.
  - eapply IHtrace; eauto.
  - destruct pre; [discriminate|]. injection E as _ ->. eapply IHtrace; eauto.
  - destruct pre; [discriminate|]. injection E as _ ->. eapply IHtrace; eauto.
  - destruct pre; [discriminate|]. injection E as _ ->. eapply IHtrace; eauto.
  - destruct pre; [discriminate|]. injection E as _ ->. eapply IHtrace; eauto.
  - destruct pre; [discriminate|]. injection E as _ ->. eapply IHtrace; eauto.
  - destruct pre; [discriminate|]. injection E as _ ->. eapply IHtrace; eauto.
  - destruct pre; [discriminate|]. injection E as _ ->. eapply IHtrace; eauto.
  - destruct pre as [|x pre].
    + injection E as ->. clear -H. remember [] as st in H at 1. remember [] as ops in H.
      induction H; try discriminate; auto. 
    + injection E as _ ->. eapply IHtrace; eauto.
  - destruct pre; [discriminate|]. injection E as _ ->. eapply IHtrace; eauto.
  - destruct pre; [discriminate|]. injection E as _ ->. eapply IHtrace; eauto.
  - destruct pre; [discriminate|]. injection E as _ ->. eapply IHtrace; eauto.
Qed.

Theorem C28_nested o p fr s ops items st' s' :
  trace o fr p [] s (ops ++ [OEndAll]) items st' s' -> nested items /\ st' = [].
Proof.
  intro T. pose proof (trace_end_all _ _ _ _ _ _ _ _ _ T ops eq_refl) as ->.
  split; [|reflexivity]. apply (trace_closes _ _ _ _ _ _ _ _ _ T eq_refl).
Qed.

(** ** C29 *)

(** The attributes among the arguments of Start. *)
Definition start_args (l : list (option (node U))) : list (attr U) :=
  flat_map (fun n => match n with Some (NAttr a) => [a] | _ => [] end) l.

(** The condition under which the two agree: the declarations of each name
    either end with one that is not delimited, or are all delimited with the
    same delimiter; and no value of a delimited attribute is empty. *)
Definition uniform (ds : list (attr U)) : Prop :=
  (exists ds' a, ds = ds' ++ [a] /\ is_delim a = false) \/
  (exists d, forall a, In a ds -> exists n vs, a = ADelim n d vs).
Definition solid (fr : frame U) (ds : list (attr U)) : Prop :=
  forall n d vs v u, In (ADelim n d vs) ds -> In v vs -> fst (sval fr v u) <> [].

(** What Start makes of the declarations of one name. *)
Definition st_first (a : attr U) : option (list (value U)) :=
  match a with ADelim _ d vs => Some (interpose d vs) | APlain _ vs => Some vs | ABool _ => None end.
Definition st_next (old : option (list (value U))) (a : attr U) : option (list (value U)) :=
  match a with
  | ADelim _ d [] => old
  | ADelim _ d vs => Some (append_delim d (match old with Some avs => avs | None => [] end) vs)
  | APlain _ vs => Some vs
  | ABool _ => None
  end.
Definition st_eff (ds : list (attr U)) : option (list (value U)) :=
  match ds with [] => None | a :: ds' => fold_left st_next ds' (st_first a) end.

Lemma st_eff_snoc ds a : st_eff (ds ++ [a]) = match ds with [] => st_first a | _ => st_next (st_eff ds) a end.
Proof. destruct ds as [|x ds]; [reflexivity|]. cbn [app st_eff]. rewrite fold_left_app. reflexivity. Qed.

Lemma start_attrs_fold l acc : start_attrs l acc = fold_left start_add (start_args l) acc.
Proof.
  revert acc; induction l as [|x l IH]; intro acc; [reflexivity|]. destruct x as [n|]; [|apply IH].
  destruct n; cbn [start_attrs]; apply IH.
Qed.

Lemma names_of_snoc (l : list (attr U)) a :
  names_of (l ++ [a]) = names_of l ++ (if bmem (attr_name a) (map (@attr_name U) l) then [] else [attr_name a]).
Proof. rewrite !names_of_first, first_names_snoc. reflexivity. Qed.

Lemma upd_assoc_map {A} (g : bytes -> A) (ns : list bytes) n0 f :
  NoDup ns ->
  upd_assoc (map (fun n => (n, g n)) ns) n0 f = map (fun n => (n, if beq n n0 then f (g n) else g n)) ns.
Proof.
  induction 1 as [|n ns Hn ND IH]; [reflexivity|]. cbn [map upd_assoc].
  destruct (beq_spec n n0) as [->|N].
  - f_equal. apply map_ext_in. intros m Hm. destruct (beq_spec m n0); [subst; contradiction|reflexivity].
  - rewrite IH. reflexivity.
Qed.

Lemma start_spec ds :
  fold_left start_add ds [] = map (fun n => (n, st_eff (declared n ds))) (names_of ds).
Proof.
  induction ds as [|a ds IH] using rev_ind; [reflexivity|].
  rewrite fold_left_app. cbn [fold_left]. rewrite IH. clear IH.
  destruct (names_of_spec ds) as [ND Mem]. rewrite names_of_snoc. unfold start_add.
  rewrite map_map. cbn [fst]. rewrite map_id.
  assert (D : forall n, declared n (ds ++ [a]) = declared n ds ++ if beq (attr_name a) n then [a] else []).
  { intro n. unfold declared. rewrite filter_app. reflexivity. }
  destruct (bmem (attr_name a) (names_of ds)) eqn:M.
  - assert (bmem (attr_name a) (map (@attr_name U) ds) = true) as ->.
    { apply bmem_In, Mem, bmem_In, M. }
    rewrite app_nil_r, upd_assoc_map by auto. apply map_ext_in. intros n Hn. f_equal. rewrite D.
    destruct (beq_spec n (attr_name a)) as [->|N].
    + rewrite beq_refl, st_eff_snoc. destruct (declared (attr_name a) ds) eqn:Dn.
      * exfalso. apply Mem in Hn. apply in_map_iff in Hn as (x & X1 & X2).
        assert (In x (declared (attr_name a) ds)) as X. { apply filter_In. split; auto. rewrite X1. apply beq_refl. }
        rewrite Dn in X. destruct X.
      * destruct a as [m vs|m|m d [|v vs]]; reflexivity.
    + destruct (beq_spec (attr_name a) n); [congruence|]. rewrite app_nil_r. reflexivity.
  - assert (bmem (attr_name a) (map (@attr_name U) ds) = false) as M'.
    { destruct (bmem _ (map _ ds)) eqn:X; auto. apply bmem_In, Mem, bmem_In in X. congruence. }
    rewrite M', map_app. f_equal.
    + apply map_ext_in. intros n Hn. f_equal. rewrite D.
      destruct (beq_spec (attr_name a) n) as [<-|N]; [|rewrite app_nil_r; reflexivity].
      exfalso. apply bmem_In in Hn. congruence.
    + cbn [map]. rewrite D, beq_refl.
      assert (declared (attr_name a) ds = []) as ->.
      { destruct (declared (attr_name a) ds) as [|x l] eqn:Dn; auto. exfalso.
        assert (In x (declared (attr_name a) ds)) as X by (rewrite Dn; left; auto).
        apply filter_In in X as [X1 X2]. assert (bmem (attr_name a) (map (@attr_name U) ds) = true); [|congruence].
        apply bmem_In, in_map_iff. exists x. split; auto. destruct (beq_spec (attr_name x) (attr_name a)); congruence. }
      cbn [app st_eff fold_left]. destruct a; reflexivity.
Qed.

Lemma append_interpose d (xs ys : list (value U)) :
  append_delim d (interpose d xs) ys = interpose d (xs ++ ys).
Proof.
  revert xs; induction ys as [|y ys IH]; intro xs; cbn [append_delim]; [rewrite app_nil_r; reflexivity|].
  replace (xs ++ y :: ys) with ((xs ++ [y]) ++ ys) by (rewrite <- app_assoc; reflexivity).
  rewrite <- IH. f_equal. clear. induction xs as [|x xs IH]; [reflexivity|].
  destruct xs as [|x' xs]; [reflexivity|].
  change (interpose d (x :: x' :: xs)) with (x :: Val d None [] :: interpose d (x' :: xs)).
  change (interpose d ((x :: x' :: xs) ++ [y])) with (x :: Val d None [] :: interpose d ((x' :: xs) ++ [y])).
  rewrite <- IH. destruct (interpose d (x' :: xs)) eqn:E; [|reflexivity].
  destruct xs; discriminate.
Qed.

Lemma st_eff_delims d ds :
  ds <> [] -> (forall a, In a ds -> exists n vs, a = ADelim n d vs) ->
  st_eff ds = Some (interpose d (flat_map vals ds)).
Proof.
  induction ds as [|a ds IH] using rev_ind; [congruence|]. intros _ H.
  rewrite st_eff_snoc. destruct (H a) as (n & vs & ->); [apply in_or_app; right; left; auto|].
  destruct ds as [|x ds]; [cbn; rewrite app_nil_r; reflexivity|].
  rewrite IH; [|discriminate|intros; apply H, in_or_app; auto].
  rewrite flat_map_app. cbn [flat_map vals]. rewrite app_nil_r. unfold st_next.
  destruct vs as [|v vs]; [rewrite app_nil_r; reflexivity|].
  f_equal. apply append_interpose.
Qed.

Lemma svals_interpose fr d vs u :
  (forall v u, In v vs -> fst (sval fr v u) <> []) ->
  svals fr (interpose d vs) u = let '(bs, u') := mapS (sval fr) vs u in (djoin d bs, u').
Proof.
  revert u; induction vs as [|v vs IH]; intros u H; [reflexivity|].
  destruct vs as [|v' vs].
  - cbn [interpose]. rewrite svals_one. cbn [mapS]. destruct (sval fr v u) as [b u1].
    cbn. destruct b; rewrite ?app_nil_r; reflexivity.
  - change (interpose d (v :: v' :: vs)) with ([v] ++ [Val d None []] ++ interpose d (v' :: vs)).
    rewrite svals_app, svals_one. pose proof (H v u ltac:(left; auto)) as Hv.
    change (mapS (sval fr) (v :: v' :: vs) u) with
      (let '(y, s1) := sval fr v u in let '(ys, s2) := mapS (sval fr) (v' :: vs) s1 in (y :: ys, s2)).
    destruct (sval fr v u) as [b u1]. cbn [fst] in Hv. rewrite svals_app, svals_one. cbn [sval].
    rewrite IH by (intros; apply H; right; auto).
    destruct (mapS (sval fr) (v' :: vs) u1) as [bs u2] eqn:M. cbn [mapS] in M.
    destruct (sval fr v' u1) as [b' u1']. destruct (mapS (sval fr) vs u1') as [bs' u2'].
    injection M as <- <-. destruct b as [|c b]; [congruence|]. reflexivity.
Qed.

Lemma start_attr_same fr n ds u :
  ds <> [] -> (forall a, In a ds -> attr_name a = n) -> uniform ds -> solid fr ds ->
  exists a, effective ds = Some a /\ sstart_attr fr (n, st_eff ds) u = sattr fr a u.
Proof.
  intros N Hn [(ds' & a & -> & D)|(d & D)] S.
  - exists a. rewrite C10_last_wins by auto. split; auto.
    assert (attr_name a = n) as <- by (apply Hn, in_or_app; right; left; auto).
    rewrite st_eff_snoc. unfold sstart_attr. cbn [fst snd].
    destruct a as [m vs|m|m d vs]; try discriminate; destruct ds'; reflexivity.
  - destruct ds as [|a ds]; [congruence|]. destruct (D a) as (m & vs & ->); [left; auto|].
    assert (m = n) as <- by (apply (Hn (ADelim m d vs)); left; auto).
    rewrite C10_all_delimited.
    2: { apply Forall_forall. intros x Hx. destruct (D x) as (? & ? & ->); [right; auto|reflexivity]. }
    eexists. split; [reflexivity|].
    rewrite (st_eff_delims d) by auto. unfold sstart_attr. cbn [fst snd sattr flat_map vals].
    rewrite svals_interpose.
    + destruct (mapS (sval fr) (vs ++ flat_map vals ds) u) as [bs u']. reflexivity.
    + intros v u0 Hv. change (vs ++ flat_map vals ds) with (flat_map vals (ADelim m d vs :: ds)) in Hv.
      apply in_flat_map in Hv as (x & X1 & X2). destruct (D x X1) as (m' & vs' & ->).
      apply (S _ _ _ v u0 X1). exact X2.
Qed.

Lemma sstart_same fr name l u :
  let ds := start_args l in
  (forall n, In n (map (@attr_name U) ds) -> uniform (declared n ds)) -> solid fr ds ->
  sstart fr name l u =
  let '(A, u1) := sattrs fr (flat_map (fun n => oapp (effective (declared n ds))) (names_of ds)) u in
  (B "<" ++ name ++ A ++ B ">", u1).
Proof.
  intros ds Un So. unfold sstart, sattrs. rewrite start_attrs_fold. fold ds. rewrite start_spec.
  assert (X : forall ns u, (forall n, In n ns -> In n (map (@attr_name U) ds)) ->
     mapS (sstart_attr fr) (map (fun n => (n, st_eff (declared n ds))) ns) u =
     mapS (sattr fr) (flat_map (fun n => oapp (effective (declared n ds))) ns) u).
  { induction ns as [|n ns IH]; intros u0 H; [reflexivity|]. cbn [map mapS flat_map].
    destruct (start_attr_same fr n (declared n ds) u0) as (a & E1 & E2).
    - intro Z. assert (In n (map (@attr_name U) ds)) as Y by (apply H; left; auto).
      apply in_map_iff in Y as (x & X1 & X2).
      assert (In x (declared n ds)) as Y. { apply filter_In. split; auto. rewrite X1. apply beq_refl. }
      rewrite Z in Y. destruct Y.
    - intros a Ha. apply filter_In in Ha as [_ Ha]. destruct (beq_spec (attr_name a) n); congruence.
    - apply Un, H. left; auto.
    - intros m d vs v u1 Hm Hv. apply filter_In in Hm as [Hm _]. eapply So; eauto.
    - rewrite E1, E2. cbn [oapp app mapS]. destruct (sattr fr a u0) as [b u1].
      rewrite IH by (intros; apply H; right; auto). reflexivity. }
  rewrite X; [|intros n Hn; apply names_of_spec; auto].
  destruct (mapS _ _ u) as [bs u1]. reflexivity.
Qed.

Lemma attr_api (a : attr U) : forall u : U, usable (NAttr a).
Proof.
  intro u. split; [|exact I].
  assert (V : forall vs (u : U), new_values (map AVal vs) u = (vs, u)).
  { induction vs as [|v vs IH]; intro u0; [reflexivity|]. cbn. rewrite IH. reflexivity. }
  destruct a as [n vs|n|n d vs].
  - replace (NAttr (APlain n vs)) with (fst (NewAttribute n (map AVal vs) u)); [apply api_attribute|].
    unfold NewAttribute. rewrite V. reflexivity.
  - apply (api_boolean n).
  - replace (NAttr (ADelim n d vs)) with (fst (NewDelimitedAttribute n d (map AVal vs) u)); [apply api_delimited|].
    unfold NewDelimitedAttribute. rewrite V. reflexivity.
Qed.

(** C29, under that condition.  Missing: names declared both with and without a
    delimiter (ending with one that has), different delimiters for a name, and
    empty delimited values; for those it is false (C29_refuted). *)
Theorem C29_same_tag_partial o name v l e fr s u :
  ord_ok o ->
  let ds := start_args l in
  (forall n, In n (map (@attr_name U) ds) -> uniform (declared n ds)) -> solid fr ds ->
  exists tag s1,
    page o (Imperative (Some (IStart name v l (IRet e)))) fr s = (tag, s1) /\
    page o (fst (NewElement name (map (fun a => ANode (NAttr a)) ds) u)) fr s =
      (tag ++ B "</" ++ name ++ B ">", s1).
Proof.
  intros O ds Un So.
  assert (UA : usable_args (map (fun a => ANode (NAttr a)) ds)).
  { intros n Hn. apply in_map_iff in Hn as (a & Ha & _). injection Ha as <-. apply (attr_api a u). }
  assert (CN : contents_to_nodes (map (fun a => ANode (NAttr a)) ds) u = (map NAttr ds, u)).
  { clear. revert u. induction ds as [|a ds IH]; intro u; [reflexivity|]. cbn. rewrite IH. reflexivity. }
  assert (SD : flat_map static_decls (map NAttr ds) = ds).
  { clear. induction ds as [|a ds IH]; cbn; [reflexivity|]. rewrite IH. reflexivity. }
  assert (CD : flat_map (cond_decls []) (map NAttr ds) = []).
  { clear. induction ds as [|a ds IH]; cbn; auto. }
  assert (NA : non_attrs (map NAttr ds) = []).
  { clear. induction ds as [|a ds IH]; cbn; auto. }
  pose proof (C10_static o fr O name _ u s UA) as E. cbv zeta in E. rewrite CN in E. cbn [fst] in E.
  rewrite SD, CD, NA in E. specialize (E eq_refl). rewrite E. clear E. rewrite pages_attrs.
  pose proof (sstart_same fr name l (fst s) Un So) as SS. fold ds in SS. 
  assert (P : page o (Imperative (Some (IStart name v l (IRet e)))) fr s = liftU (sstart fr name l) s).
  { rewrite page_hrun. unfold Imperative. cbn [render run_imper]. rewrite hrun_bind.
    rewrite h_start. unfold liftU. destruct (sstart fr name l (fst s)) as [b u1]. cbn.
    rewrite app_nil_r. reflexivity. }
  rewrite P. unfold liftU. rewrite SS.
  destruct (sattrs fr _ (fst s)) as [A u1]. eexists _, _. split; [reflexivity|].
  cbn [pages]. unfold wrap. rewrite <- !app_assoc. reflexivity.
Qed.

(** ** C30 *)

Theorem C30_write_nodes o ns fr s :
  ord_ok o -> usable_opts ns ->
  page o (Imperative (Some (IWriteNodes ns (IRet None)))) fr s = pages o (content_args ns) fr s.
Proof.
  intros O H. rewrite page_snode; auto.
  - change (snode o (Imperative (Some (IWriteNodes ns (IRet None)))) fr s) with
      (let '(b1, s1) := seqS (fun c s => match c with
                       | Some c => if is_attr c then ([], s) else snode o c fr s
                       | None => ([], s)
                       end) ns s in (b1 ++ [], s1)).
    rewrite seq_content by auto.
    destruct (pages o (content_args ns) fr s) as [b1 s1]. rewrite app_nil_r. reflexivity.
  - apply (proj1 api_tables). apply api_imperative. apply api_write_nodes; [|constructor].
    intros n Hn. apply H, Hn.
  - cbn. split; [|reflexivity]. apply all_In. intros [c|] Hc; [apply (H c Hc)|exact I].
Qed.
Theorem C30_content_collect o f fr s :
  ord_ok o -> (forall c u, usable_opts (fst (f c u))) ->
  page o (ContentCollect (Some f)) fr s =
  let '(ns, u1) := f (view fr None) (fst s) in pages o (content_args ns) fr (u1, snd s).
Proof.
  intros O H. rewrite page_snode; auto.
  - unfold ContentCollect. cbn [snode]. specialize (H (view fr None) (fst s)).
    destruct (f (view fr None) (fst s)) as [ns u1]. apply seq_content; auto.
  - apply (proj1 api_tables). apply api_collect. intros c u n Hn. apply (H c u n Hn).
  - cbn. intros c u _. apply all_In. intros [n|] Hn; [apply (H c u n Hn)|exact I].
Qed.
Theorem C30_collection o ns fr s :
  ord_ok o -> usable_opts ns ->
  page o (Collection ns) fr s = pages o (content_args ns) fr s.
Proof.
  intros O H. rewrite page_snode; auto.
  - unfold Collection. cbn [snode]. rewrite <- seq_content by auto. clear H. revert s.
    induction ns as [|[n|] ns IH]; intro s; [reflexivity| |].
    + change (Slices.somes (Some n :: ns)) with (n :: Slices.somes ns). rewrite !seqS_cons.
      destruct (if is_attr n then _ else _) as [b1 s1]. rewrite IH. reflexivity.
    + change (Slices.somes (None :: ns)) with (Slices.somes ns). rewrite seqS_cons, IH.
      destruct (seqS _ ns s). reflexivity.
  - apply (proj1 api_tables). apply api_collection. intros n Hn. apply H, Hn.
  - unfold Collection. cbn [quiet]. change (all quiet (Slices.somes ns)). apply all_In. intros n Hn.
    apply somes_in in Hn. apply (H n Hn).
Qed.
Theorem C30_iterate o f args n fr s :
  ord_ok o -> usable_opts args -> Iterate (Some f) args = Done n ->
  page o n fr s =
  let '(items, u1) := f (view fr None) (fst s) in
  per_item o (content_args args) fr items (u1, snd s).
Proof. apply C24_iterate. Qed.
Theorem C30_write_string o x fr s u :
  page o (Imperative (Some (IWriteString x (IRet None)))) fr s = page o (fst (Text [str x] u)) fr s.
Proof.
  rewrite !page_hrun. cbn. rewrite !app_nil_r. reflexivity.
Qed.
Theorem C30_write_raw o x fr s :
  page o (Imperative (Some (IWriteRaw x (IRet None)))) fr s = (x, s).
Proof. rewrite page_hrun. cbn. rewrite app_nil_r. destruct s; reflexivity. Qed.
(** In [content_args] everything but attributes and nils is kept, in order. *)
Theorem C30_content_kept (ns1 ns2 : list (option (node U))) n :
  is_attr n = false -> content_args (ns1 ++ Some n :: ns2) = content_args ns1 ++ n :: content_args ns2.
Proof.
  intro H. unfold content_args. rewrite flat_map_app. destruct n; try discriminate; reflexivity.
Qed.
Theorem C30_attributes_and_nils_dropped (ns1 ns2 : list (option (node U))) n :
  n = None \/ (exists a, n = Some (NAttr a)) ->
  content_args (ns1 ++ n :: ns2) = content_args ns1 ++ content_args ns2.
Proof.
  intros [->|[a ->]]; unfold content_args; rewrite flat_map_app; reflexivity.
Qed.

End Imperative.

(** ** Examples *)

Definition tags_prog : iprog (@U demo) :=
  IEnd (IStart (B "ul") false [Some (NAttr (deli "class" "a")); None; Some (NAttr (deli "class" "b"))]
   (IStart (B "li") false [] (IWriteString (B "<") (IEnd (IStart (B "li") false []
   (IStart (B "br") true [] (IWriteNodes [Some (NAttr (plain "id" "1")); None; Some (NText [Val (B "t") None []])]
   (IEndAll (IRet None))))))))).
Example C28_example :
  fst (page listed (Imperative (Some tags_prog)) fr0 (st 0, 0)) =
  B "<ul class=""a b""><li>&lt;</li><li><br>t</li></ul>".
Proof. vm_compute. reflexivity. Qed.
Example C28_trace_example : exists ops items st' s',
  trace listed fr0 tags_prog [] (st 0, 0) (ops ++ [OEndAll]) items st' s'.
Proof.
  exists [OEnd; OStart (B "ul") false [Some (NAttr (deli "class" "a")); None; Some (NAttr (deli "class" "b"))];
    OStart (B "li") false []; OWriteString (B "<"); OEnd; OStart (B "li") false []; OStart (B "br") true [];
    OWriteNodes [Some (NAttr (plain "id" "1")); None; Some (NText [Val (B "t") None []])]].
  eexists _, _, _. cbn [app]. unfold tags_prog.
  apply t_end_none. eapply (t_start _ _ _ _ [] (st 0)). eapply (t_start _ _ _ _ [] (st 0)). eapply t_string.
  eapply t_end. eapply (t_start _ _ _ _ [] (st 0)). eapply (t_start_void _ _ _ _ [] (st 0)).
  eapply t_nodes; [reflexivity|]. eapply t_end_all. apply t_return.
Qed.
(** A function that renders an element itself, the second time with other data,
    writes to the writer of its context, and resets the context's error. *)
Example C28_context_example :
  let p := fst (NewElement (B "p") [ANode (NText [Val [] (Some (fun c u => (match c_data c with
      | Some 1 => B "v" | _ => B "?" end, u))) []])] (st 0)) in
  fst (page listed (Imperative (Some
    (IStart (B "div") false [] (IRender p None (fun _ _ => IDirect (B "-") (fun _ _ =>
     IRender p (Some fr1) (fun r _ => ISetError r (IEnd (IRet None))))))))) fr0 (st 0, 0)) =
  B "<div><p>?</p>-<p>v</p></div>".
Proof. vm_compute. reflexivity. Qed.
Example C29_example :
  let l := [Some (NAttr (deli "class" "a")); None; Some (NAttr (plain "id" "1"));
            Some (NAttr (deli "class" "b")); Some (NAttr (plain "id" "2"))] in
  (forall n, In n (map (@attr_name (@U demo)) (start_args l)) -> uniform (declared n (start_args l))) /\
  solid fr0 (start_args l) /\
  fst (page listed (Imperative (Some (IStart (B "p") false l (IRet None)))) fr0 (st 0, 0)) =
  B "<p class=""a b"" id=""2"">".
Proof.
  cbv zeta. split; [|split; [|vm_compute; reflexivity]].
  - intros n [<-|[<-|[<-|[<-|[]]]]].
    1,3: right; exists (B " "); intros a [<-|[<-|[]]]; eexists _, _; reflexivity.
    all: left; exists [plain "id" "1"], (plain "id" "2"); split; reflexivity.
  - intros n d vs v u H Hv. repeat destruct H as [H|H]; try discriminate; try injection H as <- <- <-;
      try (destruct Hv as [<-|[]]; discriminate). destruct H.
Qed.

(** C29 as stated is false: a plain and a delimited attribute of one name are
    joined by Start, while the element keeps the last. *)
Theorem C29_refuted : exists (name : bytes) (ds : list (attr (@U demo))) fr (s : @U demo * nat) (u : @U demo),
  fst (page listed (fst (NewElement name (map (fun a => ANode (NAttr a)) ds) u)) fr s) =
    B "<p class=""b""></p>" /\
  fst (page listed (Imperative (Some (IStart name false (map (fun a => Some (NAttr a)) ds) (IRet None)))) fr s) =
    B "<p class=""a b"">".
Proof.
  exists (B "p"), [plain "class" "a"; deli "class" "b"], fr0, (st 0, 0), (st 0).
  split; vm_compute; reflexivity.
Qed.
(** ... and so do empty values. *)
Theorem C29_empty_refuted : exists (name : bytes) (ds : list (attr (@U demo))) fr (s : @U demo * nat) (u : @U demo),
  fst (page listed (fst (NewElement name (map (fun a => ANode (NAttr a)) ds) u)) fr s) =
    B "<p class=""b""></p>" /\
  fst (page listed (Imperative (Some (IStart name false (map (fun a => Some (NAttr a)) ds) (IRet None)))) fr s) =
    B "<p class="" b"">".
Proof.
  exists (B "p"), [deli "class" ""; deli "class" "b"], fr0, (st 0, 0), (st 0).
  split; vm_compute; reflexivity.
Qed.
Example C30_example :
  content_args [Some (NAttr (plain "id" "1")); Some (@NText (@U demo) []); None; Some (NComment [])] =
  [NText []; NComment []].
Proof. reflexivity. Qed.
