(** C79: the example programs of the README, run on the Go source, for all data. *)
From Coq Require Import ZArith Permutation Lia.
From Verif Require Import Bytes IO IOFacts Escape EscapeFacts Nodes Values Render Slices Build SpecOut SpecRun SpecErr Api PropErrors Sharing Programs ProgramValues Library
  GoSyntax SourceLib Source GoSem GoRun GoRep GoStep RefineNode RefineUser RefineIter RefineCalls RefineProgram RefineLib PropProgram PropLib GoExamples Demo.
Local Open Scope nat_scope.

(** How the pages are calculated. *)
Ltac consts :=
  repeat match goal with
  | |- context [html_escape_string (?c :: ?l)] => let x := eval vm_compute in (html_escape_string (c :: l)) in change (html_escape_string (c :: l)) with x
  | |- context [format_int (Zpos ?p)] => let x := eval vm_compute in (format_int (Zpos p)) in change (format_int (Zpos p)) with x
  end.
Ltac eval_all := lazy -[key_fn keyed unkeyed html_escape_string format_int app]; consts; repeat (progress (cbn [app]; lazy -[key_fn keyed unkeyed html_escape_string format_int app])); consts.
Ltac known H := lazy -[key_fn keyed unkeyed app] in H; rewrite ?H.
Lemma same_branch {X} (l : bytes) (x : X) : match l with [] => x | _ :: _ => x end = x.
Proof. destruct l; reflexivity. Qed.
Ltac same := rewrite ?same_branch; repeat rewrite ?app_nil_r, <- ?app_assoc; cbn [app]; reflexivity.

Section Claims.
Context {W : UserWorld}.
Variable M : go_mode.
Hypothesis MO : mode_ok M.
Notation shows := (shows M).

Definition text (s : string) : @item W := IData (GString (B s)).
Definition int (z : Z) : @item W := IData (GInt z).
Definition key (s : string) : @item W := IKey (B s).

(** ** What an entry of Data looks like

    A string is escaped, numbers and booleans are spelt out, of nil, maps,
    slices and other values nothing is written; what functions give is not said
    here.  An entry that is not there shows nothing. *)
Notation esc := (flat_map esc1).
Definition written (g : gval U) : option bytes :=
  match g with
  | GString s => Some (esc s)
  | GBytes b => Some b
  | GInt z => Some (format_int z)
  | GUint n => Some (format_uint n)
  | GFloat b => Some b
  | GBool b => Some (if b then B "true" else B "false")
  | GNil | GMap _ | GSlice _ _ | GOther _ => Some []
  | GStringer _ | GFunc _ => None
  end.
Definition found (d : option mref) (u : U) (k : string) : option (gval U) :=
  match d with Some m => mget u m (B k) | None => None end.
Definition entry (d : option mref) (u : U) (k : string) : option bytes :=
  match found d u k with Some g => written g | None => Some [] end.
Lemma entry_key d g p u k b : beq (B k) (B ".") = false -> entry d u k = Some b -> key_fn (B k) (view (Frame d g p) None) u = (b, u).
Proof.
  intros N H. unfold key_fn. rewrite N. unfold data_get, entry, found in *. cbn [view f_data f_cargo f_parent c_data].
  assert (X : forall v, written v = Some b -> value_to_bytes v u = (b, u)).
  { intros [] E; try discriminate E; cbn [written value_to_bytes] in *; rewrite ?escape_flat; try (injection E as <-; reflexivity). destruct b0; injection E as <-; reflexivity. }
  destruct d as [m|]; [|injection H as <-; reflexivity]. destruct (mget u m (B k)) as [v|]; [apply X, H|injection H as <-; reflexivity].
Qed.

(** A program that is run with a context of its own: node [i] is rendered. *)
Ltac readme O :=
  eapply (page_text M MO); [reflexivity|exact O|repeat constructor|repeat constructor|reflexivity|reflexivity|reflexivity|reflexivity|repeat constructor|].
(** _examples/readme/example_1. *)
Definition example_1 : list lcmd :=
  [LCall "html.Id" [int 1]; LCall "html.Class" [text "foo"]; LCall "html.Br" []; LCall "html.Id" [int 2]; LCall "html.Class" [text "bar"];
   LCall "html.P" [text "This is a para"; INode 0; INode 1; INode 2; text " >>> and this is more"; INode 3; INode 4]].
Theorem C79_1 o fr u t : ord_ok o ->
  shows (example_1 ++ [LCore (RenderNode 5 fr None)]) o u t (B "<p id=""2"" class=""foo bar"">This is a para<br> &gt;&gt;&gt; and this is more</p>").
Proof. intro O. readme O. vm_compute. reflexivity. Qed.

(** example_2. *)
Definition example_2 : list lcmd :=
  [LCall "html.Class" [text "greeting"]; LCall "html.Class" [key "greeting-class"];
   LCall "html.P" [text "Hello, "; key "name"; INode 0; INode 1]].
Theorem C79_2 o d g p u t name class : ord_ok o -> entry d u "name" = Some name -> entry d u "greeting-class" = Some class ->
  shows (example_2 ++ [LCore (RenderNode 2 (Frame d g p) None)]) o u t
    (B "<p class=""greeting " ++ class ++ B """>Hello, " ++ name ++ B "</p>").
Proof.
  intros O H1 H2. apply (entry_key d g p) in H1; [|reflexivity]. apply (entry_key d g p) in H2; [|reflexivity].
  readme O. eval_all. known H2. eval_all. known H1. eval_all. same.
Qed.

(** example_3, with any function of the context in place of idIncrement: it is
    called for one paragraph after the other. *)
Definition example_3 (f : ctx U -> U -> bytes * U) : list lcmd :=
  [LCall "html.Id" [IDyn f]; LCall "html.P" [text "First"; INode 0]; LCall "html.Id" [IDyn f]; LCall "html.P" [text "Second"; INode 2];
   LCall "html.Id" [IDyn f]; LCall "html.P" [text "Third"; INode 4]; LCore (Make (KCollection [1; 3; 5]))].
Theorem C79_3 o f fr u t b1 u1 b2 u2 b3 u3 : ord_ok o ->
  f (view fr None) u = (b1, u1) -> f (view fr None) u1 = (b2, u2) -> f (view fr None) u2 = (b3, u3) ->
  shows (example_3 f ++ [LCore (RenderNode 6 fr None)]) o u t
    (B "<p id=""" ++ b1 ++ B """>First</p><p id=""" ++ b2 ++ B """>Second</p><p id=""" ++ b3 ++ B """>Third</p>").
Proof. intros O H1 H2 H3. readme O. eval_all. known H1. eval_all. known H2. eval_all. known H3. eval_all. same. Qed.

(** A loop over a map with one entry has one order. *)
Lemma ord1 o t x : ord_ok o -> o t [x] = [x].
Proof. intro O. apply Permutation_length_1_inv, O. Qed.

(** example_4, with any condition. *)
Definition example_4 (f : condfn U) : list lcmd :=
  [LCall "html.Class" [text "base"]; LCall "html.Class" [text "admin"]; LCore (Make (KConditional (Some f) [1]));
   LCall "html.P" [text "Hello, "; key "username"; INode 0; INode 2]].
Theorem C79_4 o f d g p u t b u1 name : ord_ok o ->
  f (view (Frame d g p) None) u = (b, u1) -> entry d u1 "username" = Some name ->
  shows (example_4 f ++ [LCore (RenderNode 3 (Frame d g p) None)]) o u t
    (B "<p class=""base" ++ (if b then B " admin" else []) ++ B """>Hello, " ++ name ++ B "</p>").
Proof.
  intros O H1 H2. apply (entry_key d g p) in H2; [|reflexivity]. readme O. eval_all. known H1. (* the group asks again where it stands among the contents *)
  destruct b; (eval_all; rewrite ?(ord1 o) by exact O; eval_all; known H2; eval_all;
    match goal with |- context [f ?c u1] => destruct (f c u1) as [[] ?] end; eval_all; same).
Qed.

(** example_4_when, example_11 and others ask Data.  An entry that is not there is
    as good as false, one that is no boolean as good as true. *)
Definition yes (d : option mref) (u : U) (k : string) : bool :=
  match found d u k with Some (GBool b) => b | Some _ => true | None => false end.
Lemma yes_keyed d g p u k : keyed (B k) (view (Frame d g p) None) u = (yes d u k, u).
Proof. unfold keyed, yes, data_get, found. cbn [view f_data f_cargo f_parent c_data]. destruct d; reflexivity. Qed.
Lemma yes_unkeyed d g p u k : unkeyed (B k) (view (Frame d g p) None) u = (negb (yes d u k), u).
Proof.
  unfold unkeyed, yes, data_get, found. cbn [view f_data f_cargo f_parent c_data]. destruct d as [m|]; [|reflexivity].
  destruct (mget u m (B k)) as [[]|]; reflexivity.
Qed.
Definition example_4_when : list lcmd :=
  [LCall "html.Class" [text "base"]; LCall "html.Class" [text "admin"]; LCore (Make (KWhen (B "isAdmin") [1]));
   LCall "html.P" [text "Hello, "; key "username"; INode 0; INode 2]].
Theorem C79_4_when o d g p u t name : ord_ok o -> entry d u "username" = Some name ->
  shows (example_4_when ++ [LCore (RenderNode 3 (Frame d g p) None)]) o u t
    (B "<p class=""base" ++ (if yes d u "isAdmin" then B " admin" else []) ++ B """>Hello, " ++ name ++ B "</p>").
Proof.
  intros O H2.
  apply (entry_key d g p) in H2; [|reflexivity]. pose proof (yes_keyed d g p u "isAdmin") as H1. destruct (yes d u "isAdmin");
    (readme O; eval_all; known H1; eval_all; rewrite ?(ord1 o) by exact O; eval_all; known H2; eval_all; known H1; eval_all; same).
Qed.
(** The examples with a select. *)
Lemma in_select o n fr s b : fst (SpecOut.snode o n fr s) = b ->
  fst (SpecOut.snode o (NElement (B "div") [] [] [] [NElement (B "select") [] [] [] [n]]) fr s) = B "<div><select>" ++ b ++ B "</select></div>".
Proof.
  intros <-. destruct s as [u t]. cbn [SpecOut.snode stag tag_attrs sactive sattrs mapS liftU concat seqS fst snd app]. cbn -[B app SpecOut.snode].
  destruct (SpecOut.snode o n fr (u, t)) as [b s']. unfold endtag. cbn [fst]. same.
Qed.
Ltac selected n u :=
  lazymatch goal with |- fst (SpecOut.snode ?o _ ?fr (_, ?t)) = ?r =>
    change (fst (SpecOut.snode o (NElement (B "div") [] [] [] [NElement (B "select") [] [] [] [n]]) fr (u, t)) = r) end;
  apply in_select; cbn [SpecOut.snode].
(** example_5, with any function of the context that gives the labels: they are
    written as they are. *)
Definition options (l : list bytes) : iprog U :=
  fold_right (fun s k => IStart (B "option") false [] (IWriteRaw s (IEnd k))) (IRet None) l.
Definition example_5 (f : ctx U -> U -> list bytes * U) : list lcmd :=
  [LCore (Make (KImperative (Some (IRead (fun c u => (options (fst (f c u)), snd (f c u))))))); LCall "html.Select" [INode 0]; LCall "html.Div" [INode 1]].
Lemma options_quiet l : quiet_prog (options l).
Proof. induction l; [reflexivity|assumption]. Qed.
Lemma options_api l : api_prog (options l).
Proof. induction l; repeat constructor; assumption. Qed.
Lemma options_page o l fr s : fst (SpecOut.simper o (options l) fr [] s) = concat (map (fun b => B "<option>" ++ b ++ B "</option>") l).
Proof.
  induction l as [|b l IH]; [reflexivity|]. change (options (b :: l)) with (IStart (B "option") false [] (IWriteRaw b (IEnd (options l)))).
  cbn -[options B app endtag]. destruct s as [u t]. cbn -[options B app endtag]. rewrite <- IH.
  destruct (SpecOut.simper o (options l) fr [] (u, t)) as [x s1]. cbn [fst]. unfold endtag. same.
Qed.
Theorem C79_5 o f fr u t : ord_ok o ->
  shows (example_5 f ++ [LCore (RenderNode 2 fr None)]) o u t
    (B "<div><select>" ++ concat (map (fun b => B "<option>" ++ b ++ B "</option>") (fst (f (view fr None) u))) ++ B "</select></div>").
Proof.
  intro O. eapply (page_text M MO); [reflexivity|exact O| | |reflexivity|reflexivity|reflexivity|reflexivity| |].
  - repeat constructor. intros c u'. apply options_api.
  - repeat constructor.
  - cbn. repeat split. intros c u' _. apply options_quiet.
  - rewrite <- (options_page o _ fr (snd (f (view fr None) u), t)). apply in_select. reflexivity.
Qed.

(** One option of a select. *)
Definition option_text (value label : bytes) : bytes := B "<option value=""" ++ value ++ B """>" ++ label ++ B "</option>".
(** A map with a value and a label, and what they look like. *)
Definition describes (u : U) (m : mref) (value label : bytes) : Prop := entry (Some m) u "value" = Some value /\ entry (Some m) u "label" = Some label.
Definition option_node : node U :=
  NElement (B "option") [APlain (B "value") [Val [] (Some (key_fn (B "value"))) []]] [(B "value", 0)] [] [NText [Val [] (Some (key_fn (B "label"))) []]].
Lemma option_page o m g p u t v l : describes u m v l -> SpecOut.snode o option_node (Frame (Some m) g p) (u, t) = (option_text v l, (u, t)).
Proof.
  intros [H1 H2]. apply (entry_key (Some m) g p) in H1; [|reflexivity]. apply (entry_key (Some m) g p) in H2; [|reflexivity].
  eval_all. known H1. eval_all. known H2. eval_all. f_equal. same.
Qed.
Definition opt_entry := (mref * (bytes * bytes))%type.
Definition is_described (u : U) (x : opt_entry) : Prop := describes u (fst x) (fst (snd x)) (snd (snd x)).
Definition opt_text (x : opt_entry) : bytes := option_text (fst (snd x)) (snd (snd x)).
Lemma iterated body fr l s : (forall x g p, In x l -> body (Frame (Some (fst x)) g p) s = (opt_text x, s)) ->
  siter body fr (map (fun x => GMap (fst x)) l) s = (concat (map opt_text l), s).
Proof.
  induction l as [|x l IH]; intro H; [reflexivity|]. cbn [map siter item_data]. rewrite H by (left; reflexivity).
  rewrite IH by (intros; apply H; right; auto). reflexivity.
Qed.
Lemma options_iterated o fr l s : Forall (is_described (fst s)) l ->
  siter (fun ifr s => seqS (fun c s => SpecOut.snode o c ifr s) [option_node] s) fr (map (fun x => GMap (fst x)) l) s = (concat (map opt_text l), s).
Proof.
  rewrite Forall_forall. intro F. apply iterated. intros x g p Hx. destruct s as [u t]. cbn [seqS]. rewrite (option_page o _ _ _ u t _ _ (F x Hx)).
  rewrite app_nil_r. reflexivity.
Qed.

(** example_6: Data has a slice of such maps, of whatever type. *)
Definition example_6 : list lcmd :=
  [LCall "html.Value" [key "value"]; LCall "html.Option" [INode 0; key "label"]; LCore (Make (KIterateKey (B "items") [1]));
   LCall "html.Select" [INode 2]; LCall "html.Div" [INode 3]].
Theorem C79_6 o d g p u t typed l : ord_ok o ->
  found d u "items" = Some (GSlice typed (map (fun x => GMap (fst x)) l)) -> Forall (is_described u) l ->
  shows (example_6 ++ [LCore (RenderNode 4 (Frame d g p) None)]) o u t (B "<div><select>" ++ concat (map opt_text l) ++ B "</select></div>").
Proof.
  intros O H F. readme O. selected (NIter (key_items (B "items")) [option_node]) u. unfold liftU. cbn [fst snd].
  assert (K : key_items (B "items") (view (Frame d g p) None) u = (map (fun x => GMap (fst x)) l, u)).
  { unfold key_items, data_get, found in *. cbn [view f_data f_cargo f_parent c_data]. rewrite H. reflexivity. }
  rewrite K. exact (f_equal fst (options_iterated o (Frame d g p) l (u, t) F)).
Qed.
(** example_7, with any function of the context that gives such maps. *)
Definition example_7 (f : ctx U -> U -> list (gval U) * U) : list lcmd :=
  [LCall "html.Value" [key "value"]; LCall "html.Option" [INode 0; key "label"]; LCore (Make (KIterate (Some f) [1]));
   LCall "html.Select" [INode 2]; LCall "html.Div" [INode 3]].
Theorem C79_7 o f fr u t l u' : ord_ok o ->
  f (view fr None) u = (map (fun x => GMap (fst x)) l, u') -> Forall (is_described u') l ->
  shows (example_7 f ++ [LCore (RenderNode 4 fr None)]) o u t (B "<div><select>" ++ concat (map opt_text l) ++ B "</select></div>").
Proof.
  intros O H F. readme O. selected (NIter f [option_node]) u. unfold liftU. cbn [fst snd]. rewrite H.
  exact (f_equal fst (options_iterated o fr l (u', t) F)).
Qed.
(** example_8, with any function that yields such maps; an option is selected if
    its map says so. *)
Definition chosen_node : node U :=
  NElement (B "option") [APlain (B "value") [Val [] (Some (key_fn (B "value"))) []]] [(B "value", 0)] [(ABool (B "selected"), [keyed (B "selected")])]
    [NText [Val [] (Some (key_fn (B "label"))) []]; NConditional (keyed (B "selected")) [ABool (B "selected")] []].
Definition chosen_text (u : U) (x : opt_entry) : bytes :=
  B "<option value=""" ++ fst (snd x) ++ B """" ++ (if yes (Some (fst x)) u "selected" then B " selected" else []) ++ B ">" ++ snd (snd x) ++ B "</option>".
Lemma chosen_page o m g p u t v l : ord_ok o -> describes u m v l ->
  exists t', SpecOut.snode o chosen_node (Frame (Some m) g p) (u, t) = (chosen_text u (m, (v, l)), (u, t')).
Proof.
  intros O [H1 H2]. apply (entry_key (Some m) g p) in H1; [|reflexivity]. apply (entry_key (Some m) g p) in H2; [|reflexivity].
  pose proof (yes_keyed (Some m) g p u "selected") as H3. unfold chosen_text. cbn [fst snd].
  destruct (yes (Some m) u "selected"); eexists; (eval_all; known H3; eval_all; rewrite ?(ord1 o) by exact O; eval_all; known H1; eval_all; known H2; eval_all; known H3; eval_all; f_equal; same).
Qed.
Definition yields (ms : list mref) : yprog U := fold_right (fun m k => YYield (GMap m) k) YRet ms.
Definition example_8 (f : ctx U -> U -> list mref * U) : list lcmd :=
  [LCall "html.Value" [key "value"]; LCall "html.Selected" []; LCore (Make (KWhen (B "selected") [1])); LCall "html.Option" [INode 0; key "label"; INode 2];
   LCore (Make (KIterateYield (Some (YRead (fun c u => (yields (fst (f c u)), snd (f c u))))) [3])); LCall "html.Select" [INode 4]; LCall "html.Div" [INode 5]].
Lemma yielded body fr u l : (forall x g p t, In x l -> exists t', body (Frame (Some (fst x)) g p) (u, t) = (chosen_text u x, (u, t'))) -> forall d t,
  fst (syield body fr d (yields (map fst l)) (u, t)) = concat (map (chosen_text u) l).
Proof.
  induction l as [|x l IH]; intros H d t; [reflexivity|]. cbn [map yields fold_right syield item_data].
  destruct (H x (GMap (fst x)) (Some (view fr None)) t (or_introl eq_refl)) as (t' & ->).
  specialize (IH (fun x g p t Hx => H x g p t (or_intror Hx)) (Some (fst x)) t'). unfold yields in IH. destruct (syield _ _ _ _ _) as [b s]. cbn [fst] in *. subst b. reflexivity.
Qed.
Lemma options_yielded o fr l d u t : ord_ok o -> Forall (is_described u) l ->
  fst (syield (fun ifr s => seqS (fun c s => SpecOut.snode o c ifr s) [chosen_node] s) fr d (yields (map fst l)) (u, t)) = concat (map (chosen_text u) l).
Proof.
  intro O. rewrite Forall_forall. intro F. apply yielded. intros x g p t0 Hx. cbn [seqS].
  destruct (chosen_page o (fst x) g p u t0 _ _ O (F x Hx)) as (t' & ->). rewrite app_nil_r. destruct x as [m [v b]]. eexists. reflexivity.
Qed.
Theorem C79_8 o f fr u t l u' : ord_ok o ->
  f (view fr None) u = (map fst l, u') -> Forall (is_described u') l ->
  shows (example_8 f ++ [LCore (RenderNode 6 fr None)]) o u t (B "<div><select>" ++ concat (map (chosen_text u') l) ++ B "</select></div>").
Proof.
  intros O H F. readme O. selected (NYield (YRead (fun c u => (yields (fst (f c u)), snd (f c u)))) [chosen_node]) u. cbn [syield fst snd]. rewrite H. exact (options_yielded o fr l None u' t O F).
Qed.

(** example_9. *)
Definition example_9 : list lcmd :=
  [LCall "html.Class" [IData (GBool true)]; LCall "html.Class" [int 1]; LCall "html.Class" [IData (GFloat (B "2.2"))];
   LCall "html.P" [text "Hello "; IData (GBytes (B "there ")); IData (GBool true); text " "; int 1; text " "; IData (GFloat (B "1.2")); text " ";
     IData (GUint 3); IData (GFunc (fun u => (GString (B " something"), u))); INode 0; INode 1; INode 2]].
Theorem C79_9 o fr u t : ord_ok o ->
  shows (example_9 ++ [LCore (RenderNode 3 fr None)]) o u t (B "<p class=""true 1 2.2"">Hello there true 1 1.2 3 something</p>").
Proof. intro O. readme O. vm_compute. reflexivity. Qed.

(** example_10. *)
Definition example_10 : list lcmd :=
  [LCall "css.Px" [key "width"]; LCall "css.Width" [IVal 0; text " !important"]; LCall "html.Style" [text "scrollbar-gutter: stable"];
   LCall "css.BackgroundColor" [text "red"]; LCore (Make (KWhen (B "isAdmin") [2]));
   LCall "html.P" [INode 0; INode 1; INode 3; text "My paragraph with inline-style"]].
Theorem C79_10 o d g p u t width : ord_ok o -> entry d u "width" = Some width ->
  shows (example_10 ++ [LCore (RenderNode 4 (Frame d g p) None)]) o u t
    (B "<p style=""width:" ++ width ++ B "px !important; scrollbar-gutter: stable" ++
     (if yes d u "isAdmin" then B "; background-color:red" else []) ++ B """>My paragraph with inline-style</p>").
Proof.
  intros O H2. apply (entry_key d g p) in H2; [|reflexivity]. pose proof (yes_keyed d g p u "isAdmin") as H1. destruct (yes d u "isAdmin");
    (readme O; eval_all; known H1; eval_all; rewrite ?(ord1 o) by exact O; eval_all; known H2; eval_all; known H1; eval_all; same).
Qed.

Lemma perm3 {X} (a b c : X) l : Permutation [a; b; c] l ->
  In l [[a; b; c]; [b; a; c]; [b; c; a]; [a; c; b]; [c; a; b]; [c; b; a]].
Proof.
  intro H. assert (I : In a l) by (eapply Permutation_in; [exact H|left; reflexivity]). apply in_split in I. destruct I as (l1 & l2 & ->).
  apply Permutation_cons_app_inv in H. apply Permutation_length_2_inv in H.
  destruct H as [H|H]; (destruct l1 as [|x [|y [|z l1]]]; cbn [app] in H; inversion H; subst; cbn [app In]; auto 10).
Qed.
(** example_11: the attributes of an enabled button come in any order. *)
Definition example_11 : list lcmd :=
  [LCall "html.Type" [text "button"]; LCall "htmx.Get" [text "/action"]; LCall "htmx.Trigger" [text "click"]; LCall "htmx.Swap" [text "outerHTML"];
   LCore (Make (KWhen (B "enabled") [1; 2; 3])); LCall "html.Disabled" []; LCore (Make (KWhen (B "!enabled") [5]));
   LCall "html.Button" [INode 0; INode 4; INode 6; text "Click Me!"]].
Theorem C79_11 o d g p u t : ord_ok o ->
  exists attrs,
    Permutation (if yes d u "enabled" then [B " hx-get=""/action"""; B " hx-trigger=""click"""; B " hx-swap=""outerHTML"""] else [B " disabled"]) attrs /\
    shows (example_11 ++ [LCore (RenderNode 7 (Frame d g p) None)]) o u t (B "<button type=""button""" ++ concat attrs ++ B ">Click Me!</button>").
Proof.
  intro O. pose proof (yes_keyed d g p u "enabled") as H1. pose proof (yes_unkeyed d g p u "enabled") as H2. destruct (yes d u "enabled").
  - set (ns := [B "hx-get"; B "hx-trigger"; B "hx-swap"]). set (f := fun n => B " " ++ n ++ B "=""" ++ (if beq n (B "hx-get") then B "/action" else if beq n (B "hx-trigger") then B "click" else B "outerHTML") ++ B """").
    exists (map f (o (S t) ns)). split; [exact (Permutation_map f (O (S t) ns))|].
    pose proof (perm3 _ _ _ _ (O (S t) ns)) as X.
    readme O. eval_all. known H1. eval_all. known H2. eval_all. rewrite ?(ord1 o) by exact O. eval_all. lazy in X.
    repeat destruct X as [X|X]; [| | | | | |destruct X]; (rewrite <- X; eval_all; known H1; eval_all; known H2; eval_all; same).
  - exists [B " disabled"]. split; [apply Permutation_refl|].
    readme O. eval_all. known H1. eval_all. known H2. eval_all. rewrite ?(ord1 o) by exact O. eval_all. known H1. eval_all. known H2. eval_all. same.
Qed.
End Claims.

(** ** example_template

    NewTemplate of this text and these nodes, executed with Data.  html/template
    reads the text as its literal parts and the three tokens. *)
From Verif Require Import PageFacts Template PropTemplate RefineTemplate PropTemplateGo.

Section Claims.
Context {W : UserWorld}.
Variable M : go_mode.
Hypothesis MO : mode_ok M.

Definition nl : bytes := ["010"%char].
Definition base_html : bytes :=
  B "<!DOCTYPE html>" ++ nl ++ B "<html {{lang .}}>" ++ nl ++ B "<head>" ++ nl ++ B "{{headers .}}" ++ nl ++ B "</head>" ++ nl ++
  B "<body>" ++ nl ++ B "{{body .}}" ++ nl ++ B "</body>" ++ nl ++ B "</html>".
Definition base_pieces : list piece :=
  [PText (B "<!DOCTYPE html>" ++ nl ++ B "<html "); PToken true (B "lang"); PText (B ">" ++ nl ++ B "<head>" ++ nl);
   PToken false (B "headers"); PText (nl ++ B "</head>" ++ nl ++ B "<body>" ++ nl); PToken false (B "body"); PText (nl ++ B "</body>" ++ nl ++ B "</html>")].
(** The nodes, by the calls that make them. *)
Definition example_template : list lcmd :=
  [LCall "html.Lang" [key "lang"]; LCall "html.Charset" [text "utf-8"]; LCall "html.Meta" [INode 1]; LCall "html.TitleElement" [key "title"];
   LCore (Make (KCollection [2; 3])); LCall "html.P" [text "Hello, "; key "username"]; LCore (Make (KCollection [5]))].
Definition shows_key (k : string) : list (value U) := [Val [] (Some (key_fn (B k))) []].
Definition lang_node : node U := NAttr (APlain (B "lang") (shows_key "lang")).
Definition headers_node : node U :=
  NCollection [NVoid (B "meta") [APlain (B "charset") [Val (B "utf-8") None []]] [(B "charset", 0)] [];
               NElement (B "title") [] [] [] [NText (shows_key "title")]].
Definition body_node : node U := NCollection [NElement (B "p") [] [] [] [NText [Val (B "Hello, ") None []]; NText (shows_key "username")]].
Lemma template_nodes E w : match program_means example_template with
  | Some ks => match vprog (m_panics M) E ks vstart w with
    | Done (s, _) => vnode (v_nodes s) 0 = Some lang_node /\ vnode (v_nodes s) 4 = Some headers_node /\ vnode (v_nodes s) 6 = Some body_node
    | Panic => False end
  | None => False end.
Proof. repeat split. Qed.
Definition base_map : node_map := [(B "lang", Some lang_node); (B "headers", Some headers_node); (B "body", Some body_node)].
Theorem C79_template o d g u t lang title name : ord_ok o -> m_parse M base_html = Some base_pieces ->
  entry d u "lang" = Some lang -> entry d u "title" = Some title -> entry d u "username" = Some name ->
  exists k h' w', go_run (go_config M) k (Env healthy o) (page_program M (B "index") base_html base_map d g) [] (World [] u t) = Some (ROk [VNil] h' w') /\
    accepted (w_log w') =
      B "<!DOCTYPE html>" ++ nl ++ B "<html  lang=""" ++ lang ++ B """>" ++ nl ++ B "<head>" ++ nl ++ B "<meta charset=""utf-8""><title>" ++ title ++ B "</title>" ++
      nl ++ B "</head>" ++ nl ++ B "<body>" ++ nl ++ B "<p>Hello, " ++ name ++ B "</p>" ++ nl ++ B "</body>" ++ nl ++ B "</html>".
Proof.
  intros O HP H1 H2 H3. apply (entry_key d g None) in H1; [|reflexivity]. apply (entry_key d g None) in H2; [|reflexivity]. apply (entry_key d g None) in H3; [|reflexivity].
  assert (T : SpecOut.tables_ok lang_node /\ SpecOut.tables_ok headers_node /\ SpecOut.tables_ok body_node) by (repeat split; repeat constructor; cbn; tauto).
  assert (Q : quiet lang_node /\ quiet headers_node /\ quiet body_node) by (repeat split).
  destruct T as (T1 & T2 & T3), Q as (Q1 & Q2 & Q3).
  assert (P1 : forall t, page o lang_node (Frame d g None) (u, t) = (B " lang=""" ++ lang ++ B """", (u, t))).
  { intro t0. rewrite page_snode by auto. eval_all. known H1. eval_all. f_equal. same. }
  assert (P2 : forall t, page o headers_node (Frame d g None) (u, t) = (B "<meta charset=""utf-8""><title>" ++ title ++ B "</title>", (u, t))).
  { intro t0. rewrite page_snode by auto. eval_all. known H2. eval_all. f_equal. same. }
  assert (P3 : forall t, page o body_node (Frame d g None) (u, t) = (B "<p>Hello, " ++ name ++ B "</p>", (u, t))).
  { intro t0. rewrite page_snode by auto. eval_all. known H3. eval_all. f_equal. same. }
  assert (I : forall s c, In c (B s) -> In c (B "abcdefghijklmnopqrstuvwxyz") -> In c (B "_abcdefghijklmnopqrstuvwxyzABCDEFGHIJKLMNOPQRSTUVWXYZ0123456789")).
  { intros _ c _ H. cbn in *. tauto. }
  destruct (C76_page M MO o u t (B "index") base_html base_map d g base_pieces
    ((B "<!DOCTYPE html>" ++ nl ++ B "<html ") ++ (B " lang=""" ++ lang ++ B """") ++ (B ">" ++ nl ++ B "<head>" ++ nl) ++
     (B "<meta charset=""utf-8""><title>" ++ title ++ B "</title>") ++ (nl ++ B "</head>" ++ nl ++ B "<body>" ++ nl) ++ (B "<p>Hello, " ++ name ++ B "</p>") ++
     (nl ++ B "</body>" ++ nl ++ B "</html>") ++ []) (u, S t) O) as (k & h' & w' & R & A & _).
  - repeat constructor; cbn; intuition discriminate.
  - intros k n H. cbn in H. destruct H as [[= <- <-]|[[= <- <-]|[[= <- <-]|[]]]]; (split; [|assumption]);
      (eexists _, _; split; [reflexivity|]; split; [cbn; tauto|]; intros c Hc; cbn in Hc; cbn; intuition (subst; tauto)).
  - exact HP.
  - apply in_place_spliced. unfold base_pieces. apply place_text. eapply place_node; [left; reflexivity|intros _; eexists; reflexivity|apply result_ok; auto|apply P1|].
    apply place_text. eapply place_node; [right; left; reflexivity|discriminate|apply result_ok; auto|apply P2|].
    apply place_text. eapply place_node; [right; right; left; reflexivity|discriminate|apply result_ok; auto|apply P3|].
    apply place_text. apply place_end.
  - exists k, h', w'. split; [exact R|]. rewrite A. same.
Qed.
End Claims.

(** ** Cases *)
(** The data of the example programs meet the hypotheses, and the programs run. *)
Definition maps (u : nat) (m : mref) : list (string * gval nat) :=
  match m with
  | 0 => [("name", GString (B "Aitch!")); ("greeting-class", GString (B "admin"))]
  | 1 => [("username", GString (B "Aitch")); ("isAdmin", GBool true); ("width", GInt 10); ("enabled", GBool true);
          ("lang", GString (B "en")); ("title", GString (B "Test rendered"))]
  | 2 => [("items", GSlice true [GMap 3; GMap 4; GMap 5])]
  | 3 => [("label", GString (B "First")); ("value", GInt 1); ("selected", GBool false)]
  | 4 => [("label", GString (B "Second")); ("value", GInt 2); ("selected", GBool true)]
  | 5 => [("label", GString (B "Third")); ("value", GInt 3); ("selected", GBool false)]
  | _ => []
  end%string.
Fixpoint look (k : bytes) (l : list (string * gval nat)) : option (gval nat) :=
  match l with [] => None | (s, g) :: l' => if beq (B s) k then Some g else look k l' end.
Local Instance readme_world : UserWorld := {| U := nat; mget u m k := look k (maps u m) |}.
Definition three : list opt_entry := [(3, (B "1", B "First")); (4, (B "2", B "Second")); (5, (B "3", B "Third"))].
Example C79_data u :
  entry (Some 0) u "name" = Some (B "Aitch!") /\ entry (Some 0) u "greeting-class" = Some (B "admin") /\
  entry (Some 1) u "username" = Some (B "Aitch") /\ yes (Some 1) u "isAdmin" = true /\ entry (Some 1) u "width" = Some (B "10") /\ yes (Some 1) u "enabled" = true /\
  entry (Some 1) u "lang" = Some (B "en") /\ entry (Some 1) u "title" = Some (B "Test rendered") /\
  found (Some 2) u "items" = Some (GSlice true (map (fun x => GMap (fst x)) three)) /\ Forall (is_described u) three.
Proof. repeat split; repeat constructor. Qed.
Definition readme_mode : go_mode := Mode false "int" "uint" "float64" (fun _ => false) (fun _ => Some base_pieces) no_types (fun _ _ => None).
Definition ran (cs : list lcmd) (i : nat) (d : option mref) : option bytes :=
  match go_run (go_config readme_mode) 3000 (Env healthy listed) (go_lprog (cs ++ [LCore (RenderNode i (Frame d GNil None) None)]) ([], [], [])) [] (World [] 0 0) with
  | Some (ROk _ _ w) => Some (accepted (w_log w))
  | _ => None
  end.
Example examples_run :
  ran example_1 5 None = Some (B "<p id=""2"" class=""foo bar"">This is a para<br> &gt;&gt;&gt; and this is more</p>") /\
  ran example_2 2 (Some 0) = Some (B "<p class=""greeting admin"">Hello, Aitch!</p>") /\
  ran (example_3 (fun _ u => (format_int (Z.of_nat (S u)), S u))) 6 None = Some (B "<p id=""1"">First</p><p id=""2"">Second</p><p id=""3"">Third</p>") /\
  ran example_4_when 3 (Some 1) = Some (B "<p class=""base admin"">Hello, Aitch</p>") /\
  ran (example_5 (fun _ u => ([B "First"; B "Second"; B "Third"], u))) 2 None =
    Some (B "<div><select><option>First</option><option>Second</option><option>Third</option></select></div>") /\
  ran example_6 4 (Some 2) =
    Some (B "<div><select><option value=""1"">First</option><option value=""2"">Second</option><option value=""3"">Third</option></select></div>") /\
  ran (example_8 (fun _ u => ([3; 4; 5], u))) 6 None =
    Some (B "<div><select><option value=""1"">First</option><option value=""2"" selected>Second</option><option value=""3"">Third</option></select></div>") /\
  ran example_10 4 (Some 1) =
    Some (B "<p style=""width:10px !important; scrollbar-gutter: stable; background-color:red"">My paragraph with inline-style</p>") /\
  ran example_11 7 (Some 1) =
    Some (B "<button type=""button"" hx-get=""/action"" hx-trigger=""click"" hx-swap=""outerHTML"">Click Me!</button>").
Proof. vm_compute. repeat split; reflexivity. Qed.
(** A reading of the text by html/template as in [C79_template]. *)
Example C79_parse : mode_ok readme_mode /\ m_parse readme_mode base_html = Some base_pieces.
Proof. split; [|reflexivity]. repeat split; cbn; try tauto. discriminate. Qed.
