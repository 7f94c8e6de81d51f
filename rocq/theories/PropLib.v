(** C73: programs that use the functions of html, svg, css and htmx by name,
    against the Go source. *)
From Coq Require Import ZArith Lia.
From Verif Require Import Bytes IO IOFacts Nodes Values Render Build Escape EscapeFacts Packages SpecOut SpecRun SpecErr Api ApiFacts PropErrors Programs ProgramValues ProgramFacts ProgramPure Library
  GoSyntax SourceLib Source GoSem GoRun GoRep GoStep RefineNode RefineUser RefineIter RefineCalls RefineProgram RefineLib PropProgram GoExamples Demo.
From Verif Require Tables.
Local Open Scope nat_scope.

(** ** The tables *)
(** Every function of the four packages is one of the tables or one of the few
    others that programs can call (css.styleAttribute and serialize are not
    exported; C74 is about Headers and HeadersJS). *)
Definition other_functions : list string :=
  ["html.Text"; "html.Comment"; "html.PI"; "html.Aria"; "html.Data"; "svg.Text"; "svg.Comment"; "htmx.On"; "htmx.Var"; "css.styleAttribute";
   "htmx.Headers"; "htmx.HeadersJS"; "HeadersMap.serialize";
   "html.GenerateCode"; "html.mappings"; "svg.GenerateCode"; "svg.mappings"]%string.
Theorem C73_complete f fd : In (f, fd) lib_funcs -> (exists k, find_function f library = Some k) \/ In f other_functions.
Proof.
  intro H. assert (T : forallb (fun '(f, _) => match find_function f library with Some _ => true | None => existsb (String.eqb f) other_functions end) lib_funcs = true) by (vm_compute; reflexivity).
  rewrite forallb_forall in T. specialize (T _ H). cbn beta iota in T. destruct (find_function f library) as [k|]; [left; eauto|right].
  apply existsb_exists in T. destruct T as (g & Hg & E). apply String.eqb_eq in E. subst g. exact Hg.
Qed.
(** No name occurs twice, so each entry is the one that is found. *)
Fixpoint distinct (l : list string) : bool :=
  match l with [] => true | x :: l' => negb (existsb (String.eqb x) l') && distinct l' end.
Lemma distinct_found t f k : distinct (map fst t) = true -> In (f, k) t -> find_function f t = Some k.
Proof.
  induction t as [|[g k'] t IH]; [contradiction|]. cbn [map fst distinct find_function]. intros D [H|H]; apply Bool.andb_true_iff in D; destruct D as [D1 D2].
  - injection H as -> ->. rewrite String.eqb_refl. reflexivity.
  - destruct (String.eqb_spec f g) as [->|]; [|auto]. apply Bool.negb_true_iff in D1. exfalso.
    assert (existsb (String.eqb g) (map fst t) = true); [|congruence]. apply existsb_exists. exists g. split; [|apply String.eqb_refl].
    change g with (fst (g, k)). apply in_map, H.
Qed.
Theorem C73_found f k : In (f, k) library -> find_function f library = Some k.
Proof. apply distinct_found. vm_compute. reflexivity. Qed.
Lemma assoc_app {A} (a b : list (string * A)) f d : assoc f (a ++ b) = Some d -> assoc f a = None -> In (f, d) b.
Proof.
  induction a as [|[g e] a IH]; cbn [app assoc].
  - intros H _. induction b as [|[g e] b IH]; cbn [assoc] in *; [discriminate|]. destruct (String.eqb_spec g f) as [->|]; [|right; auto]. injection H as ->. left. reflexivity.
  - destruct (String.eqb g f); [discriminate|auto].
Qed.
(** Each entry is the body of the function of that name in the source. *)
Theorem C73_tables f k : In (f, k) library -> exists fd, In (f, fd) lib_funcs /\ shape k fd = Some (target k).
Proof.
  intro H. destruct (entry_shape f k (C73_found f k H)) as (fd & H1 & H2). exists fd. split; [|exact H2].
  assert (N : forallb (fun '(f, _) => match assoc f the_funcs with Some _ => false | None => true end) library = true) by (vm_compute; reflexivity).
  rewrite forallb_forall in N. specialize (N _ H). cbn beta iota in N. apply (assoc_app the_funcs lib_funcs); [exact H1|]. destruct (assoc f the_funcs); [discriminate|reflexivity].
Qed.

(** The constants of the source are those of the tables, and no others. *)
Definition in_package (p : string) (cs : list (string * string)) : list (string * expr) :=
  map (fun '(c, x) => ((p ++ "." ++ c)%string, EStr (B x))) cs.
Theorem C73_constants : lib_consts = in_package "css" Tables.css_constants ++ in_package "htmx" Tables.htmx_constants.
Proof. vm_compute. reflexivity. Qed.
Lemma constant_plain c x : In (c, EStr x) lib_consts -> flat_map esc1 x = x.
Proof.
  assert (T : forallb (fun '(_, e) => match e with EStr x => beq (flat_map esc1 x) x | _ => false end) lib_consts = true) by (vm_compute; reflexivity).
  intro H. rewrite forallb_forall in T. specialize (T _ H). cbn beta iota in T. destruct (beq_spec (flat_map esc1 x) x); [auto|discriminate].
Qed.

Section Claims.
Context {W : UserWorld}.
Variable M : go_mode.
Hypothesis MO : mode_ok M.
Notation C := (go_config M).
Notation PN := (m_panics M).

(** ** C73 *)
Definition ldoes (cs : list lcmd) (E : env) (w : world U) (r : outcome (list (option error * option error) * world U)) : Prop :=
  match r with
  | Done (out, w') => exists fuel vs ys h, go_run C fuel E (go_lprog cs ([], [], [])) [] w = Some (ROk (vs, ys, out) h w')
  | Panic => exists fuel w', go_run C fuel E (go_lprog cs ([], [], [])) [] w = Some (RPanic w')
  end.
Theorem C73_shared cs ks E w : program_means cs = Some ks -> Forall cmd_ok ks -> ord_ok (e_ord E) -> ldoes cs E w (kresult M ks E w).
Proof.
  intros HM OK O. pose proof (go_lprog_does M MO cs ks HM OK [] [] kstart [] [] E w (krep_start M) sound_start O) as H.
  unfold kresult. destruct (kprog PN E ks kstart w) as [[s w']|]; [|exact H].
  destruct H as (fuel & ls & h & vs & ys & R & _). exists fuel, vs, ys, h. exact R.
Qed.
Theorem C73_values cs ks E w : program_means cs = Some ks -> Forall cmd_ok ks -> ord_ok (e_ord E) -> lone PN E ks [] vstart w -> ldoes cs E w (vresult M ks E w).
Proof. intros HM OK O L. rewrite <- results_agree by exact L. apply C73_shared; auto. Qed.
Theorem C73_only cs ks E w fuel r : program_means cs = Some ks -> Forall cmd_ok ks -> ord_ok (e_ord E) ->
  go_run C fuel E (go_lprog cs ([], [], [])) [] w = Some r ->
  match kresult M ks E w with
  | Done (out, w') => exists vs ys h, r = ROk (vs, ys, out) h w'
  | Panic => exists w', r = RPanic w'
  end.
Proof.
  intros HM OK O R. pose proof (C73_shared cs ks E w HM OK O) as H. unfold ldoes in H. destruct (kresult M ks E w) as [[out w']|].
  - destruct H as (n & vs & ys & h & H). exists vs, ys, h. exact (run_unique _ _ _ _ _ _ _ _ _ _ R H).
  - destruct H as (n & w' & H). exists w'. exact (run_unique _ _ _ _ _ _ _ _ _ _ R H).
Qed.
Lemma program_means_app c1 c2 : program_means (c1 ++ c2) = match program_means c1, program_means c2 with Some a, Some b => Some (a ++ b) | _, _ => None end.
Proof.
  induction c1 as [|c c1 IH]; cbn [app program_means]; [destruct (program_means c2); reflexivity|]. rewrite IH.
  destruct (means c), (program_means c1), (program_means c2); reflexivity.
Qed.
(** A program builds a node and renders it on a writer that accepts everything:
    the source writes the reference rendering and returns no error. *)
Theorem C73_page o cs ks i n fr u t s w1 :
  program_means cs = Some ks ->
  ord_ok o -> Forall cmd_api ks -> Forall render_free ks ->
  lone PN (Env healthy o) ks [] vstart (World [] u t) ->
  vprog PN (Env healthy o) ks vstart (World [] u t) = Done (s, w1) ->
  vnode (v_nodes s) i = Some n -> is_attr n = false -> quiet n ->
  exists fuel vs ys h w', go_run C fuel (Env healthy o) (go_lprog (cs ++ [LCore (RenderNode i fr None)]) ([], [], [])) [] (World [] u t) =
      Some (ROk (vs, ys, [(None, None)]) h w') /\
    accepted (w_log w') = fst (snode o n fr (w_u w1, t)).
Proof.
  intros HM O A F L V Hn At Q. destruct (page_result M o ks i n fr u t s w1 O A F L V Hn At Q) as (L' & w' & Rr & Hw).
  assert (HM' : program_means (cs ++ [LCore (RenderNode i fr None)]) = Some (ks ++ [RenderNode i fr None])) by (rewrite program_means_app, HM; reflexivity).
  pose proof (C73_values _ _ (Env healthy o) (World [] u t) HM' (api_render ks i fr None A) O L') as X. rewrite Rr in X.
  destruct X as (fuel & vs & ys & h & X). exists fuel, vs, ys, h, w'. auto.
Qed.

(** ** Each function *)
(** What an element with one content, a string, looks like. *)
Definition element_text (k : Tables.fkind) (content : bytes) : option bytes :=
  match k with
  | Tables.KElement tag => Some (B "<" ++ B tag ++ B ">" ++ content ++ B "</" ++ B tag ++ B ">")
  | Tables.KVoid tag => Some (B "<" ++ B tag ++ B ">")
  | _ => None
  end.
(** The arguments and the text of an attribute. *)
Definition attribute_text (k : Tables.fkind) (s : bytes) : option (list (@item W) * bytes) :=
  let with_value name v := Some ([IData (GString s)], B " " ++ B name ++ B "=""" ++ v ++ B """") in
  match k with
  | Tables.KPlain name | Tables.KDelim name _ => with_value name (flat_map esc1 s)
  | Tables.KStyle p => with_value "style"%string (B p ++ flat_map esc1 s)
  | Tables.KBool name => Some ([], B " " ++ B name)
  | _ => None
  end.
Definition tag_text (k : Tables.fkind) (attrs : bytes) : option bytes :=
  match k with
  | Tables.KElement tag => Some (B "<" ++ B tag ++ attrs ++ B "></" ++ B tag ++ B ">")
  | Tables.KVoid tag => Some (B "<" ++ B tag ++ attrs ++ B ">")
  | _ => None
  end.
Definition shows (cs : list lcmd) (o : order) (u : U) (t : nat) (text : bytes) : Prop :=
  exists fuel vs ys h w', go_run C fuel (Env healthy o) (go_lprog cs ([], [], [])) [] (World [] u t) = Some (ROk (vs, ys, [(None, None)]) h w') /\
    accepted (w_log w') = text.

Theorem C73_element o f k str fr u t text : In (f, k) library -> element_text k (flat_map esc1 str) = Some text -> ord_ok o ->
  shows [LCall f [IData (GString str)]; LCore (RenderNode 0 fr None)] o u t text.
Proof.
  intros F T O. apply C73_found in F. set (txt1 := NText [Val (html_escape_string str) None []] : node U).
  set (n := match k with Tables.KElement tag => NElement (B tag) [] [] [] [txt1] | Tables.KVoid tag => NVoid (B tag) [] [] [] | _ => txt1 end).
  set (c := match k with Tables.KElement tag => KNewElement (B tag) [IData (GString str)] | Tables.KVoid tag => KNewVoidElement (B tag) [IData (GString str)] | _ => KDocType end).
  destruct (C73_page o [LCall f [IData (GString str)]] [Make c] 0 n fr u t (VState [Some n] [] []) (World [] u t)) as (fuel & vs & ys & h & w' & H1 & H2);
    try (subst n c; destruct k; try discriminate T; repeat constructor; fail).
  - cbn [program_means means]. rewrite F. subst c. destruct k; try discriminate T; reflexivity.
  - exact O.
  - subst n c. destruct k; try discriminate T; (split; [intros i m []|split; exact I]).
  - exists fuel, vs, ys, h, w'. split; [exact H1|]. rewrite H2. subst n c. destruct k; try discriminate T; injection T as <-; cbn [snode]; rewrite <- ?escape_flat;
      cbn; rewrite ?app_nil_r, <- ?app_assoc; reflexivity.
Qed.
Lemma page_text o cs ks i n fr u t s w1 text :
  program_means cs = Some ks ->
  ord_ok o -> Forall cmd_api ks -> Forall render_free ks ->
  vprog PN (Env healthy o) ks vstart (World [] u t) = Done (s, w1) ->
  loneb M (Env healthy o) ks [] vstart (World [] u t) = true ->
  vnode (v_nodes s) i = Some n -> is_attr n = false -> quiet n -> fst (snode o n fr (w_u w1, t)) = text ->
  shows (cs ++ [LCore (RenderNode i fr None)]) o u t text.
Proof.
  intros HM O A F V L Hn At Q <-. eapply C73_page; eauto. apply loneb_lone, L.
Qed.
Theorem C73_attribute o fa ka fe ke str fr u t xs attrs text : In (fa, ka) library -> In (fe, ke) library ->
  attribute_text ka str = Some (xs, attrs) -> tag_text ke attrs = Some text -> ord_ok o ->
  shows [LCall fa xs; LCall fe [INode 0]; LCore (RenderNode 1 fr None)] o u t text.
Proof.
  intros F1 F2 T1 T2 O. apply C73_found in F1. apply C73_found in F2.
  destruct ka; try discriminate T1; destruct ke; try discriminate T2; injection T1 as <- <-; injection T2 as <-.
  all: match goal with |- shows [?c1; ?c2; ?c3] _ _ _ _ => change [c1; c2; c3] with ([c1; c2] ++ [c3]) end;
    (eapply page_text; [cbn [program_means means]; rewrite F1, F2; reflexivity|exact O|repeat constructor|repeat constructor|reflexivity|reflexivity|reflexivity|reflexivity|repeat constructor|]).
  all: assert (D : forall (X : Type) (l : bytes) (x : X), match l with [] => x | _ :: _ => x end = x) by (intros X [|? ?] x; reflexivity);
    cbn; rewrite ?escape_flat, ?D, ?app_nil_r; repeat (progress (rewrite <- ?app_assoc; cbn [app])); reflexivity.
Qed.
(** A constant of css or htmx as the content of an element, or as the value of an
    attribute, is written as it is. *)
Theorem C73_constant o c x f k fr u t text : In (c, EStr x) lib_consts -> In (f, k) library -> element_text k x = Some text -> ord_ok o ->
  shows [LCall f [IData (GString x)]; LCore (RenderNode 0 fr None)] o u t text.
Proof. intros H F T O. apply (C73_element o f k x); auto. rewrite (constant_plain c x H). exact T. Qed.
Theorem C73_constant_value o c x fa name fe ke fr u t text : In (c, EStr x) lib_consts -> In (fa, Tables.KPlain name) library -> In (fe, ke) library ->
  tag_text ke (B " " ++ B name ++ B "=""" ++ x ++ B """") = Some text -> ord_ok o ->
  shows [LCall fa [IData (GString x)]; LCall fe [INode 0]; LCore (RenderNode 1 fr None)] o u t text.
Proof.
  intros H FA FE T O. eapply (C73_attribute o fa (Tables.KPlain name) fe ke x); eauto. cbn [attribute_text]. rewrite (constant_plain c x H). reflexivity.
Qed.
(** The attributes with a prefix, the units. *)
Definition prefix_of (f : string) : option bytes :=
  if String.eqb f "html.Aria" then Some (B "aria-") else if String.eqb f "html.Data" then Some (B "data-")
  else if String.eqb f "htmx.On" then Some (B "hx-on:") else None.
Theorem C73_prefixed o f p name fe tag str fr u t : prefix_of f = Some p -> In (fe, Tables.KElement tag) library -> ord_ok o ->
  shows [LNamed f name [IData (GString str)]; LCall fe [INode 0]; LCore (RenderNode 1 fr None)] o u t
    (B "<" ++ B tag ++ B " " ++ p ++ name ++ B "=""" ++ flat_map esc1 str ++ B """></" ++ B tag ++ B ">").
Proof.
  intros P F2 O. apply C73_found in F2. match goal with |- shows [?c1; ?c2; ?c3] _ _ _ _ => change [c1; c2; c3] with ([c1; c2] ++ [c3]) end.
  assert (N : means (LNamed f name [IData (GString str)]) = Some (Make (KNewAttribute (p ++ name) [IData (GString str)]))).
  { cbn [means]. unfold prefix_of in P. unfold named_means.
    destruct (String.eqb_spec f "html.Aria") as [->|]; [injection P as <-; reflexivity|]. destruct (String.eqb_spec f "html.Data") as [->|]; [injection P as <-; reflexivity|].
    destruct (String.eqb_spec f "htmx.On") as [->|]; [injection P as <-; reflexivity|discriminate]. }
  eapply page_text; [cbn [program_means]; rewrite N; cbn [means]; rewrite F2; reflexivity|exact O|repeat constructor|repeat constructor|reflexivity|reflexivity|reflexivity|reflexivity|repeat constructor|].
  cbn. rewrite escape_flat, ?app_nil_r. repeat (progress (rewrite <- ?app_assoc; cbn [app])). reflexivity.
Qed.
Theorem C73_unit o f unit fa name fe tag str fr u t : In (f, Tables.KUnit unit) library -> In (fa, Tables.KStyle name) library -> In (fe, Tables.KElement tag) library -> ord_ok o ->
  shows [LCall f [IData (GString str)]; LCall fa [IVal 0]; LCall fe [INode 0]; LCore (RenderNode 1 fr None)] o u t
    (B "<" ++ B tag ++ B " style=""" ++ B name ++ flat_map esc1 str ++ B unit ++ B """></" ++ B tag ++ B ">").
Proof.
  intros F1 F2 F3 O. apply C73_found in F1. apply C73_found in F2. apply C73_found in F3.
  match goal with |- shows [?c1; ?c2; ?c3; ?c4] _ _ _ _ => change [c1; c2; c3; c4] with ([c1; c2; c3] ++ [c4]) end.
  eapply page_text; [cbn [program_means means]; rewrite F1, F2, F3; reflexivity|exact O|repeat constructor|repeat constructor|reflexivity|reflexivity|reflexivity|reflexivity|repeat constructor|].
  assert (D : forall (X : Type) (l : bytes) (x : X), match l with [] => x | _ :: _ => x end = x) by (intros X [|? ?] x; reflexivity).
  cbn. rewrite ?escape_flat, ?D, ?app_nil_r. repeat (progress (rewrite <- ?app_assoc; cbn [app])). rewrite ?app_nil_r. reflexivity.
Qed.
End Claims.

(** ** A page *)
Definition small_page : list (@lcmd demo) :=
  [LCall "html.Class" [txt "a"; txt "b"];                       (* 0 *)
   LCall "css.Px" [IData (GInt 3)];                             (* value 0 *)
   LCall "css.Width" [IVal 0];                                  (* 1 *)
   LCall "css.Color" [txt "red"];                               (* 2 *)
   LNamed "htmx.On" (B "click") [txt "f()"];                    (* 3 *)
   LCall "html.Hidden" [];                                      (* 4 *)
   LCall "html.Br" [];                                          (* 5 *)
   LCall "svg.Circle" [];                                       (* 6 *)
   LCall "html.Text" [txt "x<y"];                               (* 7 *)
   LVar (B "k") (txt "v");                                      (* value 1 *)
   LCall "htmx.Vals" [IVal 1];                                  (* 8 *)
   LCall "html.Div" [INode 0; INode 1; INode 2; INode 3; INode 4; INode 8; INode 7; INode 5; INode 6]; (* 9 *)
   LCore (Make (KDocument (txt "en") [] [INode 9]))]%string.    (* 10 *)
Example C73_example :
  match program_means (small_page ++ [LCore (RenderNode 10 fr0 None)]) with
  | Some ks => lone false E0 ks [] vstart (World [] (st 0) 0) /\ Forall cmd_api ks
  | None => False
  end /\
  match go_run (go_config the_mode) 3000 E0 (go_lprog (small_page ++ [LCore (RenderNode 10 fr0 None)]) ([], [], [])) [] (World [] (st 0) 0) with
  | Some (ROk (_, _, out) _ w) => Some (out, accepted (w_log w))
  | _ => None
  end = Some ([(None, None)], B "<!DOCTYPE html>
<html lang=""en""><body><div class=""a b"" style=""width:3px; color:red"" hx-on:click=""f()"" hidden hx-vals=""k: v"">x&lt;y<br><circle></circle></div></body></html>").
Proof.
  split; [|vm_compute; reflexivity].
  set (r := program_means _). vm_compute in r. subst r. split; [|repeat constructor]. apply (loneb_lone the_mode). vm_compute. reflexivity.
Qed.
(** The hypotheses of the theorems about each function. *)
Example C73_constant_example :
  In ("htmx.SwapOuterHTML"%string, EStr (B "outerHTML")) lib_consts /\ In ("htmx.Swap"%string, Tables.KPlain "hx-swap") library /\
  In ("css.WhiteSpacePreLine"%string, EStr (B "pre-line")) lib_consts.
Proof. repeat split; vm_compute; tauto. Qed.
Example C73_entries :
  In ("html.Div"%string, Tables.KElement "div") library /\ In ("html.Br"%string, Tables.KVoid "br") library /\
  In ("css.Px"%string, Tables.KUnit "px") library /\ In ("css.Color"%string, Tables.KStyle "color:") library /\ In ("html.Hidden"%string, Tables.KBool "hidden") library /\
  (700 <=? length library)%nat = true /\ (700 <=? length lib_funcs)%nat = true.
Proof.
  assert (H : forall f k, find_function f library = Some k -> In (f, k) library) by (intros; apply find_in; auto).
  repeat split; try (apply H); vm_compute; reflexivity.
Qed.

