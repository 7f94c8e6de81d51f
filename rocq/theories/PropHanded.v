(** C82: it does not matter which objects make up a node.  User code may build
    the nodes it hands to WriteNodes, Render or Start, or that it returns to
    ContentCollect, or hand in ones it has had all along: what is rendered is the
    same.  Only a plain attribute that has room for further values is not handed
    to Start, which would write to it. *)
From Coq Require Import ZArith Lia.
From Verif Require Import Bytes IO IOFacts Nodes Values Render Build SpecOut SpecRun Api ApiFacts GoSyntax Source GoSem GoRun GoRep GoStep RefineNode RefineUser RefineIter RefineAll GoExamples Demo.
Local Open Scope nat_scope.

Section Claims.
Context {W : UserWorld}.

(** Two runs of Render, in any two heaps, of values that stand for the same node,
    with contexts that hold the same, make the same calls of the writer, leave
    the same state of user code and return the same error.  [M1] and [M2] may
    differ in the nodes that user code has at hand, and so may the heaps in the
    objects that make up the node: an object may occur once or be shared. *)
Theorem C82_objects M1 M2 n h1 v1 lc1 h2 v2 lc2 fr e E w :
  mode_ok M1 -> mode_ok M2 -> node_rep M1 h1 v1 n -> node_rep M2 h2 v2 n -> ctx_at h1 lc1 fr e -> ctx_at h2 lc2 fr e ->
  SpecOut.tables_ok n -> ord_ok (e_ord E) ->
  exists k1 k2 r h1' h2' w',
    go_run (go_config M1) k1 E (invoke v1 "Render" [VPtr lc1] false) h1 w = Some (ROk [verr r] h1' w') /\
    go_run (go_config M2) k2 E (invoke v2 "Render" [VPtr lc2] false) h2 w = Some (ROk [verr r] h2' w').
Proof.
  intros O1 O2 N1 N2 C1 C2 T O.
  destruct (sim_never _ _ _ _ _ (proj1 (every_node M1 O1) n h1 lc1 fr e v1 C1 N1 T) E w O) as (k1 & a1 & h1' & R1 & -> & _).
  destruct (sim_never _ _ _ _ _ (proj1 (every_node M2 O2) n h2 lc2 fr e v2 C2 N2 T) E w O) as (k2 & a2 & h2' & R2 & -> & _).
  eexists k1, k2, _, h1', h2', _. split; [exact R1|exact R2].
Qed.

(** In particular with one mode that hands in nothing but new nodes. *)
Definition building (M : go_mode) : go_mode :=
  Mode (m_panics M) (m_int M) (m_uint M) (m_float M) (m_letters M) (m_parse M) (m_types M) (fun _ _ => None).
Lemma building_ok M : mode_ok M -> mode_ok (building M).
Proof. intros (H1 & H2 & H3 & _). repeat split; auto. intros h n v. discriminate. Qed.
Theorem C82_handed M n fr e E w :
  mode_ok M -> api n -> ord_ok (e_ord E) ->
  exists k1 k2 r h1 h2 w',
    go_run (go_config M) k1 E (render_source M n fr e) [] w = Some (ROk r h1 w') /\
    go_run (go_config (building M)) k2 E (render_source (building M) n fr e) [] w = Some (ROk r h2 w').
Proof.
  intros MO A O. pose proof (proj1 api_tables n A) as T.
  destruct (source_renders M n fr e E w MO T O) as (k1 & h1 & R1).
  destruct (source_renders (building M) n fr e E w (building_ok M MO) T O) as (k2 & h2 & R2).
  eexists k1, k2, _, h1, h2, _. split; [exact R1|exact R2].
Qed.
End Claims.

(** ** A case: user code that builds no plain text and no plain attribute twice *)

(** The bytes of the text node at [l], when it has one value that is a string. *)
Definition text_at (h : @heap demo) (l : loc) : option bytes :=
  match nth_error h l with
  | Some (OStruct t [(f, VSlice l1 1)]) =>
      match nth_error h l1 with
      | Some (OArr [VStruct t' [(f1, VBytes b); (f2, VNil); (f3, VSlice l0 0)]]) =>
          match nth_error h l0 with
          | Some (OArr _) =>
              if String.eqb t "text" && String.eqb f "values" && String.eqb t' "Value" && String.eqb f1 "value" &&
                 String.eqb f2 "dynamicFunc" && String.eqb f3 "concats" then Some b else None
          | _ => None
          end
      | _ => None
      end
  | _ => None
  end.
(** The name and value of the attribute at [l], likewise. *)
Definition attr_at (h : @heap demo) (l : loc) : option (bytes * bytes) :=
  match nth_error h l with
  | Some (OStruct t [(f0, VBytes a); (f, VSlice l1 1)]) =>
      match nth_error h l1 with
      | Some (OArr (VStruct t' [(f1, VBytes b); (f2, VNil); (f3, VSlice l0 0)] :: _)) =>
          match nth_error h l0 with
          | Some (OArr _) =>
              if String.eqb t "attribute" && String.eqb f0 "name" && String.eqb f "values" && String.eqb t' "Value" && String.eqb f1 "value" &&
                 String.eqb f2 "dynamicFunc" && String.eqb f3 "concats" then Some (a, b) else None
          | _ => None
          end
      | _ => None
      end
  | _ => None
  end.
Definition has_attr (h : heap) (a b : bytes) (l : loc) : bool :=
  match attr_at h l with Some (a', b') => beq a a' && beq b b' | None => false end.
Definition has_text (h : heap) (b : bytes) (l : loc) : bool :=
  match text_at h l with Some b' => beq b b' | None => false end.
Definition texts (h : heap) (n : node (@U demo)) : option gv :=
  match n with
  | NText [Val b None []] => option_map VPtr (find (has_text h b) (seq 0 (length h)))
  | NAttr (APlain a [Val b None []]) => option_map VPtr (find (has_attr h a b) (seq 0 (length h)))
  | _ => None
  end.
Definition thrifty : go_mode := Mode false "int" "uint" "float64" (fun _ => false) (fun _ => None) no_types texts.
Lemma text_at_rep M h l b : text_at h l = Some b -> node_rep M h (VPtr l) (NText [Val b None []]).
Proof.
  unfold text_at. intro H.
  repeat (match type of H with context [match ?x with _ => _ end] => destruct x eqn:?; try discriminate H end).
  injection H as ->. repeat match goal with X : _ && _ = true |- _ => apply andb_prop in X as [? ?] end.
  repeat match goal with X : String.eqb _ _ = true |- _ => apply String.eqb_eq in X; subst end.
  eexists. split; [reflexivity|]. eexists. split; [eassumption|]. eexists. split; [eexists; split; [eassumption|split; [auto|reflexivity]]|].
  cbn [firstn]. eexists _, []. split; [reflexivity|]. split; [|reflexivity].
  eexists _, _, _, []. split; [reflexivity|]. split; [reflexivity|]. split; [reflexivity|]. split; [|reflexivity].
  eexists. split; [eassumption|]. split; [apply Nat.le_0_l|reflexivity].
Qed.
Lemma attr_at_rep M h l a b : attr_at h l = Some (a, b) -> node_rep M h (VPtr l) (NAttr (APlain a [Val b None []])).
Proof.
  unfold attr_at. intro H.
  repeat (match type of H with context [match ?x with _ => _ end] => destruct x eqn:?; try discriminate H end).
  injection H as -> ->. repeat match goal with X : _ && _ = true |- _ => apply andb_prop in X as [? ?] end.
  repeat match goal with X : String.eqb _ _ = true |- _ => apply String.eqb_eq in X; subst end.
  eexists _, _, _. split; [reflexivity|]. split; [eassumption|]. split; [reflexivity|]. eexists. split; [eexists; split; [eassumption|split; [cbn; lia|reflexivity]]|].
  cbn [firstn]. eexists _, []. split; [reflexivity|]. split; [|reflexivity].
  eexists _, _, _, []. split; [reflexivity|]. split; [reflexivity|]. split; [reflexivity|]. split; [|reflexivity].
  eexists. split; [eassumption|]. split; [apply Nat.le_0_l|reflexivity].
Qed.
Example thrifty_ok : mode_ok thrifty.
Proof.
  repeat split; try (cbn; tauto). intros h n v H. cbn [m_known thrifty] in H. unfold texts in H.
  destruct n as [[a vs| |]| | | vs | | | | | | | | | |]; try discriminate; destruct vs as [|[b [d|] [|c cs]] [|y vs]]; try discriminate.
  - destruct (find (has_attr h a b) (seq 0 (length h))) as [l|] eqn:F; [|discriminate]. injection H as <-. apply find_some in F as [_ F].
    unfold has_attr in F. destruct (attr_at h l) as [[a' b']|] eqn:X; [|discriminate]. apply andb_prop in F as [F1 F2].
    destruct (beq_spec a a') as [<-|]; [|discriminate]. destruct (beq_spec b b') as [<-|]; [|discriminate]. apply attr_at_rep, X.
  - destruct (find (has_text h b) (seq 0 (length h))) as [l|] eqn:F; [|discriminate]. injection H as <-. apply find_some in F as [_ F].
    unfold has_text in F. destruct (text_at h l) as [b'|] eqn:X; [|discriminate]. destruct (beq_spec b b') as [<-|]; [|discriminate].
    apply text_at_rep, X.
Qed.
(** A page whose Imperative writes a text that the page has already, and renders
    another one, which it wrote before, in an element; then it starts two tags
    with the same attribute. *)
Definition hi : node (@U demo) := NText [Val (B "hi") None []].
Definition lo : node (@U demo) := NText [Val (B "lo") None []].
Definition cls : node (@U demo) := NAttr (APlain (B "class") [Val (B "x") None []]).
Definition more : node (@U demo) := NAttr (ADelim (B "class") (B " ") [Val (B "y") None []]).
Definition echo : node (@U demo) :=
  NCollection [hi; NImper (Some (IWriteNodes [Some hi; Some lo; None; Some hi] (IRender (NElement (B "p") [] [] [] [lo; lo]) None (fun _ _ =>
       IStart (B "b") false [Some cls] (IStart (B "i") false [Some cls; Some more] (IEndAll (IRet None)))))))].
Example echo_api : api echo.
Proof.
  assert (H : api hi) by exact (api_text [AData (GString (B "hi"))] (st 0)).
  assert (L : api lo) by exact (api_text [AData (GString (B "lo"))] (st 0)).
  refine (api_collection [Some hi; Some (Imperative (Some _))] _). intros n [[= <-]|[[= <-]|[]]]; [exact H|].
  apply (@api_imperative demo). apply (@api_write_nodes demo).
  - intros n [[= <-]|[[= <-]|[E|[[= <-]|[]]]]]; auto; discriminate.
  - apply (@api_render demo); [|intros; apply (@api_start demo), (@api_start demo), (@api_end_all demo), (@api_ret demo)]. refine (api_element (B "p") [ANode lo; ANode lo] (st 0) _).
    intros n [[= <-]|[[= <-]|[]]]; exact L.
Qed.
Definition is_a (t : string) (o : @obj demo) : bool := match o with OStruct t' _ => String.eqb t' t | _ => false end.
Definition echo_run (M : go_mode) : option (bytes * nat * nat) :=
  match go_run (go_config M) 3000 E0 (render_source M echo frn None) [] (World [] (st 0) 0) with
  | Some (ROk (None, None) h w) => Some (accepted (w_log w), length (filter (is_a "text") h), length (filter (is_a "attribute") h))
  | _ => None
  end.
(** Two text nodes instead of six, one attribute instead of two. *)
Example C82_thrifty : echo_run thrifty = Some (B "hihilohi<p>lolo</p><b class=""x""><i class=""x y""></i></b>", 2, 1).
Proof. vm_compute. reflexivity. Qed.
Example C82_built : echo_run (building thrifty) = Some (B "hihilohi<p>lolo</p><b class=""x""><i class=""x y""></i></b>", 6, 2).
Proof. vm_compute. reflexivity. Qed.
