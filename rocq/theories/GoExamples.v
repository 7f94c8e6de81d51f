(** The translated source, run: constructors of the library, then Render. *)
From Coq Require Import ZArith.
From Verif Require Import Bytes IO Escape Nodes Values Build Render SpecOut GoSyntax Source GoSem GoRep RefineIter RefineAll Demo.

Definition cfg : config := Config source false "int" "uint" "float64" (fun _ => false) (fun _ => None) no_types (fun _ _ => None).
Notation "x <-- p ;; q" := (pbind p (fun x => q))
  (at level 100, p at next level, right associativity).
Definition E0 : env := Env healthy (fun _ ks => ks).
(** Build a node, render it with a fresh context; the bytes written and the
    error returned ([None]: a Go panic). *)
Definition show (p : prog gv) : option (option (bytes * gv)) :=
  match go_run cfg 2000%nat E0
          (v <-- p ;; l <-- alloc (ctx_obj None None GNil VNil) ;;
           r <-- invoke v "Render" [VPtr l] false ;; one r) [] (World [] (st 0%nat) 0%nat) with
  | Some (ROk a h w) => Some (Some (accepted (w_log w), a))
  | Some (RPanic w) => Some None
  | None => None
  end.
Definition c1 (f : string) (args : list gv) (sp : bool) : prog gv := vs <-- call f args sp ;; one vs.
Definition demo_element : prog gv :=
  a <-- c1 "aitch.Attribute" [VStr (B "class"); VAny (GString (B "a<b"))] false ;;
  d <-- c1 "aitch.DelimitedAttribute" [VStr (B "style"); VStr (B ";"); VAny (GInt 3); VAny (GInt 4)] false ;;
  b <-- c1 "aitch.Element" [VStr (B "br"); a] false ;;
  c1 "aitch.Element" [VStr (B "p"); a; d; b; VAny (GString (B "hello & co"))] false.
Example demo_element_runs : show demo_element =
  Some (Some (B "<p class=""a&lt;b"" style=""3;4""><br class=""a&lt;b"">hello &amp; co</p>", VNil)).
Proof. vm_compute. reflexivity. Qed.
Definition demo_document : prog gv :=
  h <-- new_slice [VAny (GString (B "x"))] ;;
  c1 "html.Document" [VAny (GString (B "en")); VNil; h] false.
Example demo_document_runs : show demo_document =
  Some (Some (B "<!DOCTYPE html>" ++ ["010"%char] ++ B "<html lang=""en""><body>x</body></html>", VNil)).
Proof. vm_compute. reflexivity. Qed.
(** Calling a method of a nil node is a panic. *)
Example demo_nil : show (PRet VNil) = Some None.
Proof. vm_compute. reflexivity. Qed.
(** The hypotheses of [source_renders], and what it says of one node: an iteration
    around an Imperative that starts a tag, reads its data and renders a node
    in a context of its own. *)
Definition the_mode : go_mode := Mode false "int" "uint" "float64" (fun _ => false) (fun _ => None) no_types (fun _ _ => None).
Example the_mode_ok : mode_ok the_mode.
Proof. repeat split; cbn; try tauto. discriminate. Qed.
Definition busy_node : node (@U demo) :=
  NIter (fun _ u => ([GInt 1; GString (B "a&b")], S u))
    [NElement (B "p") [APlain (B "id") [Val (B "7") None []]] [(B "id", 0%nat)] [] [NText [Val [] (Some (fun c u => value_to_bytes (c_cargo c) u)) []]];
     NImper (Some (IStart (B "ul") false [Some (NAttr (ADelim (B "class") (B " ") [Val (B "x") None []])); Some (NAttr (ADelim (B "class") (B " ") [Val (B "y") None []]))]
       (IRender (NText [Val [] (Some (fun c u => match data_get c (B "name") u with Some g => value_to_bytes g u | None => ([], u) end)) []]) (Some fr0) (fun _ _ => IRead (fun _ u => (IEndAll (IRet None), u))))))].
Example busy_tables : SpecOut.tables_ok busy_node.
Proof.
  repeat split. cbn. repeat constructor; cbn; tauto.
Qed.
Example busy_runs :
  match go_run cfg 3000%nat E0 (render_source the_mode busy_node frn None) [] (World [] (st 0%nat) 0%nat) with
  | Some (ROk r _ w) => Some (r, accepted (w_log w), w_u w)
  | _ => None
  end = Some ((None, None), B "<p id=""7"">1</p><ul class=""x y"">a&lt;b</ul><p id=""7"">a&amp;b</p><ul class=""x y"">a&lt;b</ul>", 1%nat).
Proof. vm_compute. reflexivity. Qed.
