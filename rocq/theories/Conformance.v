(** The repository's own expectations, checked against the model: its unit
    tests and the outputs shown in README.md.  These are tests of the model,
    not proofs about it: /repo is never run, so this is the way to compare the
    model with outputs that its authors state.

    Left out: assertions about Go types and slice lengths that have no
    counterpart here, and rendering with the svg generator's input text (the
    tokenizer is library code; its tokens are written out below). *)
From Coq Require Import ZArith.
From Verif Require Import Bytes IO Escape Nodes Values Render Slices Build SpecRun Demo Tables
  Packages Headers Reflect Template Generator Accessors TestTable.
Local Open Scope string_scope.
Local Open Scope list_scope.
Local Open Scope nat_scope.

(** ** A world for the tests

    The user state is a number: the closures' variables, or the entry "id" of
    README example 3.  The maps of the tests are numbered. *)
Definition strs (l : list string) : list (gval nat) := map (fun s => GString (B s)) l.
Definition test_map (u : nat) (m : mref) : list (string * gval nat) :=
  match m with
  | 0 => []
  | 1 => [("foo", GNil)]
  | 2 => [("foo", GBool true)]
  | 3 => [("foo", GBool false)]
  | 4 => [("items", GSlice false [GInt 1; GInt 2; GInt 3])]
  | 5 => [("items", GSlice true [GInt 1; GInt 2; GInt 3])]
  | 6 => [("items", GSlice true [GMap 7; GMap 8; GMap 9])]
  | 7 => [("text", GString (B "foo")); ("yes", GBool true); ("label", GString (B "foo"))]
  | 8 => [("text", GString (B "bar")); ("label", GString (B "bar"))]
  | 9 => [("text", GString (B "baz")); ("yes", GBool true); ("label", GString (B "baz"))]
  | 10 => [("foo", GString (B "bar"))]
  | 11 => [("foo", GString (B "foo value"))]
  | 12 => [("x", GString (B "foo"))]
  | 13 => [("foo", GString (B """bar"""))]
  | 14 => [("lang", GString (B "en")); ("yes", GBool true)]
  | 15 => [("lang", GString (B "en")); ("yes", GBool false)]
  | 16 => [("name", GString (B "Aitch!")); ("greeting-class", GString (B "admin"))]
  | 17 => [("id", GInt (Z.of_nat u))]
  | 18 => [("username", GString (B "Aitch")); ("isAdmin", GBool true)]
  | 19 => [("items", GSlice true (strs ["First"; "Second"; "Third"]%string))]
  | 20 => [("items", GSlice true [GMap 21; GMap 22; GMap 23])]
  | 21 => [("label", GString (B "First")); ("value", GInt 1); ("selected", GBool false)]
  | 22 => [("label", GString (B "Second")); ("value", GInt 2); ("selected", GBool true)]
  | 23 => [("label", GString (B "Third")); ("value", GInt 3); ("selected", GBool false)]
  | 24 => [("width", GInt 10); ("isAdmin", GBool true)]
  | 25 => [("enabled", GBool true)]
  | 26 => [("lang", GString (B "en")); ("title", GString (B "Test rendered")); ("username", GString (B "Aitch"))]
  | _ => []
  end%string.
Fixpoint entry (l : list (string * gval nat)) (k : bytes) : option (gval nat) :=
  match l with
  | [] => None
  | (k', v) :: l' => if beq (B k') k then Some v else entry l' k
  end.
Local Instance tests : UserWorld := {| U := nat; mget := fun u m k => entry (test_map u m) k |}.

(** ** Shorthands *)
Definition zero : @U tests := 0.
Definition tnode := node (@U tests).
Definition targs := list (arg (@U tests)).
Definition s_ (s : string) : arg (@U tests) := AData (GString (B s)).
Definition i_ (z : Z) : arg (@U tests) := AData (GInt z).
Definition key (s : string) : arg (@U tests) := AKey (B s).
Definition n_ (n : tnode) : arg (@U tests) := ANode n.
Definition el (name : string) (l : targs) : tnode := fst (NewElement (B name) l zero).
Definition att (name : string) (l : targs) : tnode := fst (NewAttribute (B name) l zero).
Definition a_ := el "a". Definition b_ := el "b". Definition p_ := el "p". Definition div := el "div".
Definition class (l : targs) : tnode := fst (NewDelimitedAttribute (B "class") (B " ") l zero).
Definition id_ := att "id".
Definition txt (l : targs) : tnode := fst (Text l zero).
Definition coll (l : list tnode) : tnode := Collection (map Some l).
Definition done (o : Build.outcome tnode) : tnode := match o with Build.Done n => n | Build.Panic => NText [] end.
Definition opt (o : Build.outcome (option tnode * nat)) : tnode :=
  match o with Build.Done (Some n, _) => n | _ => NText [] end.
Definition cond (f : condfn (@U tests)) (l : list tnode) : tnode := done (Conditional (Some f) (map Some l)).
Definition when (k : string) (l : list tnode) : tnode := done (When (B k) (map Some l)).
Definition yes : condfn (@U tests) := fun _ u => (true, u).
Definition no : condfn (@U tests) := fun _ u => (false, u).

(** aitch_test.go testRender, with the data map of that number, a cargo and a
    user state. *)
Definition shows_ (o : order) (u : nat) (m : mref) (n : tnode) (s : string) : bool :=
  beq (fst (page o n (Frame (Some m) GNil None) (u, 0))) (B s) &&
  match result o n (Frame (Some m) GNil None) (u, 0) with (None, None) => true | _ => false end.
Definition shows (m : mref) (n : tnode) (s : string) : bool := shows_ listed 0 m n s.

(** aitch_test.go errorWriter: Render returns an error. *)
Definition error_writer : writer := fun _ _ => (0, Some 1).
Definition errs (n : tnode) : bool :=
  match fst (fst (run (Env error_writer listed) (render n (Frame None GNil None) None) (World [] (0 : @U tests) 0))) with
  | Some _ => true | None => false end.
Definition all (l : list bool) : bool := forallb (fun b => b) l.
Definition is_nil {A B} (o : Build.outcome (option A * B)) : bool :=
  match o with Build.Done (None, _) => true | _ => false end.
Definition panics {A} (o : Build.outcome A) : bool := match o with Build.Panic => true | _ => false end.

(** ** Package aitch *)

Example attribute_test_go :
  let a := opt (Attribute false (B "foo") [s_ "bar"] zero) in
  let b := opt (BooleanAttribute false (B "foo") zero) in
  let d := opt (DelimitedAttribute false (B "foo") (B " ") [s_ "a"; s_ "b"] zero) in
  let bad := B " not a valid name" in
  all [shows 0 a " foo=""bar"""; errs a; length (node_values a) =? 1;
       shows 0 b " foo"; errs b;
       shows 0 d " foo=""a b"""; errs d; length (node_values d) =? 2;
       is_nil (Attribute false bad [] zero); panics (Attribute true bad [] zero);
       is_nil (BooleanAttribute false bad zero); panics (BooleanAttribute true bad zero);
       is_nil (DelimitedAttribute false bad [] [] zero); panics (DelimitedAttribute true bad [] [] zero)] = true.
Proof. vm_compute. reflexivity. Qed.

Example collection_test_go :
  let c := coll [p_ [n_ (txt [s_ "A"])]; p_ [n_ (txt [s_ "B"])]; class [s_ "not seen"]] in
  let ca := coll [p_ [n_ (txt [s_ "A"])]; class [s_ "a"]] in
  let cb := coll [ca; p_ [n_ (txt [s_ "B"])]; class [s_ "b"]] in
  let cc := ContentCollect (Some (fun _ u => (map Some [id_ []; class []; p_ [n_ (id_ [i_ 1])]; div []], u))) in
  all [shows 0 c "<p>A</p><p>B</p>"; errs c;
       shows 0 (coll [div [n_ (coll [cb])]]) "<div class=""a b""><p>A</p><p>B</p></div>";
       shows 0 cc "<p id=""1""></p><div></div>"; errs cc] = true.
Proof. vm_compute. reflexivity. Qed.

Example comment_test_go :
  let c := fst (Comment [s_ "foo"] zero) in
  all [shows 0 c "<!--foo-->"; errs c; length (node_values c) =? 1] = true.
Proof. vm_compute. reflexivity. Qed.

(** The variables conditionA and conditionB are the two low bits of the state. *)
Definition bit_a : condfn (@U tests) := fun _ u => (Nat.odd u, u).
Definition bit_b : condfn (@U tests) := fun _ u => (Nat.odd (Nat.div2 u), u).
Example conditional_test_go :
  let c := cond bit_a [p_ []] in
  let nested := cond bit_a [p_ [n_ (txt [s_ "A"])]; cond bit_b [p_ [n_ (txt [s_ "B"])]]] in
  let w := when "foo" [p_ []] in
  let nw := when "!foo" [p_ []] in
  all [shows_ listed 1 0 c "<p></p>"; shows_ listed 0 0 c ""; errs (cond yes [p_ []]);
       shows_ listed 3 0 nested "<p>A</p><p>B</p>"; shows_ listed 1 0 nested "<p>A</p>"; shows_ listed 2 0 nested "";
       shows 0 w ""; shows 1 w "<p></p>"; shows 2 w "<p></p>"; shows 3 w "";
       shows 0 nw "<p></p>"; shows 1 nw ""; shows 2 nw ""] = true.
Proof. vm_compute. reflexivity. Qed.

(** TestConditional_Cases, in order. *)
Definition pn (l : list tnode) : tnode := p_ (map n_ l).
Example conditional_cases :
  let A_ := a_ [] in let B_ := b_ [] in
  let id s := id_ [s_ s] in let cl s := class [s_ s] in
  all [shows 0 (cond yes [p_ []]) "<p></p>";
       shows 0 (cond no [p_ []]) "";
       shows 0 (pn [cond yes [A_]]) "<p><a></a></p>";
       shows 0 (pn [cond no [A_]]) "<p></p>";
       shows 0 (pn [cond yes [coll [A_]]]) "<p><a></a></p>";
       shows 0 (pn [cond no [coll [A_]]]) "<p></p>";
       shows 0 (pn [cond yes [id "a"; coll [A_]]]) "<p id=""a""><a></a></p>";
       shows 0 (pn [cond no [id "a"; coll [A_]]]) "<p></p>";
       shows 0 (pn [cond yes [cl "a"; coll [A_]]]) "<p class=""a""><a></a></p>";
       shows 0 (pn [cond no [id "a"; coll [A_]]]) "<p></p>";
       shows 0 (pn [id "foo"; cond yes [id "bar"]]) "<p id=""bar""></p>";
       shows 0 (pn [id "foo"; cond no [id "bar"]]) "<p id=""foo""></p>";
       shows 0 (pn [cl "foo"; cond yes [A_; cl "bar"]]) "<p class=""foo bar""><a></a></p>";
       shows 0 (pn [cl "foo"; cond no [A_; cl "bar"]]) "<p class=""foo""></p>";
       shows 0 (pn [id "foo"; cond yes [id "bar"; A_; cond yes [id "baz"]]]) "<p id=""baz""><a></a></p>";
       shows 0 (pn [id "foo"; cond yes [id "bar"; A_; cond no [id "baz"]]]) "<p id=""bar""><a></a></p>";
       shows 0 (pn [cl "foo"; cond yes [cl "bar"; A_; cond yes [id "a"]]]) "<p class=""foo bar"" id=""a""><a></a></p>";
       shows 0 (pn [cl "foo"; cond yes [cl "bar"; A_; cond no [id "a"]]]) "<p class=""foo bar""><a></a></p>";
       shows 0 (pn [id "foo"; cond yes [coll [A_; id "bar"]]]) "<p id=""bar""><a></a></p>";
       shows 0 (pn [id "foo"; cond no [coll [A_; id "bar"]]]) "<p id=""foo""></p>";
       shows 0 (pn [cl "foo"; cond yes [coll [A_; cl "bar"]]]) "<p class=""foo bar""><a></a></p>";
       shows 0 (pn [cl "foo"; cond no [coll [A_; cl "bar"]]]) "<p class=""foo""></p>";
       shows 0 (pn [cl "foo"; id "a"; coll [cond yes [coll [A_; cond yes [coll [B_; id "b"; cl "bar"]]]]]])
             "<p class=""foo bar"" id=""b""><a></a><b></b></p>";
       shows 0 (pn [cl "foo"; cond yes [id "a"; coll [A_; id "b"]]]) "<p class=""foo"" id=""b""><a></a></p>";
       shows 0 (pn [cond yes [cl "foo"; cond yes [cl "bar"]]]) "<p class=""foo bar""></p>"] = true.
Proof. vm_compute. reflexivity. Qed.

(** Case 23 of these tests relies on the order in which Go visits attIndices;
    with the other order the output differs. *)
Example case_23_depends_on_map_order :
  let t := pn [class [s_ "foo"]; id_ [s_ "a"];
               coll [cond yes [coll [a_ []; cond yes [coll [b_ []; id_ [s_ "b"]; class [s_ "bar"]]]]]]] in
  all [shows_ listed 0 0 t "<p class=""foo bar"" id=""b""><a></a><b></b></p>";
       shows_ reversed 0 0 t "<p id=""b"" class=""foo bar""><a></a><b></b></p>"] = true.
Proof. vm_compute. reflexivity. Qed.

Example element_test_go :
  let v := opt (VoidElement false (B "foo") [n_ (class [s_ "a"])] zero) in
  let e1 := opt (Element false (B "foo") [n_ (txt [s_ "b"]); n_ (class [s_ "a"])] zero) in
  let e2 := opt (Element false (B "foo") [s_ "b"; n_ (class [s_ "a"])] zero) in
  let over := n_ (att "class" [s_ "overridden"]) in
  let abc := map (fun s => n_ (class [s_ s])) ["a"; "b"; "c"]%string in
  let bad := B " not a valid name" in
  all [shows 0 v "<foo class=""a"">"; errs v;
       shows 0 (opt (VoidElement false (B "foo") abc zero)) "<foo class=""a b c"">";
       shows 0 (opt (VoidElement false (B "foo") [n_ (class [s_ "a"]); over] zero)) "<foo class=""overridden"">";
       shows 0 e1 "<foo class=""a"">b</foo>"; shows 0 e2 "<foo class=""a"">b</foo>"; errs e2;
       shows 0 (opt (Element false (B "meta") [] zero)) "<meta>";
       shows 0 (opt (Element false (B "foo") (n_ (txt [s_ "bar"]) :: abc) zero)) "<foo class=""a b c"">bar</foo>";
       shows 0 (opt (Element false (B "foo") [n_ (txt [s_ "bar"]); n_ (class [s_ "a"]); over] zero))
             "<foo class=""overridden"">bar</foo>";
       is_nil (VoidElement false bad [] zero); panics (VoidElement true bad [] zero);
       is_nil (Element false bad [] zero); panics (Element true bad [] zero)] = true.
Proof. vm_compute. reflexivity. Qed.

(** TestAttributesAndContents and TestElement_ConditionalAttrs. *)
Example attributes_and_contents_test :
  let counts l := let '(a, c, n) := attributes_and_contents l in (length a, length n) in
  counts [class []; p_ []; txt []] = (1, 2) /\
  counts [coll [class []; p_ []; txt []]] = (1, 1) /\
  counts [coll [coll [class []; p_ []; txt []]]] = (1, 1) /\
  (let '(a, c, _) := attributes_and_contents
     [class [s_ "a"]; cond yes [class [s_ "b"]; cond no [class [s_ "c"]]]] in
   (length a, map (fun x => map (fun f => fst (f (Ctx None None GNil None) zero)) (snd x)) c))
  = (1, [[true]; [true; false]]).
Proof. vm_compute. repeat split. Qed.

Example fragment_text_pi_test_go :
  let f := fst (Fragment [s_ "foo"; AData GNil; s_ "bar"] zero) in
  let t := txt [s_ "foo"; AData GNil; s_ "bar"] in
  let d := fst (PI (B "doctype") [s_ "foo"] zero) in
  all [shows 0 f "foobar"; errs f; length (node_values f) =? 2;
       shows 0 t "foobar"; errs t; length (node_values t) =? 2;
       beq (fst (page listed d (Frame None GNil None) (zero, 0))) (B "<!doctype foo>" ++ ["010"%char]); errs d;
       beq Nbsp (B "&nbsp;"); beq (Nbsps 0) []; beq (Nbsps 2) (B "&nbsp;&nbsp;")] = true.
Proof. vm_compute. reflexivity. Qed.

(** imperative_test.go: the expected output and the expected length of the
    stack, which shows in how many tags a final EndAll closes. *)
Definition imp (p : iprog (@U tests) -> iprog (@U tests)) : tnode := Imperative (Some (p (IRet None))).
Definition start (n : string) (v : bool) (l : list tnode) := @IStart (@U tests) (B n) v (map Some l).
Example imperative_test_go :
  let i1 := id_ [s_ "1"] in let cf := class [s_ "foo"] in
  let async := NewBooleanAttribute (B "async") in
  all [shows 0 (imp (fun k => k)) "";
       shows 0 (imp (fun k => IWriteRaw (B "foo") k)) "foo";
       shows 0 (imp (fun k => start "div" false [] k)) "<div>";
       shows 0 (imp (fun k => start "div" false [] (IEndAll k))) "<div></div>";
       shows 0 (imp (fun k => start "br" true [] (IEndAll k))) "<br>";
       shows 0 (imp (fun k => start "div" false [i1; cf] k)) "<div id=""1"" class=""foo"">";
       shows 0 (imp (fun k => start "br" true [i1; cf] k)) "<br id=""1"" class=""foo"">";
       shows 0 (imp (fun k => start "div" false [] (IEnd k))) "<div></div>";
       shows 0 (imp (fun k => start "br" true [] (IEnd k))) "<br>";
       shows 0 (imp (fun k => start "div" false [] (start "p" false [i1; cf] (start "br" true [] (IEnd k)))))
             "<div><p id=""1"" class=""foo""><br></p>";
       shows 0 (imp (fun k => start "div" false [] (start "p" false [i1; cf] (start "br" true [] (IEndAll k)))))
             "<div><p id=""1"" class=""foo""><br></p></div>";
       shows 0 (imp (fun k => start "div" false
                   [async; i1; class [s_ "foo"; s_ "bar"]; id_ [s_ "2"]; class [s_ "baz"]; async] k))
             "<div async id=""2"" class=""foo bar baz"">";
       shows 0 (imp (fun k => IWriteNodes [Some (div [n_ (p_ [n_ (txt [s_ "bar"]); n_ cf])])] k))
             "<div><p class=""foo"">bar</p></div>";
       shows 0 (imp (fun k => IWriteString (B "<>""'&") k)) "&lt;&gt;&quot;&apos;&amp;";
       shows 0 (Imperative None) ""] = true.
Proof. vm_compute. reflexivity. Qed.

Definition in_error (n : tnode) : bool :=
  match fst (run (Env healthy listed) (render n (Frame None GNil None) (Some 7)) (World [] (0 : @U tests) 0)) with
  | (Some _, _) => true | _ => false end.
Example iterate_test_go :
  let it := done (Iterate (Some (fun _ u => ([GInt 1; GInt 2; GInt 3], u))) (map Some [p_ []; id_ []])) in
  let ik := done (IterateKey (B "items") (map Some [p_ []; id_ []])) in
  let ikt := done (IterateKey (B "items") [Some (p_ [key "text"])]) in
  let iky := done (IterateKey (B "items") [Some (when "yes" [p_ [key "text"]])]) in
  let y1 := done (IterateYield (Some (YYield (GString (B "foo")) (YYield (GString (B "bar"))
              (YYield (GString (B "baz")) YRet)))) [Some (p_ [n_ (txt [key "."])])]) in
  let y2 := done (IterateYield (Some (YYield (GMap 7) (YYield (GMap 8) (YYield (GMap 9) YRet))))
              [Some (p_ [n_ (txt [key "label"])])]) in
  all [shows 0 it "<p></p><p></p><p></p>"; in_error it; errs it; panics (Iterate None []);
       shows 4 ik "<p></p><p></p><p></p>"; shows 5 ik "<p></p><p></p><p></p>"; shows 0 ik "";
       shows 6 ikt "<p>foo</p><p>bar</p><p>baz</p>"; shows 6 iky "<p>foo</p><p>baz</p>";
       shows 0 y1 "<p>foo</p><p>bar</p><p>baz</p>"; shows 0 y2 "<p>foo</p><p>bar</p><p>baz</p>";
       in_error y2; errs y2; panics (IterateYield None [])] = true.
Proof. vm_compute. reflexivity. Qed.

(** value_test.go.  [rendered v m cargo]: what Value.render returns and writes. *)
Definition rendered (v : value (@U tests)) (m : mref) (cargo : gval nat) : bool * bytes :=
  let '((ok, _), w) := run (Env healthy listed) (value_render (Frame (Some m) cargo None) v None)
                           (World [] (0 : @U tests) 0) in (ok, accepted (w_log w)).
Definition first_value (a : arg (@U tests)) : value (@U tests) :=
  match fst (new_value a zero) with v :: _ => v | [] => Val [] None [] end.
Example value_test_go :
  rendered (Val (B "foo") None []) 0 GNil = (true, B "foo") /\
  rendered (Val [] (Some (fun _ u => (B "foo", u))) []) 0 GNil = (true, B "foo") /\
  rendered (first_value (key ".")) 0 (GString (B "foo")) = (true, B "foo") /\
  rendered (Val [] None []) 0 GNil = (false, []) /\
  rendered (fst (NewConcatValue [s_ "foo"; s_ "bar"] zero)) 0 GNil = (true, B "foobar") /\
  rendered (first_value (key "foo")) 10 GNil = (true, B "bar") /\
  rendered (first_value (key "foo")) 0 GNil = (false, []) /\
  map (fun l => length (fst (new_values l zero))) [[]; [AData GNil]; [AData GNil; s_ "foo"; AData GNil]] = [0; 0; 1] /\
  map (fun a => length (fst (new_value a zero)))
    [AData GNil; AVal (Val [] None [Val [] None []]); key "foo"; ADyn (fun _ u => (B "foo", u));
     n_ (att "att" [s_ "foo"; s_ "bar"]); n_ (coll []);
     n_ (coll [att "att" [s_ "foo"; s_ "bar"]; att "att" [s_ "baz"]]); n_ (p_ [])]
    = [0; 1; 1; 1; 2; 0; 3; 0] /\
  fst (NewValue (s_ "foo") zero) = Val (B "foo") None [] /\
  fst (NewValue (n_ (coll [txt [s_ "foo"]; txt [s_ "bar"]])) zero)
    = Val [] None [Val (B "foo") None []; Val (B "bar") None []].
Proof. vm_compute. repeat split. Qed.

Example value_to_bytes_test :
  map (fun v => fst (value_to_bytes v zero))
    [GNil; GBool true; GBool false; GBytes (B "foo"); GString (B "foo"); GInt 1; GUint 1; GFloat (B "1.1");
     GStringer (fun u => (B "foo", u)); GFunc (fun u => (GString (B "foo"), u))]
  = map B [""; "true"; "false"; "foo"; "foo"; "1"; "1"; "1.1"; "foo"; "foo"]%string /\
  html_escape_string (B "foo") = B "foo" /\
  html_escape_string (B "foo'&""<>" ++ ["000"%char]) = B "foo&apos;&amp;&quot;&lt;&gt;".
Proof. vm_compute. repeat split. Qed.

(** template_test.go. *)
Definition nl_ : bytes := ["010"%char].
Definition template_basic : list piece :=
  [PText (B "<!DOCTYPE html>" ++ nl_ ++ B "<html "); PToken true (B "lang");
   PText (B ">" ++ nl_ ++ B "<head>" ++ nl_ ++ B "    "); PToken false (B "title");
   PText (nl_ ++ B "</head>" ++ nl_ ++ B "<body>" ++ nl_); PToken false (B "body");
   PText (nl_ ++ B "</body>" ++ nl_ ++ B "</html>")].
Definition basic_nodes : node_map (W := tests) :=
  [(B "lang", Some (att "lang" [key "lang"]));
   (B "title", Some (el "title" [n_ (txt [s_ "Test"])]));
   (B "body", Some (when "yes" [p_ [n_ (id_ [i_ 1]); n_ (txt [s_ "Here!"])]]))].
Definition executed (ps : list piece) (nm : node_map (W := tests)) (m : mref) : option (option error * bytes) :=
  match new_template ps nm with
  | None => None
  | Some t => let '(e, w) := run (Env healthy listed) (execute t (Some m) GNil) (World [] (0 : @U tests) 0) in
              Some (e, accepted (w_log w))
  end.
Example template_test_go :
  executed template_basic basic_nodes 14 = Some (None,
    B "<!DOCTYPE html>" ++ nl_ ++ B "<html  lang=""en"">" ++ nl_ ++ B "<head>" ++ nl_ ++
    B "    <title>Test</title>" ++ nl_ ++ B "</head>" ++ nl_ ++ B "<body>" ++ nl_ ++
    B "<p id=""1"">Here!</p>" ++ nl_ ++ B "</body>" ++ nl_ ++ B "</html>") /\
  executed template_basic basic_nodes 15 = Some (None,
    B "<!DOCTYPE html>" ++ nl_ ++ B "<html  lang=""en"">" ++ nl_ ++ B "<head>" ++ nl_ ++
    B "    <title>Test</title>" ++ nl_ ++ B "</head>" ++ nl_ ++ B "<body>" ++ nl_ ++
    nl_ ++ B "</body>" ++ nl_ ++ B "</html>") /\
  new_template template_basic ([] : node_map (W := tests)) = None.
Proof. vm_compute. repeat split. Qed.

(** ** Package context *)

(** TestContext_Write_Errors: the first error is kept. *)
Example context_test_go :
  let counting : writer := fun h _ => (0, Some (S (length h))) in
  fst (run (Env counting listed)
         (bind (ctx_write (B "hello") None) (fun e => ctx_write (B "world") e)) (World [] zero 0)) = Some 1.
Proof. reflexivity. Qed.

(** TestGet and TestMustGet; [int] is [TOther 0]. *)
Example get_test_go :
  let D := [[Field (B "Key") true false (TOther 0)]] in
  let M : implements := fun _ _ => false in
  let str := TString None in let int := TOther 0 in let one := ROther 0 1 in
  let data := new_context (Some [(B "key", one)]) RNil in
  let cargo := new_context None (RMap None (TString None) (TIface 0) [(B "key", one)]) in
  let ptr := new_context None (RPtr None (TStruct 0) (Some (RStruct 0 [one]))) in
  get D M str None (B "key") = Returns None /\
  get D M str (new_context None RNil) (B "key") = Returns None /\
  get D M str data (B "key") = Returns None /\ get D M int data (B "key") = Returns (Some one) /\
  get D M str cargo (B "key") = Returns None /\ get D M int cargo (B "key") = Returns (Some one) /\
  get D M str ptr (B "Key") = Returns None /\ get D M int ptr (B "Key") = Returns (Some one) /\
  must_get D M int data (B "key") = Returns one /\ must_get D M str data (B "key") = Panics.
Proof. vm_compute. repeat split. Qed.

(** ** Packages html, svg, css, htmx *)

Fixpoint fun_of (l : list (string * fkind)) (f : string) : option fkind :=
  match l with
  | [] => None
  | (g, k) :: l' => if beq (B g) (B f) then Some k else fun_of l' f
  end.
Definition unit_value (f : string) (n : nat) : arg (@U tests) :=
  match fun_of css_unit_functions f with
  | Some (KUnit unit) =>
      AVal (fst (fst (unit_call (B unit) [i_ (Z.of_nat n)] (ASlice 0 1 1) zero)))
  | _ => AData GNil
  end.
Definition targ_ (a : targ) : arg (@U tests) :=
  match a with
  | TStr s => s_ s
  | TId n => n_ (id_ [i_ (Z.of_nat n)])
  | TText s => n_ (txt [s_ s])
  | TUnit f n => unit_value f n
  end.
Definition meets (fs : list (string * fkind)) (e : expectation) : bool :=
  let '(f, args, name, out) := e in
  match fun_of fs f with
  | None => false
  | Some k =>
      match call k (map targ_ args) zero with
      | None => false
      | Some (n, _) => shows 0 n out && match name with Some s => beq (name_of n) (B s) | None => true end
      end
  end.

Example html_elements_test_go : forallb (meets html_element_functions) html_element_tests = true.
Proof. vm_compute. reflexivity. Qed.
Example html_attributes_test_go : forallb (meets html_attribute_functions) html_attribute_tests = true.
Proof. vm_compute. reflexivity. Qed.
Example svg_elements_test_go : forallb (meets svg_element_functions) svg_element_tests = true.
Proof. vm_compute. reflexivity. Qed.
Example svg_attributes_test_go : forallb (meets svg_attribute_functions) svg_attribute_tests = true.
Proof. vm_compute. reflexivity. Qed.
Example css_properties_test_go : forallb (meets css_property_functions) css_property_tests = true.
Proof. vm_compute. reflexivity. Qed.
Example css_units_test_go : forallb (meets css_property_functions) css_unit_tests = true.
Proof. vm_compute. reflexivity. Qed.
(** htmx.Headers is not in the table of functions; see [headers_tests]. *)
Example htmx_attributes_test_go :
  filter (fun e => negb (meets htmx_attribute_functions e)) htmx_attribute_tests
  = [("Headers", [TStr "foo"], Some "hx-headers", " hx-headers=""foo""")].
Proof. vm_compute. reflexivity. Qed.

(** The tests the script leaves out.  Functions are looked up by name. *)
Definition fn (fs : list (string * fkind)) (f : string) (l : targs) : tnode :=
  match fun_of fs f with
  | Some k => match call k l zero with Some (n, _) => n | None => NText [] end
  | None => NText []
  end.
Definition h := fn (html_element_functions ++ html_attribute_functions).
Definition hx := fn htmx_attribute_functions.
Definition css := fn css_property_functions.
Definition prefixed_attr (p : prefix) (name : string) (l : targs) : tnode :=
  let '(m, s) := prefixed 0 (prefix_mem 0) p (B name) in fst (NewAttribute (slice_elems m s) l zero).
Definition hd_ (o : Build.outcome (tnode * nat)) : tnode :=
  match o with Build.Done (n, _) => n | Build.Panic => NText [] end.
Definition in_turn : ranges (W := tests) := fun _ m => m.
Example remaining_attribute_tests :
  let class2 := h "Class" [s_ "foo"; s_ "bar"] in
  all [shows 0 (prefixed_attr Aria "foo" [s_ "foo"]) " aria-foo=""foo""";
       shows 0 (prefixed_attr Data "foo" [s_ "foo"]) " data-foo=""foo""";
       shows 0 (prefixed_attr On "foo" [s_ "bar"]) " hx-on:foo=""bar""";
       shows 0 class2 " class=""foo bar""";
       shows 0 (h "ContentEditable" [AData (GBool true)]) " contenteditable=""true""";
       shows 0 (h "Style" [s_ "foo"; s_ "bar"]) " style=""foo; bar""";
       shows 0 (fn svg_attribute_functions "Style" [s_ "foo"; s_ "bar"]) " style=""foo; bar""";
       shows 0 (div [n_ (hx "Trigger" [s_ "click"]); n_ (hx "Trigger" [s_ "submit"])])
             "<div hx-trigger=""click submit""></div>";
       shows 0 (div [n_ (hx "Params" [s_ "foo"]); n_ (hx "Params" [s_ "bar"])]) "<div hx-params=""foo bar""></div>";
       shows 0 (div [n_ (hx "Inherit" [s_ "hx-sync"]); n_ (hx "Inherit" [s_ "hx-trigger"])])
             "<div hx-inherit=""hx-sync hx-trigger""></div>";
       shows 0 (div [n_ (hx "Disinherit" [s_ "hx-sync"]); n_ (hx "Disinherit" [s_ "hx-trigger"])])
             "<div hx-disinherit=""hx-sync hx-trigger""></div>";
       (let var x v := AVal (fst (Var (B x) v zero)) in
        shows 12 (div [n_ (hx "Vars" [var "x"%string (key "x"); var "x2"%string (s_ "foo2")]);
                       n_ (hx "Vars" [var "y"%string (AData (GFunc (fun u => (GString (B "bar"), u))))]);
                       n_ (hx "Vars" [var "z"%string (s_ "baz")]); n_ (hx "Vars" [s_ "manual"])])
             "<div hx-vars=""x: foo, x2: foo2, y: bar, z: baz, manual""></div>")] = true.
Proof. vm_compute. reflexivity. Qed.

Example headers_tests :
  let m1 := [(B "foo", key "foo")] in let m2 := [(B "bar""", s_ """bar""")] in
  all [shows 0 (hd_ (Headers in_turn [HOther (s_ "foo")] zero)) " hx-headers=""foo""";
       shows 13 (hd_ (Headers in_turn [HMap m1] zero)) " hx-headers=""{'foo': &quot;bar&quot;}""";
       shows 13 (hd_ (Headers in_turn [HMap m1; HMap m2] zero))
             " hx-headers=""{'bar&quot;': &quot;bar&quot;, 'foo': &quot;bar&quot;}""";
       panics (Headers in_turn [HOther (s_ "mixed"); HMap [(B "foo", s_ "bar")]] zero);
       panics (Headers in_turn [HMap [(B "foo", s_ "bar")]; HOther (s_ "mixed")] zero);
       shows 13 (fst (HeadersJS in_turn [m1; m2] zero))
             " hx-headers=""js:{'bar&quot;': &quot;bar&quot;, 'foo': &quot;bar&quot;}""";
       shows 13 (fst (HeadersJS in_turn [[(B "foo", s_ """bar""")]] zero))
             " hx-headers=""js:{'foo': &quot;bar&quot;}"""] = true.
Proof. vm_compute. reflexivity. Qed.

(** html/base_test.go TestTextDynamic, html/document_test.go. *)
Example html_base_and_document_tests :
  let t := txt [key "foo"; s_ " "; ADyn (fun _ u => (B "bar", u)); s_ " "; ADyn (fun _ u => (B "baz", u))] in
  let d := fst (Document (s_ "en") [n_ (h "Meta" [n_ (h "Charset" [s_ "utf-8"])])] [n_ (p_ [])] zero) in
  all [shows 11 t "foo value bar baz";
       beq (fst (page listed d (Frame None GNil None) (zero, 0)))
           (B "<!DOCTYPE html>" ++ nl_ ++
            B "<html lang=""en""><head><meta charset=""utf-8""></head><body><p></p></body></html>");
       errs d] = true.
Proof. vm_compute. reflexivity. Qed.

(** html/generator_test.go and svg/generator_test.go: the tokens of the input,
    as the HTML tokenizer gives them (names in lower case, values decoded). *)
Definition lines_ (l : list string) : bytes := concat (map (fun s => B s ++ nl_) l).
Definition t_ (n : nat) (s : string) : string := String.append (string_of_list_ascii (repeat "009"%char n)) s.
Example html_generator_test_go :
  code html_dialect
    [GDoctype (B "html"); GComment (B " this is " ++ nl_ ++ B (t_ 2 "a ""comment"" "));
     GStart (B "html") [(B "lang", B "en""<"); (B "foo", B "bar"); (B "disabled", [])];
     GStart (B "body") []; GSelf (B "unknown") []; GSelf (B "unknown") [(B "unknown", B "foo")];
     GSelf (B "br") []; GStart (B "h1") [(B "class", B "foo")]; GText (B "Hello, World!");
     GEnd (B "h1"); GEnd (B "body"); GEnd (B "html")] =
  lines_ ["var template = aitch.Collection(";
          t_ 1 "html.PI(""DOCTYPE"", ""html""),";
          t_ 1 "html.Comment("" this is \n\t\ta \""comment\"" ""),";
          t_ 1 "html.Html(html.Lang(""en\""<""), aitch.Attribute(""foo"" ,""bar""), html.Disabled(),";
          t_ 2 "html.Body(";
          t_ 3 "aitch.Element(""unknown"", ),";
          t_ 3 "aitch.Element(""unknown"", aitch.Attribute(""unknown"" ,""foo"")),";
          t_ 3 "html.Br(),";
          t_ 3 "html.H1(html.Class(""foo""),";
          t_ 4 "html.Text(""Hello, World!""),";
          t_ 3 "),"; t_ 2 "),"; t_ 1 "),"; ")"; ""]%string.
Proof. vm_compute. reflexivity. Qed.

Example svg_generator_test_go :
  let ws n := GText (nl_ ++ repeat "009"%char n) in
  let stroke c := [(B "stroke", B c); (B "stroke-width", B "3")] in
  code svg_dialect
    [GStart (B "svg") [(B "width", B "200"); (B "height", B "200"); (B "viewbox", B "0 0 200 200");
                       (B "xmlns", B "http://www.w3.org/2000/svg")]; ws 1;
     GComment (B " comment "); ws 1;
     GStart (B "unknown") [(B "unknown", [])]; GText (B "text"); GEnd (B "unknown");
     GSelf (B "unknown") []; ws 1;
     GSelf (B "circle") ([(B "cx", B "100"); (B "cy", B "100"); (B "r", B "50")] ++ stroke "black"%string ++
                         [(B "fill", B "red")]); ws 1;
     GSelf (B "path") ([(B "d", B "M 50 150 Q 100 50, 150 150")] ++ stroke "blue"%string ++ [(B "fill", B "none")]);
     ws 0; GEnd (B "svg")] =
  lines_ ["var template = aitch.Collection(";
          t_ 1 "svg.Svg(svg.Width(""200""), svg.Height(""200""), aitch.Attribute(""viewbox"" ,""0 0 200 200""), aitch.Attribute(""xmlns"" ,""http://www.w3.org/2000/svg""),";
          t_ 2 "svg.Comment("" comment ""),";
          t_ 2 "aitch.Element(""unknown"", aitch.Attribute(""unknown"" ,""""),";
          t_ 3 "svg.Text(""text""),";
          t_ 2 "),";
          t_ 2 "aitch.Element(""unknown"", ),";
          t_ 2 "svg.Circle(svg.Cx(""100""), svg.Cy(""100""), svg.R(""50""), svg.Stroke(""black""), svg.StrokeWidth(""3""), svg.Fill(""red"")),";
          t_ 2 "svg.Path(svg.D(""M 50 150 Q 100 50, 150 150""), svg.Stroke(""blue""), svg.StrokeWidth(""3""), svg.Fill(""none"")),";
          t_ 1 "),"; ")"; ""]%string.
Proof. vm_compute. reflexivity. Qed.

(** ** README.md *)

Definition option_node : tnode := h "Option" [n_ (h "Value" [key "value"]); key "label"].
Definition select_of (n : tnode) : tnode := h "Div" [n_ (h "Select" [n_ n])].
Example readme :
  let incr : dynfn (@U tests) := fun c u => (format_int (Z.of_nat (S u)), S u) in
  let options := "<div><select><option value=""1"">First</option><option value=""2"">Second</option><option value=""3"">Third</option></select></div>"%string in
  all [(* 1 *)
       shows 0 (h "P" [s_ "This is a para"; n_ (h "Id" [i_ 1]); n_ (h "Class" [s_ "foo"]);
                       n_ (h "Br" []); s_ " >>> and this is more"; n_ (h "Id" [i_ 2]); n_ (h "Class" [s_ "bar"])])
             "<p id=""2"" class=""foo bar"">This is a para<br> &gt;&gt;&gt; and this is more</p>";
       (* 2 *)
       shows 16 (h "P" [s_ "Hello, "; key "name"; n_ (h "Class" [s_ "greeting"]); n_ (h "Class" [key "greeting-class"])])
             "<p class=""greeting admin"">Hello, Aitch!</p>";
       (* 3 *)
       shows 17 (coll [h "P" [s_ "First"; n_ (h "Id" [ADyn incr])]; h "P" [s_ "Second"; n_ (h "Id" [ADyn incr])];
                       h "P" [s_ "Third"; n_ (h "Id" [ADyn incr])]])
             "<p id=""1"">First</p><p id=""2"">Second</p><p id=""3"">Third</p>";
       (* 4 *)
       shows 18 (h "P" [s_ "Hello, "; key "username"; n_ (h "Class" [s_ "base"]); n_ (when "isAdmin" [h "Class" [s_ "admin"]])])
             "<p class=""base admin"">Hello, Aitch</p>";
       (* 5 *)
       shows 19 (select_of (imp (fun k =>
          fold_right (fun s k => start "option" false [] (IWriteRaw (B s) (IEnd k))) k ["First"; "Second"; "Third"]%string)))
             "<div><select><option>First</option><option>Second</option><option>Third</option></select></div>";
       (* 6 *)
       shows 20 (select_of (done (IterateKey (B "items") [Some option_node]))) options;
       (* 7 *)
       shows 0 (select_of (done (Iterate (Some (fun _ u => ([GMap 21; GMap 22; GMap 23], u))) [Some option_node]))) options;
       (* 8 *)
       shows 0 (select_of (done (IterateYield (Some (YYield (GMap 21) (YYield (GMap 22) (YYield (GMap 23) YRet))))
                 [Some (h "Option" [n_ (h "Value" [key "value"]); key "label"; n_ (when "selected" [h "Selected" []])])])))
             "<div><select><option value=""1"">First</option><option value=""2"" selected>Second</option><option value=""3"">Third</option></select></div>";
       (* 9 *)
       shows 0 (h "P" [s_ "Hello "; AData (GBytes (B "there ")); AData (GBool true); s_ " "; i_ 1; s_ " ";
                       AData (GFloat (B "1.2")); s_ " "; AData (GUint 3);
                       AData (GFunc (fun u => (GString (B " something"), u)));
                       n_ (h "Class" [AData (GBool true)]); n_ (h "Class" [i_ 1]); n_ (h "Class" [AData (GFloat (B "2.2"))])])
             "<p class=""true 1 2.2"">Hello there true 1 1.2 3 something</p>";
       (* 10 *)
       (let px := AVal (fst (fst (unit_call (B "px") [key "width"] (ASlice 0 1 1) zero))) in
        shows 24 (h "P" [n_ (css "Width" [px; s_ " !important"]); n_ (h "Style" [s_ "scrollbar-gutter: stable"]);
                         n_ (when "isAdmin" [css "BackgroundColor" [s_ "red"]]); s_ "My paragraph with inline-style"])
             "<p style=""width:10px !important; scrollbar-gutter: stable; background-color:red"">My paragraph with inline-style</p>");
       (* 11: in the order shown when the maps happen to be visited in this order *)
       shows 25 (h "Button" [n_ (h "Type" [s_ "button"]);
                             n_ (when "enabled" [hx "Get" [s_ "/action"]; hx "Trigger" [s_ "click"]; hx "Swap" [s_ "outerHTML"]]);
                             n_ (when "!enabled" [h "Disabled" []]); s_ "Click Me!"])
             "<button type=""button"" hx-get=""/action"" hx-trigger=""click"" hx-swap=""outerHTML"">Click Me!</button>"]
  = true.
Proof. vm_compute. reflexivity. Qed.

Example readme_template :
  executed
    [PText (B "<!DOCTYPE html>" ++ nl_ ++ B "<html "); PToken true (B "lang"); PText (B ">" ++ nl_ ++ B "<head>" ++ nl_);
     PToken false (B "headers"); PText (nl_ ++ B "</head>" ++ nl_ ++ B "<body>" ++ nl_); PToken false (B "body");
     PText (nl_ ++ B "</body>" ++ nl_ ++ B "</html>")]
    [(B "lang", Some (h "Lang" [key "lang"]));
     (B "headers", Some (coll [h "Meta" [n_ (h "Charset" [s_ "utf-8"])]; h "TitleElement" [key "title"]]));
     (B "body", Some (coll [h "P" [s_ "Hello, "; key "username"]]))] 26
  = Some (None,
     B "<!DOCTYPE html>" ++ nl_ ++ B "<html  lang=""en"">" ++ nl_ ++ B "<head>" ++ nl_ ++
     B "<meta charset=""utf-8""><title>Test rendered</title>" ++ nl_ ++ B "</head>" ++ nl_ ++ B "<body>" ++ nl_ ++
     B "<p>Hello, Aitch</p>" ++ nl_ ++ B "</body>" ++ nl_ ++ B "</html>").
Proof. vm_compute. reflexivity. Qed.

(** The assertions about Type and Name in attribute_test.go, collection_test.go,
    comment_test.go, conditional_test.go, element_test.go, fragment_test.go,
    imperative_test.go, iterate_test.go, pi_test.go, text_test.go and
    html/document_test.go. *)
Definition says (n : tnode) (t : node_type) (name : string) : Prop := type_of n = t /\ name_of n = B name.
Example accessor_tests :
  says (fst (NewAttribute (B "foo") [] zero)) AttributeNode "foo" /\
  says (NewBooleanAttribute (B "foo")) AttributeNode "foo" /\
  says (fst (NewDelimitedAttribute (B "foo") (B " ") [] zero)) AttributeNode "foo" /\
  says (Collection []) CollectionNode "#collection" /\
  says (ContentCollect None) CollectionNode "#collection" /\
  says (ContentCollect (Some (fun _ u => ([], u)))) DynamicNode "#collector" /\
  says (fst (Comment [] zero)) CommentNode "#comment" /\
  says (when "foo" []) ConditionalNode "#conditional" /\
  says (fst (NewElement (B "foo") [] zero)) ElementNode "foo" /\
  says (fst (NewVoidElement (B "meta") [] zero)) ElementNode "meta" /\
  says (fst (Fragment [] zero)) FragmentNode "#fragment" /\
  says (Imperative None) ImperativeNode "!imperative" /\
  says (NIter (fun _ u => ([], u)) []) IteratorNode "!iterator" /\
  says (NYield YRet []) IteratorNode "!yield_iterator" /\
  says (fst (PI (B "doctype") [] zero)) PINode "!doctype" /\
  says (fst (DocType zero)) PINode "!DOCTYPE" /\
  says (fst (Text [] zero)) TextNode "#text" /\
  says (fst (Document (AData GNil) [] [] zero)) DocumentNode "#document".
Proof. repeat split. Qed.
