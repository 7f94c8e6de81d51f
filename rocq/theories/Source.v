(** GENERATED by tools/go2rocq.py from the Go files of the rendering core; do
    not edit.  One definition per Go function, in the syntax of [GoSyntax.v];
    the meaning of the trees is defined in [GoSem.v].  Left out: nothing. *)
From Coq Require Import ZArith.
From Verif Require Import Bytes GoSyntax SourceLib.
Open Scope string_scope.
Open Scope Z_scope.
Open Scope list_scope.

(** context/context.go:23 *)
Definition f_context_New : fundecl :=
  (Fun ["writer"; "data"; "cargo"] false []
    (SBlock [(SReturn [(ELit true "Context" [("Data", (ELoc "data")); ("Cargo", (ELoc "cargo")); ("Writer", (ELoc "writer"))])])])).

(** context/context.go:32 *)
Definition m_Context_Write : fundecl :=
  (Fun ["c"; "data"] false []
    (SBlock [(SIf None (EBin OEq (EField (ELoc "c") "Error") ENil)
     (SBlock [(SAssign [LBlank; (LField (ELoc "c") "Error")] [(EMethod (EField (ELoc "c") "Writer") "Write" [(ELoc "data")] false)])])
     SSkip)])).

(** context/context.go:43 *)
Definition f_context_Get : fundecl :=
  (Fun ["ctx"; "key"] false []
    (SBlock [(SVar "zero" "T");
     (SIf None (EBin OEq (ELoc "ctx") ENil)
     (SBlock [(SReturn [(ELoc "zero"); (EBool false)])])
     SSkip);
     (SIf None (EBin ONe (EField (ELoc "ctx") "Data") ENil)
     (SBlock [(SIf (Some (SDefine ["val"; "ok"] [(EIndex (EField (ELoc "ctx") "Data") (ELoc "key"))])) (ELoc "ok")
     (SBlock [(SIf (Some (SDefine ["typed"; "ok"] [(EAssert (ELoc "val") "T")])) (ELoc "ok")
     (SBlock [(SReturn [(ELoc "typed"); (EBool true)])])
     SSkip)])
     SSkip)])
     SSkip);
     (SIf None (EBin ONe (EField (ELoc "ctx") "Cargo") ENil)
     (SBlock [(SDefine ["v"] [(ECall (EExt "reflect.ValueOf") [(EField (ELoc "ctx") "Cargo")] false)]);
     (SIf None (EBin OEq (EMethod (ELoc "v") "Kind" [] false) (EExt "reflect.Ptr"))
     (SBlock [(SAssign [(LLoc "v")] [(EMethod (ELoc "v") "Elem" [] false)])])
     SSkip);
     (SSwitch (EMethod (ELoc "v") "Kind" [] false) [([(EExt "reflect.Map")], (SBlock [(SIf None (EBin OEq (EMethod (EMethod (EMethod (ELoc "v") "Type" [] false) "Key" [] false) "Kind" [] false) (EExt "reflect.String"))
     (SBlock [(SIf (Some (SDefine ["val"] [(EMethod (ELoc "v") "MapIndex" [(ECall (EExt "reflect.ValueOf") [(ELoc "key")] false)] false)])) (EMethod (ELoc "val") "IsValid" [] false)
     (SBlock [(SIf (Some (SDefine ["typed"; "ok"] [(EAssert (EMethod (ELoc "val") "Interface" [] false) "T")])) (ELoc "ok")
     (SBlock [(SReturn [(ELoc "typed"); (EBool true)])])
     SSkip)])
     SSkip)])
     SSkip)])); ([(EExt "reflect.Struct")], (SBlock [(SIf (Some (SDefine ["f"; "ok"] [(EMethod (EMethod (ELoc "v") "Type" [] false) "FieldByName" [(ELoc "key")] false)])) (ELoc "ok")
     (SBlock [(SIf (Some (SDefine ["val"] [(EMethod (ELoc "v") "FieldByIndex" [(EField (ELoc "f") "Index")] false)])) (EMethod (ELoc "val") "IsValid" [] false)
     (SBlock [(SIf (Some (SDefine ["typed"; "ok"] [(EAssert (EMethod (ELoc "val") "Interface" [] false) "T")])) (ELoc "ok")
     (SBlock [(SReturn [(ELoc "typed"); (EBool true)])])
     SSkip)])
     SSkip)])
     SSkip)]))] SSkip)])
     SSkip);
     (SReturn [(ELoc "zero"); (EBool false)])])).

(** context/context.go:83 *)
Definition f_context_MustGet : fundecl :=
  (Fun ["ctx"; "key"] false []
    (SBlock [(SIf (Some (SDefine ["val"; "ok"] [(ECall (EFun "context.Get") [(ELoc "ctx"); (ELoc "key")] false)])) (ENot (ELoc "ok"))
     (SBlock [(SExpr (ECall (EExt "panic") [(ECall (EExt "fmt.Sprintf") [(EStr (B "missing or invalid context data for key %q")); (ELoc "key")] false)] false))])
     (SBlock [(SReturn [(ELoc "val")])]))])).

(** value.go:22 *)
Definition f_aitch_NewValue : fundecl :=
  (Fun ["value"] false []
    (SBlock [(SIf (Some (SDefine ["values"] [(ECall (EFun "aitch.newValue") [(ELoc "value")] false)])) (EBin OEq (ECall (EExt "len") [(ELoc "values")] false) (EInt 1))
     (SBlock [(SReturn [(EIndex (ELoc "values") (EInt 0))])])
     (SBlock [(SReturn [(ELit false "Value" [("value", ENil); ("dynamicFunc", ENil); ("concats", (ELoc "values"))])])]))])).

(** value.go:31 *)
Definition f_aitch_NewConcatValue : fundecl :=
  (Fun ["values"] true []
    (SBlock [(SReturn [(ELit false "Value" [("value", ENil); ("dynamicFunc", ENil); ("concats", (ECall (EFun "aitch.newValues") [(ELoc "values")] true))])])])).

(** value.go:35 *)
Definition m_Value_render : fundecl :=
  (Fun ["v"; "ctx"] false []
    (SBlock [(SVar "l" "int");
     (SIf None (EBin ONe (EField (ELoc "v") "dynamicFunc") ENil)
     (SBlock [(SDefine ["data"] [(EMethod (ELoc "v") "dynamicFunc" [(ELoc "ctx")] false)]);
     (SAssign [(LLoc "l"); (LField (ELoc "ctx") "Error")] [(EMethod (EField (ELoc "ctx") "Writer") "Write" [(ELoc "data")] false)])])
     (SIf None (EBin OGt (ECall (EExt "len") [(EField (ELoc "v") "concats")] false) (EInt 0))
     (SBlock [(SVar "written" "bool");
     (SRange "_" "concat" (EField (ELoc "v") "concats")
     (SBlock [(SIf (Some (SAssign [(LLoc "written"); (LField (ELoc "ctx") "Error")] [(EMethod (ELoc "concat") "render" [(ELoc "ctx")] false)])) (ELoc "written")
     (SBlock [(SAssign [(LLoc "l")] [(EBin OAdd (ELoc "l") (EInt 1))])])
     SSkip)]))])
     (SBlock [(SAssign [(LLoc "l"); (LField (ELoc "ctx") "Error")] [(EMethod (EField (ELoc "ctx") "Writer") "Write" [(EField (ELoc "v") "value")] false)])])));
     (SReturn [(EBin OGt (ELoc "l") (EInt 0)); (EField (ELoc "ctx") "Error")])])).

(** value.go:66 *)
Definition f_aitch_newValues : fundecl :=
  (Fun ["contents"] true [("result", "[]Value")]
    (SBlock [(SAssign [(LLoc "result")] [(EMake "[]Value" [(EInt 0); (ECall (EExt "len") [(ELoc "contents")] false)])]);
     (SRange "_" "v" (ELoc "contents")
     (SBlock [(SIf None (EBin ONe (ELoc "v") ENil)
     (SBlock [(SAssign [(LLoc "result")] [(ECall (EExt "append") [(ELoc "result"); (ECall (EFun "aitch.newValue") [(ELoc "v")] false)] true)])])
     SSkip)]));
     (SReturn [(ELoc "result")])])).

(** value.go:76 *)
Definition f_aitch_newValue : fundecl :=
  (Fun ["v"] false []
    (SBlock [(SIf None (EBin OEq (ELoc "v") ENil)
     (SBlock [(SReturn [ENil])])
     SSkip);
     (STypeSwitch "vt" (ELoc "v") [("Value", (SBlock [(SReturn [(ESliceLit "[]Value" [(ELoc "vt")])])]));
     ("DynamicValueFunc", (SBlock [(SReturn [(ESliceLit "[]Value" [(ELit false "Value" [("value", ENil); ("dynamicFunc", (ELoc "vt")); ("concats", ENil)])])])]));
     ("func(*Context) []byte", (SBlock [(SReturn [(ESliceLit "[]Value" [(ELit false "Value" [("value", ENil); ("dynamicFunc", (ELoc "vt")); ("concats", ENil)])])])]));
     ("DynamicValueKey", (SBlock [(SIf None (EBin OEq (ELoc "vt") (EStr (B ".")))
     (SBlock [(SReturn [(ESliceLit "[]Value" [(ELit false "Value" [("value", ENil); ("dynamicFunc", (EClosure (Fun ["ctx"] false [("result", "[]byte")]
    (SBlock [(SIf None (EBin ONe (ELoc "ctx") ENil)
     (SBlock [(SAssign [(LLoc "result")] [(ECall (EFun "aitch.valueToBytes") [(EField (ELoc "ctx") "Cargo")] false)])])
     SSkip);
     (SReturn [(ELoc "result")])])))); ("concats", ENil)])])])])
     SSkip);
     (SReturn [(ESliceLit "[]Value" [(ELit false "Value" [("value", ENil); ("dynamicFunc", (EClosure (Fun ["ctx"] false []
    (SBlock [(SIf None (EBin ONe (ELoc "ctx") ENil)
     (SBlock [(SIf (Some (SDefine ["dv"; "ok"] [(EIndex (EField (ELoc "ctx") "Data") (EConv "string" (ELoc "vt")))])) (ELoc "ok")
     (SBlock [(SReturn [(ECall (EFun "aitch.valueToBytes") [(ELoc "dv")] false)])])
     SSkip)])
     SSkip);
     (SReturn [ENil])])))); ("concats", ENil)])])])]));
     ("valuesNode", (SBlock [(SReturn [(EMethod (ELoc "vt") "getValues" [] false)])]));
     ("Node", (SBlock [(SSwitch (EMethod (ELoc "vt") "Type" [] false) [([(EInt 7)], (SBlock [(SIf (Some (SDefine ["cn"; "ok"] [(EAssert (ELoc "vt") "*collection")])) (ELoc "ok")
     (SBlock [(SDefine ["result"] [(EMake "[]Value" [(EInt 0); (ECall (EExt "len") [(EField (ELoc "cn") "nodes")] false)])]);
     (SRange "_" "node" (EField (ELoc "cn") "nodes")
     (SBlock [(SAssign [(LLoc "result")] [(ECall (EExt "append") [(ELoc "result"); (ECall (EFun "aitch.newValue") [(ELoc "node")] false)] true)])]));
     (SReturn [(ELoc "result")])])
     SSkip)]))] SSkip);
     (SReturn [ENil])]))]
     (SBlock [(SReturn [(ESliceLit "[]Value" [(ELit false "Value" [("value", (ECall (EFun "aitch.valueToBytes") [(ELoc "v")] false)); ("dynamicFunc", ENil); ("concats", ENil)])])])]))])).

(** value.go:123 *)
Definition f_aitch_valueToBytes : fundecl :=
  (Fun ["v"] false []
    (SBlock [(STypeSwitch "vt" (ELoc "v") [("bool", (SBlock [(SIf None (ELoc "vt")
     (SBlock [(SReturn [(EGlob "aitch.fixedTrue")])])
     (SBlock [(SReturn [(EGlob "aitch.fixedFalse")])]))]));
     ("[]byte", (SBlock [(SReturn [(ELoc "vt")])]));
     ("string", (SBlock [(SReturn [(ECall (EFun "aitch.htmlEscapeString") [(ELoc "vt")] false)])]));
     ("int", (SBlock [(SReturn [(EConv "[]byte" (ECall (EExt "strconv.FormatInt") [(EConv "int64" (ELoc "vt")); (EInt 10)] false))])]));
     ("int8", (SBlock [(SReturn [(EConv "[]byte" (ECall (EExt "strconv.FormatInt") [(EConv "int64" (ELoc "vt")); (EInt 10)] false))])]));
     ("int16", (SBlock [(SReturn [(EConv "[]byte" (ECall (EExt "strconv.FormatInt") [(EConv "int64" (ELoc "vt")); (EInt 10)] false))])]));
     ("int32", (SBlock [(SReturn [(EConv "[]byte" (ECall (EExt "strconv.FormatInt") [(EConv "int64" (ELoc "vt")); (EInt 10)] false))])]));
     ("int64", (SBlock [(SReturn [(EConv "[]byte" (ECall (EExt "strconv.FormatInt") [(ELoc "vt"); (EInt 10)] false))])]));
     ("uint", (SBlock [(SReturn [(EConv "[]byte" (ECall (EExt "strconv.FormatUint") [(EConv "uint64" (ELoc "vt")); (EInt 10)] false))])]));
     ("uint8", (SBlock [(SReturn [(EConv "[]byte" (ECall (EExt "strconv.FormatUint") [(EConv "uint64" (ELoc "vt")); (EInt 10)] false))])]));
     ("uint16", (SBlock [(SReturn [(EConv "[]byte" (ECall (EExt "strconv.FormatUint") [(EConv "uint64" (ELoc "vt")); (EInt 10)] false))])]));
     ("uint32", (SBlock [(SReturn [(EConv "[]byte" (ECall (EExt "strconv.FormatUint") [(EConv "uint64" (ELoc "vt")); (EInt 10)] false))])]));
     ("uint64", (SBlock [(SReturn [(EConv "[]byte" (ECall (EExt "strconv.FormatUint") [(ELoc "vt"); (EInt 10)] false))])]));
     ("float32", (SBlock [(SReturn [(EConv "[]byte" (ECall (EExt "strconv.FormatFloat") [(EConv "float64" (ELoc "vt")); (EInt 103); (EInt (-1)); (EInt 32)] false))])]));
     ("float64", (SBlock [(SReturn [(EConv "[]byte" (ECall (EExt "strconv.FormatFloat") [(ELoc "vt"); (EInt 103); (EInt (-1)); (EInt 64)] false))])]));
     ("fmt.Stringer", (SBlock [(SReturn [(EConv "[]byte" (EMethod (ELoc "vt") "String" [] false))])]));
     ("func() any", (SBlock [(SReturn [(ECall (EFun "aitch.valueToBytes") [(ECall (ELoc "vt") [] false)] false)])]))]
     SSkip);
     (SReturn [ENil])])).

(** value.go:176 *)
Definition f_aitch_htmlEscapeString : fundecl :=
  (Fun ["s"] false []
    (SBlock [(SIf None (ENot (ECall (EExt "strings.ContainsAny") [(ELoc "s"); (EStr [ascii_of_nat 39; ascii_of_nat 34; ascii_of_nat 38; ascii_of_nat 60; ascii_of_nat 62; ascii_of_nat 0])] false))
     (SBlock [(SReturn [(EConv "[]byte" (ELoc "s"))])])
     SSkip);
     (SDefine ["sb"] [(EConv "[]byte" (ELoc "s"))]);
     (SVar "b" "bytes.Buffer");
     (SDefine ["last"] [(EInt 0)]);
     (SRange "i" "c" (ELoc "sb")
     (SBlock [(SVar "html" "[]byte");
     (SSwitch (ELoc "c") [([(EInt 0)], (SBlock [(SAssign [(LLoc "html")] [(EGlob "aitch.htmlNull")])])); ([(EInt 34)], (SBlock [(SAssign [(LLoc "html")] [(EGlob "aitch.htmlQuot")])])); ([(EInt 39)], (SBlock [(SAssign [(LLoc "html")] [(EGlob "aitch.htmlApos")])])); ([(EInt 38)], (SBlock [(SAssign [(LLoc "html")] [(EGlob "aitch.htmlAmp")])])); ([(EInt 60)], (SBlock [(SAssign [(LLoc "html")] [(EGlob "aitch.htmlLt")])])); ([(EInt 62)], (SBlock [(SAssign [(LLoc "html")] [(EGlob "aitch.htmlGt")])]))] (SBlock [SContinue]));
     (SAssign [LBlank; LBlank] [(EMethod (ELoc "b") "Write" [(ESub (ELoc "sb") (Some (ELoc "last")) (Some (ELoc "i")))] false)]);
     (SAssign [LBlank; LBlank] [(EMethod (ELoc "b") "Write" [(ELoc "html")] false)]);
     (SAssign [(LLoc "last")] [(EBin OAdd (ELoc "i") (EInt 1))])]));
     (SAssign [LBlank; LBlank] [(EMethod (ELoc "b") "Write" [(ESub (ELoc "sb") (Some (ELoc "last")) None)] false)]);
     (SReturn [(EMethod (ELoc "b") "Bytes" [] false)])])).

(** attribute.go:15 *)
Definition m_attribute_Render : fundecl :=
  (Fun ["a"; "ctx"] false []
    (SBlock [(SExpr (EMethod (ELoc "ctx") "Write" [(EGlob "aitch.space")] false));
     (SExpr (EMethod (ELoc "ctx") "Write" [(EField (ELoc "a") "name")] false));
     (SExpr (EMethod (ELoc "ctx") "Write" [(EGlob "aitch.attStart")] false));
     (SRange "_" "v" (EField (ELoc "a") "values")
     (SBlock [(SAssign [LBlank; LBlank] [(EMethod (ELoc "v") "render" [(ELoc "ctx")] false)])]));
     (SExpr (EMethod (ELoc "ctx") "Write" [(EGlob "aitch.attEnd")] false));
     (SReturn [(EField (ELoc "ctx") "Error")])])).

(** attribute.go:26 *)
Definition m_attribute_Type : fundecl :=
  (Fun ["a"] false []
    (SBlock [(SReturn [(EInt 1)])])).

(** attribute.go:30 *)
Definition m_attribute_Name : fundecl :=
  (Fun ["a"] false []
    (SBlock [(SReturn [(EConv "string" (EField (ELoc "a") "name"))])])).

(** attribute.go:34 *)
Definition m_attribute_getValues : fundecl :=
  (Fun ["a"] false []
    (SBlock [(SReturn [(EField (ELoc "a") "values")])])).

(** attribute.go:42 *)
Definition f_aitch_Attribute : fundecl :=
  (Fun ["name"; "values"] true []
    (SBlock [(SIf None (EMethod (EGlob "aitch.htmlTagRegex") "MatchString" [(ELoc "name")] false)
     (SBlock [(SReturn [(ECall (EFun "aitch.NewAttribute") [(EConv "[]byte" (ELoc "name")); (ELoc "values")] true)])])
     (SIf None (EGlob "aitch.PanicOnInvalidName")
     (SBlock [(SExpr (ECall (EExt "panic") [(EBin OAdd (EStr (B "invalid html attribute name: ")) (ELoc "name"))] false))])
     SSkip));
     (SReturn [ENil])])).

(** attribute.go:51 *)
Definition f_aitch_NewAttribute : fundecl :=
  (Fun ["name"; "values"] true []
    (SBlock [(SReturn [(ELit true "attribute" [("name", (ELoc "name")); ("values", (ECall (EFun "aitch.newValues") [(ELoc "values")] true))])])])).

(** attribute.go:64 *)
Definition m_booleanAttribute_Render : fundecl :=
  (Fun ["a"; "ctx"] false []
    (SBlock [(SExpr (EMethod (ELoc "ctx") "Write" [(EGlob "aitch.space")] false));
     (SExpr (EMethod (ELoc "ctx") "Write" [(EField (ELoc "a") "name")] false));
     (SReturn [(EField (ELoc "ctx") "Error")])])).

(** attribute.go:70 *)
Definition m_booleanAttribute_Type : fundecl :=
  (Fun ["a"] false []
    (SBlock [(SReturn [(EInt 1)])])).

(** attribute.go:74 *)
Definition m_booleanAttribute_Name : fundecl :=
  (Fun ["a"] false []
    (SBlock [(SReturn [(EConv "string" (EField (ELoc "a") "name"))])])).

(** attribute.go:84 *)
Definition f_aitch_BooleanAttribute : fundecl :=
  (Fun ["name"] false []
    (SBlock [(SIf None (EMethod (EGlob "aitch.htmlTagRegex") "MatchString" [(ELoc "name")] false)
     (SBlock [(SReturn [(ECall (EFun "aitch.NewBooleanAttribute") [(EConv "[]byte" (ELoc "name"))] false)])])
     (SIf None (EGlob "aitch.PanicOnInvalidName")
     (SBlock [(SExpr (ECall (EExt "panic") [(EBin OAdd (EStr (B "invalid html attribute name: ")) (ELoc "name"))] false))])
     SSkip));
     (SReturn [ENil])])).

(** attribute.go:93 *)
Definition f_aitch_NewBooleanAttribute : fundecl :=
  (Fun ["name"] false []
    (SBlock [(SReturn [(ELit true "booleanAttribute" [("name", (ELoc "name"))])])])).

(** attribute.go:108 *)
Definition m_delimitedAttribute_Render : fundecl :=
  (Fun ["a"; "ctx"] false []
    (SBlock [(SExpr (EMethod (ELoc "ctx") "Write" [(EGlob "aitch.space")] false));
     (SExpr (EMethod (ELoc "ctx") "Write" [(EField (ELoc "a") "name")] false));
     (SExpr (EMethod (ELoc "ctx") "Write" [(EGlob "aitch.attStart")] false));
     (SDefine ["something"] [(EBool false)]);
     (SRange "_" "v" (EField (ELoc "a") "values")
     (SBlock [(SIf None (ELoc "something")
     (SBlock [(SExpr (EMethod (ELoc "ctx") "Write" [(EField (ELoc "a") "delimiter")] false))])
     SSkip);
     (SAssign [(LLoc "something"); LBlank] [(EMethod (ELoc "v") "render" [(ELoc "ctx")] false)])]));
     (SExpr (EMethod (ELoc "ctx") "Write" [(EGlob "aitch.attEnd")] false));
     (SReturn [(EField (ELoc "ctx") "Error")])])).

(** attribute.go:123 *)
Definition m_delimitedAttribute_Type : fundecl :=
  (Fun ["a"] false []
    (SBlock [(SReturn [(EInt 1)])])).

(** attribute.go:127 *)
Definition m_delimitedAttribute_Name : fundecl :=
  (Fun ["a"] false []
    (SBlock [(SReturn [(EConv "string" (EField (ELoc "a") "name"))])])).

(** attribute.go:131 *)
Definition m_delimitedAttribute_getValues : fundecl :=
  (Fun ["a"] false []
    (SBlock [(SReturn [(EField (ELoc "a") "values")])])).

(** attribute.go:144 *)
Definition f_aitch_DelimitedAttribute : fundecl :=
  (Fun ["name"; "delimiter"; "values"] true []
    (SBlock [(SIf None (EMethod (EGlob "aitch.htmlTagRegex") "MatchString" [(ELoc "name")] false)
     (SBlock [(SReturn [(ECall (EFun "aitch.NewDelimitedAttribute") [(EConv "[]byte" (ELoc "name")); (EConv "[]byte" (ELoc "delimiter")); (ELoc "values")] true)])])
     (SIf None (EGlob "aitch.PanicOnInvalidName")
     (SBlock [(SExpr (ECall (EExt "panic") [(EBin OAdd (EStr (B "invalid html attribute name: ")) (ELoc "name"))] false))])
     SSkip));
     (SReturn [ENil])])).

(** attribute.go:153 *)
Definition f_aitch_NewDelimitedAttribute : fundecl :=
  (Fun ["name"; "delimiter"; "values"] true []
    (SBlock [(SDefine ["result"] [(ELit true "delimitedAttribute" [("name", (ELoc "name")); ("delimiter", (ELoc "delimiter")); ("values", (EMake "[]Value" [(EInt 0); (ECall (EExt "len") [(ELoc "values")] false)]))])]);
     (SRange "_" "v" (ELoc "values")
     (SBlock [(SIf None (EBin ONe (ELoc "v") ENil)
     (SBlock [(SAssign [(LField (ELoc "result") "values")] [(ECall (EExt "append") [(EField (ELoc "result") "values"); (ECall (EFun "aitch.newValue") [(ELoc "v")] false)] true)])])
     SSkip)]));
     (SReturn [(ELoc "result")])])).

(** collection.go:11 *)
Definition m_collection_Render : fundecl :=
  (Fun ["c"; "ctx"] false []
    (SBlock [(SRange "_" "n" (EField (ELoc "c") "nodes")
     (SBlock [(SIf None (EBin ONe (EMethod (ELoc "n") "Type" [] false) (EInt 1))
     (SBlock [(SIf (Some (SAssign [(LField (ELoc "ctx") "Error")] [(EMethod (ELoc "n") "Render" [(ELoc "ctx")] false)])) (EBin ONe (EField (ELoc "ctx") "Error") ENil)
     (SBlock [(SReturn [(EField (ELoc "ctx") "Error")])])
     SSkip)])
     SSkip)]));
     (SReturn [(EField (ELoc "ctx") "Error")])])).

(** collection.go:22 *)
Definition m_collection_Type : fundecl :=
  (Fun ["c"] false []
    (SBlock [(SReturn [(EInt 7)])])).

(** collection.go:26 *)
Definition m_collection_Name : fundecl :=
  (Fun ["c"] false []
    (SBlock [(SReturn [(EStr (B "#collection"))])])).

(** collection.go:31 *)
Definition f_aitch_Collection : fundecl :=
  (Fun ["nodes"] true []
    (SBlock [(SDefine ["result"] [(ELit true "collection" [("nodes", (EMake "[]Node" [(EInt 0); (ECall (EExt "len") [(ELoc "nodes")] false)]))])]);
     (SRange "_" "n" (ELoc "nodes")
     (SBlock [(SIf None (EBin ONe (ELoc "n") ENil)
     (SBlock [(SAssign [(LField (ELoc "result") "nodes")] [(ECall (EExt "append") [(EField (ELoc "result") "nodes"); (ELoc "n")] false)])])
     SSkip)]));
     (SReturn [(ELoc "result")])])).

(** collection.go:47 *)
Definition m_contentCollector_Render : fundecl :=
  (Fun ["c"; "ctx"] false []
    (SBlock [(SRange "_" "n" (EMethod (ELoc "c") "collector" [(ELoc "ctx")] false)
     (SBlock [(SIf None (EAnd (EBin ONe (ELoc "n") ENil) (EBin ONe (EMethod (ELoc "n") "Type" [] false) (EInt 1)))
     (SBlock [(SAssign [LBlank] [(EMethod (ELoc "n") "Render" [(ELoc "ctx")] false)])])
     SSkip)]));
     (SReturn [(EField (ELoc "ctx") "Error")])])).

(** collection.go:56 *)
Definition m_contentCollector_Type : fundecl :=
  (Fun ["c"] false []
    (SBlock [(SReturn [(EInt 9)])])).

(** collection.go:60 *)
Definition m_contentCollector_Name : fundecl :=
  (Fun ["c"] false []
    (SBlock [(SReturn [(EStr (B "#collector"))])])).

(** collection.go:71 *)
Definition f_aitch_ContentCollect : fundecl :=
  (Fun ["collector"] false []
    (SBlock [(SIf None (EBin OEq (ELoc "collector") ENil)
     (SBlock [(SReturn [(ELit true "collection" [])])])
     SSkip);
     (SReturn [(ELit true "contentCollector" [("collector", (ELoc "collector"))])])])).

(** comment.go:14 *)
Definition m_comment_Render : fundecl :=
  (Fun ["c"; "ctx"] false []
    (SBlock [(SExpr (EMethod (ELoc "ctx") "Write" [(EGlob "aitch.openComment")] false));
     (SRange "_" "v" (EField (ELoc "c") "values")
     (SBlock [(SAssign [LBlank; LBlank] [(EMethod (ELoc "v") "render" [(ELoc "ctx")] false)])]));
     (SExpr (EMethod (ELoc "ctx") "Write" [(EGlob "aitch.closeComment")] false));
     (SReturn [(EField (ELoc "ctx") "Error")])])).

(** comment.go:23 *)
Definition m_comment_Type : fundecl :=
  (Fun ["c"] false []
    (SBlock [(SReturn [(EInt 3)])])).

(** comment.go:27 *)
Definition m_comment_Name : fundecl :=
  (Fun ["c"] false []
    (SBlock [(SReturn [(EStr (B "#comment"))])])).

(** comment.go:31 *)
Definition m_comment_getValues : fundecl :=
  (Fun ["c"] false []
    (SBlock [(SReturn [(EField (ELoc "c") "values")])])).

(** comment.go:36 *)
Definition f_aitch_Comment : fundecl :=
  (Fun ["contents"] true []
    (SBlock [(SReturn [(ELit true "comment" [("values", (ECall (EFun "aitch.newValues") [(ELoc "contents")] true))])])])).

(** conditional.go:21 *)
Definition m_conditionalAttribute_evaluate : fundecl :=
  (Fun ["a"; "ctx"] false []
    (SBlock [(SRange "_" "condition" (EField (ELoc "a") "conditions")
     (SBlock [(SIf None (ENot (ECall (ELoc "condition") [(ELoc "ctx")] false))
     (SBlock [(SReturn [(EBool false)])])
     SSkip)]));
     (SReturn [(EBool true)])])).

(** conditional.go:32 *)
Definition m_conditionalAttributes_evaluate : fundecl :=
  (Fun ["c"; "ctx"] false []
    (SBlock [(SDefine ["result"] [(EMake "map[string][]Node" [(ECall (EExt "len") [(ELoc "c")] false)])]);
     (SRange "_" "a" (ELoc "c")
     (SBlock [(SIf None (EMethod (ELoc "a") "evaluate" [(ELoc "ctx")] false)
     (SBlock [(SDefine ["name"] [(EMethod (EField (ELoc "a") "attribute") "Name" [] false)]);
     (SAssign [(LIndex (ELoc "result") (ELoc "name"))] [(ECall (EExt "append") [(EIndex (ELoc "result") (ELoc "name")); (EField (ELoc "a") "attribute")] false)])])
     SSkip)]));
     (SReturn [(ELoc "result")])])).

(** conditional.go:43 *)
Definition m_conditional_Render : fundecl :=
  (Fun ["c"; "ctx"] false []
    (SBlock [(SIf None (EMethod (ELoc "c") "fn" [(ELoc "ctx")] false)
     (SBlock [(SRange "_" "n" (EField (ELoc "c") "nodes")
     (SBlock [(SIf (Some (SAssign [(LField (ELoc "ctx") "Error")] [(EMethod (ELoc "n") "Render" [(ELoc "ctx")] false)])) (EBin ONe (EField (ELoc "ctx") "Error") ENil)
     (SBlock [SBreak])
     SSkip)]))])
     SSkip);
     (SReturn [(EField (ELoc "ctx") "Error")])])).

(** conditional.go:54 *)
Definition m_conditional_Type : fundecl :=
  (Fun ["c"] false []
    (SBlock [(SReturn [(EInt 8)])])).

(** conditional.go:58 *)
Definition m_conditional_Name : fundecl :=
  (Fun ["c"] false []
    (SBlock [(SReturn [(EStr (B "#conditional"))])])).

(** conditional.go:65 *)
Definition f_aitch_Conditional : fundecl :=
  (Fun ["fn"; "nodes"] true []
    (SBlock [(SIf None (EBin OEq (ELoc "fn") ENil)
     (SBlock [(SReturn [(ECall (EFun "aitch.Collection") [(ELoc "nodes")] true)])])
     SSkip);
     (SDefine ["result"] [(ELit true "conditional" [("nodes", (EMake "[]Node" [(EInt 0); (ECall (EExt "len") [(ELoc "nodes")] false)])); ("attributes", (EMake "[]Node" [(EInt 0); (ECall (EExt "len") [(ELoc "nodes")] false)])); ("fn", (ELoc "fn"))])]);
     (SRange "_" "n" (ELoc "nodes")
     (SBlock [(SIf None (EBin OEq (EMethod (ELoc "n") "Type" [] false) (EInt 1))
     (SBlock [(SAssign [(LField (ELoc "result") "attributes")] [(ECall (EExt "append") [(EField (ELoc "result") "attributes"); (ELoc "n")] false)])])
     (SBlock [(SAssign [(LField (ELoc "result") "nodes")] [(ECall (EExt "append") [(EField (ELoc "result") "nodes"); (ELoc "n")] false)])]))]));
     (SReturn [(ELoc "result")])])).

(** conditional.go:89 *)
Definition f_aitch_When : fundecl :=
  (Fun ["key"; "nodes"] true []
    (SBlock [(SIf None (ECall (EExt "strings.HasPrefix") [(EConv "string" (ELoc "key")); (EStr (B "!"))] false)
     (SBlock [(SAssign [(LLoc "key")] [(ESub (ELoc "key") (Some (EInt 1)) None)]);
     (SReturn [(ECall (EFun "aitch.Conditional") [(EClosure (Fun ["ctx"] false []
    (SBlock [(SIf (Some (SDefine ["v"; "ok"] [(EIndex (EField (ELoc "ctx") "Data") (EConv "string" (ELoc "key")))])) (ELoc "ok")
     (SBlock [(SIf (Some (SDefine ["b"; "ok"] [(EAssert (ELoc "v") "bool")])) (ELoc "ok")
     (SBlock [(SReturn [(ENot (ELoc "b"))])])
     SSkip);
     (SReturn [(EBool false)])])
     SSkip);
     (SReturn [(EBool true)])]))); (ELoc "nodes")] true)])])
     SSkip);
     (SReturn [(ECall (EFun "aitch.Conditional") [(EClosure (Fun ["ctx"] false []
    (SBlock [(SIf (Some (SDefine ["v"; "ok"] [(EIndex (EField (ELoc "ctx") "Data") (EConv "string" (ELoc "key")))])) (ELoc "ok")
     (SBlock [(SIf (Some (SDefine ["b"; "ok"] [(EAssert (ELoc "v") "bool")])) (ELoc "ok")
     (SBlock [(SReturn [(ELoc "b")])])
     SSkip);
     (SReturn [(EBool true)])])
     SSkip);
     (SReturn [(EBool false)])]))); (ELoc "nodes")] true)])])).

(** element.go:7 *)
Definition f_aitch_renderAttributes : fundecl :=
  (Fun ["ctx"; "attributes"; "attIndices"; "conditionals"] false []
    (SBlock [(SIf None (EBin OGt (ECall (EExt "len") [(ELoc "conditionals")] false) (EInt 0))
     (SBlock [(SIf (Some (SDefine ["evaluated"] [(ECall (EFun "conditionalAttributes.evaluate") [(ELoc "conditionals"); (ELoc "ctx")] false)])) (EBin OGt (ECall (EExt "len") [(ELoc "evaluated")] false) (EInt 0))
     (SBlock [(SDefine ["use"] [(ELit true "delimitedAttribute" [])]);
     (SRange "name" "index" (ELoc "attIndices")
     (SBlock [(SDefine ["attr"] [(EIndex (ELoc "attributes") (ELoc "index"))]);
     (SIf (Some (SDefine ["eAttr"; "ok"] [(EIndex (ELoc "evaluated") (ELoc "name"))])) (ELoc "ok")
     (SBlock [(STypeSwitch "at" (ELoc "attr") [("*delimitedAttribute", (SBlock [(SAssign [(LField (ELoc "use") "name")] [(EField (ELoc "at") "name")]);
     (SAssign [(LField (ELoc "use") "delimiter")] [(EField (ELoc "at") "delimiter")]);
     (SAssign [(LField (ELoc "use") "values")] [(ESub (EField (ELoc "use") "values") None (Some (EInt 0)))]);
     (SAssign [(LField (ELoc "use") "values")] [(ECall (EExt "append") [(EField (ELoc "use") "values"); (EField (ELoc "at") "values")] true)]);
     (SRange "_" "e" (ELoc "eAttr")
     (SBlock [(SIf (Some (SDefine ["et"; "ok"] [(EAssert (ELoc "e") "valuesNode")])) (ELoc "ok")
     (SBlock [(SAssign [(LField (ELoc "use") "values")] [(ECall (EExt "append") [(EField (ELoc "use") "values"); (EMethod (ELoc "et") "getValues" [] false)] true)])])
     SSkip)]));
     (SAssign [LBlank] [(EMethod (ELoc "use") "Render" [(ELoc "ctx")] false)])]))]
     (SBlock [(SAssign [LBlank] [(EMethod (EIndex (ELoc "eAttr") (EBin OSub (ECall (EExt "len") [(ELoc "eAttr")] false) (EInt 1))) "Render" [(ELoc "ctx")] false)])]))])
     (SBlock [(SAssign [LBlank] [(EMethod (ELoc "attr") "Render" [(ELoc "ctx")] false)])]))]));
     (SRange "name" "ca" (ELoc "evaluated")
     (SBlock [(SIf (Some (SDefine ["_"; "ok"] [(EIndex (ELoc "attIndices") (ELoc "name"))])) (EAnd (ENot (ELoc "ok")) (EBin OGt (ECall (EExt "len") [(ELoc "ca")] false) (EInt 0)))
     (SBlock [(SDefine ["first"] [(EIndex (ELoc "ca") (EInt 0))]);
     (STypeSwitch "at" (ELoc "first") [("*delimitedAttribute", (SBlock [(SAssign [(LField (ELoc "use") "name")] [(EField (ELoc "at") "name")]);
     (SAssign [(LField (ELoc "use") "delimiter")] [(EField (ELoc "at") "delimiter")]);
     (SAssign [(LField (ELoc "use") "values")] [(ESub (EField (ELoc "use") "values") None (Some (EInt 0)))]);
     (SAssign [(LField (ELoc "use") "values")] [(ECall (EExt "append") [(EField (ELoc "use") "values"); (EField (ELoc "at") "values")] true)]);
     (SFor (Some (SDefine ["i"] [(EInt 1)])) (EBin OLt (ELoc "i") (ECall (EExt "len") [(ELoc "ca")] false)) (SAssign [(LLoc "i")] [(EBin OAdd (ELoc "i") (EInt 1))])
     (SBlock [(SIf (Some (SDefine ["et"; "ok"] [(EAssert (EIndex (ELoc "ca") (ELoc "i")) "valuesNode")])) (ELoc "ok")
     (SBlock [(SAssign [(LField (ELoc "use") "values")] [(ECall (EExt "append") [(EField (ELoc "use") "values"); (EMethod (ELoc "et") "getValues" [] false)] true)])])
     SSkip)]));
     (SAssign [LBlank] [(EMethod (ELoc "use") "Render" [(ELoc "ctx")] false)])]))]
     (SBlock [(SAssign [LBlank] [(EMethod (EIndex (ELoc "ca") (EBin OSub (ECall (EExt "len") [(ELoc "ca")] false) (EInt 1))) "Render" [(ELoc "ctx")] false)])]))])
     SSkip)]));
     (SReturn [])])
     SSkip)])
     SSkip);
     (SRange "_" "attr" (ELoc "attributes")
     (SBlock [(SAssign [LBlank] [(EMethod (ELoc "attr") "Render" [(ELoc "ctx")] false)])]))])).

(** element.go:68 *)
Definition m_voidElement_Render : fundecl :=
  (Fun ["e"; "ctx"] false []
    (SBlock [(SExpr (EMethod (ELoc "ctx") "Write" [(EGlob "aitch.openAngleBracket")] false));
     (SExpr (EMethod (ELoc "ctx") "Write" [(EField (ELoc "e") "name")] false));
     (SExpr (ECall (EFun "aitch.renderAttributes") [(ELoc "ctx"); (EField (ELoc "e") "attributes"); (EField (ELoc "e") "attIndices"); (EField (ELoc "e") "conditionals")] false));
     (SExpr (EMethod (ELoc "ctx") "Write" [(EGlob "aitch.closeAngleBracket")] false));
     (SReturn [(EField (ELoc "ctx") "Error")])])).

(** element.go:76 *)
Definition m_voidElement_Type : fundecl :=
  (Fun ["e"] false []
    (SBlock [(SReturn [(EInt 0)])])).

(** element.go:80 *)
Definition m_voidElement_Name : fundecl :=
  (Fun ["e"] false []
    (SBlock [(SReturn [(EConv "string" (EField (ELoc "e") "name"))])])).

(** element.go:84 *)
Definition m_voidElement_addAttributes : fundecl :=
  (Fun ["e"; "attrs"] false []
    (SBlock [(SRange "_" "att" (ELoc "attrs")
     (SBlock [(SDefine ["name"] [(EMethod (ELoc "att") "Name" [] false)]);
     (SIf (Some (SDefine ["idx"; "ok"] [(EIndex (EField (ELoc "e") "attIndices") (ELoc "name"))])) (ELoc "ok")
     (SBlock [(SDefine ["existing"] [(EIndex (EField (ELoc "e") "attributes") (ELoc "idx"))]);
     (SIf (Some (SDefine ["delimited"; "ok"] [(EAssert (ELoc "existing") "*delimitedAttribute")])) (ELoc "ok")
     (SBlock [(SIf (Some (SDefine ["addD"; "ok"] [(EAssert (ELoc "att") "*delimitedAttribute")])) (ELoc "ok")
     (SBlock [(SAssign [(LField (ELoc "delimited") "values")] [(ECall (EExt "append") [(EField (ELoc "delimited") "values"); (EField (ELoc "addD") "values")] true)]);
     SContinue])
     SSkip)])
     SSkip);
     (SAssign [(LIndex (EField (ELoc "e") "attributes") (ELoc "idx"))] [(ELoc "att")])])
     (SBlock [(SAssign [(LIndex (EField (ELoc "e") "attIndices") (ELoc "name"))] [(ECall (EExt "len") [(EField (ELoc "e") "attributes")] false)]);
     (SAssign [(LField (ELoc "e") "attributes")] [(ECall (EExt "append") [(EField (ELoc "e") "attributes"); (ELoc "att")] false)])]))]));
     (SReturn [(ELoc "e")])])).

(** element.go:110 *)
Definition f_aitch_VoidElement : fundecl :=
  (Fun ["name"; "contents"] true []
    (SBlock [(SIf None (ENot (EMethod (EGlob "aitch.htmlTagRegex") "MatchString" [(ELoc "name")] false))
     (SBlock [(SIf None (EGlob "aitch.PanicOnInvalidName")
     (SBlock [(SExpr (ECall (EExt "panic") [(EBin OAdd (EStr (B "invalid html tag name: ")) (ELoc "name"))] false))])
     SSkip);
     (SReturn [ENil])])
     SSkip);
     (SReturn [(ECall (EFun "aitch.NewVoidElement") [(EConv "[]byte" (ELoc "name")); (ELoc "contents")] true)])])).

(** element.go:128 *)
Definition m_element_Render : fundecl :=
  (Fun ["e"; "ctx"] false []
    (SBlock [(SExpr (EMethod (ELoc "ctx") "Write" [(EGlob "aitch.openAngleBracket")] false));
     (SExpr (EMethod (ELoc "ctx") "Write" [(EField (ELoc "e") "name")] false));
     (SExpr (ECall (EFun "aitch.renderAttributes") [(ELoc "ctx"); (EField (ELoc "e") "attributes"); (EField (ELoc "e") "attIndices"); (EField (ELoc "e") "conditionals")] false));
     (SExpr (EMethod (ELoc "ctx") "Write" [(EGlob "aitch.closeAngleBracket")] false));
     (SRange "_" "c" (EField (ELoc "e") "contents")
     (SBlock [(SAssign [(LField (ELoc "ctx") "Error")] [(EMethod (ELoc "c") "Render" [(ELoc "ctx")] false)])]));
     (SExpr (EMethod (ELoc "ctx") "Write" [(EGlob "aitch.closeTagStart")] false));
     (SExpr (EMethod (ELoc "ctx") "Write" [(EField (ELoc "e") "name")] false));
     (SExpr (EMethod (ELoc "ctx") "Write" [(EGlob "aitch.closeAngleBracket")] false));
     (SReturn [(EField (ELoc "ctx") "Error")])])).

(** element.go:142 *)
Definition m_element_Type : fundecl :=
  (Fun ["e"] false []
    (SBlock [(SReturn [(EInt 0)])])).

(** element.go:146 *)
Definition m_element_Name : fundecl :=
  (Fun ["e"] false []
    (SBlock [(SReturn [(EConv "string" (EField (ELoc "e") "name"))])])).

(** element.go:150 *)
Definition m_element_addAttributes : fundecl :=
  (Fun ["e"; "attrs"] false []
    (SBlock [(SRange "_" "att" (ELoc "attrs")
     (SBlock [(SDefine ["name"] [(EMethod (ELoc "att") "Name" [] false)]);
     (SIf (Some (SDefine ["idx"; "ok"] [(EIndex (EField (ELoc "e") "attIndices") (ELoc "name"))])) (ELoc "ok")
     (SBlock [(SDefine ["existing"] [(EIndex (EField (ELoc "e") "attributes") (ELoc "idx"))]);
     (SIf (Some (SDefine ["delimited"; "ok"] [(EAssert (ELoc "existing") "*delimitedAttribute")])) (ELoc "ok")
     (SBlock [(SIf (Some (SDefine ["addD"; "ok"] [(EAssert (ELoc "att") "*delimitedAttribute")])) (ELoc "ok")
     (SBlock [(SAssign [(LField (ELoc "delimited") "values")] [(ECall (EExt "append") [(EField (ELoc "delimited") "values"); (EField (ELoc "addD") "values")] true)]);
     SContinue])
     SSkip)])
     SSkip);
     (SAssign [(LIndex (EField (ELoc "e") "attributes") (ELoc "idx"))] [(ELoc "att")])])
     (SBlock [(SAssign [(LIndex (EField (ELoc "e") "attIndices") (ELoc "name"))] [(ECall (EExt "len") [(EField (ELoc "e") "attributes")] false)]);
     (SAssign [(LField (ELoc "e") "attributes")] [(ECall (EExt "append") [(EField (ELoc "e") "attributes"); (ELoc "att")] false)])]))]));
     (SReturn [(ELoc "e")])])).

(** element.go:177 *)
Definition f_aitch_Element : fundecl :=
  (Fun ["name"; "contents"] true []
    (SBlock [(SIf None (ENot (EMethod (EGlob "aitch.htmlTagRegex") "MatchString" [(ELoc "name")] false))
     (SBlock [(SIf None (EGlob "aitch.PanicOnInvalidName")
     (SBlock [(SExpr (ECall (EExt "panic") [(EBin OAdd (EStr (B "invalid html tag name: ")) (ELoc "name"))] false))])
     SSkip);
     (SReturn [ENil])])
     SSkip);
     (SIf (Some (SDefine ["_"; "void"] [(EIndex (EGlob "aitch.voidElementNames") (ELoc "name"))])) (ELoc "void")
     (SBlock [(SReturn [(ECall (EFun "aitch.NewVoidElement") [(EConv "[]byte" (ELoc "name")); (ELoc "contents")] true)])])
     SSkip);
     (SReturn [(ECall (EFun "aitch.NewElement") [(EConv "[]byte" (ELoc "name")); (ELoc "contents")] true)])])).

(** element.go:191 *)
Definition f_aitch_NewElement : fundecl :=
  (Fun ["name"; "contents"] true []
    (SBlock [(SDefine ["attrs"; "condAttrs"; "children"] [(ECall (EFun "aitch.attributesAndContents") [ENil; (ECall (EFun "aitch.contentsToNodes") [(ELoc "contents")] false)] false)]);
     (SDefine ["result"] [(ELit true "element" [("name", (ELoc "name")); ("attributes", (EMake "[]Node" [(EInt 0); (ECall (EExt "len") [(ELoc "attrs")] false)])); ("attIndices", (EMake "map[string]int" [(ECall (EExt "len") [(ELoc "attrs")] false)])); ("contents", (ELoc "children")); ("conditionals", (ELoc "condAttrs"))])]);
     (SReturn [(EMethod (ELoc "result") "addAttributes" [(ELoc "attrs")] false)])])).

(** element.go:207 *)
Definition f_aitch_NewVoidElement : fundecl :=
  (Fun ["name"; "contents"] true []
    (SBlock [(SDefine ["attrs"; "condAttrs"; "_"] [(ECall (EFun "aitch.attributesAndContents") [ENil; (ECall (EFun "aitch.contentsToNodes") [(ELoc "contents")] false)] false)]);
     (SDefine ["result"] [(ELit true "voidElement" [("name", (ELoc "name")); ("attributes", (EMake "[]Node" [(EInt 0); (ECall (EExt "len") [(ELoc "attrs")] false)])); ("attIndices", (EMake "map[string]int" [(ECall (EExt "len") [(ELoc "attrs")] false)])); ("conditionals", (ELoc "condAttrs"))])]);
     (SReturn [(EMethod (ELoc "result") "addAttributes" [(ELoc "attrs")] false)])])).

(** element.go:218 *)
Definition f_aitch_contentsToNodes : fundecl :=
  (Fun ["contents"] false []
    (SBlock [(SDefine ["result"] [(EMake "[]Node" [(ECall (EExt "len") [(ELoc "contents")] false)])]);
     (SRange "i" "c" (ELoc "contents")
     (SBlock [(STypeSwitch "v" (ELoc "c") [("Node", (SBlock [(SAssign [(LIndex (ELoc "result") (ELoc "i"))] [(ELoc "v")])]))]
     (SBlock [(SAssign [(LIndex (ELoc "result") (ELoc "i"))] [(ECall (EFun "aitch.Text") [(ELoc "c")] false)])]))]));
     (SReturn [(ELoc "result")])])).

(** element.go:231 *)
Definition f_aitch_attributesAndContents : fundecl :=
  (Fun ["conditions"; "content"] false [("attrs", "[]Node"); ("condAttrs", "conditionalAttributes"); ("contents", "[]Node")]
    (SBlock [(SAssign [(LLoc "attrs")] [(EMake "[]Node" [(EInt 0); (ECall (EExt "len") [(ELoc "content")] false)])]);
     (SAssign [(LLoc "condAttrs")] [(EMake "[]conditionalAttribute" [(EInt 0); (ECall (EExt "len") [(ELoc "content")] false)])]);
     (SAssign [(LLoc "contents")] [(EMake "[]Node" [(EInt 0); (ECall (EExt "len") [(ELoc "content")] false)])]);
     (SRange "_" "item" (ELoc "content")
     (SBlock [(SIf None (EBin ONe (ELoc "item") ENil)
     (SBlock [(SIf None (EBin OEq (EMethod (ELoc "item") "Type" [] false) (EInt 1))
     (SBlock [(SIf None (EBin OGt (ECall (EExt "len") [(ELoc "conditions")] false) (EInt 0))
     (SBlock [(SAssign [(LLoc "condAttrs")] [(ECall (EExt "append") [(ELoc "condAttrs"); (ELit false "conditionalAttribute" [("attribute", (ELoc "item")); ("conditions", (ELoc "conditions"))])] false)])])
     (SBlock [(SAssign [(LLoc "attrs")] [(ECall (EExt "append") [(ELoc "attrs"); (ELoc "item")] false)])]))])
     (SBlock [(SAssign [(LLoc "contents")] [(ECall (EExt "append") [(ELoc "contents"); (ELoc "item")] false)]);
     (STypeSwitch "cn" (ELoc "item") [("*collection", (SBlock [(SDefine ["addA"; "addCa"; "_"] [(ECall (EFun "aitch.attributesAndContents") [(ELoc "conditions"); (EField (ELoc "cn") "nodes")] false)]);
     (SAssign [(LLoc "attrs")] [(ECall (EExt "append") [(ELoc "attrs"); (ELoc "addA")] true)]);
     (SAssign [(LLoc "condAttrs")] [(ECall (EExt "append") [(ELoc "condAttrs"); (ELoc "addCa")] true)])]));
     ("*conditional", (SBlock [(SDefine ["newConditions"] [(ECall (EExt "append") [(ELoc "conditions"); (EField (ELoc "cn") "fn")] false)]);
     (SRange "_" "a" (EField (ELoc "cn") "attributes")
     (SBlock [(SAssign [(LLoc "condAttrs")] [(ECall (EExt "append") [(ELoc "condAttrs"); (ELit false "conditionalAttribute" [("attribute", (ELoc "a")); ("conditions", (ELoc "newConditions"))])] false)])]));
     (SDefine ["_"; "addCa"; "_"] [(ECall (EFun "aitch.attributesAndContents") [(ELoc "newConditions"); (EField (ELoc "cn") "nodes")] false)]);
     (SAssign [(LLoc "condAttrs")] [(ECall (EExt "append") [(ELoc "condAttrs"); (ELoc "addCa")] true)])]))]
     SSkip)]))])
     SSkip)]));
     (SReturn [(ELoc "attrs"); (ELoc "condAttrs"); (ELoc "contents")])])).

(** fragment.go:11 *)
Definition f_aitch_Fragment : fundecl :=
  (Fun ["content"] true []
    (SBlock [(SReturn [(ELit true "fragment" [("values", (ECall (EFun "aitch.newValues") [(ELoc "content")] true))])])])).

(** fragment.go:24 *)
Definition m_fragment_Render : fundecl :=
  (Fun ["f"; "ctx"] false []
    (SBlock [(SRange "_" "v" (EField (ELoc "f") "values")
     (SBlock [(SAssign [LBlank; LBlank] [(EMethod (ELoc "v") "render" [(ELoc "ctx")] false)])]));
     (SReturn [(EField (ELoc "ctx") "Error")])])).

(** fragment.go:31 *)
Definition m_fragment_Type : fundecl :=
  (Fun ["f"] false []
    (SBlock [(SReturn [(EInt 6)])])).

(** fragment.go:35 *)
Definition m_fragment_Name : fundecl :=
  (Fun ["f"] false []
    (SBlock [(SReturn [(EStr (B "#fragment"))])])).

(** fragment.go:39 *)
Definition m_fragment_getValues : fundecl :=
  (Fun ["f"] false []
    (SBlock [(SReturn [(EField (ELoc "f") "values")])])).

(** imperative.go:30 *)
Definition f_aitch_Imperative : fundecl :=
  (Fun ["fn"] false []
    (SBlock [(SReturn [(ELit true "imperative" [("fn", (ELoc "fn"))])])])).

(** imperative.go:38 *)
Definition m_imperative_Render : fundecl :=
  (Fun ["i"; "ctx"] false [("err", "error")]
    (SBlock [(SIf None (EBin ONe (EField (ELoc "i") "fn") ENil)
     (SBlock [(SAssign [(LLoc "err")] [(EMethod (ELoc "i") "fn" [(ELit true "imperativeContext" [("ctx", (ELoc "ctx"))])] false)])])
     SSkip);
     (SReturn [(ELoc "err")])])).

(** imperative.go:45 *)
Definition m_imperative_Type : fundecl :=
  (Fun ["i"] false []
    (SBlock [(SReturn [(EInt 10)])])).

(** imperative.go:49 *)
Definition m_imperative_Name : fundecl :=
  (Fun ["i"] false []
    (SBlock [(SReturn [(EStr (B "!imperative"))])])).

(** imperative.go:58 *)
Definition m_imperativeContext_Context : fundecl :=
  (Fun ["ic"] false []
    (SBlock [(SReturn [(EField (ELoc "ic") "ctx")])])).

(** imperative.go:62 *)
Definition m_imperativeContext_WriteString : fundecl :=
  (Fun ["ic"; "s"] false []
    (SBlock [(SExpr (EMethod (EField (ELoc "ic") "ctx") "Write" [(ECall (EFun "aitch.htmlEscapeString") [(ELoc "s")] false)] false))])).

(** imperative.go:66 *)
Definition m_imperativeContext_WriteRaw : fundecl :=
  (Fun ["ic"; "data"] false []
    (SBlock [(SExpr (EMethod (EField (ELoc "ic") "ctx") "Write" [(ELoc "data")] false))])).

(** imperative.go:70 *)
Definition m_imperativeContext_WriteNodes : fundecl :=
  (Fun ["ic"; "nodes"] true []
    (SBlock [(SRange "_" "node" (ELoc "nodes")
     (SBlock [(SIf None (EAnd (EBin ONe (ELoc "node") ENil) (EBin ONe (EMethod (ELoc "node") "Type" [] false) (EInt 1)))
     (SBlock [(SAssign [LBlank] [(EMethod (ELoc "node") "Render" [(EField (ELoc "ic") "ctx")] false)])])
     SSkip)]))])).

(** imperative.go:78 *)
Definition m_imperativeContext_Start : fundecl :=
  (Fun ["ic"; "elementName"; "isVoid"; "attrs"] true []
    (SBlock [(SExpr (EMethod (EField (ELoc "ic") "ctx") "Write" [(EGlob "aitch.openAngleBracket")] false));
     (SExpr (EMethod (EField (ELoc "ic") "ctx") "Write" [(ELoc "elementName")] false));
     (SDefine ["attValues"] [(EMake "[][]Value" [(EInt 0); (ECall (EExt "len") [(ELoc "attrs")] false)])]);
     (SDefine ["attNames"] [(EMake "[][]byte" [(EInt 0); (ECall (EExt "len") [(ELoc "attrs")] false)])]);
     (SDefine ["attIndices"] [(EMapLit [])]);
     (SRange "_" "attr" (ELoc "attrs")
     (SBlock [(SIf None (EAnd (EBin ONe (ELoc "attr") ENil) (EBin OEq (EMethod (ELoc "attr") "Type" [] false) (EInt 1)))
     (SBlock [(SIf (Some (SDefine ["idx"; "ok"] [(EIndex (ELoc "attIndices") (EMethod (ELoc "attr") "Name" [] false))])) (ELoc "ok")
     (SBlock [(SIf (Some (SDefine ["da"; "ok"] [(EAssert (ELoc "attr") "*delimitedAttribute")])) (ELoc "ok")
     (SBlock [(SDefine ["avs"] [(EIndex (ELoc "attValues") (ELoc "idx"))]);
     (SRange "_" "dv" (EField (ELoc "da") "values")
     (SBlock [(SIf None (EBin OGt (ECall (EExt "len") [(ELoc "avs")] false) (EInt 0))
     (SBlock [(SAssign [(LLoc "avs")] [(ECall (EExt "append") [(ELoc "avs"); (ELit false "Value" [("value", (EField (ELoc "da") "delimiter"))])] false)])])
     SSkip);
     (SAssign [(LLoc "avs")] [(ECall (EExt "append") [(ELoc "avs"); (ELoc "dv")] false)])]));
     (SAssign [(LIndex (ELoc "attValues") (ELoc "idx"))] [(ELoc "avs")])])
     (SIf (Some (SDefine ["va"; "ok"] [(EAssert (ELoc "attr") "valuesNode")])) (ELoc "ok")
     (SBlock [(SAssign [(LIndex (ELoc "attValues") (ELoc "idx"))] [(EMethod (ELoc "va") "getValues" [] false)])])
     (SBlock [(SAssign [(LIndex (ELoc "attValues") (ELoc "idx"))] [ENil])])))])
     (SBlock [(SAssign [(LIndex (ELoc "attIndices") (EMethod (ELoc "attr") "Name" [] false))] [(ECall (EExt "len") [(ELoc "attNames")] false)]);
     (SAssign [(LLoc "attNames")] [(ECall (EExt "append") [(ELoc "attNames"); (EConv "[]byte" (EMethod (ELoc "attr") "Name" [] false))] false)]);
     (SIf (Some (SDefine ["da"; "ok"] [(EAssert (ELoc "attr") "*delimitedAttribute")])) (ELoc "ok")
     (SBlock [(SDefine ["avs"] [(EMake "[]Value" [(EInt 0); (EBin OMul (ECall (EExt "len") [(EField (ELoc "da") "values")] false) (EInt 2))])]);
     (SRange "i" "v" (EField (ELoc "da") "values")
     (SBlock [(SIf None (EBin OGt (ELoc "i") (EInt 0))
     (SBlock [(SAssign [(LLoc "avs")] [(ECall (EExt "append") [(ELoc "avs"); (ELit false "Value" [("value", (EField (ELoc "da") "delimiter"))])] false)])])
     SSkip);
     (SAssign [(LLoc "avs")] [(ECall (EExt "append") [(ELoc "avs"); (ELoc "v")] false)])]));
     (SAssign [(LLoc "attValues")] [(ECall (EExt "append") [(ELoc "attValues"); (ELoc "avs")] false)])])
     (SIf (Some (SDefine ["vn"; "ok"] [(EAssert (ELoc "attr") "valuesNode")])) (ELoc "ok")
     (SBlock [(SAssign [(LLoc "attValues")] [(ECall (EExt "append") [(ELoc "attValues"); (EMethod (ELoc "vn") "getValues" [] false)] false)])])
     (SBlock [(SAssign [(LLoc "attValues")] [(ECall (EExt "append") [(ELoc "attValues"); ENil] false)])])))]))])
     SSkip)]));
     (SRange "a" "attName" (ELoc "attNames")
     (SBlock [(SExpr (EMethod (EField (ELoc "ic") "ctx") "Write" [(EGlob "aitch.space")] false));
     (SExpr (EMethod (EField (ELoc "ic") "ctx") "Write" [(ELoc "attName")] false));
     (SIf (Some (SDefine ["vs"] [(EIndex (ELoc "attValues") (ELoc "a"))])) (EBin ONe (ELoc "vs") ENil)
     (SBlock [(SExpr (EMethod (EField (ELoc "ic") "ctx") "Write" [(EGlob "aitch.attStart")] false));
     (SRange "_" "vv" (ELoc "vs")
     (SBlock [(SAssign [LBlank; LBlank] [(EMethod (ELoc "vv") "render" [(EField (ELoc "ic") "ctx")] false)])]));
     (SExpr (EMethod (EField (ELoc "ic") "ctx") "Write" [(EGlob "aitch.attEnd")] false))])
     SSkip)]));
     (SExpr (EMethod (EField (ELoc "ic") "ctx") "Write" [(EGlob "aitch.closeAngleBracket")] false));
     (SIf None (ENot (ELoc "isVoid"))
     (SBlock [(SAssign [(LField (ELoc "ic") "openedStack")] [(ECall (EExt "append") [(EField (ELoc "ic") "openedStack"); (ELoc "elementName")] false)])])
     SSkip)])).

(** imperative.go:138 *)
Definition m_imperativeContext_End : fundecl :=
  (Fun ["ic"] false []
    (SBlock [(SIf (Some (SDefine ["l"] [(ECall (EExt "len") [(EField (ELoc "ic") "openedStack")] false)])) (EBin OGt (ELoc "l") (EInt 0))
     (SBlock [(SAssign [(LLoc "l")] [(EBin OSub (ELoc "l") (EInt 1))]);
     (SExpr (EMethod (EField (ELoc "ic") "ctx") "Write" [(EGlob "aitch.closeTagStart")] false));
     (SExpr (EMethod (EField (ELoc "ic") "ctx") "Write" [(EIndex (EField (ELoc "ic") "openedStack") (ELoc "l"))] false));
     (SExpr (EMethod (EField (ELoc "ic") "ctx") "Write" [(EGlob "aitch.closeAngleBracket")] false));
     (SAssign [(LField (ELoc "ic") "openedStack")] [(ESub (EField (ELoc "ic") "openedStack") None (Some (ELoc "l")))])])
     SSkip)])).

(** imperative.go:148 *)
Definition m_imperativeContext_EndAll : fundecl :=
  (Fun ["ic"] false []
    (SBlock [(SFor (Some (SDefine ["i"] [(EBin OSub (ECall (EExt "len") [(EField (ELoc "ic") "openedStack")] false) (EInt 1))])) (EBin OGe (ELoc "i") (EInt 0)) (SAssign [(LLoc "i")] [(EBin OSub (ELoc "i") (EInt 1))])
     (SBlock [(SExpr (EMethod (EField (ELoc "ic") "ctx") "Write" [(EGlob "aitch.closeTagStart")] false));
     (SExpr (EMethod (EField (ELoc "ic") "ctx") "Write" [(EIndex (EField (ELoc "ic") "openedStack") (ELoc "i"))] false));
     (SExpr (EMethod (EField (ELoc "ic") "ctx") "Write" [(EGlob "aitch.closeAngleBracket")] false))]));
     (SAssign [(LField (ELoc "ic") "openedStack")] [ENil])])).

(** iterate.go:17 *)
Definition f_aitch_Iterate : fundecl :=
  (Fun ["fn"; "nodes"] true []
    (SBlock [(SIf None (EBin OEq (ELoc "fn") ENil)
     (SBlock [(SExpr (ECall (EExt "panic") [(EStr (B "iterate fn cannot be nil"))] false))])
     SSkip);
     (SDefine ["result"] [(ELit true "iterator" [("nodes", (EMake "[]Node" [(EInt 0); (ECall (EExt "len") [(ELoc "nodes")] false)])); ("fn", (ELoc "fn"))])]);
     (SRange "_" "n" (ELoc "nodes")
     (SBlock [(SIf None (EBin ONe (EMethod (ELoc "n") "Type" [] false) (EInt 1))
     (SBlock [(SAssign [(LField (ELoc "result") "nodes")] [(ECall (EExt "append") [(EField (ELoc "result") "nodes"); (ELoc "n")] false)])])
     SSkip)]));
     (SReturn [(ELoc "result")])])).

(** iterate.go:42 *)
Definition f_aitch_IterateKey : fundecl :=
  (Fun ["key"; "nodes"] true []
    (SBlock [(SDefine ["result"] [(ELit true "iterator" [("nodes", (EMake "[]Node" [(EInt 0); (ECall (EExt "len") [(ELoc "nodes")] false)])); ("fn", (EClosure (Fun ["ctx"] false []
    (SBlock [(SIf (Some (SDefine ["rv"; "ok"] [(EIndex (EField (ELoc "ctx") "Data") (ELoc "key"))])) (ELoc "ok")
     (SBlock [(SIf (Some (SDefine ["sv"; "ok"] [(EAssert (ELoc "rv") "[]any")])) (ELoc "ok")
     (SBlock [(SReturn [(ELoc "sv")])])
     (SIf (Some (SDefine ["rrv"] [(ECall (EExt "reflect.ValueOf") [(ELoc "rv")] false)])) (EAnd (EBin OEq (EMethod (ELoc "rrv") "Kind" [] false) (EExt "reflect.Slice")) (EBin OGt (EMethod (ELoc "rrv") "Len" [] false) (EInt 0)))
     (SBlock [(SDefine ["l"] [(EMethod (ELoc "rrv") "Len" [] false)]);
     (SDefine ["r"] [(EMake "[]any" [(ELoc "l")])]);
     (SFor (Some (SDefine ["i"] [(EInt 0)])) (EBin OLt (ELoc "i") (ELoc "l")) (SAssign [(LLoc "i")] [(EBin OAdd (ELoc "i") (EInt 1))])
     (SBlock [(SAssign [(LIndex (ELoc "r") (ELoc "i"))] [(EMethod (EMethod (ELoc "rrv") "Index" [(ELoc "i")] false) "Interface" [] false)])]));
     (SReturn [(ELoc "r")])])
     SSkip))])
     SSkip);
     (SReturn [ENil])]))))])]);
     (SRange "_" "n" (ELoc "nodes")
     (SBlock [(SIf None (EBin ONe (EMethod (ELoc "n") "Type" [] false) (EInt 1))
     (SBlock [(SAssign [(LField (ELoc "result") "nodes")] [(ECall (EExt "append") [(EField (ELoc "result") "nodes"); (ELoc "n")] false)])])
     SSkip)]));
     (SReturn [(ELoc "result")])])).

(** iterate.go:76 *)
Definition m_iterator_Render : fundecl :=
  (Fun ["i"; "ctx"] false []
    (SBlock [(SIf None (EBin ONe (EField (ELoc "ctx") "Error") ENil)
     (SBlock [(SReturn [(EField (ELoc "ctx") "Error")])])
     SSkip);
     (SIf (Some (SDefine ["items"] [(EMethod (ELoc "i") "fn" [(ELoc "ctx")] false)])) (EBin OGt (ECall (EExt "len") [(ELoc "items")] false) (EInt 0))
     (SBlock [(SDefine ["ictx"] [(ELit true "Context" [("Error", (EField (ELoc "ctx") "Error")); ("Writer", (EField (ELoc "ctx") "Writer")); ("Parent", (ELoc "ctx"))])]);
     (SRange "_" "item" (ELoc "items")
     (SBlock [(SAssign [(LField (ELoc "ictx") "Cargo")] [(ELoc "item")]);
     (SIf (Some (SDefine ["mi"; "ok"] [(EAssert (ELoc "item") "map[string]any")])) (ELoc "ok")
     (SBlock [(SAssign [(LField (ELoc "ictx") "Data")] [(ELoc "mi")])])
     (SBlock [(SAssign [(LField (ELoc "ictx") "Data")] [(EField (ELoc "ctx") "Data")])]));
     (SRange "_" "n" (EField (ELoc "i") "nodes")
     (SBlock [(SIf (Some (SDefine ["err"] [(EMethod (ELoc "n") "Render" [(ELoc "ictx")] false)])) (EBin ONe (ELoc "err") ENil)
     (SBlock [(SAssign [(LField (ELoc "ctx") "Error")] [(ELoc "err")]);
     (SReturn [(ELoc "err")])])
     SSkip)]))]))])
     SSkip);
     (SReturn [ENil])])).

(** iterate.go:104 *)
Definition m_iterator_Type : fundecl :=
  (Fun ["i"] false []
    (SBlock [(SReturn [(EInt 11)])])).

(** iterate.go:108 *)
Definition m_iterator_Name : fundecl :=
  (Fun ["i"] false []
    (SBlock [(SReturn [(EStr (B "!iterator"))])])).

(** iterate.go:122 *)
Definition f_aitch_IterateYield : fundecl :=
  (Fun ["fn"; "nodes"] true []
    (SBlock [(SIf None (EBin OEq (ELoc "fn") ENil)
     (SBlock [(SExpr (ECall (EExt "panic") [(EStr (B "iterateYield fn cannot be nil"))] false))])
     SSkip);
     (SDefine ["result"] [(ELit true "yieldIterator" [("fn", (ELoc "fn")); ("nodes", (EMake "[]Node" [(EInt 0); (ECall (EExt "len") [(ELoc "nodes")] false)]))])]);
     (SRange "_" "n" (ELoc "nodes")
     (SBlock [(SIf None (EBin ONe (EMethod (ELoc "n") "Type" [] false) (EInt 1))
     (SBlock [(SAssign [(LField (ELoc "result") "nodes")] [(ECall (EExt "append") [(EField (ELoc "result") "nodes"); (ELoc "n")] false)])])
     SSkip)]));
     (SReturn [(ELoc "result")])])).

(** iterate.go:145 *)
Definition m_yieldIterator_Render : fundecl :=
  (Fun ["i"; "ctx"] false []
    (SBlock [(SIf None (EBin ONe (EField (ELoc "ctx") "Error") ENil)
     (SBlock [(SReturn [(EField (ELoc "ctx") "Error")])])
     SSkip);
     (SDefine ["ictx"] [(ELit true "Context" [("Error", (EField (ELoc "ctx") "Error")); ("Writer", (EField (ELoc "ctx") "Writer")); ("Parent", (ELoc "ctx"))])]);
     (SExpr (EMethod (ELoc "i") "fn" [(ELoc "ctx"); (EClosure (Fun ["item"] false []
    (SBlock [(SAssign [(LField (ELoc "ictx") "Cargo")] [(ELoc "item")]);
     (SIf (Some (SDefine ["mi"; "ok"] [(EAssert (ELoc "item") "map[string]any")])) (ELoc "ok")
     (SBlock [(SAssign [(LField (ELoc "ictx") "Data")] [(ELoc "mi")])])
     SSkip);
     (SRange "_" "n" (EField (ELoc "i") "nodes")
     (SBlock [(SIf (Some (SDefine ["err"] [(EMethod (ELoc "n") "Render" [(ELoc "ictx")] false)])) (EBin ONe (ELoc "err") ENil)
     (SBlock [(SAssign [(LField (ELoc "ctx") "Error")] [(ELoc "err")]);
     (SReturn [])])
     SSkip)]))])))] false));
     (SReturn [(EField (ELoc "ctx") "Error")])])).

(** iterate.go:169 *)
Definition m_yieldIterator_Type : fundecl :=
  (Fun ["i"] false []
    (SBlock [(SReturn [(EInt 11)])])).

(** iterate.go:173 *)
Definition m_yieldIterator_Name : fundecl :=
  (Fun ["i"] false []
    (SBlock [(SReturn [(EStr (B "!yield_iterator"))])])).

(** pi.go:15 *)
Definition m_pi_Render : fundecl :=
  (Fun ["p"; "ctx"] false []
    (SBlock [(SExpr (EMethod (ELoc "ctx") "Write" [(EGlob "aitch.openPi")] false));
     (SExpr (EMethod (ELoc "ctx") "Write" [(EField (ELoc "p") "name")] false));
     (SExpr (EMethod (ELoc "ctx") "Write" [(EGlob "aitch.space")] false));
     (SRange "_" "v" (EField (ELoc "p") "values")
     (SBlock [(SAssign [LBlank; LBlank] [(EMethod (ELoc "v") "render" [(ELoc "ctx")] false)])]));
     (SExpr (EMethod (ELoc "ctx") "Write" [(EGlob "aitch.closePi")] false));
     (SReturn [(EField (ELoc "ctx") "Error")])])).

(** pi.go:26 *)
Definition m_pi_Type : fundecl :=
  (Fun ["p"] false []
    (SBlock [(SReturn [(EInt 4)])])).

(** pi.go:30 *)
Definition m_pi_Name : fundecl :=
  (Fun ["p"] false []
    (SBlock [(SReturn [(EBin OAdd (EStr (B "!")) (EConv "string" (EField (ELoc "p") "name")))])])).

(** pi.go:35 *)
Definition f_aitch_PI : fundecl :=
  (Fun ["name"; "contents"] true []
    (SBlock [(SReturn [(ELit true "pi" [("name", (EConv "[]byte" (ELoc "name"))); ("values", (ECall (EFun "aitch.newValues") [(ELoc "contents")] true))])])])).

(** pi.go:42 *)
Definition m_pi_getValues : fundecl :=
  (Fun ["p"] false []
    (SBlock [(SReturn [(EField (ELoc "p") "values")])])).

(** pi.go:47 *)
Definition f_aitch_DocType : fundecl :=
  (Fun [] false []
    (SBlock [(SReturn [(ECall (EFun "aitch.PI") [(EStr (B "DOCTYPE")); (EStr (B "html"))] false)])])).

(** template.go:21 *)
Definition m_Template_Execute : fundecl :=
  (Fun ["t"; "wr"; "data"; "cargo"] false []
    (SBlock [(SDefine ["ctx"] [(ELit true "Context" [("Data", (ELoc "data")); ("Cargo", (ELoc "cargo")); ("Writer", (ELoc "wr"))])]);
     (SReturn [(EMethod (EField (ELoc "t") "template") "Execute" [(ELoc "wr"); (ELoc "ctx")] false)])])).

(** template.go:36 *)
Definition f_aitch_NewTemplate : fundecl :=
  (Fun ["name"; "text"; "nodeMap"] false []
    (SBlock [(SVar "err" "error");
     (SVar "tmp" "*html/template.Template");
     (SVar "result" "*Template");
     (SIf (Some (SAssign [(LLoc "tmp"); (LLoc "err")] [(EMethod (EMethod (ECall (EExt "html/template.New") [(ELoc "name")] false) "Funcs" [(ECall (EFun "aitch.contextFuncMap") [(ELoc "nodeMap")] false)] false) "Parse" [(ELoc "text")] false)])) (EBin OEq (ELoc "err") ENil)
     (SBlock [(SAssign [(LLoc "result")] [(ELit true "Template" [("template", (ELoc "tmp"))])])])
     SSkip);
     (SReturn [(ELoc "result"); (ELoc "err")])])).

(** template.go:48 *)
Definition f_aitch_MustNewTemplate : fundecl :=
  (Fun ["name"; "text"; "nodeMap"] false []
    (SBlock [(SIf (Some (SDefine ["t"; "err"] [(ECall (EFun "aitch.NewTemplate") [(ELoc "name"); (ELoc "text"); (ELoc "nodeMap")] false)])) (EBin OEq (ELoc "err") ENil)
     (SBlock [(SReturn [(ELoc "t")])])
     (SBlock [(SExpr (ECall (EExt "panic") [(ELoc "err")] false))]))])).

(** template.go:56 *)
Definition f_aitch_contextFuncMap : fundecl :=
  (Fun ["nodeMap"] false []
    (SBlock [(SDefine ["result"] [(EMake "map[string]any" [(ECall (EExt "len") [(ELoc "nodeMap")] false)])]);
     (SRange "k" "v" (ELoc "nodeMap")
     (SBlock [(SIf None (EBin ONe (ELoc "v") ENil)
     (SBlock [(SAssign [(LIndex (ELoc "result") (ELoc "k"))] [(ECall (EFun "aitch.contextFunc") [(ELoc "v")] false)])])
     SSkip)]));
     (SReturn [(ELoc "result")])])).

(** template.go:66 *)
Definition f_aitch_contextFunc : fundecl :=
  (Fun ["node"] false []
    (SBlock [(SIf None (EBin OEq (EMethod (ELoc "node") "Type" [] false) (EInt 1))
     (SBlock [(SReturn [(EClosure (Fun ["ctx"] false []
    (SBlock [(SDefine ["err"] [(EMethod (ELoc "node") "Render" [(ELoc "ctx")] false)]);
     (SReturn [(ECall (EExt "html/template.HTMLAttr") [(EStr (B ""))] false); (ELoc "err")])])))])])
     (SBlock [(SReturn [(EClosure (Fun ["ctx"] false []
    (SBlock [(SDefine ["err"] [(EMethod (ELoc "node") "Render" [(ELoc "ctx")] false)]);
     (SReturn [(ECall (EExt "html/template.HTML") [(EStr (B ""))] false); (ELoc "err")])])))])]))])).

(** text.go:8 *)
Definition f_aitch_Text : fundecl :=
  (Fun ["contents"] true []
    (SBlock [(SReturn [(ELit true "text" [("values", (ECall (EFun "aitch.newValues") [(ELoc "contents")] true))])])])).

(** text.go:21 *)
Definition m_text_Render : fundecl :=
  (Fun ["t"; "ctx"] false []
    (SBlock [(SRange "_" "v" (EField (ELoc "t") "values")
     (SBlock [(SAssign [LBlank; LBlank] [(EMethod (ELoc "v") "render" [(ELoc "ctx")] false)])]));
     (SReturn [(EField (ELoc "ctx") "Error")])])).

(** text.go:28 *)
Definition m_text_Type : fundecl :=
  (Fun ["t"] false []
    (SBlock [(SReturn [(EInt 2)])])).

(** text.go:32 *)
Definition m_text_Name : fundecl :=
  (Fun ["t"] false []
    (SBlock [(SReturn [(EStr (B "#text"))])])).

(** text.go:36 *)
Definition m_text_getValues : fundecl :=
  (Fun ["t"] false []
    (SBlock [(SReturn [(EField (ELoc "t") "values")])])).

(** text.go:45 *)
Definition f_aitch_Nbsp : fundecl :=
  (Fun [] false []
    (SBlock [(SReturn [(ECall (EExt "append") [(EConv "[]byte" ENil); (EGlob "aitch.nbsp")] true)])])).

(** text.go:49 *)
Definition f_aitch_Nbsps : fundecl :=
  (Fun ["n"] false []
    (SBlock [(SIf None (EBin OLe (ELoc "n") (EInt 0))
     (SBlock [(SReturn [ENil])])
     SSkip);
     (SDefine ["result"] [(EMake "[]byte" [(EBin OMul (EGlob "aitch.lnbsp") (ELoc "n"))])]);
     (SDefine ["idx"] [(EInt 0)]);
     (SFor (Some (SDefine ["i"] [(EInt 0)])) (EBin OLt (ELoc "i") (ELoc "n")) (SAssign [(LLoc "i")] [(EBin OAdd (ELoc "i") (EInt 1))])
     (SBlock [(SCopy "result" (ELoc "idx") (EGlob "aitch.nbsp"));
     (SAssign [(LLoc "idx")] [(EBin OAdd (ELoc "idx") (EGlob "aitch.lnbsp"))])]));
     (SReturn [(ELoc "result")])])).

(** html/document.go:13 *)
Definition m_document_Render : fundecl :=
  (Fun ["d"; "ctx"] false []
    (SBlock [(SIf None (EBin ONe (EField (ELoc "d") "prologue") ENil)
     (SBlock [(SAssign [LBlank] [(EMethod (EField (ELoc "d") "prologue") "Render" [(ELoc "ctx")] false)])])
     SSkip);
     (SRange "_" "n" (EField (ELoc "d") "contents")
     (SBlock [(SAssign [LBlank] [(EMethod (ELoc "n") "Render" [(ELoc "ctx")] false)])]));
     (SReturn [(EField (ELoc "ctx") "Error")])])).

(** html/document.go:23 *)
Definition m_document_Type : fundecl :=
  (Fun ["d"] false []
    (SBlock [(SReturn [(EInt 5)])])).

(** html/document.go:27 *)
Definition m_document_Name : fundecl :=
  (Fun ["d"] false []
    (SBlock [(SReturn [(EStr (B "#document"))])])).

(** html/document.go:32 *)
Definition f_html_Document : fundecl :=
  (Fun ["lang"; "head"; "body"] false []
    (SBlock [(SVar "langAtt" "Node");
     (SIf None (EBin ONe (ELoc "lang") ENil)
     (SBlock [(SAssign [(LLoc "langAtt")] [(ECall (EFun "html.Lang") [(ELoc "lang")] false)])])
     SSkip);
     (SVar "headNode" "Node");
     (SIf None (EBin OGt (ECall (EExt "len") [(ELoc "head")] false) (EInt 0))
     (SBlock [(SAssign [(LLoc "headNode")] [(ECall (EFun "html.Head") [(ELoc "head")] true)])])
     SSkip);
     (SDefine ["bodyNode"] [(ECall (EFun "html.Body") [(ELoc "body")] true)]);
     (SReturn [(ELit true "document" [("prologue", (ECall (EFun "aitch.DocType") [] false)); ("contents", (ESliceLit "[]Node" [(ECall (EFun "html.Html") [(ELoc "langAtt"); (ELoc "headNode"); (ELoc "bodyNode")] false)]))])])])).

Definition the_funcs : list (string * fundecl) :=
  [("context.New", f_context_New);
   ("Context.Write", m_Context_Write);
   ("context.Get", f_context_Get);
   ("context.MustGet", f_context_MustGet);
   ("aitch.NewValue", f_aitch_NewValue);
   ("aitch.NewConcatValue", f_aitch_NewConcatValue);
   ("Value.render", m_Value_render);
   ("aitch.newValues", f_aitch_newValues);
   ("aitch.newValue", f_aitch_newValue);
   ("aitch.valueToBytes", f_aitch_valueToBytes);
   ("aitch.htmlEscapeString", f_aitch_htmlEscapeString);
   ("attribute.Render", m_attribute_Render);
   ("attribute.Type", m_attribute_Type);
   ("attribute.Name", m_attribute_Name);
   ("attribute.getValues", m_attribute_getValues);
   ("aitch.Attribute", f_aitch_Attribute);
   ("aitch.NewAttribute", f_aitch_NewAttribute);
   ("booleanAttribute.Render", m_booleanAttribute_Render);
   ("booleanAttribute.Type", m_booleanAttribute_Type);
   ("booleanAttribute.Name", m_booleanAttribute_Name);
   ("aitch.BooleanAttribute", f_aitch_BooleanAttribute);
   ("aitch.NewBooleanAttribute", f_aitch_NewBooleanAttribute);
   ("delimitedAttribute.Render", m_delimitedAttribute_Render);
   ("delimitedAttribute.Type", m_delimitedAttribute_Type);
   ("delimitedAttribute.Name", m_delimitedAttribute_Name);
   ("delimitedAttribute.getValues", m_delimitedAttribute_getValues);
   ("aitch.DelimitedAttribute", f_aitch_DelimitedAttribute);
   ("aitch.NewDelimitedAttribute", f_aitch_NewDelimitedAttribute);
   ("collection.Render", m_collection_Render);
   ("collection.Type", m_collection_Type);
   ("collection.Name", m_collection_Name);
   ("aitch.Collection", f_aitch_Collection);
   ("contentCollector.Render", m_contentCollector_Render);
   ("contentCollector.Type", m_contentCollector_Type);
   ("contentCollector.Name", m_contentCollector_Name);
   ("aitch.ContentCollect", f_aitch_ContentCollect);
   ("comment.Render", m_comment_Render);
   ("comment.Type", m_comment_Type);
   ("comment.Name", m_comment_Name);
   ("comment.getValues", m_comment_getValues);
   ("aitch.Comment", f_aitch_Comment);
   ("conditionalAttribute.evaluate", m_conditionalAttribute_evaluate);
   ("conditionalAttributes.evaluate", m_conditionalAttributes_evaluate);
   ("conditional.Render", m_conditional_Render);
   ("conditional.Type", m_conditional_Type);
   ("conditional.Name", m_conditional_Name);
   ("aitch.Conditional", f_aitch_Conditional);
   ("aitch.When", f_aitch_When);
   ("aitch.renderAttributes", f_aitch_renderAttributes);
   ("voidElement.Render", m_voidElement_Render);
   ("voidElement.Type", m_voidElement_Type);
   ("voidElement.Name", m_voidElement_Name);
   ("voidElement.addAttributes", m_voidElement_addAttributes);
   ("aitch.VoidElement", f_aitch_VoidElement);
   ("element.Render", m_element_Render);
   ("element.Type", m_element_Type);
   ("element.Name", m_element_Name);
   ("element.addAttributes", m_element_addAttributes);
   ("aitch.Element", f_aitch_Element);
   ("aitch.NewElement", f_aitch_NewElement);
   ("aitch.NewVoidElement", f_aitch_NewVoidElement);
   ("aitch.contentsToNodes", f_aitch_contentsToNodes);
   ("aitch.attributesAndContents", f_aitch_attributesAndContents);
   ("aitch.Fragment", f_aitch_Fragment);
   ("fragment.Render", m_fragment_Render);
   ("fragment.Type", m_fragment_Type);
   ("fragment.Name", m_fragment_Name);
   ("fragment.getValues", m_fragment_getValues);
   ("aitch.Imperative", f_aitch_Imperative);
   ("imperative.Render", m_imperative_Render);
   ("imperative.Type", m_imperative_Type);
   ("imperative.Name", m_imperative_Name);
   ("imperativeContext.Context", m_imperativeContext_Context);
   ("imperativeContext.WriteString", m_imperativeContext_WriteString);
   ("imperativeContext.WriteRaw", m_imperativeContext_WriteRaw);
   ("imperativeContext.WriteNodes", m_imperativeContext_WriteNodes);
   ("imperativeContext.Start", m_imperativeContext_Start);
   ("imperativeContext.End", m_imperativeContext_End);
   ("imperativeContext.EndAll", m_imperativeContext_EndAll);
   ("aitch.Iterate", f_aitch_Iterate);
   ("aitch.IterateKey", f_aitch_IterateKey);
   ("iterator.Render", m_iterator_Render);
   ("iterator.Type", m_iterator_Type);
   ("iterator.Name", m_iterator_Name);
   ("aitch.IterateYield", f_aitch_IterateYield);
   ("yieldIterator.Render", m_yieldIterator_Render);
   ("yieldIterator.Type", m_yieldIterator_Type);
   ("yieldIterator.Name", m_yieldIterator_Name);
   ("pi.Render", m_pi_Render);
   ("pi.Type", m_pi_Type);
   ("pi.Name", m_pi_Name);
   ("aitch.PI", f_aitch_PI);
   ("pi.getValues", m_pi_getValues);
   ("aitch.DocType", f_aitch_DocType);
   ("Template.Execute", m_Template_Execute);
   ("aitch.NewTemplate", f_aitch_NewTemplate);
   ("aitch.MustNewTemplate", f_aitch_MustNewTemplate);
   ("aitch.contextFuncMap", f_aitch_contextFuncMap);
   ("aitch.contextFunc", f_aitch_contextFunc);
   ("aitch.Text", f_aitch_Text);
   ("text.Render", m_text_Render);
   ("text.Type", m_text_Type);
   ("text.Name", m_text_Name);
   ("text.getValues", m_text_getValues);
   ("aitch.Nbsp", f_aitch_Nbsp);
   ("aitch.Nbsps", f_aitch_Nbsps);
   ("document.Render", m_document_Render);
   ("document.Type", m_document_Type);
   ("document.Name", m_document_Name);
   ("html.Document", f_html_Document)].

Definition the_globals : list (string * expr) :=
  [("aitch.PanicOnInvalidName", (EBool false));
   ("aitch.htmlTagRegex", (ECall (EExt "regexp.MustCompile") [(EStr (B "^[a-zA-Z][a-zA-Z0-9._\-:]*$"))] false));
   ("aitch.space", (ESliceLit "[]byte" [(EInt 32)]));
   ("aitch.openAngleBracket", (ESliceLit "[]byte" [(EInt 60)]));
   ("aitch.closeAngleBracket", (ESliceLit "[]byte" [(EInt 62)]));
   ("aitch.closeTagStart", (ESliceLit "[]byte" [(EInt 60); (EInt 47)]));
   ("aitch.attStart", (ESliceLit "[]byte" [(EInt 61); (EInt 34)]));
   ("aitch.attEnd", (ESliceLit "[]byte" [(EInt 34)]));
   ("aitch.openComment", (ESliceLit "[]byte" [(EInt 60); (EInt 33); (EInt 45); (EInt 45)]));
   ("aitch.closeComment", (ESliceLit "[]byte" [(EInt 45); (EInt 45); (EInt 62)]));
   ("aitch.openPi", (ESliceLit "[]byte" [(EInt 60); (EInt 33)]));
   ("aitch.closePi", (ESliceLit "[]byte" [(EInt 62); (EInt 10)]));
   ("aitch.fixedTrue", (EConv "[]byte" (EStr (B "true"))));
   ("aitch.fixedFalse", (EConv "[]byte" (EStr (B "false"))));
   ("aitch.htmlQuot", (EConv "[]byte" (EStr (B "&quot;"))));
   ("aitch.htmlApos", (EConv "[]byte" (EStr (B "&apos;"))));
   ("aitch.htmlAmp", (EConv "[]byte" (EStr (B "&amp;"))));
   ("aitch.htmlLt", (EConv "[]byte" (EStr (B "&lt;"))));
   ("aitch.htmlGt", (EConv "[]byte" (EStr (B "&gt;"))));
   ("aitch.htmlNull", (ESliceLit "[]byte" []));
   ("aitch.voidElementNames", (EMapLit [((EStr (B "area")), (ELit false "struct{}" [])); ((EStr (B "base")), (ELit false "struct{}" [])); ((EStr (B "br")), (ELit false "struct{}" [])); ((EStr (B "col")), (ELit false "struct{}" [])); ((EStr (B "embed")), (ELit false "struct{}" [])); ((EStr (B "hr")), (ELit false "struct{}" [])); ((EStr (B "img")), (ELit false "struct{}" [])); ((EStr (B "input")), (ELit false "struct{}" [])); ((EStr (B "link")), (ELit false "struct{}" [])); ((EStr (B "meta")), (ELit false "struct{}" [])); ((EStr (B "param")), (ELit false "struct{}" [])); ((EStr (B "source")), (ELit false "struct{}" [])); ((EStr (B "track")), (ELit false "struct{}" [])); ((EStr (B "wbr")), (ELit false "struct{}" []))]));
   ("aitch.nbsp", (EConv "[]byte" (EStr (B "&nbsp;"))));
   ("aitch.lnbsp", (ECall (EExt "len") [(EGlob "aitch.nbsp")] false))].

Definition the_structs : list (string * list (string * string)) :=
  [("Context", [("Error", "error"); ("Data", "map[string]any"); ("Cargo", "any"); ("Writer", "io.Writer"); ("Parent", "*Context")]);
   ("Value", [("value", "[]byte"); ("dynamicFunc", "DynamicValueFunc"); ("concats", "[]Value")]);
   ("attribute", [("name", "[]byte"); ("values", "[]Value")]);
   ("booleanAttribute", [("name", "[]byte")]);
   ("delimitedAttribute", [("name", "[]byte"); ("delimiter", "[]byte"); ("values", "[]Value")]);
   ("collection", [("nodes", "[]Node")]);
   ("contentCollector", [("collector", "func(*Context) []Node")]);
   ("comment", [("values", "[]Value")]);
   ("conditional", [("nodes", "[]Node"); ("attributes", "[]Node"); ("fn", "ConditionalFunc")]);
   ("conditionalAttribute", [("attribute", "Node"); ("conditions", "[]ConditionalFunc")]);
   ("voidElement", [("name", "[]byte"); ("attributes", "[]Node"); ("attIndices", "map[string]int"); ("conditionals", "conditionalAttributes")]);
   ("element", [("name", "[]byte"); ("attributes", "[]Node"); ("attIndices", "map[string]int"); ("conditionals", "conditionalAttributes"); ("contents", "[]Node")]);
   ("fragment", [("values", "[]Value")]);
   ("imperative", [("fn", "func(ImperativeContext) error")]);
   ("imperativeContext", [("ctx", "*Context"); ("openedStack", "[][]byte")]);
   ("iterator", [("nodes", "[]Node"); ("fn", "func(*Context) []any")]);
   ("yieldIterator", [("fn", "func(*Context, func(any))"); ("nodes", "[]Node")]);
   ("pi", [("name", "[]byte"); ("values", "[]Value")]);
   ("Template", [("template", "*html/template.Template")]);
   ("text", [("values", "[]Value")]);
   ("document", [("prologue", "Node"); ("contents", "[]Node")]);
   ("box", [("v", "any")])].

Definition the_ifaces : list (string * list string) :=
  [("Node", ["Render"; "Type"; "Name"]);
   ("valuesNode", ["getValues"]);
   ("ImperativeContext", ["Context"; "WriteString"; "WriteRaw"; "WriteNodes"; "Start"; "End"; "EndAll"])].

Definition source : program := Program (the_funcs ++ lib_funcs) (the_globals ++ lib_globals) the_structs the_ifaces.
