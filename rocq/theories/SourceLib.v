(** GENERATED by tools/go2rocq.py from the Go files of the packages html, svg, css and htmx; do
    not edit.  One definition per Go function, in the syntax of [GoSyntax.v];
    the meaning of the trees is defined in [GoSem.v].  Left out: nothing. *)
From Coq Require Import ZArith.
From Verif Require Import Bytes GoSyntax.
Open Scope string_scope.
Open Scope Z_scope.
Open Scope list_scope.

(** html/base.go:6 *)
Definition f_html_Text : fundecl :=
  (Fun ["contents"] true []
    (SBlock [(SReturn [(ECall (EFun "aitch.Text") [(ELoc "contents")] true)])])).

(** html/base.go:11 *)
Definition f_html_Comment : fundecl :=
  (Fun ["contents"] true []
    (SBlock [(SReturn [(ECall (EFun "aitch.Comment") [(ELoc "contents")] true)])])).

(** html/base.go:16 *)
Definition f_html_PI : fundecl :=
  (Fun ["name"; "contents"] true []
    (SBlock [(SReturn [(ECall (EFun "aitch.PI") [(ELoc "name"); (ELoc "contents")] true)])])).

(** html/elements.go:10 *)
Definition f_html_A : fundecl :=
  (Fun ["contents"] true []
    (SBlock [(SReturn [(ECall (EFun "aitch.NewElement") [(EGlob "html.tagA"); (ELoc "contents")] true)])])).

(** html/elements.go:17 *)
Definition f_html_Abbr : fundecl :=
  (Fun ["contents"] true []
    (SBlock [(SReturn [(ECall (EFun "aitch.NewElement") [(EGlob "html.tagAbbr"); (ELoc "contents")] true)])])).

(** html/elements.go:24 *)
Definition f_html_Address : fundecl :=
  (Fun ["contents"] true []
    (SBlock [(SReturn [(ECall (EFun "aitch.NewElement") [(EGlob "html.tagAddress"); (ELoc "contents")] true)])])).

(** html/elements.go:33 *)
Definition f_html_Area : fundecl :=
  (Fun ["contents"] true []
    (SBlock [(SReturn [(ECall (EFun "aitch.NewVoidElement") [(EGlob "html.tagArea"); (ELoc "contents")] true)])])).

(** html/elements.go:40 *)
Definition f_html_Article : fundecl :=
  (Fun ["contents"] true []
    (SBlock [(SReturn [(ECall (EFun "aitch.NewElement") [(EGlob "html.tagArticle"); (ELoc "contents")] true)])])).

(** html/elements.go:47 *)
Definition f_html_Aside : fundecl :=
  (Fun ["contents"] true []
    (SBlock [(SReturn [(ECall (EFun "aitch.NewElement") [(EGlob "html.tagAside"); (ELoc "contents")] true)])])).

(** html/elements.go:54 *)
Definition f_html_Audio : fundecl :=
  (Fun ["contents"] true []
    (SBlock [(SReturn [(ECall (EFun "aitch.NewElement") [(EGlob "html.tagAudio"); (ELoc "contents")] true)])])).

(** html/elements.go:61 *)
Definition f_html_B : fundecl :=
  (Fun ["contents"] true []
    (SBlock [(SReturn [(ECall (EFun "aitch.NewElement") [(EGlob "html.tagB"); (ELoc "contents")] true)])])).

(** html/elements.go:70 *)
Definition f_html_Base : fundecl :=
  (Fun ["contents"] true []
    (SBlock [(SReturn [(ECall (EFun "aitch.NewVoidElement") [(EGlob "html.tagBase"); (ELoc "contents")] true)])])).

(** html/elements.go:77 *)
Definition f_html_BlockQuote : fundecl :=
  (Fun ["contents"] true []
    (SBlock [(SReturn [(ECall (EFun "aitch.NewElement") [(EGlob "html.tagBlockquote"); (ELoc "contents")] true)])])).

(** html/elements.go:84 *)
Definition f_html_Body : fundecl :=
  (Fun ["contents"] true []
    (SBlock [(SReturn [(ECall (EFun "aitch.NewElement") [(EGlob "html.tagBody"); (ELoc "contents")] true)])])).

(** html/elements.go:93 *)
Definition f_html_Br : fundecl :=
  (Fun ["contents"] true []
    (SBlock [(SReturn [(ECall (EFun "aitch.NewVoidElement") [(EGlob "html.tagBr"); (ELoc "contents")] true)])])).

(** html/elements.go:100 *)
Definition f_html_Button : fundecl :=
  (Fun ["contents"] true []
    (SBlock [(SReturn [(ECall (EFun "aitch.NewElement") [(EGlob "html.tagButton"); (ELoc "contents")] true)])])).

(** html/elements.go:107 *)
Definition f_html_Canvas : fundecl :=
  (Fun ["contents"] true []
    (SBlock [(SReturn [(ECall (EFun "aitch.NewElement") [(EGlob "html.tagCanvas"); (ELoc "contents")] true)])])).

(** html/elements.go:114 *)
Definition f_html_Caption : fundecl :=
  (Fun ["contents"] true []
    (SBlock [(SReturn [(ECall (EFun "aitch.NewElement") [(EGlob "html.tagCaption"); (ELoc "contents")] true)])])).

(** html/elements.go:121 *)
Definition f_html_Cite : fundecl :=
  (Fun ["contents"] true []
    (SBlock [(SReturn [(ECall (EFun "aitch.NewElement") [(EGlob "html.tagCite"); (ELoc "contents")] true)])])).

(** html/elements.go:128 *)
Definition f_html_Code : fundecl :=
  (Fun ["contents"] true []
    (SBlock [(SReturn [(ECall (EFun "aitch.NewElement") [(EGlob "html.tagCode"); (ELoc "contents")] true)])])).

(** html/elements.go:137 *)
Definition f_html_Col : fundecl :=
  (Fun ["contents"] true []
    (SBlock [(SReturn [(ECall (EFun "aitch.NewVoidElement") [(EGlob "html.tagCol"); (ELoc "contents")] true)])])).

(** html/elements.go:144 *)
Definition f_html_ColGroup : fundecl :=
  (Fun ["contents"] true []
    (SBlock [(SReturn [(ECall (EFun "aitch.NewElement") [(EGlob "html.tagColgroup"); (ELoc "contents")] true)])])).

(** html/elements.go:151 *)
Definition f_html_DataElement : fundecl :=
  (Fun ["contents"] true []
    (SBlock [(SReturn [(ECall (EFun "aitch.NewElement") [(EGlob "html.tagData"); (ELoc "contents")] true)])])).

(** html/elements.go:158 *)
Definition f_html_DataList : fundecl :=
  (Fun ["contents"] true []
    (SBlock [(SReturn [(ECall (EFun "aitch.NewElement") [(EGlob "html.tagDatalist"); (ELoc "contents")] true)])])).

(** html/elements.go:165 *)
Definition f_html_Dd : fundecl :=
  (Fun ["contents"] true []
    (SBlock [(SReturn [(ECall (EFun "aitch.NewElement") [(EGlob "html.tagDd"); (ELoc "contents")] true)])])).

(** html/elements.go:172 *)
Definition f_html_Del : fundecl :=
  (Fun ["contents"] true []
    (SBlock [(SReturn [(ECall (EFun "aitch.NewElement") [(EGlob "html.tagDel"); (ELoc "contents")] true)])])).

(** html/elements.go:179 *)
Definition f_html_Dfn : fundecl :=
  (Fun ["contents"] true []
    (SBlock [(SReturn [(ECall (EFun "aitch.NewElement") [(EGlob "html.tagDfn"); (ELoc "contents")] true)])])).

(** html/elements.go:186 *)
Definition f_html_Dt : fundecl :=
  (Fun ["contents"] true []
    (SBlock [(SReturn [(ECall (EFun "aitch.NewElement") [(EGlob "html.tagDt"); (ELoc "contents")] true)])])).

(** html/elements.go:193 *)
Definition f_html_Details : fundecl :=
  (Fun ["contents"] true []
    (SBlock [(SReturn [(ECall (EFun "aitch.NewElement") [(EGlob "html.tagDetails"); (ELoc "contents")] true)])])).

(** html/elements.go:200 *)
Definition f_html_Dialog : fundecl :=
  (Fun ["contents"] true []
    (SBlock [(SReturn [(ECall (EFun "aitch.NewElement") [(EGlob "html.tagDialog"); (ELoc "contents")] true)])])).

(** html/elements.go:207 *)
Definition f_html_Div : fundecl :=
  (Fun ["contents"] true []
    (SBlock [(SReturn [(ECall (EFun "aitch.NewElement") [(EGlob "html.tagDiv"); (ELoc "contents")] true)])])).

(** html/elements.go:214 *)
Definition f_html_Dl : fundecl :=
  (Fun ["contents"] true []
    (SBlock [(SReturn [(ECall (EFun "aitch.NewElement") [(EGlob "html.tagDl"); (ELoc "contents")] true)])])).

(** html/elements.go:221 *)
Definition f_html_Em : fundecl :=
  (Fun ["contents"] true []
    (SBlock [(SReturn [(ECall (EFun "aitch.NewElement") [(EGlob "html.tagEm"); (ELoc "contents")] true)])])).

(** html/elements.go:230 *)
Definition f_html_Embed : fundecl :=
  (Fun ["contents"] true []
    (SBlock [(SReturn [(ECall (EFun "aitch.NewVoidElement") [(EGlob "html.tagEmbed"); (ELoc "contents")] true)])])).

(** html/elements.go:237 *)
Definition f_html_Form : fundecl :=
  (Fun ["contents"] true []
    (SBlock [(SReturn [(ECall (EFun "aitch.NewElement") [(EGlob "html.tagForm"); (ELoc "contents")] true)])])).

(** html/elements.go:244 *)
Definition f_html_FieldSet : fundecl :=
  (Fun ["contents"] true []
    (SBlock [(SReturn [(ECall (EFun "aitch.NewElement") [(EGlob "html.tagFieldset"); (ELoc "contents")] true)])])).

(** html/elements.go:251 *)
Definition f_html_FigCaption : fundecl :=
  (Fun ["contents"] true []
    (SBlock [(SReturn [(ECall (EFun "aitch.NewElement") [(EGlob "html.tagFigcaption"); (ELoc "contents")] true)])])).

(** html/elements.go:258 *)
Definition f_html_Figure : fundecl :=
  (Fun ["contents"] true []
    (SBlock [(SReturn [(ECall (EFun "aitch.NewElement") [(EGlob "html.tagFigure"); (ELoc "contents")] true)])])).

(** html/elements.go:265 *)
Definition f_html_Footer : fundecl :=
  (Fun ["contents"] true []
    (SBlock [(SReturn [(ECall (EFun "aitch.NewElement") [(EGlob "html.tagFooter"); (ELoc "contents")] true)])])).

(** html/elements.go:272 *)
Definition f_html_H1 : fundecl :=
  (Fun ["contents"] true []
    (SBlock [(SReturn [(ECall (EFun "aitch.NewElement") [(EGlob "html.tagH1"); (ELoc "contents")] true)])])).

(** html/elements.go:279 *)
Definition f_html_H2 : fundecl :=
  (Fun ["contents"] true []
    (SBlock [(SReturn [(ECall (EFun "aitch.NewElement") [(EGlob "html.tagH2"); (ELoc "contents")] true)])])).

(** html/elements.go:286 *)
Definition f_html_H3 : fundecl :=
  (Fun ["contents"] true []
    (SBlock [(SReturn [(ECall (EFun "aitch.NewElement") [(EGlob "html.tagH3"); (ELoc "contents")] true)])])).

(** html/elements.go:293 *)
Definition f_html_H4 : fundecl :=
  (Fun ["contents"] true []
    (SBlock [(SReturn [(ECall (EFun "aitch.NewElement") [(EGlob "html.tagH4"); (ELoc "contents")] true)])])).

(** html/elements.go:300 *)
Definition f_html_H5 : fundecl :=
  (Fun ["contents"] true []
    (SBlock [(SReturn [(ECall (EFun "aitch.NewElement") [(EGlob "html.tagH5"); (ELoc "contents")] true)])])).

(** html/elements.go:307 *)
Definition f_html_H6 : fundecl :=
  (Fun ["contents"] true []
    (SBlock [(SReturn [(ECall (EFun "aitch.NewElement") [(EGlob "html.tagH6"); (ELoc "contents")] true)])])).

(** html/elements.go:314 *)
Definition f_html_Head : fundecl :=
  (Fun ["contents"] true []
    (SBlock [(SReturn [(ECall (EFun "aitch.NewElement") [(EGlob "html.tagHead"); (ELoc "contents")] true)])])).

(** html/elements.go:321 *)
Definition f_html_Header : fundecl :=
  (Fun ["contents"] true []
    (SBlock [(SReturn [(ECall (EFun "aitch.NewElement") [(EGlob "html.tagHeader"); (ELoc "contents")] true)])])).

(** html/elements.go:328 *)
Definition f_html_HGroup : fundecl :=
  (Fun ["contents"] true []
    (SBlock [(SReturn [(ECall (EFun "aitch.NewElement") [(EGlob "html.tagHgroup"); (ELoc "contents")] true)])])).

(** html/elements.go:337 *)
Definition f_html_Hr : fundecl :=
  (Fun ["contents"] true []
    (SBlock [(SReturn [(ECall (EFun "aitch.NewVoidElement") [(EGlob "html.tagHr"); (ELoc "contents")] true)])])).

(** html/elements.go:344 *)
Definition f_html_Html : fundecl :=
  (Fun ["contents"] true []
    (SBlock [(SReturn [(ECall (EFun "aitch.NewElement") [(EGlob "html.tagHtml"); (ELoc "contents")] true)])])).

(** html/elements.go:351 *)
Definition f_html_I : fundecl :=
  (Fun ["contents"] true []
    (SBlock [(SReturn [(ECall (EFun "aitch.NewElement") [(EGlob "html.tagI"); (ELoc "contents")] true)])])).

(** html/elements.go:358 *)
Definition f_html_IFrame : fundecl :=
  (Fun ["contents"] true []
    (SBlock [(SReturn [(ECall (EFun "aitch.NewElement") [(EGlob "html.tagIframe"); (ELoc "contents")] true)])])).

(** html/elements.go:367 *)
Definition f_html_Img : fundecl :=
  (Fun ["contents"] true []
    (SBlock [(SReturn [(ECall (EFun "aitch.NewVoidElement") [(EGlob "html.tagImg"); (ELoc "contents")] true)])])).

(** html/elements.go:376 *)
Definition f_html_Input : fundecl :=
  (Fun ["contents"] true []
    (SBlock [(SReturn [(ECall (EFun "aitch.NewVoidElement") [(EGlob "html.tagInput"); (ELoc "contents")] true)])])).

(** html/elements.go:383 *)
Definition f_html_Ins : fundecl :=
  (Fun ["contents"] true []
    (SBlock [(SReturn [(ECall (EFun "aitch.NewElement") [(EGlob "html.tagIns"); (ELoc "contents")] true)])])).

(** html/elements.go:390 *)
Definition f_html_Kbd : fundecl :=
  (Fun ["contents"] true []
    (SBlock [(SReturn [(ECall (EFun "aitch.NewElement") [(EGlob "html.tagKbd"); (ELoc "contents")] true)])])).

(** html/elements.go:397 *)
Definition f_html_Label : fundecl :=
  (Fun ["contents"] true []
    (SBlock [(SReturn [(ECall (EFun "aitch.NewElement") [(EGlob "html.tagLabel"); (ELoc "contents")] true)])])).

(** html/elements.go:404 *)
Definition f_html_Legend : fundecl :=
  (Fun ["contents"] true []
    (SBlock [(SReturn [(ECall (EFun "aitch.NewElement") [(EGlob "html.tagLegend"); (ELoc "contents")] true)])])).

(** html/elements.go:411 *)
Definition f_html_Li : fundecl :=
  (Fun ["contents"] true []
    (SBlock [(SReturn [(ECall (EFun "aitch.NewElement") [(EGlob "html.tagLi"); (ELoc "contents")] true)])])).

(** html/elements.go:420 *)
Definition f_html_Link : fundecl :=
  (Fun ["contents"] true []
    (SBlock [(SReturn [(ECall (EFun "aitch.NewVoidElement") [(EGlob "html.tagLink"); (ELoc "contents")] true)])])).

(** html/elements.go:427 *)
Definition f_html_Main : fundecl :=
  (Fun ["contents"] true []
    (SBlock [(SReturn [(ECall (EFun "aitch.NewElement") [(EGlob "html.tagMain"); (ELoc "contents")] true)])])).

(** html/elements.go:434 *)
Definition f_html_Mark : fundecl :=
  (Fun ["contents"] true []
    (SBlock [(SReturn [(ECall (EFun "aitch.NewElement") [(EGlob "html.tagMark"); (ELoc "contents")] true)])])).

(** html/elements.go:441 *)
Definition f_html_Menu : fundecl :=
  (Fun ["contents"] true []
    (SBlock [(SReturn [(ECall (EFun "aitch.NewElement") [(EGlob "html.tagMenu"); (ELoc "contents")] true)])])).

(** html/elements.go:450 *)
Definition f_html_Meta : fundecl :=
  (Fun ["contents"] true []
    (SBlock [(SReturn [(ECall (EFun "aitch.NewVoidElement") [(EGlob "html.tagMeta"); (ELoc "contents")] true)])])).

(** html/elements.go:457 *)
Definition f_html_Meter : fundecl :=
  (Fun ["contents"] true []
    (SBlock [(SReturn [(ECall (EFun "aitch.NewElement") [(EGlob "html.tagMeter"); (ELoc "contents")] true)])])).

(** html/elements.go:464 *)
Definition f_html_Nav : fundecl :=
  (Fun ["contents"] true []
    (SBlock [(SReturn [(ECall (EFun "aitch.NewElement") [(EGlob "html.tagNav"); (ELoc "contents")] true)])])).

(** html/elements.go:471 *)
Definition f_html_NoScript : fundecl :=
  (Fun ["contents"] true []
    (SBlock [(SReturn [(ECall (EFun "aitch.NewElement") [(EGlob "html.tagNoscript"); (ELoc "contents")] true)])])).

(** html/elements.go:478 *)
Definition f_html_Object : fundecl :=
  (Fun ["contents"] true []
    (SBlock [(SReturn [(ECall (EFun "aitch.NewElement") [(EGlob "html.tagObject"); (ELoc "contents")] true)])])).

(** html/elements.go:485 *)
Definition f_html_Ol : fundecl :=
  (Fun ["contents"] true []
    (SBlock [(SReturn [(ECall (EFun "aitch.NewElement") [(EGlob "html.tagOl"); (ELoc "contents")] true)])])).

(** html/elements.go:492 *)
Definition f_html_OptGroup : fundecl :=
  (Fun ["contents"] true []
    (SBlock [(SReturn [(ECall (EFun "aitch.NewElement") [(EGlob "html.tagOptgroup"); (ELoc "contents")] true)])])).

(** html/elements.go:499 *)
Definition f_html_Option : fundecl :=
  (Fun ["contents"] true []
    (SBlock [(SReturn [(ECall (EFun "aitch.NewElement") [(EGlob "html.tagOption"); (ELoc "contents")] true)])])).

(** html/elements.go:506 *)
Definition f_html_P : fundecl :=
  (Fun ["contents"] true []
    (SBlock [(SReturn [(ECall (EFun "aitch.NewElement") [(EGlob "html.tagP"); (ELoc "contents")] true)])])).

(** html/elements.go:513 *)
Definition f_html_Para : fundecl :=
  (Fun ["contents"] true []
    (SBlock [(SReturn [(ECall (EFun "aitch.NewElement") [(EGlob "html.tagP"); (ELoc "contents")] true)])])).

(** html/elements.go:522 *)
Definition f_html_Param : fundecl :=
  (Fun ["contents"] true []
    (SBlock [(SReturn [(ECall (EFun "aitch.NewVoidElement") [(EGlob "html.tagParam"); (ELoc "contents")] true)])])).

(** html/elements.go:529 *)
Definition f_html_Picture : fundecl :=
  (Fun ["contents"] true []
    (SBlock [(SReturn [(ECall (EFun "aitch.NewElement") [(EGlob "html.tagPicture"); (ELoc "contents")] true)])])).

(** html/elements.go:536 *)
Definition f_html_Pre : fundecl :=
  (Fun ["contents"] true []
    (SBlock [(SReturn [(ECall (EFun "aitch.NewElement") [(EGlob "html.tagPre"); (ELoc "contents")] true)])])).

(** html/elements.go:543 *)
Definition f_html_Progress : fundecl :=
  (Fun ["contents"] true []
    (SBlock [(SReturn [(ECall (EFun "aitch.NewElement") [(EGlob "html.tagProgress"); (ELoc "contents")] true)])])).

(** html/elements.go:550 *)
Definition f_html_Q : fundecl :=
  (Fun ["contents"] true []
    (SBlock [(SReturn [(ECall (EFun "aitch.NewElement") [(EGlob "html.tagQ"); (ELoc "contents")] true)])])).

(** html/elements.go:557 *)
Definition f_html_S : fundecl :=
  (Fun ["contents"] true []
    (SBlock [(SReturn [(ECall (EFun "aitch.NewElement") [(EGlob "html.tagS"); (ELoc "contents")] true)])])).

(** html/elements.go:564 *)
Definition f_html_Samp : fundecl :=
  (Fun ["contents"] true []
    (SBlock [(SReturn [(ECall (EFun "aitch.NewElement") [(EGlob "html.tagSamp"); (ELoc "contents")] true)])])).

(** html/elements.go:571 *)
Definition f_html_Script : fundecl :=
  (Fun ["contents"] true []
    (SBlock [(SReturn [(ECall (EFun "aitch.NewElement") [(EGlob "html.tagScript"); (ELoc "contents")] true)])])).

(** html/elements.go:578 *)
Definition f_html_Section : fundecl :=
  (Fun ["contents"] true []
    (SBlock [(SReturn [(ECall (EFun "aitch.NewElement") [(EGlob "html.tagSection"); (ELoc "contents")] true)])])).

(** html/elements.go:585 *)
Definition f_html_Select : fundecl :=
  (Fun ["contents"] true []
    (SBlock [(SReturn [(ECall (EFun "aitch.NewElement") [(EGlob "html.tagSelect"); (ELoc "contents")] true)])])).

(** html/elements.go:592 *)
Definition f_html_Slot : fundecl :=
  (Fun ["contents"] true []
    (SBlock [(SReturn [(ECall (EFun "aitch.NewElement") [(EGlob "html.tagSlot"); (ELoc "contents")] true)])])).

(** html/elements.go:599 *)
Definition f_html_Small : fundecl :=
  (Fun ["contents"] true []
    (SBlock [(SReturn [(ECall (EFun "aitch.NewElement") [(EGlob "html.tagSmall"); (ELoc "contents")] true)])])).

(** html/elements.go:608 *)
Definition f_html_Source : fundecl :=
  (Fun ["contents"] true []
    (SBlock [(SReturn [(ECall (EFun "aitch.NewVoidElement") [(EGlob "html.tagSource"); (ELoc "contents")] true)])])).

(** html/elements.go:615 *)
Definition f_html_Span : fundecl :=
  (Fun ["contents"] true []
    (SBlock [(SReturn [(ECall (EFun "aitch.NewElement") [(EGlob "html.tagSpan"); (ELoc "contents")] true)])])).

(** html/elements.go:622 *)
Definition f_html_Strong : fundecl :=
  (Fun ["contents"] true []
    (SBlock [(SReturn [(ECall (EFun "aitch.NewElement") [(EGlob "html.tagStrong"); (ELoc "contents")] true)])])).

(** html/elements.go:629 *)
Definition f_html_StyleElement : fundecl :=
  (Fun ["contents"] true []
    (SBlock [(SReturn [(ECall (EFun "aitch.NewElement") [(EGlob "html.tagStyle"); (ELoc "contents")] true)])])).

(** html/elements.go:636 *)
Definition f_html_Sub : fundecl :=
  (Fun ["contents"] true []
    (SBlock [(SReturn [(ECall (EFun "aitch.NewElement") [(EGlob "html.tagSub"); (ELoc "contents")] true)])])).

(** html/elements.go:643 *)
Definition f_html_Sup : fundecl :=
  (Fun ["contents"] true []
    (SBlock [(SReturn [(ECall (EFun "aitch.NewElement") [(EGlob "html.tagSup"); (ELoc "contents")] true)])])).

(** html/elements.go:650 *)
Definition f_html_Summary : fundecl :=
  (Fun ["contents"] true []
    (SBlock [(SReturn [(ECall (EFun "aitch.NewElement") [(EGlob "html.tagSummary"); (ELoc "contents")] true)])])).

(** html/elements.go:657 *)
Definition f_html_Table : fundecl :=
  (Fun ["contents"] true []
    (SBlock [(SReturn [(ECall (EFun "aitch.NewElement") [(EGlob "html.tagTable"); (ELoc "contents")] true)])])).

(** html/elements.go:664 *)
Definition f_html_TBody : fundecl :=
  (Fun ["contents"] true []
    (SBlock [(SReturn [(ECall (EFun "aitch.NewElement") [(EGlob "html.tagTbody"); (ELoc "contents")] true)])])).

(** html/elements.go:671 *)
Definition f_html_Td : fundecl :=
  (Fun ["contents"] true []
    (SBlock [(SReturn [(ECall (EFun "aitch.NewElement") [(EGlob "html.tagTd"); (ELoc "contents")] true)])])).

(** html/elements.go:678 *)
Definition f_html_Template : fundecl :=
  (Fun ["contents"] true []
    (SBlock [(SReturn [(ECall (EFun "aitch.NewElement") [(EGlob "html.tagTemplate"); (ELoc "contents")] true)])])).

(** html/elements.go:685 *)
Definition f_html_Textarea : fundecl :=
  (Fun ["contents"] true []
    (SBlock [(SReturn [(ECall (EFun "aitch.NewElement") [(EGlob "html.tagTextarea"); (ELoc "contents")] true)])])).

(** html/elements.go:692 *)
Definition f_html_TFoot : fundecl :=
  (Fun ["contents"] true []
    (SBlock [(SReturn [(ECall (EFun "aitch.NewElement") [(EGlob "html.tagTfoot"); (ELoc "contents")] true)])])).

(** html/elements.go:699 *)
Definition f_html_Th : fundecl :=
  (Fun ["contents"] true []
    (SBlock [(SReturn [(ECall (EFun "aitch.NewElement") [(EGlob "html.tagTh"); (ELoc "contents")] true)])])).

(** html/elements.go:706 *)
Definition f_html_THead : fundecl :=
  (Fun ["contents"] true []
    (SBlock [(SReturn [(ECall (EFun "aitch.NewElement") [(EGlob "html.tagThead"); (ELoc "contents")] true)])])).

(** html/elements.go:713 *)
Definition f_html_Time : fundecl :=
  (Fun ["contents"] true []
    (SBlock [(SReturn [(ECall (EFun "aitch.NewElement") [(EGlob "html.tagTime"); (ELoc "contents")] true)])])).

(** html/elements.go:720 *)
Definition f_html_TitleElement : fundecl :=
  (Fun ["contents"] true []
    (SBlock [(SReturn [(ECall (EFun "aitch.NewElement") [(EGlob "html.tagTitle"); (ELoc "contents")] true)])])).

(** html/elements.go:727 *)
Definition f_html_Tr : fundecl :=
  (Fun ["contents"] true []
    (SBlock [(SReturn [(ECall (EFun "aitch.NewElement") [(EGlob "html.tagTr"); (ELoc "contents")] true)])])).

(** html/elements.go:734 *)
Definition f_html_Ul : fundecl :=
  (Fun ["contents"] true []
    (SBlock [(SReturn [(ECall (EFun "aitch.NewElement") [(EGlob "html.tagUl"); (ELoc "contents")] true)])])).

(** html/elements.go:741 *)
Definition f_html_U : fundecl :=
  (Fun ["contents"] true []
    (SBlock [(SReturn [(ECall (EFun "aitch.NewElement") [(EGlob "html.tagU"); (ELoc "contents")] true)])])).

(** html/elements.go:748 *)
Definition f_html_Var : fundecl :=
  (Fun ["contents"] true []
    (SBlock [(SReturn [(ECall (EFun "aitch.NewElement") [(EGlob "html.tagVar"); (ELoc "contents")] true)])])).

(** html/elements.go:755 *)
Definition f_html_Video : fundecl :=
  (Fun ["contents"] true []
    (SBlock [(SReturn [(ECall (EFun "aitch.NewElement") [(EGlob "html.tagVideo"); (ELoc "contents")] true)])])).

(** html/elements.go:764 *)
Definition f_html_Wbr : fundecl :=
  (Fun ["contents"] true []
    (SBlock [(SReturn [(ECall (EFun "aitch.NewVoidElement") [(EGlob "html.tagWbr"); (ELoc "contents")] true)])])).

(** html/elements.go:771 *)
Definition f_html_Bdi : fundecl :=
  (Fun ["contents"] true []
    (SBlock [(SReturn [(ECall (EFun "aitch.NewElement") [(EGlob "html.tagBdi"); (ELoc "contents")] true)])])).

(** html/elements.go:778 *)
Definition f_html_Bdo : fundecl :=
  (Fun ["contents"] true []
    (SBlock [(SReturn [(ECall (EFun "aitch.NewElement") [(EGlob "html.tagBdo"); (ELoc "contents")] true)])])).

(** html/elements.go:785 *)
Definition f_html_Map : fundecl :=
  (Fun ["contents"] true []
    (SBlock [(SReturn [(ECall (EFun "aitch.NewElement") [(EGlob "html.tagMap"); (ELoc "contents")] true)])])).

(** html/elements.go:792 *)
Definition f_html_Output : fundecl :=
  (Fun ["contents"] true []
    (SBlock [(SReturn [(ECall (EFun "aitch.NewElement") [(EGlob "html.tagOutput"); (ELoc "contents")] true)])])).

(** html/elements.go:799 *)
Definition f_html_Rp : fundecl :=
  (Fun ["contents"] true []
    (SBlock [(SReturn [(ECall (EFun "aitch.NewElement") [(EGlob "html.tagRp"); (ELoc "contents")] true)])])).

(** html/elements.go:806 *)
Definition f_html_Rt : fundecl :=
  (Fun ["contents"] true []
    (SBlock [(SReturn [(ECall (EFun "aitch.NewElement") [(EGlob "html.tagRt"); (ELoc "contents")] true)])])).

(** html/elements.go:813 *)
Definition f_html_Ruby : fundecl :=
  (Fun ["contents"] true []
    (SBlock [(SReturn [(ECall (EFun "aitch.NewElement") [(EGlob "html.tagRuby"); (ELoc "contents")] true)])])).

(** html/elements.go:820 *)
Definition f_html_Search : fundecl :=
  (Fun ["contents"] true []
    (SBlock [(SReturn [(ECall (EFun "aitch.NewElement") [(EGlob "html.tagSearch"); (ELoc "contents")] true)])])).

(** html/elements.go:827 *)
Definition f_html_Track : fundecl :=
  (Fun ["contents"] true []
    (SBlock [(SReturn [(ECall (EFun "aitch.NewElement") [(EGlob "html.tagTrack"); (ELoc "contents")] true)])])).

(** html/attributes.go:10 *)
Definition f_html_Async : fundecl :=
  (Fun [] false []
    (SBlock [(SReturn [(ECall (EFun "aitch.NewBooleanAttribute") [(EGlob "html.attrAsync")] false)])])).

(** html/attributes.go:19 *)
Definition f_html_AutoFocus : fundecl :=
  (Fun [] false []
    (SBlock [(SReturn [(ECall (EFun "aitch.NewBooleanAttribute") [(EGlob "html.attrAutofocus")] false)])])).

(** html/attributes.go:29 *)
Definition f_html_AutoPlay : fundecl :=
  (Fun [] false []
    (SBlock [(SReturn [(ECall (EFun "aitch.NewBooleanAttribute") [(EGlob "html.attrAutoplay")] false)])])).

(** html/attributes.go:38 *)
Definition f_html_Checked : fundecl :=
  (Fun [] false []
    (SBlock [(SReturn [(ECall (EFun "aitch.NewBooleanAttribute") [(EGlob "html.attrChecked")] false)])])).

(** html/attributes.go:48 *)
Definition f_html_Controls : fundecl :=
  (Fun [] false []
    (SBlock [(SReturn [(ECall (EFun "aitch.NewBooleanAttribute") [(EGlob "html.attrControls")] false)])])).

(** html/attributes.go:55 *)
Definition f_html_CrossOrigin : fundecl :=
  (Fun ["value"] true []
    (SBlock [(SReturn [(ECall (EFun "aitch.NewAttribute") [(EGlob "html.attrCrossorigin"); (ELoc "value")] true)])])).

(** html/attributes.go:64 *)
Definition f_html_DateTime : fundecl :=
  (Fun ["value"] true []
    (SBlock [(SReturn [(ECall (EFun "aitch.NewAttribute") [(EGlob "html.attrDatetime"); (ELoc "value")] true)])])).

(** html/attributes.go:73 *)
Definition f_html_Defer : fundecl :=
  (Fun [] false []
    (SBlock [(SReturn [(ECall (EFun "aitch.NewBooleanAttribute") [(EGlob "html.attrDefer")] false)])])).

(** html/attributes.go:80 *)
Definition f_html_Disabled : fundecl :=
  (Fun [] false []
    (SBlock [(SReturn [(ECall (EFun "aitch.NewBooleanAttribute") [(EGlob "html.attrDisabled")] false)])])).

(** html/attributes.go:89 *)
Definition f_html_Download : fundecl :=
  (Fun ["value"] true []
    (SBlock [(SReturn [(ECall (EFun "aitch.NewAttribute") [(EGlob "html.attrDownload"); (ELoc "value")] true)])])).

(** html/attributes.go:98 *)
Definition f_html_Draggable : fundecl :=
  (Fun ["value"] true []
    (SBlock [(SReturn [(ECall (EFun "aitch.NewAttribute") [(EGlob "html.attrDraggable"); (ELoc "value")] true)])])).

(** html/attributes.go:108 *)
Definition f_html_Loop : fundecl :=
  (Fun [] false []
    (SBlock [(SReturn [(ECall (EFun "aitch.NewBooleanAttribute") [(EGlob "html.attrLoop")] false)])])).

(** html/attributes.go:115 *)
Definition f_html_Multiple : fundecl :=
  (Fun [] false []
    (SBlock [(SReturn [(ECall (EFun "aitch.NewBooleanAttribute") [(EGlob "html.attrMultiple")] false)])])).

(** html/attributes.go:125 *)
Definition f_html_Muted : fundecl :=
  (Fun [] false []
    (SBlock [(SReturn [(ECall (EFun "aitch.NewBooleanAttribute") [(EGlob "html.attrMuted")] false)])])).

(** html/attributes.go:134 *)
Definition f_html_PlaysInline : fundecl :=
  (Fun [] false []
    (SBlock [(SReturn [(ECall (EFun "aitch.NewBooleanAttribute") [(EGlob "html.attrPlaysinline")] false)])])).

(** html/attributes.go:141 *)
Definition f_html_ReadOnly : fundecl :=
  (Fun [] false []
    (SBlock [(SReturn [(ECall (EFun "aitch.NewBooleanAttribute") [(EGlob "html.attrReadonly")] false)])])).

(** html/attributes.go:148 *)
Definition f_html_Required : fundecl :=
  (Fun [] false []
    (SBlock [(SReturn [(ECall (EFun "aitch.NewBooleanAttribute") [(EGlob "html.attrRequired")] false)])])).

(** html/attributes.go:157 *)
Definition f_html_Selected : fundecl :=
  (Fun [] false []
    (SBlock [(SReturn [(ECall (EFun "aitch.NewBooleanAttribute") [(EGlob "html.attrSelected")] false)])])).

(** html/attributes.go:166 *)
Definition f_html_Accept : fundecl :=
  (Fun ["value"] true []
    (SBlock [(SReturn [(ECall (EFun "aitch.NewAttribute") [(EGlob "html.attrAccept"); (ELoc "value")] true)])])).

(** html/attributes.go:175 *)
Definition f_html_Action : fundecl :=
  (Fun ["value"] true []
    (SBlock [(SReturn [(ECall (EFun "aitch.NewAttribute") [(EGlob "html.attrAction"); (ELoc "value")] true)])])).

(** html/attributes.go:182 *)
Definition f_html_Alt : fundecl :=
  (Fun ["value"] true []
    (SBlock [(SReturn [(ECall (EFun "aitch.NewAttribute") [(EGlob "html.attrAlt"); (ELoc "value")] true)])])).

(** html/attributes.go:189 *)
Definition f_html_Aria : fundecl :=
  (Fun ["name"; "value"] true []
    (SBlock [(SReturn [(ECall (EFun "aitch.NewAttribute") [(ECall (EExt "append") [(EGlob "html.attrAria"); (EConv "[]byte" (ELoc "name"))] true); (ELoc "value")] true)])])).

(** html/attributes.go:198 *)
Definition f_html_As : fundecl :=
  (Fun ["value"] true []
    (SBlock [(SReturn [(ECall (EFun "aitch.NewAttribute") [(EGlob "html.attrAs"); (ELoc "value")] true)])])).

(** html/attributes.go:205 *)
Definition f_html_AutoComplete : fundecl :=
  (Fun ["value"] true []
    (SBlock [(SReturn [(ECall (EFun "aitch.NewAttribute") [(EGlob "html.attrAutocomplete"); (ELoc "value")] true)])])).

(** html/attributes.go:212 *)
Definition f_html_Charset : fundecl :=
  (Fun ["value"] true []
    (SBlock [(SReturn [(ECall (EFun "aitch.NewAttribute") [(EGlob "html.attrCharset"); (ELoc "value")] true)])])).

(** html/attributes.go:219 *)
Definition f_html_CiteAttr : fundecl :=
  (Fun ["value"] true []
    (SBlock [(SReturn [(ECall (EFun "aitch.NewAttribute") [(EGlob "html.attrCite"); (ELoc "value")] true)])])).

(** html/attributes.go:230 *)
Definition f_html_Class : fundecl :=
  (Fun ["value"] true []
    (SBlock [(SReturn [(ECall (EFun "aitch.NewDelimitedAttribute") [(EGlob "html.attrClass"); (EGlob "html.space"); (ELoc "value")] true)])])).

(** html/attributes.go:237 *)
Definition f_html_Cols : fundecl :=
  (Fun ["value"] true []
    (SBlock [(SReturn [(ECall (EFun "aitch.NewAttribute") [(EGlob "html.attrCols"); (ELoc "value")] true)])])).

(** html/attributes.go:244 *)
Definition f_html_ColSpan : fundecl :=
  (Fun ["value"] true []
    (SBlock [(SReturn [(ECall (EFun "aitch.NewAttribute") [(EGlob "html.attrColspan"); (ELoc "value")] true)])])).

(** html/attributes.go:251 *)
Definition f_html_Content : fundecl :=
  (Fun ["value"] true []
    (SBlock [(SReturn [(ECall (EFun "aitch.NewAttribute") [(EGlob "html.attrContent"); (ELoc "value")] true)])])).

(** html/attributes.go:260 *)
Definition f_html_ContentEditable : fundecl :=
  (Fun ["value"] true []
    (SBlock [(SReturn [(ECall (EFun "aitch.NewAttribute") [(EGlob "html.attrContenteditable"); (ELoc "value")] true)])])).

(** html/attributes.go:269 *)
Definition f_html_Dir : fundecl :=
  (Fun ["value"] true []
    (SBlock [(SReturn [(ECall (EFun "aitch.NewAttribute") [(EGlob "html.attrDir"); (ELoc "value")] true)])])).

(** html/attributes.go:278 *)
Definition f_html_Data : fundecl :=
  (Fun ["name"; "value"] true []
    (SBlock [(SReturn [(ECall (EFun "aitch.NewAttribute") [(ECall (EExt "append") [(EGlob "html.attrData"); (EConv "[]byte" (ELoc "name"))] true); (ELoc "value")] true)])])).

(** html/attributes.go:287 *)
Definition f_html_EncType : fundecl :=
  (Fun ["value"] true []
    (SBlock [(SReturn [(ECall (EFun "aitch.NewAttribute") [(EGlob "html.attrEnctype"); (ELoc "value")] true)])])).

(** html/attributes.go:296 *)
Definition f_html_For : fundecl :=
  (Fun ["value"] true []
    (SBlock [(SReturn [(ECall (EFun "aitch.NewAttribute") [(EGlob "html.attrFor"); (ELoc "value")] true)])])).

(** html/attributes.go:303 *)
Definition f_html_FormAttr : fundecl :=
  (Fun ["value"] true []
    (SBlock [(SReturn [(ECall (EFun "aitch.NewAttribute") [(EGlob "html.attrForm"); (ELoc "value")] true)])])).

(** html/attributes.go:310 *)
Definition f_html_NoValidate : fundecl :=
  (Fun [] false []
    (SBlock [(SReturn [(ECall (EFun "aitch.NewBooleanAttribute") [(EGlob "html.attrNovalidate")] false)])])).

(** html/attributes.go:317 *)
Definition f_html_FormNoValidate : fundecl :=
  (Fun [] false []
    (SBlock [(SReturn [(ECall (EFun "aitch.NewBooleanAttribute") [(EGlob "html.attrFormnovalidate")] false)])])).

(** html/attributes.go:324 *)
Definition f_html_Height : fundecl :=
  (Fun ["value"] true []
    (SBlock [(SReturn [(ECall (EFun "aitch.NewAttribute") [(EGlob "html.attrHeight"); (ELoc "value")] true)])])).

(** html/attributes.go:333 *)
Definition f_html_Hidden : fundecl :=
  (Fun [] false []
    (SBlock [(SReturn [(ECall (EFun "aitch.NewBooleanAttribute") [(EGlob "html.attrHidden")] false)])])).

(** html/attributes.go:340 *)
Definition f_html_Href : fundecl :=
  (Fun ["value"] true []
    (SBlock [(SReturn [(ECall (EFun "aitch.NewAttribute") [(EGlob "html.attrHref"); (ELoc "value")] true)])])).

(** html/attributes.go:349 *)
Definition f_html_Id : fundecl :=
  (Fun ["value"] true []
    (SBlock [(SReturn [(ECall (EFun "aitch.NewAttribute") [(EGlob "html.attrId"); (ELoc "value")] true)])])).

(** html/attributes.go:356 *)
Definition f_html_Integrity : fundecl :=
  (Fun ["value"] true []
    (SBlock [(SReturn [(ECall (EFun "aitch.NewAttribute") [(EGlob "html.attrIntegrity"); (ELoc "value")] true)])])).

(** html/attributes.go:365 *)
Definition f_html_Lang : fundecl :=
  (Fun ["value"] true []
    (SBlock [(SReturn [(ECall (EFun "aitch.NewAttribute") [(EGlob "html.attrLang"); (ELoc "value")] true)])])).

(** html/attributes.go:374 *)
Definition f_html_List : fundecl :=
  (Fun ["value"] true []
    (SBlock [(SReturn [(ECall (EFun "aitch.NewAttribute") [(EGlob "html.attrList"); (ELoc "value")] true)])])).

(** html/attributes.go:381 *)
Definition f_html_Loading : fundecl :=
  (Fun ["value"] true []
    (SBlock [(SReturn [(ECall (EFun "aitch.NewAttribute") [(EGlob "html.attrLoading"); (ELoc "value")] true)])])).

(** html/attributes.go:388 *)
Definition f_html_Max : fundecl :=
  (Fun ["value"] true []
    (SBlock [(SReturn [(ECall (EFun "aitch.NewAttribute") [(EGlob "html.attrMax"); (ELoc "value")] true)])])).

(** html/attributes.go:395 *)
Definition f_html_MaxLength : fundecl :=
  (Fun ["value"] true []
    (SBlock [(SReturn [(ECall (EFun "aitch.NewAttribute") [(EGlob "html.attrMaxlength"); (ELoc "value")] true)])])).

(** html/attributes.go:404 *)
Definition f_html_Method : fundecl :=
  (Fun ["value"] true []
    (SBlock [(SReturn [(ECall (EFun "aitch.NewAttribute") [(EGlob "html.attrMethod"); (ELoc "value")] true)])])).

(** html/attributes.go:411 *)
Definition f_html_Min : fundecl :=
  (Fun ["value"] true []
    (SBlock [(SReturn [(ECall (EFun "aitch.NewAttribute") [(EGlob "html.attrMin"); (ELoc "value")] true)])])).

(** html/attributes.go:418 *)
Definition f_html_MinLength : fundecl :=
  (Fun ["value"] true []
    (SBlock [(SReturn [(ECall (EFun "aitch.NewAttribute") [(EGlob "html.attrMinlength"); (ELoc "value")] true)])])).

(** html/attributes.go:425 *)
Definition f_html_Name : fundecl :=
  (Fun ["value"] true []
    (SBlock [(SReturn [(ECall (EFun "aitch.NewAttribute") [(EGlob "html.attrName"); (ELoc "value")] true)])])).

(** html/attributes.go:434 *)
Definition f_html_Pattern : fundecl :=
  (Fun ["value"] true []
    (SBlock [(SReturn [(ECall (EFun "aitch.NewAttribute") [(EGlob "html.attrPattern"); (ELoc "value")] true)])])).

(** html/attributes.go:441 *)
Definition f_html_Placeholder : fundecl :=
  (Fun ["value"] true []
    (SBlock [(SReturn [(ECall (EFun "aitch.NewAttribute") [(EGlob "html.attrPlaceholder"); (ELoc "value")] true)])])).

(** html/attributes.go:450 *)
Definition f_html_PopOver : fundecl :=
  (Fun ["value"] true []
    (SBlock [(SReturn [(ECall (EFun "aitch.NewAttribute") [(EGlob "html.attrPopover"); (ELoc "value")] true)])])).

(** html/attributes.go:455 *)
Definition f_html_PopOverTarget : fundecl :=
  (Fun ["value"] true []
    (SBlock [(SReturn [(ECall (EFun "aitch.NewAttribute") [(EGlob "html.attrPopovertarget"); (ELoc "value")] true)])])).

(** html/attributes.go:460 *)
Definition f_html_PopOverTargetAction : fundecl :=
  (Fun ["value"] true []
    (SBlock [(SReturn [(ECall (EFun "aitch.NewAttribute") [(EGlob "html.attrPopovertargetaction"); (ELoc "value")] true)])])).

(** html/attributes.go:469 *)
Definition f_html_Poster : fundecl :=
  (Fun ["value"] true []
    (SBlock [(SReturn [(ECall (EFun "aitch.NewAttribute") [(EGlob "html.attrPoster"); (ELoc "value")] true)])])).

(** html/attributes.go:479 *)
Definition f_html_Preload : fundecl :=
  (Fun ["value"] true []
    (SBlock [(SReturn [(ECall (EFun "aitch.NewAttribute") [(EGlob "html.attrPreload"); (ELoc "value")] true)])])).

(** html/attributes.go:486 *)
Definition f_html_ReferrerPolicy : fundecl :=
  (Fun ["value"] true []
    (SBlock [(SReturn [(ECall (EFun "aitch.NewAttribute") [(EGlob "html.attrReferrerpolicy"); (ELoc "value")] true)])])).

(** html/attributes.go:493 *)
Definition f_html_Rel : fundecl :=
  (Fun ["value"] true []
    (SBlock [(SReturn [(ECall (EFun "aitch.NewAttribute") [(EGlob "html.attrRel"); (ELoc "value")] true)])])).

(** html/attributes.go:498 *)
Definition f_html_Role : fundecl :=
  (Fun ["value"] true []
    (SBlock [(SReturn [(ECall (EFun "aitch.NewAttribute") [(EGlob "html.attrRole"); (ELoc "value")] true)])])).

(** html/attributes.go:507 *)
Definition f_html_Rows : fundecl :=
  (Fun ["value"] true []
    (SBlock [(SReturn [(ECall (EFun "aitch.NewAttribute") [(EGlob "html.attrRows"); (ELoc "value")] true)])])).

(** html/attributes.go:514 *)
Definition f_html_RowSpan : fundecl :=
  (Fun ["value"] true []
    (SBlock [(SReturn [(ECall (EFun "aitch.NewAttribute") [(EGlob "html.attrRowspan"); (ELoc "value")] true)])])).

(** html/attributes.go:523 *)
Definition f_html_SlotAttr : fundecl :=
  (Fun ["value"] true []
    (SBlock [(SReturn [(ECall (EFun "aitch.NewAttribute") [(EGlob "html.attrSlot"); (ELoc "value")] true)])])).

(** html/attributes.go:530 *)
Definition f_html_Src : fundecl :=
  (Fun ["value"] true []
    (SBlock [(SReturn [(ECall (EFun "aitch.NewAttribute") [(EGlob "html.attrSrc"); (ELoc "value")] true)])])).

(** html/attributes.go:539 *)
Definition f_html_SrcSet : fundecl :=
  (Fun ["value"] true []
    (SBlock [(SReturn [(ECall (EFun "aitch.NewAttribute") [(EGlob "html.attrSrcset"); (ELoc "value")] true)])])).

(** html/attributes.go:548 *)
Definition f_html_Step : fundecl :=
  (Fun ["value"] true []
    (SBlock [(SReturn [(ECall (EFun "aitch.NewAttribute") [(EGlob "html.attrStep"); (ELoc "value")] true)])])).

(** html/attributes.go:559 *)
Definition f_html_Style : fundecl :=
  (Fun ["value"] true []
    (SBlock [(SReturn [(ECall (EFun "aitch.NewDelimitedAttribute") [(EGlob "html.attrStyle"); (EGlob "html.stylesDelim"); (ELoc "value")] true)])])).

(** html/attributes.go:568 *)
Definition f_html_TabIndex : fundecl :=
  (Fun ["value"] true []
    (SBlock [(SReturn [(ECall (EFun "aitch.NewAttribute") [(EGlob "html.attrTabindex"); (ELoc "value")] true)])])).

(** html/attributes.go:575 *)
Definition f_html_Target : fundecl :=
  (Fun ["value"] true []
    (SBlock [(SReturn [(ECall (EFun "aitch.NewAttribute") [(EGlob "html.attrTarget"); (ELoc "value")] true)])])).

(** html/attributes.go:584 *)
Definition f_html_Title : fundecl :=
  (Fun ["value"] true []
    (SBlock [(SReturn [(ECall (EFun "aitch.NewAttribute") [(EGlob "html.attrTitle"); (ELoc "value")] true)])])).

(** html/attributes.go:591 *)
Definition f_html_Type : fundecl :=
  (Fun ["value"] true []
    (SBlock [(SReturn [(ECall (EFun "aitch.NewAttribute") [(EGlob "html.attrType"); (ELoc "value")] true)])])).

(** html/attributes.go:598 *)
Definition f_html_Value : fundecl :=
  (Fun ["value"] true []
    (SBlock [(SReturn [(ECall (EFun "aitch.NewAttribute") [(EGlob "html.attrValue"); (ELoc "value")] true)])])).

(** html/attributes.go:605 *)
Definition f_html_Width : fundecl :=
  (Fun ["value"] true []
    (SBlock [(SReturn [(ECall (EFun "aitch.NewAttribute") [(EGlob "html.attrWidth"); (ELoc "value")] true)])])).

(** html/attributes.go:612 *)
Definition f_html_AllowFullScreen : fundecl :=
  (Fun [] false []
    (SBlock [(SReturn [(ECall (EFun "aitch.NewBooleanAttribute") [(EGlob "html.attrAllowfullscreen")] false)])])).

(** html/attributes.go:619 *)
Definition f_html_Default : fundecl :=
  (Fun [] false []
    (SBlock [(SReturn [(ECall (EFun "aitch.NewBooleanAttribute") [(EGlob "html.attrDefault")] false)])])).

(** html/attributes.go:628 *)
Definition f_html_Inert : fundecl :=
  (Fun [] false []
    (SBlock [(SReturn [(ECall (EFun "aitch.NewBooleanAttribute") [(EGlob "html.attrInert")] false)])])).

(** html/attributes.go:637 *)
Definition f_html_IsMap : fundecl :=
  (Fun [] false []
    (SBlock [(SReturn [(ECall (EFun "aitch.NewBooleanAttribute") [(EGlob "html.attrIsmap")] false)])])).

(** html/attributes.go:642 *)
Definition f_html_ItemScope : fundecl :=
  (Fun [] false []
    (SBlock [(SReturn [(ECall (EFun "aitch.NewBooleanAttribute") [(EGlob "html.attrItemscope")] false)])])).

(** html/attributes.go:651 *)
Definition f_html_NoModule : fundecl :=
  (Fun [] false []
    (SBlock [(SReturn [(ECall (EFun "aitch.NewBooleanAttribute") [(EGlob "html.attrNomodule")] false)])])).

(** html/attributes.go:660 *)
Definition f_html_Open : fundecl :=
  (Fun [] false []
    (SBlock [(SReturn [(ECall (EFun "aitch.NewBooleanAttribute") [(EGlob "html.attrOpen")] false)])])).

(** html/attributes.go:669 *)
Definition f_html_Reversed : fundecl :=
  (Fun [] false []
    (SBlock [(SReturn [(ECall (EFun "aitch.NewBooleanAttribute") [(EGlob "html.attrReversed")] false)])])).

(** html/attributes.go:678 *)
Definition f_html_Spellcheck : fundecl :=
  (Fun [] false []
    (SBlock [(SReturn [(ECall (EFun "aitch.NewBooleanAttribute") [(EGlob "html.attrSpellcheck")] false)])])).

(** html/attributes.go:687 *)
Definition f_html_Translate : fundecl :=
  (Fun [] false []
    (SBlock [(SReturn [(ECall (EFun "aitch.NewBooleanAttribute") [(EGlob "html.attrTranslate")] false)])])).

(** html/attributes.go:694 *)
Definition f_html_AriaAtomic : fundecl :=
  (Fun ["value"] true []
    (SBlock [(SReturn [(ECall (EFun "aitch.NewAttribute") [(EGlob "html.attrAriaAtomic"); (ELoc "value")] true)])])).

(** html/attributes.go:701 *)
Definition f_html_AriaBusy : fundecl :=
  (Fun ["value"] true []
    (SBlock [(SReturn [(ECall (EFun "aitch.NewAttribute") [(EGlob "html.attrAriaBusy"); (ELoc "value")] true)])])).

(** html/attributes.go:708 *)
Definition f_html_AriaChecked : fundecl :=
  (Fun ["value"] true []
    (SBlock [(SReturn [(ECall (EFun "aitch.NewAttribute") [(EGlob "html.attrAriaChecked"); (ELoc "value")] true)])])).

(** html/attributes.go:715 *)
Definition f_html_AriaControls : fundecl :=
  (Fun ["value"] true []
    (SBlock [(SReturn [(ECall (EFun "aitch.NewAttribute") [(EGlob "html.attrAriaControls"); (ELoc "value")] true)])])).

(** html/attributes.go:722 *)
Definition f_html_AriaDescribedBy : fundecl :=
  (Fun ["value"] true []
    (SBlock [(SReturn [(ECall (EFun "aitch.NewAttribute") [(EGlob "html.attrAriaDescribedby"); (ELoc "value")] true)])])).

(** html/attributes.go:729 *)
Definition f_html_AriaDisabled : fundecl :=
  (Fun ["value"] true []
    (SBlock [(SReturn [(ECall (EFun "aitch.NewAttribute") [(EGlob "html.attrAriaDisabled"); (ELoc "value")] true)])])).

(** html/attributes.go:736 *)
Definition f_html_AriaExpanded : fundecl :=
  (Fun ["value"] true []
    (SBlock [(SReturn [(ECall (EFun "aitch.NewAttribute") [(EGlob "html.attrAriaExpanded"); (ELoc "value")] true)])])).

(** html/attributes.go:743 *)
Definition f_html_AriaFlowTo : fundecl :=
  (Fun ["value"] true []
    (SBlock [(SReturn [(ECall (EFun "aitch.NewAttribute") [(EGlob "html.attrAriaFlowto"); (ELoc "value")] true)])])).

(** html/attributes.go:750 *)
Definition f_html_AriaHidden : fundecl :=
  (Fun ["value"] true []
    (SBlock [(SReturn [(ECall (EFun "aitch.NewAttribute") [(EGlob "html.attrAriaHidden"); (ELoc "value")] true)])])).

(** html/attributes.go:757 *)
Definition f_html_AriaInvalid : fundecl :=
  (Fun ["value"] true []
    (SBlock [(SReturn [(ECall (EFun "aitch.NewAttribute") [(EGlob "html.attrAriaInvalid"); (ELoc "value")] true)])])).

(** html/attributes.go:764 *)
Definition f_html_AriaLabel : fundecl :=
  (Fun ["value"] true []
    (SBlock [(SReturn [(ECall (EFun "aitch.NewAttribute") [(EGlob "html.attrAriaLabel"); (ELoc "value")] true)])])).

(** html/attributes.go:771 *)
Definition f_html_AriaLabelledBy : fundecl :=
  (Fun ["value"] true []
    (SBlock [(SReturn [(ECall (EFun "aitch.NewAttribute") [(EGlob "html.attrAriaLabelledby"); (ELoc "value")] true)])])).

(** html/attributes.go:778 *)
Definition f_html_AriaLive : fundecl :=
  (Fun ["value"] true []
    (SBlock [(SReturn [(ECall (EFun "aitch.NewAttribute") [(EGlob "html.attrAriaLive"); (ELoc "value")] true)])])).

(** html/attributes.go:785 *)
Definition f_html_AriaOwns : fundecl :=
  (Fun ["value"] true []
    (SBlock [(SReturn [(ECall (EFun "aitch.NewAttribute") [(EGlob "html.attrAriaOwns"); (ELoc "value")] true)])])).

(** html/attributes.go:792 *)
Definition f_html_AriaPlaceholder : fundecl :=
  (Fun ["value"] true []
    (SBlock [(SReturn [(ECall (EFun "aitch.NewAttribute") [(EGlob "html.attrAriaPlaceholder"); (ELoc "value")] true)])])).

(** html/attributes.go:799 *)
Definition f_html_AriaPosInSet : fundecl :=
  (Fun ["value"] true []
    (SBlock [(SReturn [(ECall (EFun "aitch.NewAttribute") [(EGlob "html.attrAriaPosinset"); (ELoc "value")] true)])])).

(** html/attributes.go:806 *)
Definition f_html_AriaPressed : fundecl :=
  (Fun ["value"] true []
    (SBlock [(SReturn [(ECall (EFun "aitch.NewAttribute") [(EGlob "html.attrAriaPressed"); (ELoc "value")] true)])])).

(** html/attributes.go:813 *)
Definition f_html_AriaReadonly : fundecl :=
  (Fun ["value"] true []
    (SBlock [(SReturn [(ECall (EFun "aitch.NewAttribute") [(EGlob "html.attrAriaReadonly"); (ELoc "value")] true)])])).

(** html/attributes.go:820 *)
Definition f_html_AriaRelevant : fundecl :=
  (Fun ["value"] true []
    (SBlock [(SReturn [(ECall (EFun "aitch.NewAttribute") [(EGlob "html.attrAriaRelevant"); (ELoc "value")] true)])])).

(** html/attributes.go:827 *)
Definition f_html_AriaRequired : fundecl :=
  (Fun ["value"] true []
    (SBlock [(SReturn [(ECall (EFun "aitch.NewAttribute") [(EGlob "html.attrAriaRequired"); (ELoc "value")] true)])])).

(** html/attributes.go:834 *)
Definition f_html_AriaSelected : fundecl :=
  (Fun ["value"] true []
    (SBlock [(SReturn [(ECall (EFun "aitch.NewAttribute") [(EGlob "html.attrAriaSelected"); (ELoc "value")] true)])])).

(** html/attributes.go:841 *)
Definition f_html_AriaSetSize : fundecl :=
  (Fun ["value"] true []
    (SBlock [(SReturn [(ECall (EFun "aitch.NewAttribute") [(EGlob "html.attrAriaSetsize"); (ELoc "value")] true)])])).

(** html/attributes.go:848 *)
Definition f_html_AriaValueMax : fundecl :=
  (Fun ["value"] true []
    (SBlock [(SReturn [(ECall (EFun "aitch.NewAttribute") [(EGlob "html.attrAriaValuemax"); (ELoc "value")] true)])])).

(** html/attributes.go:855 *)
Definition f_html_AriaValueMin : fundecl :=
  (Fun ["value"] true []
    (SBlock [(SReturn [(ECall (EFun "aitch.NewAttribute") [(EGlob "html.attrAriaValuemin"); (ELoc "value")] true)])])).

(** html/attributes.go:862 *)
Definition f_html_AriaValueNow : fundecl :=
  (Fun ["value"] true []
    (SBlock [(SReturn [(ECall (EFun "aitch.NewAttribute") [(EGlob "html.attrAriaValuenow"); (ELoc "value")] true)])])).

(** html/attributes.go:869 *)
Definition f_html_AriaValueText : fundecl :=
  (Fun ["value"] true []
    (SBlock [(SReturn [(ECall (EFun "aitch.NewAttribute") [(EGlob "html.attrAriaValuetext"); (ELoc "value")] true)])])).

(** html/attributes.go:874 *)
Definition f_html_OnAbort : fundecl :=
  (Fun ["value"] true []
    (SBlock [(SReturn [(ECall (EFun "aitch.NewAttribute") [(EGlob "html.attrOnAbort"); (ELoc "value")] true)])])).

(** html/attributes.go:879 *)
Definition f_html_OnBeforeUnload : fundecl :=
  (Fun ["value"] true []
    (SBlock [(SReturn [(ECall (EFun "aitch.NewAttribute") [(EGlob "html.attrOnBeforeUnload"); (ELoc "value")] true)])])).

(** html/attributes.go:884 *)
Definition f_html_OnBlur : fundecl :=
  (Fun ["value"] true []
    (SBlock [(SReturn [(ECall (EFun "aitch.NewAttribute") [(EGlob "html.attrOnBlur"); (ELoc "value")] true)])])).

(** html/attributes.go:889 *)
Definition f_html_OnCanPlay : fundecl :=
  (Fun ["value"] true []
    (SBlock [(SReturn [(ECall (EFun "aitch.NewAttribute") [(EGlob "html.attrOnCanPlay"); (ELoc "value")] true)])])).

(** html/attributes.go:894 *)
Definition f_html_OnCanPlayThrough : fundecl :=
  (Fun ["value"] true []
    (SBlock [(SReturn [(ECall (EFun "aitch.NewAttribute") [(EGlob "html.attrOnCanPlayThrough"); (ELoc "value")] true)])])).

(** html/attributes.go:899 *)
Definition f_html_OnChange : fundecl :=
  (Fun ["value"] true []
    (SBlock [(SReturn [(ECall (EFun "aitch.NewAttribute") [(EGlob "html.attrOnChange"); (ELoc "value")] true)])])).

(** html/attributes.go:904 *)
Definition f_html_OnClick : fundecl :=
  (Fun ["value"] true []
    (SBlock [(SReturn [(ECall (EFun "aitch.NewAttribute") [(EGlob "html.attrOnClick"); (ELoc "value")] true)])])).

(** html/attributes.go:909 *)
Definition f_html_OnContextMenu : fundecl :=
  (Fun ["value"] true []
    (SBlock [(SReturn [(ECall (EFun "aitch.NewAttribute") [(EGlob "html.attrOnContextMenu"); (ELoc "value")] true)])])).

(** html/attributes.go:914 *)
Definition f_html_OnCopy : fundecl :=
  (Fun ["value"] true []
    (SBlock [(SReturn [(ECall (EFun "aitch.NewAttribute") [(EGlob "html.attrOnCopy"); (ELoc "value")] true)])])).

(** html/attributes.go:919 *)
Definition f_html_OnCut : fundecl :=
  (Fun ["value"] true []
    (SBlock [(SReturn [(ECall (EFun "aitch.NewAttribute") [(EGlob "html.attrOnCut"); (ELoc "value")] true)])])).

(** html/attributes.go:924 *)
Definition f_html_OnDblClick : fundecl :=
  (Fun ["value"] true []
    (SBlock [(SReturn [(ECall (EFun "aitch.NewAttribute") [(EGlob "html.attrOnDblClick"); (ELoc "value")] true)])])).

(** html/attributes.go:929 *)
Definition f_html_OnDrag : fundecl :=
  (Fun ["value"] true []
    (SBlock [(SReturn [(ECall (EFun "aitch.NewAttribute") [(EGlob "html.attrOnDrag"); (ELoc "value")] true)])])).

(** html/attributes.go:934 *)
Definition f_html_OnDragEnd : fundecl :=
  (Fun ["value"] true []
    (SBlock [(SReturn [(ECall (EFun "aitch.NewAttribute") [(EGlob "html.attrOnDragEnd"); (ELoc "value")] true)])])).

(** html/attributes.go:939 *)
Definition f_html_OnDragEnter : fundecl :=
  (Fun ["value"] true []
    (SBlock [(SReturn [(ECall (EFun "aitch.NewAttribute") [(EGlob "html.attrOnDragEnter"); (ELoc "value")] true)])])).

(** html/attributes.go:944 *)
Definition f_html_OnDragLeave : fundecl :=
  (Fun ["value"] true []
    (SBlock [(SReturn [(ECall (EFun "aitch.NewAttribute") [(EGlob "html.attrOnDragLeave"); (ELoc "value")] true)])])).

(** html/attributes.go:949 *)
Definition f_html_OnDragOver : fundecl :=
  (Fun ["value"] true []
    (SBlock [(SReturn [(ECall (EFun "aitch.NewAttribute") [(EGlob "html.attrOnDragOver"); (ELoc "value")] true)])])).

(** html/attributes.go:954 *)
Definition f_html_OnDragStart : fundecl :=
  (Fun ["value"] true []
    (SBlock [(SReturn [(ECall (EFun "aitch.NewAttribute") [(EGlob "html.attrOnDragStart"); (ELoc "value")] true)])])).

(** html/attributes.go:959 *)
Definition f_html_OnDrop : fundecl :=
  (Fun ["value"] true []
    (SBlock [(SReturn [(ECall (EFun "aitch.NewAttribute") [(EGlob "html.attrOnDrop"); (ELoc "value")] true)])])).

(** html/attributes.go:964 *)
Definition f_html_OnDurationChange : fundecl :=
  (Fun ["value"] true []
    (SBlock [(SReturn [(ECall (EFun "aitch.NewAttribute") [(EGlob "html.attrOnDurationChange"); (ELoc "value")] true)])])).

(** html/attributes.go:969 *)
Definition f_html_OnEnded : fundecl :=
  (Fun ["value"] true []
    (SBlock [(SReturn [(ECall (EFun "aitch.NewAttribute") [(EGlob "html.attrOnEnded"); (ELoc "value")] true)])])).

(** html/attributes.go:974 *)
Definition f_html_OnError : fundecl :=
  (Fun ["value"] true []
    (SBlock [(SReturn [(ECall (EFun "aitch.NewAttribute") [(EGlob "html.attrOnError"); (ELoc "value")] true)])])).

(** html/attributes.go:979 *)
Definition f_html_OnFocus : fundecl :=
  (Fun ["value"] true []
    (SBlock [(SReturn [(ECall (EFun "aitch.NewAttribute") [(EGlob "html.attrOnFocus"); (ELoc "value")] true)])])).

(** html/attributes.go:984 *)
Definition f_html_OnHashChange : fundecl :=
  (Fun ["value"] true []
    (SBlock [(SReturn [(ECall (EFun "aitch.NewAttribute") [(EGlob "html.attrOnHashChange"); (ELoc "value")] true)])])).

(** html/attributes.go:989 *)
Definition f_html_OnInput : fundecl :=
  (Fun ["value"] true []
    (SBlock [(SReturn [(ECall (EFun "aitch.NewAttribute") [(EGlob "html.attrOnInput"); (ELoc "value")] true)])])).

(** html/attributes.go:994 *)
Definition f_html_OnInvalid : fundecl :=
  (Fun ["value"] true []
    (SBlock [(SReturn [(ECall (EFun "aitch.NewAttribute") [(EGlob "html.attrOnInvalid"); (ELoc "value")] true)])])).

(** html/attributes.go:999 *)
Definition f_html_OnKeyDown : fundecl :=
  (Fun ["value"] true []
    (SBlock [(SReturn [(ECall (EFun "aitch.NewAttribute") [(EGlob "html.attrOnKeyDown"); (ELoc "value")] true)])])).

(** html/attributes.go:1004 *)
Definition f_html_OnKeyPress : fundecl :=
  (Fun ["value"] true []
    (SBlock [(SReturn [(ECall (EFun "aitch.NewAttribute") [(EGlob "html.attrOnKeyPress"); (ELoc "value")] true)])])).

(** html/attributes.go:1009 *)
Definition f_html_OnKeyUp : fundecl :=
  (Fun ["value"] true []
    (SBlock [(SReturn [(ECall (EFun "aitch.NewAttribute") [(EGlob "html.attrOnKeyUp"); (ELoc "value")] true)])])).

(** html/attributes.go:1014 *)
Definition f_html_OnLoad : fundecl :=
  (Fun ["value"] true []
    (SBlock [(SReturn [(ECall (EFun "aitch.NewAttribute") [(EGlob "html.attrOnLoad"); (ELoc "value")] true)])])).

(** html/attributes.go:1019 *)
Definition f_html_OnLoadedData : fundecl :=
  (Fun ["value"] true []
    (SBlock [(SReturn [(ECall (EFun "aitch.NewAttribute") [(EGlob "html.attrOnLoadedData"); (ELoc "value")] true)])])).

(** html/attributes.go:1024 *)
Definition f_html_OnLoadedMetadata : fundecl :=
  (Fun ["value"] true []
    (SBlock [(SReturn [(ECall (EFun "aitch.NewAttribute") [(EGlob "html.attrOnLoadedMetadata"); (ELoc "value")] true)])])).

(** html/attributes.go:1029 *)
Definition f_html_OnMouseDown : fundecl :=
  (Fun ["value"] true []
    (SBlock [(SReturn [(ECall (EFun "aitch.NewAttribute") [(EGlob "html.attrOnMouseDown"); (ELoc "value")] true)])])).

(** html/attributes.go:1034 *)
Definition f_html_OnMouseEnter : fundecl :=
  (Fun ["value"] true []
    (SBlock [(SReturn [(ECall (EFun "aitch.NewAttribute") [(EGlob "html.attrOnMouseEnter"); (ELoc "value")] true)])])).

(** html/attributes.go:1039 *)
Definition f_html_OnMouseLeave : fundecl :=
  (Fun ["value"] true []
    (SBlock [(SReturn [(ECall (EFun "aitch.NewAttribute") [(EGlob "html.attrOnMouseLeave"); (ELoc "value")] true)])])).

(** html/attributes.go:1044 *)
Definition f_html_OnMouseMove : fundecl :=
  (Fun ["value"] true []
    (SBlock [(SReturn [(ECall (EFun "aitch.NewAttribute") [(EGlob "html.attrOnMouseMove"); (ELoc "value")] true)])])).

(** html/attributes.go:1049 *)
Definition f_html_OnMouseOut : fundecl :=
  (Fun ["value"] true []
    (SBlock [(SReturn [(ECall (EFun "aitch.NewAttribute") [(EGlob "html.attrOnMouseOut"); (ELoc "value")] true)])])).

(** html/attributes.go:1054 *)
Definition f_html_OnMouseOver : fundecl :=
  (Fun ["value"] true []
    (SBlock [(SReturn [(ECall (EFun "aitch.NewAttribute") [(EGlob "html.attrOnMouseOver"); (ELoc "value")] true)])])).

(** html/attributes.go:1059 *)
Definition f_html_OnMouseUp : fundecl :=
  (Fun ["value"] true []
    (SBlock [(SReturn [(ECall (EFun "aitch.NewAttribute") [(EGlob "html.attrOnMouseUp"); (ELoc "value")] true)])])).

(** html/attributes.go:1064 *)
Definition f_html_OnPageHide : fundecl :=
  (Fun ["value"] true []
    (SBlock [(SReturn [(ECall (EFun "aitch.NewAttribute") [(EGlob "html.attrOnPageHide"); (ELoc "value")] true)])])).

(** html/attributes.go:1069 *)
Definition f_html_OnPageShow : fundecl :=
  (Fun ["value"] true []
    (SBlock [(SReturn [(ECall (EFun "aitch.NewAttribute") [(EGlob "html.attrOnPageShow"); (ELoc "value")] true)])])).

(** html/attributes.go:1074 *)
Definition f_html_OnPaste : fundecl :=
  (Fun ["value"] true []
    (SBlock [(SReturn [(ECall (EFun "aitch.NewAttribute") [(EGlob "html.attrOnPaste"); (ELoc "value")] true)])])).

(** html/attributes.go:1079 *)
Definition f_html_OnPause : fundecl :=
  (Fun ["value"] true []
    (SBlock [(SReturn [(ECall (EFun "aitch.NewAttribute") [(EGlob "html.attrOnPause"); (ELoc "value")] true)])])).

(** html/attributes.go:1084 *)
Definition f_html_OnPlay : fundecl :=
  (Fun ["value"] true []
    (SBlock [(SReturn [(ECall (EFun "aitch.NewAttribute") [(EGlob "html.attrOnPlay"); (ELoc "value")] true)])])).

(** html/attributes.go:1089 *)
Definition f_html_OnPlaying : fundecl :=
  (Fun ["value"] true []
    (SBlock [(SReturn [(ECall (EFun "aitch.NewAttribute") [(EGlob "html.attrOnPlaying"); (ELoc "value")] true)])])).

(** html/attributes.go:1094 *)
Definition f_html_OnPopState : fundecl :=
  (Fun ["value"] true []
    (SBlock [(SReturn [(ECall (EFun "aitch.NewAttribute") [(EGlob "html.attrOnPopState"); (ELoc "value")] true)])])).

(** html/attributes.go:1099 *)
Definition f_html_OnProgress : fundecl :=
  (Fun ["value"] true []
    (SBlock [(SReturn [(ECall (EFun "aitch.NewAttribute") [(EGlob "html.attrOnProgress"); (ELoc "value")] true)])])).

(** html/attributes.go:1104 *)
Definition f_html_OnRateChange : fundecl :=
  (Fun ["value"] true []
    (SBlock [(SReturn [(ECall (EFun "aitch.NewAttribute") [(EGlob "html.attrOnRateChange"); (ELoc "value")] true)])])).

(** html/attributes.go:1109 *)
Definition f_html_OnReset : fundecl :=
  (Fun ["value"] true []
    (SBlock [(SReturn [(ECall (EFun "aitch.NewAttribute") [(EGlob "html.attrOnReset"); (ELoc "value")] true)])])).

(** html/attributes.go:1114 *)
Definition f_html_OnResize : fundecl :=
  (Fun ["value"] true []
    (SBlock [(SReturn [(ECall (EFun "aitch.NewAttribute") [(EGlob "html.attrOnResize"); (ELoc "value")] true)])])).

(** html/attributes.go:1119 *)
Definition f_html_OnScroll : fundecl :=
  (Fun ["value"] true []
    (SBlock [(SReturn [(ECall (EFun "aitch.NewAttribute") [(EGlob "html.attrOnScroll"); (ELoc "value")] true)])])).

(** html/attributes.go:1124 *)
Definition f_html_OnSeeked : fundecl :=
  (Fun ["value"] true []
    (SBlock [(SReturn [(ECall (EFun "aitch.NewAttribute") [(EGlob "html.attrOnSeeked"); (ELoc "value")] true)])])).

(** html/attributes.go:1129 *)
Definition f_html_OnSeeking : fundecl :=
  (Fun ["value"] true []
    (SBlock [(SReturn [(ECall (EFun "aitch.NewAttribute") [(EGlob "html.attrOnSeeking"); (ELoc "value")] true)])])).

(** html/attributes.go:1134 *)
Definition f_html_OnSelect : fundecl :=
  (Fun ["value"] true []
    (SBlock [(SReturn [(ECall (EFun "aitch.NewAttribute") [(EGlob "html.attrOnSelect"); (ELoc "value")] true)])])).

(** html/attributes.go:1139 *)
Definition f_html_OnStalled : fundecl :=
  (Fun ["value"] true []
    (SBlock [(SReturn [(ECall (EFun "aitch.NewAttribute") [(EGlob "html.attrOnStalled"); (ELoc "value")] true)])])).

(** html/attributes.go:1144 *)
Definition f_html_OnSubmit : fundecl :=
  (Fun ["value"] true []
    (SBlock [(SReturn [(ECall (EFun "aitch.NewAttribute") [(EGlob "html.attrOnSubmit"); (ELoc "value")] true)])])).

(** html/attributes.go:1149 *)
Definition f_html_OnSuspend : fundecl :=
  (Fun ["value"] true []
    (SBlock [(SReturn [(ECall (EFun "aitch.NewAttribute") [(EGlob "html.attrOnSuspend"); (ELoc "value")] true)])])).

(** html/attributes.go:1154 *)
Definition f_html_OnTimeUpdate : fundecl :=
  (Fun ["value"] true []
    (SBlock [(SReturn [(ECall (EFun "aitch.NewAttribute") [(EGlob "html.attrOnTimeUpdate"); (ELoc "value")] true)])])).

(** html/attributes.go:1159 *)
Definition f_html_OnToggle : fundecl :=
  (Fun ["value"] true []
    (SBlock [(SReturn [(ECall (EFun "aitch.NewAttribute") [(EGlob "html.attrOnToggle"); (ELoc "value")] true)])])).

(** html/attributes.go:1164 *)
Definition f_html_OnUnload : fundecl :=
  (Fun ["value"] true []
    (SBlock [(SReturn [(ECall (EFun "aitch.NewAttribute") [(EGlob "html.attrOnUnload"); (ELoc "value")] true)])])).

(** html/attributes.go:1169 *)
Definition f_html_OnVolumeChange : fundecl :=
  (Fun ["value"] true []
    (SBlock [(SReturn [(ECall (EFun "aitch.NewAttribute") [(EGlob "html.attrOnVolumeChange"); (ELoc "value")] true)])])).

(** html/attributes.go:1174 *)
Definition f_html_OnWaiting : fundecl :=
  (Fun ["value"] true []
    (SBlock [(SReturn [(ECall (EFun "aitch.NewAttribute") [(EGlob "html.attrOnWaiting"); (ELoc "value")] true)])])).

(** html/attributes.go:1179 *)
Definition f_html_OnPointerDown : fundecl :=
  (Fun ["value"] true []
    (SBlock [(SReturn [(ECall (EFun "aitch.NewAttribute") [(EGlob "html.attrOnPointerDown"); (ELoc "value")] true)])])).

(** html/attributes.go:1184 *)
Definition f_html_OnPointerUp : fundecl :=
  (Fun ["value"] true []
    (SBlock [(SReturn [(ECall (EFun "aitch.NewAttribute") [(EGlob "html.attrOnPointerUp"); (ELoc "value")] true)])])).

(** html/attributes.go:1189 *)
Definition f_html_OnPointerMove : fundecl :=
  (Fun ["value"] true []
    (SBlock [(SReturn [(ECall (EFun "aitch.NewAttribute") [(EGlob "html.attrOnPointerMove"); (ELoc "value")] true)])])).

(** html/attributes.go:1194 *)
Definition f_html_OnPointerEnter : fundecl :=
  (Fun ["value"] true []
    (SBlock [(SReturn [(ECall (EFun "aitch.NewAttribute") [(EGlob "html.attrOnPointerEnter"); (ELoc "value")] true)])])).

(** html/attributes.go:1199 *)
Definition f_html_OnPointerLeave : fundecl :=
  (Fun ["value"] true []
    (SBlock [(SReturn [(ECall (EFun "aitch.NewAttribute") [(EGlob "html.attrOnPointerLeave"); (ELoc "value")] true)])])).

(** html/attributes.go:1204 *)
Definition f_html_OnPointerOver : fundecl :=
  (Fun ["value"] true []
    (SBlock [(SReturn [(ECall (EFun "aitch.NewAttribute") [(EGlob "html.attrOnPointerOver"); (ELoc "value")] true)])])).

(** html/attributes.go:1209 *)
Definition f_html_OnPointerOut : fundecl :=
  (Fun ["value"] true []
    (SBlock [(SReturn [(ECall (EFun "aitch.NewAttribute") [(EGlob "html.attrOnPointerOut"); (ELoc "value")] true)])])).

(** html/attributes.go:1214 *)
Definition f_html_OnPointerCancel : fundecl :=
  (Fun ["value"] true []
    (SBlock [(SReturn [(ECall (EFun "aitch.NewAttribute") [(EGlob "html.attrOnPointerCancel"); (ELoc "value")] true)])])).

(** html/attributes.go:1219 *)
Definition f_html_OnTouchStart : fundecl :=
  (Fun ["value"] true []
    (SBlock [(SReturn [(ECall (EFun "aitch.NewAttribute") [(EGlob "html.attrOnTouchStart"); (ELoc "value")] true)])])).

(** html/attributes.go:1224 *)
Definition f_html_OnTouchMove : fundecl :=
  (Fun ["value"] true []
    (SBlock [(SReturn [(ECall (EFun "aitch.NewAttribute") [(EGlob "html.attrOnTouchMove"); (ELoc "value")] true)])])).

(** html/attributes.go:1229 *)
Definition f_html_OnTouchEnd : fundecl :=
  (Fun ["value"] true []
    (SBlock [(SReturn [(ECall (EFun "aitch.NewAttribute") [(EGlob "html.attrOnTouchEnd"); (ELoc "value")] true)])])).

(** html/attributes.go:1234 *)
Definition f_html_OnTouchCancel : fundecl :=
  (Fun ["value"] true []
    (SBlock [(SReturn [(ECall (EFun "aitch.NewAttribute") [(EGlob "html.attrOnTouchCancel"); (ELoc "value")] true)])])).

(** html/attributes.go:1239 *)
Definition f_html_OnAnimationStart : fundecl :=
  (Fun ["value"] true []
    (SBlock [(SReturn [(ECall (EFun "aitch.NewAttribute") [(EGlob "html.attrOnAnimationStart"); (ELoc "value")] true)])])).

(** html/attributes.go:1244 *)
Definition f_html_OnAnimationEnd : fundecl :=
  (Fun ["value"] true []
    (SBlock [(SReturn [(ECall (EFun "aitch.NewAttribute") [(EGlob "html.attrOnAnimationEnd"); (ELoc "value")] true)])])).

(** html/attributes.go:1249 *)
Definition f_html_OnAnimationIteration : fundecl :=
  (Fun ["value"] true []
    (SBlock [(SReturn [(ECall (EFun "aitch.NewAttribute") [(EGlob "html.attrOnAnimationIteration"); (ELoc "value")] true)])])).

(** html/attributes.go:1254 *)
Definition f_html_OnTransitionEnd : fundecl :=
  (Fun ["value"] true []
    (SBlock [(SReturn [(ECall (EFun "aitch.NewAttribute") [(EGlob "html.attrOnTransitionEnd"); (ELoc "value")] true)])])).

(** html/attributes.go:1259 *)
Definition f_html_OnBeforeInput : fundecl :=
  (Fun ["value"] true []
    (SBlock [(SReturn [(ECall (EFun "aitch.NewAttribute") [(EGlob "html.attrOnBeforeInput"); (ELoc "value")] true)])])).

(** html/attributes.go:1264 *)
Definition f_html_OnSlotChange : fundecl :=
  (Fun ["value"] true []
    (SBlock [(SReturn [(ECall (EFun "aitch.NewAttribute") [(EGlob "html.attrOnSlotChange"); (ELoc "value")] true)])])).

(** html/attributes.go:1269 *)
Definition f_html_OnFormData : fundecl :=
  (Fun ["value"] true []
    (SBlock [(SReturn [(ECall (EFun "aitch.NewAttribute") [(EGlob "html.attrOnFormData"); (ELoc "value")] true)])])).

(** html/attributes.go:1278 *)
Definition f_html_AccessKey : fundecl :=
  (Fun ["value"] true []
    (SBlock [(SReturn [(ECall (EFun "aitch.NewAttribute") [(EGlob "html.attrAccessKey"); (ELoc "value")] true)])])).

(** html/attributes.go:1287 *)
Definition f_html_AutoCapitalize : fundecl :=
  (Fun ["value"] true []
    (SBlock [(SReturn [(ECall (EFun "aitch.NewAttribute") [(EGlob "html.attrAutoCapitalize"); (ELoc "value")] true)])])).

(** html/attributes.go:1296 *)
Definition f_html_AutoCorrect : fundecl :=
  (Fun ["value"] true []
    (SBlock [(SReturn [(ECall (EFun "aitch.NewAttribute") [(EGlob "html.attrAutoCorrect"); (ELoc "value")] true)])])).

(** html/attributes.go:1305 *)
Definition f_html_EnterKeyHint : fundecl :=
  (Fun ["value"] true []
    (SBlock [(SReturn [(ECall (EFun "aitch.NewAttribute") [(EGlob "html.attrEnterKeyHint"); (ELoc "value")] true)])])).

(** html/attributes.go:1314 *)
Definition f_html_ExportParts : fundecl :=
  (Fun ["value"] true []
    (SBlock [(SReturn [(ECall (EFun "aitch.NewAttribute") [(EGlob "html.attrExportParts"); (ELoc "value")] true)])])).

(** html/attributes.go:1323 *)
Definition f_html_InputMode : fundecl :=
  (Fun ["value"] true []
    (SBlock [(SReturn [(ECall (EFun "aitch.NewAttribute") [(EGlob "html.attrInputMode"); (ELoc "value")] true)])])).

(** html/attributes.go:1332 *)
Definition f_html_Is : fundecl :=
  (Fun ["value"] true []
    (SBlock [(SReturn [(ECall (EFun "aitch.NewAttribute") [(EGlob "html.attrIs"); (ELoc "value")] true)])])).

(** html/attributes.go:1341 *)
Definition f_html_ItemId : fundecl :=
  (Fun ["value"] true []
    (SBlock [(SReturn [(ECall (EFun "aitch.NewAttribute") [(EGlob "html.attrItemId"); (ELoc "value")] true)])])).

(** html/attributes.go:1350 *)
Definition f_html_ItemProp : fundecl :=
  (Fun ["value"] true []
    (SBlock [(SReturn [(ECall (EFun "aitch.NewAttribute") [(EGlob "html.attrItemProp"); (ELoc "value")] true)])])).

(** html/attributes.go:1359 *)
Definition f_html_ItemRef : fundecl :=
  (Fun ["value"] true []
    (SBlock [(SReturn [(ECall (EFun "aitch.NewAttribute") [(EGlob "html.attrItemRef"); (ELoc "value")] true)])])).

(** html/attributes.go:1368 *)
Definition f_html_ItemType : fundecl :=
  (Fun ["value"] true []
    (SBlock [(SReturn [(ECall (EFun "aitch.NewAttribute") [(EGlob "html.attrItemType"); (ELoc "value")] true)])])).

(** html/attributes.go:1377 *)
Definition f_html_Nonce : fundecl :=
  (Fun ["value"] true []
    (SBlock [(SReturn [(ECall (EFun "aitch.NewAttribute") [(EGlob "html.attrNonce"); (ELoc "value")] true)])])).

(** html/attributes.go:1386 *)
Definition f_html_Part : fundecl :=
  (Fun ["value"] true []
    (SBlock [(SReturn [(ECall (EFun "aitch.NewAttribute") [(EGlob "html.attrPart"); (ELoc "value")] true)])])).

(** html/attributes.go:1395 *)
Definition f_html_WritingSuggestions : fundecl :=
  (Fun ["value"] true []
    (SBlock [(SReturn [(ECall (EFun "aitch.NewAttribute") [(EGlob "html.attrWritingSuggestions"); (ELoc "value")] true)])])).

(** svg/base.go:6 *)
Definition f_svg_Text : fundecl :=
  (Fun ["contents"] true []
    (SBlock [(SReturn [(ECall (EFun "aitch.Text") [(ELoc "contents")] true)])])).

(** svg/base.go:11 *)
Definition f_svg_Comment : fundecl :=
  (Fun ["contents"] true []
    (SBlock [(SReturn [(ECall (EFun "aitch.Comment") [(ELoc "contents")] true)])])).

(** svg/elements.go:8 *)
Definition f_svg_Svg : fundecl :=
  (Fun ["contents"] true []
    (SBlock [(SReturn [(ECall (EFun "aitch.NewElement") [(EGlob "svg.tagSvg"); (ELoc "contents")] true)])])).

(** svg/elements.go:13 *)
Definition f_svg_AltGlyph : fundecl :=
  (Fun ["contents"] true []
    (SBlock [(SReturn [(ECall (EFun "aitch.NewElement") [(EGlob "svg.tagAltGlyph"); (ELoc "contents")] true)])])).

(** svg/elements.go:20 *)
Definition f_svg_Animate : fundecl :=
  (Fun ["contents"] true []
    (SBlock [(SReturn [(ECall (EFun "aitch.NewElement") [(EGlob "svg.tagAnimate"); (ELoc "contents")] true)])])).

(** svg/elements.go:27 *)
Definition f_svg_AnimateMotion : fundecl :=
  (Fun ["contents"] true []
    (SBlock [(SReturn [(ECall (EFun "aitch.NewElement") [(EGlob "svg.tagAnimateMotion"); (ELoc "contents")] true)])])).

(** svg/elements.go:34 *)
Definition f_svg_AnimateTransform : fundecl :=
  (Fun ["contents"] true []
    (SBlock [(SReturn [(ECall (EFun "aitch.NewElement") [(EGlob "svg.tagAnimateTransform"); (ELoc "contents")] true)])])).

(** svg/elements.go:41 *)
Definition f_svg_Circle : fundecl :=
  (Fun ["contents"] true []
    (SBlock [(SReturn [(ECall (EFun "aitch.NewElement") [(EGlob "svg.tagCircle"); (ELoc "contents")] true)])])).

(** svg/elements.go:48 *)
Definition f_svg_ClipPath : fundecl :=
  (Fun ["contents"] true []
    (SBlock [(SReturn [(ECall (EFun "aitch.NewElement") [(EGlob "svg.tagClipPath"); (ELoc "contents")] true)])])).

(** svg/elements.go:55 *)
Definition f_svg_Defs : fundecl :=
  (Fun ["contents"] true []
    (SBlock [(SReturn [(ECall (EFun "aitch.NewElement") [(EGlob "svg.tagDefs"); (ELoc "contents")] true)])])).

(** svg/elements.go:62 *)
Definition f_svg_Desc : fundecl :=
  (Fun ["contents"] true []
    (SBlock [(SReturn [(ECall (EFun "aitch.NewElement") [(EGlob "svg.tagDesc"); (ELoc "contents")] true)])])).

(** svg/elements.go:69 *)
Definition f_svg_Discard : fundecl :=
  (Fun ["contents"] true []
    (SBlock [(SReturn [(ECall (EFun "aitch.NewElement") [(EGlob "svg.tagDiscard"); (ELoc "contents")] true)])])).

(** svg/elements.go:76 *)
Definition f_svg_Ellipse : fundecl :=
  (Fun ["contents"] true []
    (SBlock [(SReturn [(ECall (EFun "aitch.NewElement") [(EGlob "svg.tagEllipse"); (ELoc "contents")] true)])])).

(** svg/elements.go:83 *)
Definition f_svg_FeBlend : fundecl :=
  (Fun ["contents"] true []
    (SBlock [(SReturn [(ECall (EFun "aitch.NewElement") [(EGlob "svg.tagFeBlend"); (ELoc "contents")] true)])])).

(** svg/elements.go:90 *)
Definition f_svg_FeColorMatrix : fundecl :=
  (Fun ["contents"] true []
    (SBlock [(SReturn [(ECall (EFun "aitch.NewElement") [(EGlob "svg.tagFeColorMatrix"); (ELoc "contents")] true)])])).

(** svg/elements.go:97 *)
Definition f_svg_FeComponentTransfer : fundecl :=
  (Fun ["contents"] true []
    (SBlock [(SReturn [(ECall (EFun "aitch.NewElement") [(EGlob "svg.tagFeComponentTransfer"); (ELoc "contents")] true)])])).

(** svg/elements.go:104 *)
Definition f_svg_FeComposite : fundecl :=
  (Fun ["contents"] true []
    (SBlock [(SReturn [(ECall (EFun "aitch.NewElement") [(EGlob "svg.tagFeComposite"); (ELoc "contents")] true)])])).

(** svg/elements.go:111 *)
Definition f_svg_FeConvolveMatrix : fundecl :=
  (Fun ["contents"] true []
    (SBlock [(SReturn [(ECall (EFun "aitch.NewElement") [(EGlob "svg.tagFeConvolveMatrix"); (ELoc "contents")] true)])])).

(** svg/elements.go:118 *)
Definition f_svg_FeDiffuseLighting : fundecl :=
  (Fun ["contents"] true []
    (SBlock [(SReturn [(ECall (EFun "aitch.NewElement") [(EGlob "svg.tagFeDiffuseLighting"); (ELoc "contents")] true)])])).

(** svg/elements.go:125 *)
Definition f_svg_FeDisplacementMap : fundecl :=
  (Fun ["contents"] true []
    (SBlock [(SReturn [(ECall (EFun "aitch.NewElement") [(EGlob "svg.tagFeDisplacementMap"); (ELoc "contents")] true)])])).

(** svg/elements.go:132 *)
Definition f_svg_FeDistantLight : fundecl :=
  (Fun ["contents"] true []
    (SBlock [(SReturn [(ECall (EFun "aitch.NewElement") [(EGlob "svg.tagFeDistantLight"); (ELoc "contents")] true)])])).

(** svg/elements.go:139 *)
Definition f_svg_FeDropShadow : fundecl :=
  (Fun ["contents"] true []
    (SBlock [(SReturn [(ECall (EFun "aitch.NewElement") [(EGlob "svg.tagFeDropShadow"); (ELoc "contents")] true)])])).

(** svg/elements.go:146 *)
Definition f_svg_FeFlood : fundecl :=
  (Fun ["contents"] true []
    (SBlock [(SReturn [(ECall (EFun "aitch.NewElement") [(EGlob "svg.tagFeFlood"); (ELoc "contents")] true)])])).

(** svg/elements.go:153 *)
Definition f_svg_FeFuncA : fundecl :=
  (Fun ["contents"] true []
    (SBlock [(SReturn [(ECall (EFun "aitch.NewElement") [(EGlob "svg.tagFeFuncA"); (ELoc "contents")] true)])])).

(** svg/elements.go:160 *)
Definition f_svg_FeFuncB : fundecl :=
  (Fun ["contents"] true []
    (SBlock [(SReturn [(ECall (EFun "aitch.NewElement") [(EGlob "svg.tagFeFuncB"); (ELoc "contents")] true)])])).

(** svg/elements.go:167 *)
Definition f_svg_FeFuncG : fundecl :=
  (Fun ["contents"] true []
    (SBlock [(SReturn [(ECall (EFun "aitch.NewElement") [(EGlob "svg.tagFeFuncG"); (ELoc "contents")] true)])])).

(** svg/elements.go:174 *)
Definition f_svg_FeFuncR : fundecl :=
  (Fun ["contents"] true []
    (SBlock [(SReturn [(ECall (EFun "aitch.NewElement") [(EGlob "svg.tagFeFuncR"); (ELoc "contents")] true)])])).

(** svg/elements.go:181 *)
Definition f_svg_FeGaussianBlur : fundecl :=
  (Fun ["contents"] true []
    (SBlock [(SReturn [(ECall (EFun "aitch.NewElement") [(EGlob "svg.tagFeGaussianBlur"); (ELoc "contents")] true)])])).

(** svg/elements.go:188 *)
Definition f_svg_FeImage : fundecl :=
  (Fun ["contents"] true []
    (SBlock [(SReturn [(ECall (EFun "aitch.NewElement") [(EGlob "svg.tagFeImage"); (ELoc "contents")] true)])])).

(** svg/elements.go:195 *)
Definition f_svg_FeMerge : fundecl :=
  (Fun ["contents"] true []
    (SBlock [(SReturn [(ECall (EFun "aitch.NewElement") [(EGlob "svg.tagFeMerge"); (ELoc "contents")] true)])])).

(** svg/elements.go:202 *)
Definition f_svg_FeMergeNode : fundecl :=
  (Fun ["contents"] true []
    (SBlock [(SReturn [(ECall (EFun "aitch.NewElement") [(EGlob "svg.tagFeMergeNode"); (ELoc "contents")] true)])])).

(** svg/elements.go:209 *)
Definition f_svg_FeMorphology : fundecl :=
  (Fun ["contents"] true []
    (SBlock [(SReturn [(ECall (EFun "aitch.NewElement") [(EGlob "svg.tagFeMorphology"); (ELoc "contents")] true)])])).

(** svg/elements.go:216 *)
Definition f_svg_FeOffset : fundecl :=
  (Fun ["contents"] true []
    (SBlock [(SReturn [(ECall (EFun "aitch.NewElement") [(EGlob "svg.tagFeOffset"); (ELoc "contents")] true)])])).

(** svg/elements.go:223 *)
Definition f_svg_FePointLight : fundecl :=
  (Fun ["contents"] true []
    (SBlock [(SReturn [(ECall (EFun "aitch.NewElement") [(EGlob "svg.tagFePointLight"); (ELoc "contents")] true)])])).

(** svg/elements.go:230 *)
Definition f_svg_FeSpecularLighting : fundecl :=
  (Fun ["contents"] true []
    (SBlock [(SReturn [(ECall (EFun "aitch.NewElement") [(EGlob "svg.tagFeSpecularLighting"); (ELoc "contents")] true)])])).

(** svg/elements.go:237 *)
Definition f_svg_FeSpotLight : fundecl :=
  (Fun ["contents"] true []
    (SBlock [(SReturn [(ECall (EFun "aitch.NewElement") [(EGlob "svg.tagFeSpotLight"); (ELoc "contents")] true)])])).

(** svg/elements.go:244 *)
Definition f_svg_FeTile : fundecl :=
  (Fun ["contents"] true []
    (SBlock [(SReturn [(ECall (EFun "aitch.NewElement") [(EGlob "svg.tagFeTile"); (ELoc "contents")] true)])])).

(** svg/elements.go:251 *)
Definition f_svg_FeTurbulence : fundecl :=
  (Fun ["contents"] true []
    (SBlock [(SReturn [(ECall (EFun "aitch.NewElement") [(EGlob "svg.tagFeTurbulence"); (ELoc "contents")] true)])])).

(** svg/elements.go:258 *)
Definition f_svg_Filter : fundecl :=
  (Fun ["contents"] true []
    (SBlock [(SReturn [(ECall (EFun "aitch.NewElement") [(EGlob "svg.tagFilter"); (ELoc "contents")] true)])])).

(** svg/elements.go:265 *)
Definition f_svg_ForeignObject : fundecl :=
  (Fun ["contents"] true []
    (SBlock [(SReturn [(ECall (EFun "aitch.NewElement") [(EGlob "svg.tagForeignObject"); (ELoc "contents")] true)])])).

(** svg/elements.go:272 *)
Definition f_svg_G : fundecl :=
  (Fun ["contents"] true []
    (SBlock [(SReturn [(ECall (EFun "aitch.NewElement") [(EGlob "svg.tagG"); (ELoc "contents")] true)])])).

(** svg/elements.go:279 *)
Definition f_svg_Glyph : fundecl :=
  (Fun ["contents"] true []
    (SBlock [(SReturn [(ECall (EFun "aitch.NewElement") [(EGlob "svg.tagGlyph"); (ELoc "contents")] true)])])).

(** svg/elements.go:286 *)
Definition f_svg_Line : fundecl :=
  (Fun ["contents"] true []
    (SBlock [(SReturn [(ECall (EFun "aitch.NewElement") [(EGlob "svg.tagLine"); (ELoc "contents")] true)])])).

(** svg/elements.go:293 *)
Definition f_svg_LinearGradient : fundecl :=
  (Fun ["contents"] true []
    (SBlock [(SReturn [(ECall (EFun "aitch.NewElement") [(EGlob "svg.tagLinearGradient"); (ELoc "contents")] true)])])).

(** svg/elements.go:300 *)
Definition f_svg_Marker : fundecl :=
  (Fun ["contents"] true []
    (SBlock [(SReturn [(ECall (EFun "aitch.NewElement") [(EGlob "svg.tagMarker"); (ELoc "contents")] true)])])).

(** svg/elements.go:307 *)
Definition f_svg_Mask : fundecl :=
  (Fun ["contents"] true []
    (SBlock [(SReturn [(ECall (EFun "aitch.NewElement") [(EGlob "svg.tagMask"); (ELoc "contents")] true)])])).

(** svg/elements.go:314 *)
Definition f_svg_Metadata : fundecl :=
  (Fun ["contents"] true []
    (SBlock [(SReturn [(ECall (EFun "aitch.NewElement") [(EGlob "svg.tagMetadata"); (ELoc "contents")] true)])])).

(** svg/elements.go:321 *)
Definition f_svg_Mpath : fundecl :=
  (Fun ["contents"] true []
    (SBlock [(SReturn [(ECall (EFun "aitch.NewElement") [(EGlob "svg.tagMpath"); (ELoc "contents")] true)])])).

(** svg/elements.go:328 *)
Definition f_svg_Path : fundecl :=
  (Fun ["contents"] true []
    (SBlock [(SReturn [(ECall (EFun "aitch.NewElement") [(EGlob "svg.tagPath"); (ELoc "contents")] true)])])).

(** svg/elements.go:335 *)
Definition f_svg_Pattern : fundecl :=
  (Fun ["contents"] true []
    (SBlock [(SReturn [(ECall (EFun "aitch.NewElement") [(EGlob "svg.tagPattern"); (ELoc "contents")] true)])])).

(** svg/elements.go:342 *)
Definition f_svg_Polygon : fundecl :=
  (Fun ["contents"] true []
    (SBlock [(SReturn [(ECall (EFun "aitch.NewElement") [(EGlob "svg.tagPolygon"); (ELoc "contents")] true)])])).

(** svg/elements.go:349 *)
Definition f_svg_Polyline : fundecl :=
  (Fun ["contents"] true []
    (SBlock [(SReturn [(ECall (EFun "aitch.NewElement") [(EGlob "svg.tagPolyline"); (ELoc "contents")] true)])])).

(** svg/elements.go:356 *)
Definition f_svg_RadialGradient : fundecl :=
  (Fun ["contents"] true []
    (SBlock [(SReturn [(ECall (EFun "aitch.NewElement") [(EGlob "svg.tagRadialGradient"); (ELoc "contents")] true)])])).

(** svg/elements.go:363 *)
Definition f_svg_Rect : fundecl :=
  (Fun ["contents"] true []
    (SBlock [(SReturn [(ECall (EFun "aitch.NewElement") [(EGlob "svg.tagRect"); (ELoc "contents")] true)])])).

(** svg/elements.go:370 *)
Definition f_svg_Script : fundecl :=
  (Fun ["contents"] true []
    (SBlock [(SReturn [(ECall (EFun "aitch.NewElement") [(EGlob "svg.tagScript"); (ELoc "contents")] true)])])).

(** svg/elements.go:377 *)
Definition f_svg_Set : fundecl :=
  (Fun ["contents"] true []
    (SBlock [(SReturn [(ECall (EFun "aitch.NewElement") [(EGlob "svg.tagSet"); (ELoc "contents")] true)])])).

(** svg/elements.go:384 *)
Definition f_svg_SolidColor : fundecl :=
  (Fun ["contents"] true []
    (SBlock [(SReturn [(ECall (EFun "aitch.NewElement") [(EGlob "svg.tagSolidColor"); (ELoc "contents")] true)])])).

(** svg/elements.go:391 *)
Definition f_svg_Stop : fundecl :=
  (Fun ["contents"] true []
    (SBlock [(SReturn [(ECall (EFun "aitch.NewElement") [(EGlob "svg.tagStop"); (ELoc "contents")] true)])])).

(** svg/elements.go:398 *)
Definition f_svg_StyleElement : fundecl :=
  (Fun ["contents"] true []
    (SBlock [(SReturn [(ECall (EFun "aitch.NewElement") [(EGlob "svg.tagStyle"); (ELoc "contents")] true)])])).

(** svg/elements.go:405 *)
Definition f_svg_Symbol : fundecl :=
  (Fun ["contents"] true []
    (SBlock [(SReturn [(ECall (EFun "aitch.NewElement") [(EGlob "svg.tagSymbol"); (ELoc "contents")] true)])])).

(** svg/elements.go:412 *)
Definition f_svg_TextElement : fundecl :=
  (Fun ["contents"] true []
    (SBlock [(SReturn [(ECall (EFun "aitch.NewElement") [(EGlob "svg.tagText"); (ELoc "contents")] true)])])).

(** svg/elements.go:419 *)
Definition f_svg_TextPath : fundecl :=
  (Fun ["contents"] true []
    (SBlock [(SReturn [(ECall (EFun "aitch.NewElement") [(EGlob "svg.tagTextPath"); (ELoc "contents")] true)])])).

(** svg/elements.go:426 *)
Definition f_svg_Title : fundecl :=
  (Fun ["contents"] true []
    (SBlock [(SReturn [(ECall (EFun "aitch.NewElement") [(EGlob "svg.tagTitle"); (ELoc "contents")] true)])])).

(** svg/elements.go:433 *)
Definition f_svg_TRef : fundecl :=
  (Fun ["contents"] true []
    (SBlock [(SReturn [(ECall (EFun "aitch.NewElement") [(EGlob "svg.tagTRef"); (ELoc "contents")] true)])])).

(** svg/elements.go:440 *)
Definition f_svg_TSpan : fundecl :=
  (Fun ["contents"] true []
    (SBlock [(SReturn [(ECall (EFun "aitch.NewElement") [(EGlob "svg.tagTSpan"); (ELoc "contents")] true)])])).

(** svg/elements.go:447 *)
Definition f_svg_Use : fundecl :=
  (Fun ["contents"] true []
    (SBlock [(SReturn [(ECall (EFun "aitch.NewElement") [(EGlob "svg.tagUse"); (ELoc "contents")] true)])])).

(** svg/elements.go:454 *)
Definition f_svg_Switch : fundecl :=
  (Fun ["contents"] true []
    (SBlock [(SReturn [(ECall (EFun "aitch.NewElement") [(EGlob "svg.tagSwitch"); (ELoc "contents")] true)])])).

(** svg/elements.go:461 *)
Definition f_svg_View : fundecl :=
  (Fun ["contents"] true []
    (SBlock [(SReturn [(ECall (EFun "aitch.NewElement") [(EGlob "svg.tagView"); (ELoc "contents")] true)])])).

(** svg/attributes.go:6 *)
Definition f_svg_Accumulate : fundecl :=
  (Fun ["value"] true []
    (SBlock [(SReturn [(ECall (EFun "aitch.NewAttribute") [(EGlob "svg.attrAccumulate"); (ELoc "value")] true)])])).

(** svg/attributes.go:11 *)
Definition f_svg_Additive : fundecl :=
  (Fun ["value"] true []
    (SBlock [(SReturn [(ECall (EFun "aitch.NewAttribute") [(EGlob "svg.attrAdditive"); (ELoc "value")] true)])])).

(** svg/attributes.go:16 *)
Definition f_svg_AlignmentBaseline : fundecl :=
  (Fun ["value"] true []
    (SBlock [(SReturn [(ECall (EFun "aitch.NewAttribute") [(EGlob "svg.attrAlignmentBaseline"); (ELoc "value")] true)])])).

(** svg/attributes.go:21 *)
Definition f_svg_AttributeName : fundecl :=
  (Fun ["value"] true []
    (SBlock [(SReturn [(ECall (EFun "aitch.NewAttribute") [(EGlob "svg.attrAttributeName"); (ELoc "value")] true)])])).

(** svg/attributes.go:26 *)
Definition f_svg_AttributeType : fundecl :=
  (Fun ["value"] true []
    (SBlock [(SReturn [(ECall (EFun "aitch.NewAttribute") [(EGlob "svg.attrAttributeType"); (ELoc "value")] true)])])).

(** svg/attributes.go:31 *)
Definition f_svg_BaselineShift : fundecl :=
  (Fun ["value"] true []
    (SBlock [(SReturn [(ECall (EFun "aitch.NewAttribute") [(EGlob "svg.attrBaselineShift"); (ELoc "value")] true)])])).

(** svg/attributes.go:36 *)
Definition f_svg_Begin : fundecl :=
  (Fun ["value"] true []
    (SBlock [(SReturn [(ECall (EFun "aitch.NewAttribute") [(EGlob "svg.attrBegin"); (ELoc "value")] true)])])).

(** svg/attributes.go:41 *)
Definition f_svg_By : fundecl :=
  (Fun ["value"] true []
    (SBlock [(SReturn [(ECall (EFun "aitch.NewAttribute") [(EGlob "svg.attrBy"); (ELoc "value")] true)])])).

(** svg/attributes.go:46 *)
Definition f_svg_CalcMode : fundecl :=
  (Fun ["value"] true []
    (SBlock [(SReturn [(ECall (EFun "aitch.NewAttribute") [(EGlob "svg.attrCalcMode"); (ELoc "value")] true)])])).

(** svg/attributes.go:51 *)
Definition f_svg_Class : fundecl :=
  (Fun ["value"] true []
    (SBlock [(SReturn [(ECall (EFun "aitch.NewAttribute") [(EGlob "svg.attrClass"); (ELoc "value")] true)])])).

(** svg/attributes.go:56 *)
Definition f_svg_Clip : fundecl :=
  (Fun ["value"] true []
    (SBlock [(SReturn [(ECall (EFun "aitch.NewAttribute") [(EGlob "svg.attrClip"); (ELoc "value")] true)])])).

(** svg/attributes.go:61 *)
Definition f_svg_ClipPathAttr : fundecl :=
  (Fun ["value"] true []
    (SBlock [(SReturn [(ECall (EFun "aitch.NewAttribute") [(EGlob "svg.attrClipPath"); (ELoc "value")] true)])])).

(** svg/attributes.go:66 *)
Definition f_svg_ClipRule : fundecl :=
  (Fun ["value"] true []
    (SBlock [(SReturn [(ECall (EFun "aitch.NewAttribute") [(EGlob "svg.attrClipRule"); (ELoc "value")] true)])])).

(** svg/attributes.go:71 *)
Definition f_svg_Color : fundecl :=
  (Fun ["value"] true []
    (SBlock [(SReturn [(ECall (EFun "aitch.NewAttribute") [(EGlob "svg.attrColor"); (ELoc "value")] true)])])).

(** svg/attributes.go:76 *)
Definition f_svg_ColorInterpolation : fundecl :=
  (Fun ["value"] true []
    (SBlock [(SReturn [(ECall (EFun "aitch.NewAttribute") [(EGlob "svg.attrColorInterpolation"); (ELoc "value")] true)])])).

(** svg/attributes.go:81 *)
Definition f_svg_ColorInterpolationFilters : fundecl :=
  (Fun ["value"] true []
    (SBlock [(SReturn [(ECall (EFun "aitch.NewAttribute") [(EGlob "svg.attrColorInterpolationFilters"); (ELoc "value")] true)])])).

(** svg/attributes.go:86 *)
Definition f_svg_ColorProfile : fundecl :=
  (Fun ["value"] true []
    (SBlock [(SReturn [(ECall (EFun "aitch.NewAttribute") [(EGlob "svg.attrColorProfile"); (ELoc "value")] true)])])).

(** svg/attributes.go:91 *)
Definition f_svg_ColorRendering : fundecl :=
  (Fun ["value"] true []
    (SBlock [(SReturn [(ECall (EFun "aitch.NewAttribute") [(EGlob "svg.attrColorRendering"); (ELoc "value")] true)])])).

(** svg/attributes.go:96 *)
Definition f_svg_Cursor : fundecl :=
  (Fun ["value"] true []
    (SBlock [(SReturn [(ECall (EFun "aitch.NewAttribute") [(EGlob "svg.attrCursor"); (ELoc "value")] true)])])).

(** svg/attributes.go:101 *)
Definition f_svg_Cx : fundecl :=
  (Fun ["value"] true []
    (SBlock [(SReturn [(ECall (EFun "aitch.NewAttribute") [(EGlob "svg.attrCx"); (ELoc "value")] true)])])).

(** svg/attributes.go:106 *)
Definition f_svg_Cy : fundecl :=
  (Fun ["value"] true []
    (SBlock [(SReturn [(ECall (EFun "aitch.NewAttribute") [(EGlob "svg.attrCy"); (ELoc "value")] true)])])).

(** svg/attributes.go:111 *)
Definition f_svg_D : fundecl :=
  (Fun ["value"] true []
    (SBlock [(SReturn [(ECall (EFun "aitch.NewAttribute") [(EGlob "svg.attrD"); (ELoc "value")] true)])])).

(** svg/attributes.go:116 *)
Definition f_svg_Direction : fundecl :=
  (Fun ["value"] true []
    (SBlock [(SReturn [(ECall (EFun "aitch.NewAttribute") [(EGlob "svg.attrDirection"); (ELoc "value")] true)])])).

(** svg/attributes.go:121 *)
Definition f_svg_Display : fundecl :=
  (Fun ["value"] true []
    (SBlock [(SReturn [(ECall (EFun "aitch.NewAttribute") [(EGlob "svg.attrDisplay"); (ELoc "value")] true)])])).

(** svg/attributes.go:126 *)
Definition f_svg_DominantBaseline : fundecl :=
  (Fun ["value"] true []
    (SBlock [(SReturn [(ECall (EFun "aitch.NewAttribute") [(EGlob "svg.attrDominantBaseline"); (ELoc "value")] true)])])).

(** svg/attributes.go:131 *)
Definition f_svg_Dur : fundecl :=
  (Fun ["value"] true []
    (SBlock [(SReturn [(ECall (EFun "aitch.NewAttribute") [(EGlob "svg.attrDur"); (ELoc "value")] true)])])).

(** svg/attributes.go:136 *)
Definition f_svg_Dx : fundecl :=
  (Fun ["value"] true []
    (SBlock [(SReturn [(ECall (EFun "aitch.NewAttribute") [(EGlob "svg.attrDx"); (ELoc "value")] true)])])).

(** svg/attributes.go:141 *)
Definition f_svg_Dy : fundecl :=
  (Fun ["value"] true []
    (SBlock [(SReturn [(ECall (EFun "aitch.NewAttribute") [(EGlob "svg.attrDy"); (ELoc "value")] true)])])).

(** svg/attributes.go:146 *)
Definition f_svg_EnableBackground : fundecl :=
  (Fun ["value"] true []
    (SBlock [(SReturn [(ECall (EFun "aitch.NewAttribute") [(EGlob "svg.attrEnablebackground"); (ELoc "value")] true)])])).

(** svg/attributes.go:151 *)
Definition f_svg_End : fundecl :=
  (Fun ["value"] true []
    (SBlock [(SReturn [(ECall (EFun "aitch.NewAttribute") [(EGlob "svg.attrEnd"); (ELoc "value")] true)])])).

(** svg/attributes.go:156 *)
Definition f_svg_ExternalResourcesRequired : fundecl :=
  (Fun ["value"] true []
    (SBlock [(SReturn [(ECall (EFun "aitch.NewAttribute") [(EGlob "svg.attrExternalResourcesRequired"); (ELoc "value")] true)])])).

(** svg/attributes.go:161 *)
Definition f_svg_Fill : fundecl :=
  (Fun ["value"] true []
    (SBlock [(SReturn [(ECall (EFun "aitch.NewAttribute") [(EGlob "svg.attrFill"); (ELoc "value")] true)])])).

(** svg/attributes.go:166 *)
Definition f_svg_FillOpacity : fundecl :=
  (Fun ["value"] true []
    (SBlock [(SReturn [(ECall (EFun "aitch.NewAttribute") [(EGlob "svg.attrFillOpacity"); (ELoc "value")] true)])])).

(** svg/attributes.go:171 *)
Definition f_svg_FillRule : fundecl :=
  (Fun ["value"] true []
    (SBlock [(SReturn [(ECall (EFun "aitch.NewAttribute") [(EGlob "svg.attrFillRule"); (ELoc "value")] true)])])).

(** svg/attributes.go:176 *)
Definition f_svg_FilterAttr : fundecl :=
  (Fun ["value"] true []
    (SBlock [(SReturn [(ECall (EFun "aitch.NewAttribute") [(EGlob "svg.attrFilter"); (ELoc "value")] true)])])).

(** svg/attributes.go:181 *)
Definition f_svg_FilterUnits : fundecl :=
  (Fun ["value"] true []
    (SBlock [(SReturn [(ECall (EFun "aitch.NewAttribute") [(EGlob "svg.attrFilterUnits"); (ELoc "value")] true)])])).

(** svg/attributes.go:186 *)
Definition f_svg_FloodColor : fundecl :=
  (Fun ["value"] true []
    (SBlock [(SReturn [(ECall (EFun "aitch.NewAttribute") [(EGlob "svg.attrFloodColor"); (ELoc "value")] true)])])).

(** svg/attributes.go:191 *)
Definition f_svg_FloodOpacity : fundecl :=
  (Fun ["value"] true []
    (SBlock [(SReturn [(ECall (EFun "aitch.NewAttribute") [(EGlob "svg.attrFloodOpacity"); (ELoc "value")] true)])])).

(** svg/attributes.go:196 *)
Definition f_svg_FontFamily : fundecl :=
  (Fun ["value"] true []
    (SBlock [(SReturn [(ECall (EFun "aitch.NewAttribute") [(EGlob "svg.attrFontFamily"); (ELoc "value")] true)])])).

(** svg/attributes.go:201 *)
Definition f_svg_FontSize : fundecl :=
  (Fun ["value"] true []
    (SBlock [(SReturn [(ECall (EFun "aitch.NewAttribute") [(EGlob "svg.attrFontSize"); (ELoc "value")] true)])])).

(** svg/attributes.go:206 *)
Definition f_svg_FontSizeAdjust : fundecl :=
  (Fun ["value"] true []
    (SBlock [(SReturn [(ECall (EFun "aitch.NewAttribute") [(EGlob "svg.attrFontSizeAdjust"); (ELoc "value")] true)])])).

(** svg/attributes.go:211 *)
Definition f_svg_FontStretch : fundecl :=
  (Fun ["value"] true []
    (SBlock [(SReturn [(ECall (EFun "aitch.NewAttribute") [(EGlob "svg.attrFontStretch"); (ELoc "value")] true)])])).

(** svg/attributes.go:216 *)
Definition f_svg_FontStyle : fundecl :=
  (Fun ["value"] true []
    (SBlock [(SReturn [(ECall (EFun "aitch.NewAttribute") [(EGlob "svg.attrFontStyle"); (ELoc "value")] true)])])).

(** svg/attributes.go:221 *)
Definition f_svg_FontVariant : fundecl :=
  (Fun ["value"] true []
    (SBlock [(SReturn [(ECall (EFun "aitch.NewAttribute") [(EGlob "svg.attrFontVariant"); (ELoc "value")] true)])])).

(** svg/attributes.go:226 *)
Definition f_svg_FontWeight : fundecl :=
  (Fun ["value"] true []
    (SBlock [(SReturn [(ECall (EFun "aitch.NewAttribute") [(EGlob "svg.attrFontWeight"); (ELoc "value")] true)])])).

(** svg/attributes.go:231 *)
Definition f_svg_From : fundecl :=
  (Fun ["value"] true []
    (SBlock [(SReturn [(ECall (EFun "aitch.NewAttribute") [(EGlob "svg.attrFrom"); (ELoc "value")] true)])])).

(** svg/attributes.go:236 *)
Definition f_svg_Fx : fundecl :=
  (Fun ["value"] true []
    (SBlock [(SReturn [(ECall (EFun "aitch.NewAttribute") [(EGlob "svg.attrFx"); (ELoc "value")] true)])])).

(** svg/attributes.go:241 *)
Definition f_svg_Fy : fundecl :=
  (Fun ["value"] true []
    (SBlock [(SReturn [(ECall (EFun "aitch.NewAttribute") [(EGlob "svg.attrFy"); (ELoc "value")] true)])])).

(** svg/attributes.go:246 *)
Definition f_svg_GlyphOrientationHorizontal : fundecl :=
  (Fun ["value"] true []
    (SBlock [(SReturn [(ECall (EFun "aitch.NewAttribute") [(EGlob "svg.attrGlyphOrientationHorizontal"); (ELoc "value")] true)])])).

(** svg/attributes.go:251 *)
Definition f_svg_GlyphOrientationVertical : fundecl :=
  (Fun ["value"] true []
    (SBlock [(SReturn [(ECall (EFun "aitch.NewAttribute") [(EGlob "svg.attrGlyphOrientationVertical"); (ELoc "value")] true)])])).

(** svg/attributes.go:256 *)
Definition f_svg_GradientTransform : fundecl :=
  (Fun ["value"] true []
    (SBlock [(SReturn [(ECall (EFun "aitch.NewAttribute") [(EGlob "svg.attrGradientTransform"); (ELoc "value")] true)])])).

(** svg/attributes.go:261 *)
Definition f_svg_GradientUnits : fundecl :=
  (Fun ["value"] true []
    (SBlock [(SReturn [(ECall (EFun "aitch.NewAttribute") [(EGlob "svg.attrGradientUnits"); (ELoc "value")] true)])])).

(** svg/attributes.go:266 *)
Definition f_svg_Height : fundecl :=
  (Fun ["value"] true []
    (SBlock [(SReturn [(ECall (EFun "aitch.NewAttribute") [(EGlob "svg.attrHeight"); (ELoc "value")] true)])])).

(** svg/attributes.go:271 *)
Definition f_svg_Href : fundecl :=
  (Fun ["value"] true []
    (SBlock [(SReturn [(ECall (EFun "aitch.NewAttribute") [(EGlob "svg.attrHref"); (ELoc "value")] true)])])).

(** svg/attributes.go:276 *)
Definition f_svg_Id : fundecl :=
  (Fun ["value"] true []
    (SBlock [(SReturn [(ECall (EFun "aitch.NewAttribute") [(EGlob "svg.attrId"); (ELoc "value")] true)])])).

(** svg/attributes.go:281 *)
Definition f_svg_ImageRendering : fundecl :=
  (Fun ["value"] true []
    (SBlock [(SReturn [(ECall (EFun "aitch.NewAttribute") [(EGlob "svg.attrImageRendering"); (ELoc "value")] true)])])).

(** svg/attributes.go:286 *)
Definition f_svg_Kerning : fundecl :=
  (Fun ["value"] true []
    (SBlock [(SReturn [(ECall (EFun "aitch.NewAttribute") [(EGlob "svg.attrKerning"); (ELoc "value")] true)])])).

(** svg/attributes.go:291 *)
Definition f_svg_KeyPoints : fundecl :=
  (Fun ["value"] true []
    (SBlock [(SReturn [(ECall (EFun "aitch.NewAttribute") [(EGlob "svg.attrKeyPoints"); (ELoc "value")] true)])])).

(** svg/attributes.go:296 *)
Definition f_svg_KeySplines : fundecl :=
  (Fun ["value"] true []
    (SBlock [(SReturn [(ECall (EFun "aitch.NewAttribute") [(EGlob "svg.attrKeySplines"); (ELoc "value")] true)])])).

(** svg/attributes.go:301 *)
Definition f_svg_KeyTimes : fundecl :=
  (Fun ["value"] true []
    (SBlock [(SReturn [(ECall (EFun "aitch.NewAttribute") [(EGlob "svg.attrKeyTimes"); (ELoc "value")] true)])])).

(** svg/attributes.go:306 *)
Definition f_svg_LengthAdjust : fundecl :=
  (Fun ["value"] true []
    (SBlock [(SReturn [(ECall (EFun "aitch.NewAttribute") [(EGlob "svg.attrLengthAdjust"); (ELoc "value")] true)])])).

(** svg/attributes.go:311 *)
Definition f_svg_LetterSpacing : fundecl :=
  (Fun ["value"] true []
    (SBlock [(SReturn [(ECall (EFun "aitch.NewAttribute") [(EGlob "svg.attrLetterspacing"); (ELoc "value")] true)])])).

(** svg/attributes.go:316 *)
Definition f_svg_LightingColor : fundecl :=
  (Fun ["value"] true []
    (SBlock [(SReturn [(ECall (EFun "aitch.NewAttribute") [(EGlob "svg.attrLightingColor"); (ELoc "value")] true)])])).

(** svg/attributes.go:321 *)
Definition f_svg_MarkerEnd : fundecl :=
  (Fun ["value"] true []
    (SBlock [(SReturn [(ECall (EFun "aitch.NewAttribute") [(EGlob "svg.attrMarkerEnd"); (ELoc "value")] true)])])).

(** svg/attributes.go:326 *)
Definition f_svg_MarkerMid : fundecl :=
  (Fun ["value"] true []
    (SBlock [(SReturn [(ECall (EFun "aitch.NewAttribute") [(EGlob "svg.attrMarkerMid"); (ELoc "value")] true)])])).

(** svg/attributes.go:331 *)
Definition f_svg_MarkerStart : fundecl :=
  (Fun ["value"] true []
    (SBlock [(SReturn [(ECall (EFun "aitch.NewAttribute") [(EGlob "svg.attrMarkerStart"); (ELoc "value")] true)])])).

(** svg/attributes.go:336 *)
Definition f_svg_MarkerHeight : fundecl :=
  (Fun ["value"] true []
    (SBlock [(SReturn [(ECall (EFun "aitch.NewAttribute") [(EGlob "svg.attrMarkerHeight"); (ELoc "value")] true)])])).

(** svg/attributes.go:341 *)
Definition f_svg_MarkerUnits : fundecl :=
  (Fun ["value"] true []
    (SBlock [(SReturn [(ECall (EFun "aitch.NewAttribute") [(EGlob "svg.attrMarkerUnits"); (ELoc "value")] true)])])).

(** svg/attributes.go:346 *)
Definition f_svg_MarkerWidth : fundecl :=
  (Fun ["value"] true []
    (SBlock [(SReturn [(ECall (EFun "aitch.NewAttribute") [(EGlob "svg.attrMarkerWidth"); (ELoc "value")] true)])])).

(** svg/attributes.go:351 *)
Definition f_svg_MaskAttr : fundecl :=
  (Fun ["value"] true []
    (SBlock [(SReturn [(ECall (EFun "aitch.NewAttribute") [(EGlob "svg.attrMask"); (ELoc "value")] true)])])).

(** svg/attributes.go:356 *)
Definition f_svg_OnBlur : fundecl :=
  (Fun ["value"] true []
    (SBlock [(SReturn [(ECall (EFun "aitch.NewAttribute") [(EGlob "svg.attrOnBlur"); (ELoc "value")] true)])])).

(** svg/attributes.go:361 *)
Definition f_svg_OnClick : fundecl :=
  (Fun ["value"] true []
    (SBlock [(SReturn [(ECall (EFun "aitch.NewAttribute") [(EGlob "svg.attrOnClick"); (ELoc "value")] true)])])).

(** svg/attributes.go:366 *)
Definition f_svg_OnFocus : fundecl :=
  (Fun ["value"] true []
    (SBlock [(SReturn [(ECall (EFun "aitch.NewAttribute") [(EGlob "svg.attrOnFocus"); (ELoc "value")] true)])])).

(** svg/attributes.go:371 *)
Definition f_svg_OnLoad : fundecl :=
  (Fun ["value"] true []
    (SBlock [(SReturn [(ECall (EFun "aitch.NewAttribute") [(EGlob "svg.attrOnLoad"); (ELoc "value")] true)])])).

(** svg/attributes.go:376 *)
Definition f_svg_OnMouseDown : fundecl :=
  (Fun ["value"] true []
    (SBlock [(SReturn [(ECall (EFun "aitch.NewAttribute") [(EGlob "svg.attrOnMouseDown"); (ELoc "value")] true)])])).

(** svg/attributes.go:381 *)
Definition f_svg_OnMouseMove : fundecl :=
  (Fun ["value"] true []
    (SBlock [(SReturn [(ECall (EFun "aitch.NewAttribute") [(EGlob "svg.attrOnMouseMove"); (ELoc "value")] true)])])).

(** svg/attributes.go:386 *)
Definition f_svg_OnMouseOut : fundecl :=
  (Fun ["value"] true []
    (SBlock [(SReturn [(ECall (EFun "aitch.NewAttribute") [(EGlob "svg.attrOnMouseOut"); (ELoc "value")] true)])])).

(** svg/attributes.go:391 *)
Definition f_svg_OnMouseOver : fundecl :=
  (Fun ["value"] true []
    (SBlock [(SReturn [(ECall (EFun "aitch.NewAttribute") [(EGlob "svg.attrOnMouseOver"); (ELoc "value")] true)])])).

(** svg/attributes.go:396 *)
Definition f_svg_OnMouseUp : fundecl :=
  (Fun ["value"] true []
    (SBlock [(SReturn [(ECall (EFun "aitch.NewAttribute") [(EGlob "svg.attrOnMouseUp"); (ELoc "value")] true)])])).

(** svg/attributes.go:401 *)
Definition f_svg_OnUnload : fundecl :=
  (Fun ["value"] true []
    (SBlock [(SReturn [(ECall (EFun "aitch.NewAttribute") [(EGlob "svg.attrOnUnload"); (ELoc "value")] true)])])).

(** svg/attributes.go:406 *)
Definition f_svg_Opacity : fundecl :=
  (Fun ["value"] true []
    (SBlock [(SReturn [(ECall (EFun "aitch.NewAttribute") [(EGlob "svg.attrOpacity"); (ELoc "value")] true)])])).

(** svg/attributes.go:411 *)
Definition f_svg_Orient : fundecl :=
  (Fun ["value"] true []
    (SBlock [(SReturn [(ECall (EFun "aitch.NewAttribute") [(EGlob "svg.attrOrient"); (ELoc "value")] true)])])).

(** svg/attributes.go:416 *)
Definition f_svg_PathAttr : fundecl :=
  (Fun ["value"] true []
    (SBlock [(SReturn [(ECall (EFun "aitch.NewAttribute") [(EGlob "svg.attrPath"); (ELoc "value")] true)])])).

(** svg/attributes.go:421 *)
Definition f_svg_PathLength : fundecl :=
  (Fun ["value"] true []
    (SBlock [(SReturn [(ECall (EFun "aitch.NewAttribute") [(EGlob "svg.attrPathLength"); (ELoc "value")] true)])])).

(** svg/attributes.go:426 *)
Definition f_svg_PatternContentUnits : fundecl :=
  (Fun ["value"] true []
    (SBlock [(SReturn [(ECall (EFun "aitch.NewAttribute") [(EGlob "svg.attrPatternContentUnits"); (ELoc "value")] true)])])).

(** svg/attributes.go:431 *)
Definition f_svg_PatternTransform : fundecl :=
  (Fun ["value"] true []
    (SBlock [(SReturn [(ECall (EFun "aitch.NewAttribute") [(EGlob "svg.attrPatternTransform"); (ELoc "value")] true)])])).

(** svg/attributes.go:436 *)
Definition f_svg_PatternUnits : fundecl :=
  (Fun ["value"] true []
    (SBlock [(SReturn [(ECall (EFun "aitch.NewAttribute") [(EGlob "svg.attrPatternUnits"); (ELoc "value")] true)])])).

(** svg/attributes.go:441 *)
Definition f_svg_PointerEvents : fundecl :=
  (Fun ["value"] true []
    (SBlock [(SReturn [(ECall (EFun "aitch.NewAttribute") [(EGlob "svg.attrPointerEvents"); (ELoc "value")] true)])])).

(** svg/attributes.go:446 *)
Definition f_svg_Points : fundecl :=
  (Fun ["value"] true []
    (SBlock [(SReturn [(ECall (EFun "aitch.NewAttribute") [(EGlob "svg.attrPoints"); (ELoc "value")] true)])])).

(** svg/attributes.go:451 *)
Definition f_svg_PreserveAspectRatio : fundecl :=
  (Fun ["value"] true []
    (SBlock [(SReturn [(ECall (EFun "aitch.NewAttribute") [(EGlob "svg.attrPreserveAspectRatio"); (ELoc "value")] true)])])).

(** svg/attributes.go:456 *)
Definition f_svg_PrimitiveUnits : fundecl :=
  (Fun ["value"] true []
    (SBlock [(SReturn [(ECall (EFun "aitch.NewAttribute") [(EGlob "svg.attrPrimitiveUnits"); (ELoc "value")] true)])])).

(** svg/attributes.go:461 *)
Definition f_svg_R : fundecl :=
  (Fun ["value"] true []
    (SBlock [(SReturn [(ECall (EFun "aitch.NewAttribute") [(EGlob "svg.attrR"); (ELoc "value")] true)])])).

(** svg/attributes.go:466 *)
Definition f_svg_RefX : fundecl :=
  (Fun ["value"] true []
    (SBlock [(SReturn [(ECall (EFun "aitch.NewAttribute") [(EGlob "svg.attrRefX"); (ELoc "value")] true)])])).

(** svg/attributes.go:471 *)
Definition f_svg_RefY : fundecl :=
  (Fun ["value"] true []
    (SBlock [(SReturn [(ECall (EFun "aitch.NewAttribute") [(EGlob "svg.attrRefY"); (ELoc "value")] true)])])).

(** svg/attributes.go:476 *)
Definition f_svg_RepeatCount : fundecl :=
  (Fun ["value"] true []
    (SBlock [(SReturn [(ECall (EFun "aitch.NewAttribute") [(EGlob "svg.attrRepeatCount"); (ELoc "value")] true)])])).

(** svg/attributes.go:481 *)
Definition f_svg_RepeatDur : fundecl :=
  (Fun ["value"] true []
    (SBlock [(SReturn [(ECall (EFun "aitch.NewAttribute") [(EGlob "svg.attrRepeatDur"); (ELoc "value")] true)])])).

(** svg/attributes.go:486 *)
Definition f_svg_RequiredExtensions : fundecl :=
  (Fun ["value"] true []
    (SBlock [(SReturn [(ECall (EFun "aitch.NewAttribute") [(EGlob "svg.attrRequiredExtensions"); (ELoc "value")] true)])])).

(** svg/attributes.go:491 *)
Definition f_svg_RequiredFeatures : fundecl :=
  (Fun ["value"] true []
    (SBlock [(SReturn [(ECall (EFun "aitch.NewAttribute") [(EGlob "svg.attrRequiredFeatures"); (ELoc "value")] true)])])).

(** svg/attributes.go:496 *)
Definition f_svg_Rotate : fundecl :=
  (Fun ["value"] true []
    (SBlock [(SReturn [(ECall (EFun "aitch.NewAttribute") [(EGlob "svg.attrRotate"); (ELoc "value")] true)])])).

(** svg/attributes.go:501 *)
Definition f_svg_Rx : fundecl :=
  (Fun ["value"] true []
    (SBlock [(SReturn [(ECall (EFun "aitch.NewAttribute") [(EGlob "svg.attrRx"); (ELoc "value")] true)])])).

(** svg/attributes.go:506 *)
Definition f_svg_Ry : fundecl :=
  (Fun ["value"] true []
    (SBlock [(SReturn [(ECall (EFun "aitch.NewAttribute") [(EGlob "svg.attrRy"); (ELoc "value")] true)])])).

(** svg/attributes.go:511 *)
Definition f_svg_ShapeRendering : fundecl :=
  (Fun ["value"] true []
    (SBlock [(SReturn [(ECall (EFun "aitch.NewAttribute") [(EGlob "svg.attrShapeRendering"); (ELoc "value")] true)])])).

(** svg/attributes.go:516 *)
Definition f_svg_SpreadMethod : fundecl :=
  (Fun ["value"] true []
    (SBlock [(SReturn [(ECall (EFun "aitch.NewAttribute") [(EGlob "svg.attrSpreadMethod"); (ELoc "value")] true)])])).

(** svg/attributes.go:521 *)
Definition f_svg_StopColor : fundecl :=
  (Fun ["value"] true []
    (SBlock [(SReturn [(ECall (EFun "aitch.NewAttribute") [(EGlob "svg.attrStopColor"); (ELoc "value")] true)])])).

(** svg/attributes.go:526 *)
Definition f_svg_StopOpacity : fundecl :=
  (Fun ["value"] true []
    (SBlock [(SReturn [(ECall (EFun "aitch.NewAttribute") [(EGlob "svg.attrStopOpacity"); (ELoc "value")] true)])])).

(** svg/attributes.go:531 *)
Definition f_svg_Stroke : fundecl :=
  (Fun ["value"] true []
    (SBlock [(SReturn [(ECall (EFun "aitch.NewAttribute") [(EGlob "svg.attrStroke"); (ELoc "value")] true)])])).

(** svg/attributes.go:536 *)
Definition f_svg_StrokeDashArray : fundecl :=
  (Fun ["value"] true []
    (SBlock [(SReturn [(ECall (EFun "aitch.NewAttribute") [(EGlob "svg.attrStrokeDashArray"); (ELoc "value")] true)])])).

(** svg/attributes.go:541 *)
Definition f_svg_StrokeDashOffset : fundecl :=
  (Fun ["value"] true []
    (SBlock [(SReturn [(ECall (EFun "aitch.NewAttribute") [(EGlob "svg.attrStrokeDashOffset"); (ELoc "value")] true)])])).

(** svg/attributes.go:546 *)
Definition f_svg_StrokeLineCap : fundecl :=
  (Fun ["value"] true []
    (SBlock [(SReturn [(ECall (EFun "aitch.NewAttribute") [(EGlob "svg.attrStrokeLineCap"); (ELoc "value")] true)])])).

(** svg/attributes.go:551 *)
Definition f_svg_StrokeLineJoin : fundecl :=
  (Fun ["value"] true []
    (SBlock [(SReturn [(ECall (EFun "aitch.NewAttribute") [(EGlob "svg.attrStrokeLineJoin"); (ELoc "value")] true)])])).

(** svg/attributes.go:556 *)
Definition f_svg_StrokeMiterLimit : fundecl :=
  (Fun ["value"] true []
    (SBlock [(SReturn [(ECall (EFun "aitch.NewAttribute") [(EGlob "svg.attrStrokeMiterLimit"); (ELoc "value")] true)])])).

(** svg/attributes.go:561 *)
Definition f_svg_StrokeOpacity : fundecl :=
  (Fun ["value"] true []
    (SBlock [(SReturn [(ECall (EFun "aitch.NewAttribute") [(EGlob "svg.attrStrokeOpacity"); (ELoc "value")] true)])])).

(** svg/attributes.go:566 *)
Definition f_svg_StrokeWidth : fundecl :=
  (Fun ["value"] true []
    (SBlock [(SReturn [(ECall (EFun "aitch.NewAttribute") [(EGlob "svg.attrStrokeWidth"); (ELoc "value")] true)])])).

(** svg/attributes.go:573 *)
Definition f_svg_Style : fundecl :=
  (Fun ["value"] true []
    (SBlock [(SReturn [(ECall (EFun "aitch.NewDelimitedAttribute") [(EGlob "svg.attrStyle"); (EGlob "svg.stylesDelim"); (ELoc "value")] true)])])).

(** svg/attributes.go:578 *)
Definition f_svg_SystemLanguage : fundecl :=
  (Fun ["value"] true []
    (SBlock [(SReturn [(ECall (EFun "aitch.NewAttribute") [(EGlob "svg.attrSystemLanguage"); (ELoc "value")] true)])])).

(** svg/attributes.go:583 *)
Definition f_svg_TabIndex : fundecl :=
  (Fun ["value"] true []
    (SBlock [(SReturn [(ECall (EFun "aitch.NewAttribute") [(EGlob "svg.attrTabindex"); (ELoc "value")] true)])])).

(** svg/attributes.go:588 *)
Definition f_svg_TextAnchor : fundecl :=
  (Fun ["value"] true []
    (SBlock [(SReturn [(ECall (EFun "aitch.NewAttribute") [(EGlob "svg.attrTextAnchor"); (ELoc "value")] true)])])).

(** svg/attributes.go:593 *)
Definition f_svg_TextDecoration : fundecl :=
  (Fun ["value"] true []
    (SBlock [(SReturn [(ECall (EFun "aitch.NewAttribute") [(EGlob "svg.attrTextDecoration"); (ELoc "value")] true)])])).

(** svg/attributes.go:598 *)
Definition f_svg_TextRendering : fundecl :=
  (Fun ["value"] true []
    (SBlock [(SReturn [(ECall (EFun "aitch.NewAttribute") [(EGlob "svg.attrTextRendering"); (ELoc "value")] true)])])).

(** svg/attributes.go:603 *)
Definition f_svg_TextLength : fundecl :=
  (Fun ["value"] true []
    (SBlock [(SReturn [(ECall (EFun "aitch.NewAttribute") [(EGlob "svg.attrTextLength"); (ELoc "value")] true)])])).

(** svg/attributes.go:608 *)
Definition f_svg_To : fundecl :=
  (Fun ["value"] true []
    (SBlock [(SReturn [(ECall (EFun "aitch.NewAttribute") [(EGlob "svg.attrTo"); (ELoc "value")] true)])])).

(** svg/attributes.go:613 *)
Definition f_svg_Type : fundecl :=
  (Fun ["value"] true []
    (SBlock [(SReturn [(ECall (EFun "aitch.NewAttribute") [(EGlob "svg.attrType"); (ELoc "value")] true)])])).

(** svg/attributes.go:618 *)
Definition f_svg_UnicodeBidi : fundecl :=
  (Fun ["value"] true []
    (SBlock [(SReturn [(ECall (EFun "aitch.NewAttribute") [(EGlob "svg.attrUnicodeBidi"); (ELoc "value")] true)])])).

(** svg/attributes.go:623 *)
Definition f_svg_Values : fundecl :=
  (Fun ["value"] true []
    (SBlock [(SReturn [(ECall (EFun "aitch.NewAttribute") [(EGlob "svg.attrValues"); (ELoc "value")] true)])])).

(** svg/attributes.go:628 *)
Definition f_svg_Visibility : fundecl :=
  (Fun ["value"] true []
    (SBlock [(SReturn [(ECall (EFun "aitch.NewAttribute") [(EGlob "svg.attrVisibility"); (ELoc "value")] true)])])).

(** svg/attributes.go:633 *)
Definition f_svg_Width : fundecl :=
  (Fun ["value"] true []
    (SBlock [(SReturn [(ECall (EFun "aitch.NewAttribute") [(EGlob "svg.attrWidth"); (ELoc "value")] true)])])).

(** svg/attributes.go:638 *)
Definition f_svg_WordSpacing : fundecl :=
  (Fun ["value"] true []
    (SBlock [(SReturn [(ECall (EFun "aitch.NewAttribute") [(EGlob "svg.attrWordSpacing"); (ELoc "value")] true)])])).

(** svg/attributes.go:643 *)
Definition f_svg_WritingMode : fundecl :=
  (Fun ["value"] true []
    (SBlock [(SReturn [(ECall (EFun "aitch.NewAttribute") [(EGlob "svg.attrWritingMode"); (ELoc "value")] true)])])).

(** svg/attributes.go:648 *)
Definition f_svg_X : fundecl :=
  (Fun ["value"] true []
    (SBlock [(SReturn [(ECall (EFun "aitch.NewAttribute") [(EGlob "svg.attrX"); (ELoc "value")] true)])])).

(** svg/attributes.go:653 *)
Definition f_svg_X1 : fundecl :=
  (Fun ["value"] true []
    (SBlock [(SReturn [(ECall (EFun "aitch.NewAttribute") [(EGlob "svg.attrX1"); (ELoc "value")] true)])])).

(** svg/attributes.go:658 *)
Definition f_svg_X2 : fundecl :=
  (Fun ["value"] true []
    (SBlock [(SReturn [(ECall (EFun "aitch.NewAttribute") [(EGlob "svg.attrX2"); (ELoc "value")] true)])])).

(** svg/attributes.go:663 *)
Definition f_svg_XlinkActuate : fundecl :=
  (Fun ["value"] true []
    (SBlock [(SReturn [(ECall (EFun "aitch.NewAttribute") [(EGlob "svg.attrXlinkActuate"); (ELoc "value")] true)])])).

(** svg/attributes.go:668 *)
Definition f_svg_XlinkArcrole : fundecl :=
  (Fun ["value"] true []
    (SBlock [(SReturn [(ECall (EFun "aitch.NewAttribute") [(EGlob "svg.attrXlinkArcrole"); (ELoc "value")] true)])])).

(** svg/attributes.go:673 *)
Definition f_svg_XlinkHref : fundecl :=
  (Fun ["value"] true []
    (SBlock [(SReturn [(ECall (EFun "aitch.NewAttribute") [(EGlob "svg.attrXlinkHref"); (ELoc "value")] true)])])).

(** svg/attributes.go:678 *)
Definition f_svg_XlinkRole : fundecl :=
  (Fun ["value"] true []
    (SBlock [(SReturn [(ECall (EFun "aitch.NewAttribute") [(EGlob "svg.attrXlinkRole"); (ELoc "value")] true)])])).

(** svg/attributes.go:683 *)
Definition f_svg_XlinkShow : fundecl :=
  (Fun ["value"] true []
    (SBlock [(SReturn [(ECall (EFun "aitch.NewAttribute") [(EGlob "svg.attrXlinkShow"); (ELoc "value")] true)])])).

(** svg/attributes.go:688 *)
Definition f_svg_XlinkTitle : fundecl :=
  (Fun ["value"] true []
    (SBlock [(SReturn [(ECall (EFun "aitch.NewAttribute") [(EGlob "svg.attrXlinkTitle"); (ELoc "value")] true)])])).

(** svg/attributes.go:693 *)
Definition f_svg_XmlBase : fundecl :=
  (Fun ["value"] true []
    (SBlock [(SReturn [(ECall (EFun "aitch.NewAttribute") [(EGlob "svg.attrXmlBase"); (ELoc "value")] true)])])).

(** svg/attributes.go:698 *)
Definition f_svg_XmlLang : fundecl :=
  (Fun ["value"] true []
    (SBlock [(SReturn [(ECall (EFun "aitch.NewAttribute") [(EGlob "svg.attrXmlLang"); (ELoc "value")] true)])])).

(** svg/attributes.go:703 *)
Definition f_svg_XmlSpace : fundecl :=
  (Fun ["value"] true []
    (SBlock [(SReturn [(ECall (EFun "aitch.NewAttribute") [(EGlob "svg.attrXmlSpace"); (ELoc "value")] true)])])).

(** svg/attributes.go:708 *)
Definition f_svg_Y : fundecl :=
  (Fun ["value"] true []
    (SBlock [(SReturn [(ECall (EFun "aitch.NewAttribute") [(EGlob "svg.attrY"); (ELoc "value")] true)])])).

(** svg/attributes.go:713 *)
Definition f_svg_Y1 : fundecl :=
  (Fun ["value"] true []
    (SBlock [(SReturn [(ECall (EFun "aitch.NewAttribute") [(EGlob "svg.attrY1"); (ELoc "value")] true)])])).

(** svg/attributes.go:718 *)
Definition f_svg_Y2 : fundecl :=
  (Fun ["value"] true []
    (SBlock [(SReturn [(ECall (EFun "aitch.NewAttribute") [(EGlob "svg.attrY2"); (ELoc "value")] true)])])).

(** css/properties.go:6 *)
Definition f_css_Display : fundecl :=
  (Fun ["value"] true []
    (SBlock [(SReturn [(ECall (EFun "css.styleAttribute") [(EGlob "css.propDisplay"); (ELoc "value")] true)])])).

(** css/properties.go:11 *)
Definition f_css_Position : fundecl :=
  (Fun ["value"] true []
    (SBlock [(SReturn [(ECall (EFun "css.styleAttribute") [(EGlob "css.propPosition"); (ELoc "value")] true)])])).

(** css/properties.go:16 *)
Definition f_css_Top : fundecl :=
  (Fun ["value"] true []
    (SBlock [(SReturn [(ECall (EFun "css.styleAttribute") [(EGlob "css.propTop"); (ELoc "value")] true)])])).

(** css/properties.go:21 *)
Definition f_css_Right : fundecl :=
  (Fun ["value"] true []
    (SBlock [(SReturn [(ECall (EFun "css.styleAttribute") [(EGlob "css.propRight"); (ELoc "value")] true)])])).

(** css/properties.go:26 *)
Definition f_css_Bottom : fundecl :=
  (Fun ["value"] true []
    (SBlock [(SReturn [(ECall (EFun "css.styleAttribute") [(EGlob "css.propBottom"); (ELoc "value")] true)])])).

(** css/properties.go:31 *)
Definition f_css_Left : fundecl :=
  (Fun ["value"] true []
    (SBlock [(SReturn [(ECall (EFun "css.styleAttribute") [(EGlob "css.propLeft"); (ELoc "value")] true)])])).

(** css/properties.go:36 *)
Definition f_css_ZIndex : fundecl :=
  (Fun ["value"] true []
    (SBlock [(SReturn [(ECall (EFun "css.styleAttribute") [(EGlob "css.propZIndex"); (ELoc "value")] true)])])).

(** css/properties.go:41 *)
Definition f_css_Float : fundecl :=
  (Fun ["value"] true []
    (SBlock [(SReturn [(ECall (EFun "css.styleAttribute") [(EGlob "css.propFloat"); (ELoc "value")] true)])])).

(** css/properties.go:46 *)
Definition f_css_Clear : fundecl :=
  (Fun ["value"] true []
    (SBlock [(SReturn [(ECall (EFun "css.styleAttribute") [(EGlob "css.propClear"); (ELoc "value")] true)])])).

(** css/properties.go:51 *)
Definition f_css_Flex : fundecl :=
  (Fun ["value"] true []
    (SBlock [(SReturn [(ECall (EFun "css.styleAttribute") [(EGlob "css.propFlex"); (ELoc "value")] true)])])).

(** css/properties.go:56 *)
Definition f_css_FlexGrow : fundecl :=
  (Fun ["value"] true []
    (SBlock [(SReturn [(ECall (EFun "css.styleAttribute") [(EGlob "css.propFlexGrow"); (ELoc "value")] true)])])).

(** css/properties.go:61 *)
Definition f_css_FlexShrink : fundecl :=
  (Fun ["value"] true []
    (SBlock [(SReturn [(ECall (EFun "css.styleAttribute") [(EGlob "css.propFlexShrink"); (ELoc "value")] true)])])).

(** css/properties.go:66 *)
Definition f_css_FlexBasis : fundecl :=
  (Fun ["value"] true []
    (SBlock [(SReturn [(ECall (EFun "css.styleAttribute") [(EGlob "css.propFlexBasis"); (ELoc "value")] true)])])).

(** css/properties.go:71 *)
Definition f_css_JustifyContent : fundecl :=
  (Fun ["value"] true []
    (SBlock [(SReturn [(ECall (EFun "css.styleAttribute") [(EGlob "css.propJustifyContent"); (ELoc "value")] true)])])).

(** css/properties.go:76 *)
Definition f_css_AlignItems : fundecl :=
  (Fun ["value"] true []
    (SBlock [(SReturn [(ECall (EFun "css.styleAttribute") [(EGlob "css.propAlignItems"); (ELoc "value")] true)])])).

(** css/properties.go:81 *)
Definition f_css_AlignContent : fundecl :=
  (Fun ["value"] true []
    (SBlock [(SReturn [(ECall (EFun "css.styleAttribute") [(EGlob "css.propAlignContent"); (ELoc "value")] true)])])).

(** css/properties.go:86 *)
Definition f_css_AlignSelf : fundecl :=
  (Fun ["value"] true []
    (SBlock [(SReturn [(ECall (EFun "css.styleAttribute") [(EGlob "css.propAlignSelf"); (ELoc "value")] true)])])).

(** css/properties.go:91 *)
Definition f_css_Gap : fundecl :=
  (Fun ["value"] true []
    (SBlock [(SReturn [(ECall (EFun "css.styleAttribute") [(EGlob "css.propGap"); (ELoc "value")] true)])])).

(** css/properties.go:96 *)
Definition f_css_RowGap : fundecl :=
  (Fun ["value"] true []
    (SBlock [(SReturn [(ECall (EFun "css.styleAttribute") [(EGlob "css.propRowGap"); (ELoc "value")] true)])])).

(** css/properties.go:101 *)
Definition f_css_ColumnGap : fundecl :=
  (Fun ["value"] true []
    (SBlock [(SReturn [(ECall (EFun "css.styleAttribute") [(EGlob "css.propColumnGap"); (ELoc "value")] true)])])).

(** css/properties.go:106 *)
Definition f_css_Width : fundecl :=
  (Fun ["value"] true []
    (SBlock [(SReturn [(ECall (EFun "css.styleAttribute") [(EGlob "css.propWidth"); (ELoc "value")] true)])])).

(** css/properties.go:111 *)
Definition f_css_Height : fundecl :=
  (Fun ["value"] true []
    (SBlock [(SReturn [(ECall (EFun "css.styleAttribute") [(EGlob "css.propHeight"); (ELoc "value")] true)])])).

(** css/properties.go:116 *)
Definition f_css_MinWidth : fundecl :=
  (Fun ["value"] true []
    (SBlock [(SReturn [(ECall (EFun "css.styleAttribute") [(EGlob "css.propMinWidth"); (ELoc "value")] true)])])).

(** css/properties.go:121 *)
Definition f_css_MaxWidth : fundecl :=
  (Fun ["value"] true []
    (SBlock [(SReturn [(ECall (EFun "css.styleAttribute") [(EGlob "css.propMaxWidth"); (ELoc "value")] true)])])).

(** css/properties.go:126 *)
Definition f_css_MinHeight : fundecl :=
  (Fun ["value"] true []
    (SBlock [(SReturn [(ECall (EFun "css.styleAttribute") [(EGlob "css.propMinHeight"); (ELoc "value")] true)])])).

(** css/properties.go:131 *)
Definition f_css_MaxHeight : fundecl :=
  (Fun ["value"] true []
    (SBlock [(SReturn [(ECall (EFun "css.styleAttribute") [(EGlob "css.propMaxHeight"); (ELoc "value")] true)])])).

(** css/properties.go:136 *)
Definition f_css_Margin : fundecl :=
  (Fun ["value"] true []
    (SBlock [(SReturn [(ECall (EFun "css.styleAttribute") [(EGlob "css.propMargin"); (ELoc "value")] true)])])).

(** css/properties.go:141 *)
Definition f_css_MarginTop : fundecl :=
  (Fun ["value"] true []
    (SBlock [(SReturn [(ECall (EFun "css.styleAttribute") [(EGlob "css.propMarginTop"); (ELoc "value")] true)])])).

(** css/properties.go:146 *)
Definition f_css_MarginRight : fundecl :=
  (Fun ["value"] true []
    (SBlock [(SReturn [(ECall (EFun "css.styleAttribute") [(EGlob "css.propMarginRight"); (ELoc "value")] true)])])).

(** css/properties.go:151 *)
Definition f_css_MarginBottom : fundecl :=
  (Fun ["value"] true []
    (SBlock [(SReturn [(ECall (EFun "css.styleAttribute") [(EGlob "css.propMarginBottom"); (ELoc "value")] true)])])).

(** css/properties.go:156 *)
Definition f_css_MarginLeft : fundecl :=
  (Fun ["value"] true []
    (SBlock [(SReturn [(ECall (EFun "css.styleAttribute") [(EGlob "css.propMarginLeft"); (ELoc "value")] true)])])).

(** css/properties.go:161 *)
Definition f_css_Padding : fundecl :=
  (Fun ["value"] true []
    (SBlock [(SReturn [(ECall (EFun "css.styleAttribute") [(EGlob "css.propPadding"); (ELoc "value")] true)])])).

(** css/properties.go:166 *)
Definition f_css_PaddingTop : fundecl :=
  (Fun ["value"] true []
    (SBlock [(SReturn [(ECall (EFun "css.styleAttribute") [(EGlob "css.propPaddingTop"); (ELoc "value")] true)])])).

(** css/properties.go:171 *)
Definition f_css_PaddingRight : fundecl :=
  (Fun ["value"] true []
    (SBlock [(SReturn [(ECall (EFun "css.styleAttribute") [(EGlob "css.propPaddingRight"); (ELoc "value")] true)])])).

(** css/properties.go:176 *)
Definition f_css_PaddingBottom : fundecl :=
  (Fun ["value"] true []
    (SBlock [(SReturn [(ECall (EFun "css.styleAttribute") [(EGlob "css.propPaddingBottom"); (ELoc "value")] true)])])).

(** css/properties.go:181 *)
Definition f_css_PaddingLeft : fundecl :=
  (Fun ["value"] true []
    (SBlock [(SReturn [(ECall (EFun "css.styleAttribute") [(EGlob "css.propPaddingLeft"); (ELoc "value")] true)])])).

(** css/properties.go:186 *)
Definition f_css_Border : fundecl :=
  (Fun ["value"] true []
    (SBlock [(SReturn [(ECall (EFun "css.styleAttribute") [(EGlob "css.propBorder"); (ELoc "value")] true)])])).

(** css/properties.go:191 *)
Definition f_css_BorderWidth : fundecl :=
  (Fun ["value"] true []
    (SBlock [(SReturn [(ECall (EFun "css.styleAttribute") [(EGlob "css.propBorderWidth"); (ELoc "value")] true)])])).

(** css/properties.go:196 *)
Definition f_css_BorderColor : fundecl :=
  (Fun ["value"] true []
    (SBlock [(SReturn [(ECall (EFun "css.styleAttribute") [(EGlob "css.propBorderColor"); (ELoc "value")] true)])])).

(** css/properties.go:201 *)
Definition f_css_BorderStyle : fundecl :=
  (Fun ["value"] true []
    (SBlock [(SReturn [(ECall (EFun "css.styleAttribute") [(EGlob "css.propBorderStyle"); (ELoc "value")] true)])])).

(** css/properties.go:206 *)
Definition f_css_BorderRadius : fundecl :=
  (Fun ["value"] true []
    (SBlock [(SReturn [(ECall (EFun "css.styleAttribute") [(EGlob "css.propBorderRadius"); (ELoc "value")] true)])])).

(** css/properties.go:211 *)
Definition f_css_BorderTop : fundecl :=
  (Fun ["value"] true []
    (SBlock [(SReturn [(ECall (EFun "css.styleAttribute") [(EGlob "css.propBorderTop"); (ELoc "value")] true)])])).

(** css/properties.go:216 *)
Definition f_css_BorderBottom : fundecl :=
  (Fun ["value"] true []
    (SBlock [(SReturn [(ECall (EFun "css.styleAttribute") [(EGlob "css.propBorderBottom"); (ELoc "value")] true)])])).

(** css/properties.go:221 *)
Definition f_css_BorderLeft : fundecl :=
  (Fun ["value"] true []
    (SBlock [(SReturn [(ECall (EFun "css.styleAttribute") [(EGlob "css.propBorderLeft"); (ELoc "value")] true)])])).

(** css/properties.go:226 *)
Definition f_css_BorderRight : fundecl :=
  (Fun ["value"] true []
    (SBlock [(SReturn [(ECall (EFun "css.styleAttribute") [(EGlob "css.propBorderRight"); (ELoc "value")] true)])])).

(** css/properties.go:231 *)
Definition f_css_Background : fundecl :=
  (Fun ["value"] true []
    (SBlock [(SReturn [(ECall (EFun "css.styleAttribute") [(EGlob "css.propBackground"); (ELoc "value")] true)])])).

(** css/properties.go:236 *)
Definition f_css_BackgroundColor : fundecl :=
  (Fun ["value"] true []
    (SBlock [(SReturn [(ECall (EFun "css.styleAttribute") [(EGlob "css.propBackgroundColor"); (ELoc "value")] true)])])).

(** css/properties.go:241 *)
Definition f_css_BackgroundImage : fundecl :=
  (Fun ["value"] true []
    (SBlock [(SReturn [(ECall (EFun "css.styleAttribute") [(EGlob "css.propBackgroundImage"); (ELoc "value")] true)])])).

(** css/properties.go:246 *)
Definition f_css_BackgroundSize : fundecl :=
  (Fun ["value"] true []
    (SBlock [(SReturn [(ECall (EFun "css.styleAttribute") [(EGlob "css.propBackgroundSize"); (ELoc "value")] true)])])).

(** css/properties.go:251 *)
Definition f_css_BackgroundPosition : fundecl :=
  (Fun ["value"] true []
    (SBlock [(SReturn [(ECall (EFun "css.styleAttribute") [(EGlob "css.propBackgroundPosition"); (ELoc "value")] true)])])).

(** css/properties.go:256 *)
Definition f_css_BackgroundRepeat : fundecl :=
  (Fun ["value"] true []
    (SBlock [(SReturn [(ECall (EFun "css.styleAttribute") [(EGlob "css.propBackgroundRepeat"); (ELoc "value")] true)])])).

(** css/properties.go:261 *)
Definition f_css_Color : fundecl :=
  (Fun ["value"] true []
    (SBlock [(SReturn [(ECall (EFun "css.styleAttribute") [(EGlob "css.propColor"); (ELoc "value")] true)])])).

(** css/properties.go:266 *)
Definition f_css_FontSize : fundecl :=
  (Fun ["value"] true []
    (SBlock [(SReturn [(ECall (EFun "css.styleAttribute") [(EGlob "css.propFontSize"); (ELoc "value")] true)])])).

(** css/properties.go:271 *)
Definition f_css_FontWeight : fundecl :=
  (Fun ["value"] true []
    (SBlock [(SReturn [(ECall (EFun "css.styleAttribute") [(EGlob "css.propFontWeight"); (ELoc "value")] true)])])).

(** css/properties.go:276 *)
Definition f_css_FontFamily : fundecl :=
  (Fun ["value"] true []
    (SBlock [(SReturn [(ECall (EFun "css.styleAttribute") [(EGlob "css.propFontFamily"); (ELoc "value")] true)])])).

(** css/properties.go:281 *)
Definition f_css_LineHeight : fundecl :=
  (Fun ["value"] true []
    (SBlock [(SReturn [(ECall (EFun "css.styleAttribute") [(EGlob "css.propLineHeight"); (ELoc "value")] true)])])).

(** css/properties.go:286 *)
Definition f_css_LetterSpacing : fundecl :=
  (Fun ["value"] true []
    (SBlock [(SReturn [(ECall (EFun "css.styleAttribute") [(EGlob "css.propLetterSpacing"); (ELoc "value")] true)])])).

(** css/properties.go:291 *)
Definition f_css_TextAlign : fundecl :=
  (Fun ["value"] true []
    (SBlock [(SReturn [(ECall (EFun "css.styleAttribute") [(EGlob "css.propTextAlign"); (ELoc "value")] true)])])).

(** css/properties.go:296 *)
Definition f_css_TextTransform : fundecl :=
  (Fun ["value"] true []
    (SBlock [(SReturn [(ECall (EFun "css.styleAttribute") [(EGlob "css.propTextTransform"); (ELoc "value")] true)])])).

(** css/properties.go:301 *)
Definition f_css_TextDecoration : fundecl :=
  (Fun ["value"] true []
    (SBlock [(SReturn [(ECall (EFun "css.styleAttribute") [(EGlob "css.propTextDecoration"); (ELoc "value")] true)])])).

(** css/properties.go:306 *)
Definition f_css_WhiteSpace : fundecl :=
  (Fun ["value"] true []
    (SBlock [(SReturn [(ECall (EFun "css.styleAttribute") [(EGlob "css.propWhiteSpace"); (ELoc "value")] true)])])).

(** css/properties.go:311 *)
Definition f_css_WordBreak : fundecl :=
  (Fun ["value"] true []
    (SBlock [(SReturn [(ECall (EFun "css.styleAttribute") [(EGlob "css.propWordBreak"); (ELoc "value")] true)])])).

(** css/properties.go:316 *)
Definition f_css_Opacity : fundecl :=
  (Fun ["value"] true []
    (SBlock [(SReturn [(ECall (EFun "css.styleAttribute") [(EGlob "css.propOpacity"); (ELoc "value")] true)])])).

(** css/properties.go:321 *)
Definition f_css_BoxShadow : fundecl :=
  (Fun ["value"] true []
    (SBlock [(SReturn [(ECall (EFun "css.styleAttribute") [(EGlob "css.propBoxShadow"); (ELoc "value")] true)])])).

(** css/properties.go:326 *)
Definition f_css_Visibility : fundecl :=
  (Fun ["value"] true []
    (SBlock [(SReturn [(ECall (EFun "css.styleAttribute") [(EGlob "css.propVisibility"); (ELoc "value")] true)])])).

(** css/properties.go:331 *)
Definition f_css_Overflow : fundecl :=
  (Fun ["value"] true []
    (SBlock [(SReturn [(ECall (EFun "css.styleAttribute") [(EGlob "css.propOverflow"); (ELoc "value")] true)])])).

(** css/properties.go:336 *)
Definition f_css_OverflowX : fundecl :=
  (Fun ["value"] true []
    (SBlock [(SReturn [(ECall (EFun "css.styleAttribute") [(EGlob "css.propOverflowX"); (ELoc "value")] true)])])).

(** css/properties.go:341 *)
Definition f_css_OverflowY : fundecl :=
  (Fun ["value"] true []
    (SBlock [(SReturn [(ECall (EFun "css.styleAttribute") [(EGlob "css.propOverflowY"); (ELoc "value")] true)])])).

(** css/properties.go:346 *)
Definition f_css_Cursor : fundecl :=
  (Fun ["value"] true []
    (SBlock [(SReturn [(ECall (EFun "css.styleAttribute") [(EGlob "css.propCursor"); (ELoc "value")] true)])])).

(** css/properties.go:351 *)
Definition f_css_Transition : fundecl :=
  (Fun ["value"] true []
    (SBlock [(SReturn [(ECall (EFun "css.styleAttribute") [(EGlob "css.propTransition"); (ELoc "value")] true)])])).

(** css/properties.go:356 *)
Definition f_css_TransitionDuration : fundecl :=
  (Fun ["value"] true []
    (SBlock [(SReturn [(ECall (EFun "css.styleAttribute") [(EGlob "css.propTransitionDuration"); (ELoc "value")] true)])])).

(** css/properties.go:361 *)
Definition f_css_TransitionTimingFunction : fundecl :=
  (Fun ["value"] true []
    (SBlock [(SReturn [(ECall (EFun "css.styleAttribute") [(EGlob "css.propTransitionTiming"); (ELoc "value")] true)])])).

(** css/properties.go:366 *)
Definition f_css_Transform : fundecl :=
  (Fun ["value"] true []
    (SBlock [(SReturn [(ECall (EFun "css.styleAttribute") [(EGlob "css.propTransform"); (ELoc "value")] true)])])).

(** css/properties.go:371 *)
Definition f_css_Animation : fundecl :=
  (Fun ["value"] true []
    (SBlock [(SReturn [(ECall (EFun "css.styleAttribute") [(EGlob "css.propAnimation"); (ELoc "value")] true)])])).

(** css/properties.go:376 *)
Definition f_css_UserSelect : fundecl :=
  (Fun ["value"] true []
    (SBlock [(SReturn [(ECall (EFun "css.styleAttribute") [(EGlob "css.propUserSelect"); (ELoc "value")] true)])])).

(** css/properties.go:381 *)
Definition f_css_PointerEvents : fundecl :=
  (Fun ["value"] true []
    (SBlock [(SReturn [(ECall (EFun "css.styleAttribute") [(EGlob "css.propPointerEvents"); (ELoc "value")] true)])])).

(** css/properties.go:386 *)
Definition f_css_Isolation : fundecl :=
  (Fun ["value"] true []
    (SBlock [(SReturn [(ECall (EFun "css.styleAttribute") [(EGlob "css.propIsolation"); (ELoc "value")] true)])])).

(** css/properties.go:391 *)
Definition f_css_ObjectFit : fundecl :=
  (Fun ["value"] true []
    (SBlock [(SReturn [(ECall (EFun "css.styleAttribute") [(EGlob "css.propObjectFit"); (ELoc "value")] true)])])).

(** css/properties.go:396 *)
Definition f_css_ObjectPosition : fundecl :=
  (Fun ["value"] true []
    (SBlock [(SReturn [(ECall (EFun "css.styleAttribute") [(EGlob "css.propObjectPosition"); (ELoc "value")] true)])])).

(** css/properties.go:401 *)
Definition f_css_BoxSizing : fundecl :=
  (Fun ["value"] true []
    (SBlock [(SReturn [(ECall (EFun "css.styleAttribute") [(EGlob "css.propBoxSizing"); (ELoc "value")] true)])])).

(** css/properties.go:406 *)
Definition f_css_AspectRatio : fundecl :=
  (Fun ["value"] true []
    (SBlock [(SReturn [(ECall (EFun "css.styleAttribute") [(EGlob "css.propAspectRatio"); (ELoc "value")] true)])])).

(** css/properties.go:411 *)
Definition f_css_Contain : fundecl :=
  (Fun ["value"] true []
    (SBlock [(SReturn [(ECall (EFun "css.styleAttribute") [(EGlob "css.propContain"); (ELoc "value")] true)])])).

(** css/properties.go:416 *)
Definition f_css_ContentVisibility : fundecl :=
  (Fun ["value"] true []
    (SBlock [(SReturn [(ECall (EFun "css.styleAttribute") [(EGlob "css.propContentVisibility"); (ELoc "value")] true)])])).

(** css/properties.go:421 *)
Definition f_css_Resize : fundecl :=
  (Fun ["value"] true []
    (SBlock [(SReturn [(ECall (EFun "css.styleAttribute") [(EGlob "css.propResize"); (ELoc "value")] true)])])).

(** css/properties.go:426 *)
Definition f_css_GridTemplateColumns : fundecl :=
  (Fun ["value"] true []
    (SBlock [(SReturn [(ECall (EFun "css.styleAttribute") [(EGlob "css.propGridTemplateColumns"); (ELoc "value")] true)])])).

(** css/properties.go:431 *)
Definition f_css_GridTemplateRows : fundecl :=
  (Fun ["value"] true []
    (SBlock [(SReturn [(ECall (EFun "css.styleAttribute") [(EGlob "css.propGridTemplateRows"); (ELoc "value")] true)])])).

(** css/properties.go:436 *)
Definition f_css_GridColumn : fundecl :=
  (Fun ["value"] true []
    (SBlock [(SReturn [(ECall (EFun "css.styleAttribute") [(EGlob "css.propGridColumn"); (ELoc "value")] true)])])).

(** css/properties.go:441 *)
Definition f_css_GridRow : fundecl :=
  (Fun ["value"] true []
    (SBlock [(SReturn [(ECall (EFun "css.styleAttribute") [(EGlob "css.propGridRow"); (ELoc "value")] true)])])).

(** css/properties.go:446 *)
Definition f_css_GridArea : fundecl :=
  (Fun ["value"] true []
    (SBlock [(SReturn [(ECall (EFun "css.styleAttribute") [(EGlob "css.propGridArea"); (ELoc "value")] true)])])).

(** css/properties.go:451 *)
Definition f_css_GridAutoFlow : fundecl :=
  (Fun ["value"] true []
    (SBlock [(SReturn [(ECall (EFun "css.styleAttribute") [(EGlob "css.propGridAutoFlow"); (ELoc "value")] true)])])).

(** css/properties.go:456 *)
Definition f_css_PlaceItems : fundecl :=
  (Fun ["value"] true []
    (SBlock [(SReturn [(ECall (EFun "css.styleAttribute") [(EGlob "css.propPlaceItems"); (ELoc "value")] true)])])).

(** css/properties.go:461 *)
Definition f_css_PlaceContent : fundecl :=
  (Fun ["value"] true []
    (SBlock [(SReturn [(ECall (EFun "css.styleAttribute") [(EGlob "css.propPlaceContent"); (ELoc "value")] true)])])).

(** css/properties.go:466 *)
Definition f_css_PlaceSelf : fundecl :=
  (Fun ["value"] true []
    (SBlock [(SReturn [(ECall (EFun "css.styleAttribute") [(EGlob "css.propPlaceSelf"); (ELoc "value")] true)])])).

(** css/properties.go:471 *)
Definition f_css_FontStyle : fundecl :=
  (Fun ["value"] true []
    (SBlock [(SReturn [(ECall (EFun "css.styleAttribute") [(EGlob "css.propFontStyle"); (ELoc "value")] true)])])).

(** css/properties.go:476 *)
Definition f_css_FontVariant : fundecl :=
  (Fun ["value"] true []
    (SBlock [(SReturn [(ECall (EFun "css.styleAttribute") [(EGlob "css.propFontVariant"); (ELoc "value")] true)])])).

(** css/properties.go:481 *)
Definition f_css_FontStretch : fundecl :=
  (Fun ["value"] true []
    (SBlock [(SReturn [(ECall (EFun "css.styleAttribute") [(EGlob "css.propFontStretch"); (ELoc "value")] true)])])).

(** css/properties.go:486 *)
Definition f_css_Direction : fundecl :=
  (Fun ["value"] true []
    (SBlock [(SReturn [(ECall (EFun "css.styleAttribute") [(EGlob "css.propDirection"); (ELoc "value")] true)])])).

(** css/properties.go:491 *)
Definition f_css_TabSize : fundecl :=
  (Fun ["value"] true []
    (SBlock [(SReturn [(ECall (EFun "css.styleAttribute") [(EGlob "css.propTabSize"); (ELoc "value")] true)])])).

(** css/properties.go:496 *)
Definition f_css_ListStyle : fundecl :=
  (Fun ["value"] true []
    (SBlock [(SReturn [(ECall (EFun "css.styleAttribute") [(EGlob "css.propListStyle"); (ELoc "value")] true)])])).

(** css/properties.go:501 *)
Definition f_css_ListStyleType : fundecl :=
  (Fun ["value"] true []
    (SBlock [(SReturn [(ECall (EFun "css.styleAttribute") [(EGlob "css.propListStyleType"); (ELoc "value")] true)])])).

(** css/properties.go:506 *)
Definition f_css_ListStylePosition : fundecl :=
  (Fun ["value"] true []
    (SBlock [(SReturn [(ECall (EFun "css.styleAttribute") [(EGlob "css.propListStylePosition"); (ELoc "value")] true)])])).

(** css/properties.go:511 *)
Definition f_css_ListStyleImage : fundecl :=
  (Fun ["value"] true []
    (SBlock [(SReturn [(ECall (EFun "css.styleAttribute") [(EGlob "css.propListStyleImage"); (ELoc "value")] true)])])).

(** css/properties.go:516 *)
Definition f_css_BorderCollapse : fundecl :=
  (Fun ["value"] true []
    (SBlock [(SReturn [(ECall (EFun "css.styleAttribute") [(EGlob "css.propBorderCollapse"); (ELoc "value")] true)])])).

(** css/properties.go:521 *)
Definition f_css_BorderSpacing : fundecl :=
  (Fun ["value"] true []
    (SBlock [(SReturn [(ECall (EFun "css.styleAttribute") [(EGlob "css.propBorderSpacing"); (ELoc "value")] true)])])).

(** css/properties.go:526 *)
Definition f_css_TableLayout : fundecl :=
  (Fun ["value"] true []
    (SBlock [(SReturn [(ECall (EFun "css.styleAttribute") [(EGlob "css.propTableLayout"); (ELoc "value")] true)])])).

(** css/properties.go:531 *)
Definition f_css_EmptyCells : fundecl :=
  (Fun ["value"] true []
    (SBlock [(SReturn [(ECall (EFun "css.styleAttribute") [(EGlob "css.propEmptyCells"); (ELoc "value")] true)])])).

(** css/properties.go:536 *)
Definition f_css_Filter : fundecl :=
  (Fun ["value"] true []
    (SBlock [(SReturn [(ECall (EFun "css.styleAttribute") [(EGlob "css.propFilter"); (ELoc "value")] true)])])).

(** css/properties.go:541 *)
Definition f_css_BackdropFilter : fundecl :=
  (Fun ["value"] true []
    (SBlock [(SReturn [(ECall (EFun "css.styleAttribute") [(EGlob "css.propBackdropFilter"); (ELoc "value")] true)])])).

(** css/properties.go:546 *)
Definition f_css_MixBlendMode : fundecl :=
  (Fun ["value"] true []
    (SBlock [(SReturn [(ECall (EFun "css.styleAttribute") [(EGlob "css.propMixBlendMode"); (ELoc "value")] true)])])).

(** css/properties.go:551 *)
Definition f_css_BoxDecorationBreak : fundecl :=
  (Fun ["value"] true []
    (SBlock [(SReturn [(ECall (EFun "css.styleAttribute") [(EGlob "css.propBoxDecorationBreak"); (ELoc "value")] true)])])).

(** css/properties.go:556 *)
Definition f_css_ScrollBehavior : fundecl :=
  (Fun ["value"] true []
    (SBlock [(SReturn [(ECall (EFun "css.styleAttribute") [(EGlob "css.propScrollBehavior"); (ELoc "value")] true)])])).

(** css/properties.go:561 *)
Definition f_css_ScrollSnapType : fundecl :=
  (Fun ["value"] true []
    (SBlock [(SReturn [(ECall (EFun "css.styleAttribute") [(EGlob "css.propScrollSnapType"); (ELoc "value")] true)])])).

(** css/properties.go:566 *)
Definition f_css_ScrollSnapAlign : fundecl :=
  (Fun ["value"] true []
    (SBlock [(SReturn [(ECall (EFun "css.styleAttribute") [(EGlob "css.propScrollSnapAlign"); (ELoc "value")] true)])])).

(** css/properties.go:571 *)
Definition f_css_ScrollMargin : fundecl :=
  (Fun ["value"] true []
    (SBlock [(SReturn [(ECall (EFun "css.styleAttribute") [(EGlob "css.propScrollMargin"); (ELoc "value")] true)])])).

(** css/properties.go:576 *)
Definition f_css_ScrollPadding : fundecl :=
  (Fun ["value"] true []
    (SBlock [(SReturn [(ECall (EFun "css.styleAttribute") [(EGlob "css.propScrollPadding"); (ELoc "value")] true)])])).

(** css/properties.go:581 *)
Definition f_css_AnimationName : fundecl :=
  (Fun ["value"] true []
    (SBlock [(SReturn [(ECall (EFun "css.styleAttribute") [(EGlob "css.propAnimationName"); (ELoc "value")] true)])])).

(** css/properties.go:586 *)
Definition f_css_AnimationDuration : fundecl :=
  (Fun ["value"] true []
    (SBlock [(SReturn [(ECall (EFun "css.styleAttribute") [(EGlob "css.propAnimationDuration"); (ELoc "value")] true)])])).

(** css/properties.go:591 *)
Definition f_css_AnimationTimingFunction : fundecl :=
  (Fun ["value"] true []
    (SBlock [(SReturn [(ECall (EFun "css.styleAttribute") [(EGlob "css.propAnimationTimingFunction"); (ELoc "value")] true)])])).

(** css/properties.go:596 *)
Definition f_css_AnimationDelay : fundecl :=
  (Fun ["value"] true []
    (SBlock [(SReturn [(ECall (EFun "css.styleAttribute") [(EGlob "css.propAnimationDelay"); (ELoc "value")] true)])])).

(** css/properties.go:601 *)
Definition f_css_AnimationIterationCount : fundecl :=
  (Fun ["value"] true []
    (SBlock [(SReturn [(ECall (EFun "css.styleAttribute") [(EGlob "css.propAnimationIterationCount"); (ELoc "value")] true)])])).

(** css/properties.go:606 *)
Definition f_css_AnimationDirection : fundecl :=
  (Fun ["value"] true []
    (SBlock [(SReturn [(ECall (EFun "css.styleAttribute") [(EGlob "css.propAnimationDirection"); (ELoc "value")] true)])])).

(** css/properties.go:611 *)
Definition f_css_AnimationFillMode : fundecl :=
  (Fun ["value"] true []
    (SBlock [(SReturn [(ECall (EFun "css.styleAttribute") [(EGlob "css.propAnimationFillMode"); (ELoc "value")] true)])])).

(** css/properties.go:616 *)
Definition f_css_AnimationPlayState : fundecl :=
  (Fun ["value"] true []
    (SBlock [(SReturn [(ECall (EFun "css.styleAttribute") [(EGlob "css.propAnimationPlayState"); (ELoc "value")] true)])])).

(** css/properties.go:621 *)
Definition f_css_TransitionProperty : fundecl :=
  (Fun ["value"] true []
    (SBlock [(SReturn [(ECall (EFun "css.styleAttribute") [(EGlob "css.propTransitionProperty"); (ELoc "value")] true)])])).

(** css/properties.go:626 *)
Definition f_css_TransitionDelay : fundecl :=
  (Fun ["value"] true []
    (SBlock [(SReturn [(ECall (EFun "css.styleAttribute") [(EGlob "css.propTransitionDelay"); (ELoc "value")] true)])])).

(** css/properties.go:631 *)
Definition f_css_TouchAction : fundecl :=
  (Fun ["value"] true []
    (SBlock [(SReturn [(ECall (EFun "css.styleAttribute") [(EGlob "css.propTouchAction"); (ELoc "value")] true)])])).

(** css/properties.go:636 *)
Definition f_css_WillChange : fundecl :=
  (Fun ["value"] true []
    (SBlock [(SReturn [(ECall (EFun "css.styleAttribute") [(EGlob "css.propWillChange"); (ELoc "value")] true)])])).

(** css/properties.go:641 *)
Definition f_css_CaretColor : fundecl :=
  (Fun ["value"] true []
    (SBlock [(SReturn [(ECall (EFun "css.styleAttribute") [(EGlob "css.propCaretColor"); (ELoc "value")] true)])])).

(** css/properties.go:646 *)
Definition f_css_ScrollSnapStop : fundecl :=
  (Fun ["value"] true []
    (SBlock [(SReturn [(ECall (EFun "css.styleAttribute") [(EGlob "css.propScrollSnapStop"); (ELoc "value")] true)])])).

(** css/properties.go:651 *)
Definition f_css_Speak : fundecl :=
  (Fun ["value"] true []
    (SBlock [(SReturn [(ECall (EFun "css.styleAttribute") [(EGlob "css.propSpeak"); (ELoc "value")] true)])])).

(** css/properties.go:656 *)
Definition f_css_PageBreakBefore : fundecl :=
  (Fun ["value"] true []
    (SBlock [(SReturn [(ECall (EFun "css.styleAttribute") [(EGlob "css.propPageBreakBefore"); (ELoc "value")] true)])])).

(** css/properties.go:661 *)
Definition f_css_PageBreakAfter : fundecl :=
  (Fun ["value"] true []
    (SBlock [(SReturn [(ECall (EFun "css.styleAttribute") [(EGlob "css.propPageBreakAfter"); (ELoc "value")] true)])])).

(** css/properties.go:666 *)
Definition f_css_PageBreakInside : fundecl :=
  (Fun ["value"] true []
    (SBlock [(SReturn [(ECall (EFun "css.styleAttribute") [(EGlob "css.propPageBreakInside"); (ELoc "value")] true)])])).

(** css/properties.go:670 *)
Definition f_css_styleAttribute : fundecl :=
  (Fun ["name"; "value"] true []
    (SBlock [(SReturn [(ECall (EFun "aitch.NewDelimitedAttribute") [(EGlob "css.attrStyle"); (EGlob "css.stylesDelim"); (ECall (EFun "aitch.NewConcatValue") [(ECall (EExt "append") [(ESliceLit "[]any" [(ELoc "name")]); (ELoc "value")] true)] true)] false)])])).

(** css/units.go:24 *)
Definition f_css_Px : fundecl :=
  (Fun ["value"] true []
    (SBlock [(SReturn [(ECall (EFun "aitch.NewConcatValue") [(ECall (EExt "append") [(ELoc "value"); (EGlob "css.unitPx")] false)] true)])])).

(** css/units.go:29 *)
Definition f_css_Pt : fundecl :=
  (Fun ["value"] true []
    (SBlock [(SReturn [(ECall (EFun "aitch.NewConcatValue") [(ECall (EExt "append") [(ELoc "value"); (EGlob "css.unitPt")] false)] true)])])).

(** css/units.go:34 *)
Definition f_css_Pc : fundecl :=
  (Fun ["value"] true []
    (SBlock [(SReturn [(ECall (EFun "aitch.NewConcatValue") [(ECall (EExt "append") [(ELoc "value"); (EGlob "css.unitPc")] false)] true)])])).

(** css/units.go:39 *)
Definition f_css_In : fundecl :=
  (Fun ["value"] true []
    (SBlock [(SReturn [(ECall (EFun "aitch.NewConcatValue") [(ECall (EExt "append") [(ELoc "value"); (EGlob "css.unitInch")] false)] true)])])).

(** css/units.go:44 *)
Definition f_css_Cm : fundecl :=
  (Fun ["value"] true []
    (SBlock [(SReturn [(ECall (EFun "aitch.NewConcatValue") [(ECall (EExt "append") [(ELoc "value"); (EGlob "css.unitCm")] false)] true)])])).

(** css/units.go:49 *)
Definition f_css_Mm : fundecl :=
  (Fun ["value"] true []
    (SBlock [(SReturn [(ECall (EFun "aitch.NewConcatValue") [(ECall (EExt "append") [(ELoc "value"); (EGlob "css.unitMm")] false)] true)])])).

(** css/units.go:54 *)
Definition f_css_Em : fundecl :=
  (Fun ["value"] true []
    (SBlock [(SReturn [(ECall (EFun "aitch.NewConcatValue") [(ECall (EExt "append") [(ELoc "value"); (EGlob "css.unitEm")] false)] true)])])).

(** css/units.go:59 *)
Definition f_css_Rem : fundecl :=
  (Fun ["value"] true []
    (SBlock [(SReturn [(ECall (EFun "aitch.NewConcatValue") [(ECall (EExt "append") [(ELoc "value"); (EGlob "css.unitRem")] false)] true)])])).

(** css/units.go:64 *)
Definition f_css_Percent : fundecl :=
  (Fun ["value"] true []
    (SBlock [(SReturn [(ECall (EFun "aitch.NewConcatValue") [(ECall (EExt "append") [(ELoc "value"); (EGlob "css.unitPercent")] false)] true)])])).

(** css/units.go:69 *)
Definition f_css_Vw : fundecl :=
  (Fun ["value"] true []
    (SBlock [(SReturn [(ECall (EFun "aitch.NewConcatValue") [(ECall (EExt "append") [(ELoc "value"); (EGlob "css.unitVw")] false)] true)])])).

(** css/units.go:74 *)
Definition f_css_Vh : fundecl :=
  (Fun ["value"] true []
    (SBlock [(SReturn [(ECall (EFun "aitch.NewConcatValue") [(ECall (EExt "append") [(ELoc "value"); (EGlob "css.unitVh")] false)] true)])])).

(** css/units.go:79 *)
Definition f_css_VMin : fundecl :=
  (Fun ["value"] true []
    (SBlock [(SReturn [(ECall (EFun "aitch.NewConcatValue") [(ECall (EExt "append") [(ELoc "value"); (EGlob "css.unitVmin")] false)] true)])])).

(** css/units.go:84 *)
Definition f_css_VMax : fundecl :=
  (Fun ["value"] true []
    (SBlock [(SReturn [(ECall (EFun "aitch.NewConcatValue") [(ECall (EExt "append") [(ELoc "value"); (EGlob "css.unitVmax")] false)] true)])])).

(** css/units.go:89 *)
Definition f_css_Ch : fundecl :=
  (Fun ["value"] true []
    (SBlock [(SReturn [(ECall (EFun "aitch.NewConcatValue") [(ECall (EExt "append") [(ELoc "value"); (EGlob "css.unitCh")] false)] true)])])).

(** css/units.go:94 *)
Definition f_css_Ex : fundecl :=
  (Fun ["value"] true []
    (SBlock [(SReturn [(ECall (EFun "aitch.NewConcatValue") [(ECall (EExt "append") [(ELoc "value"); (EGlob "css.unitEx")] false)] true)])])).

(** htmx/attributes.go:12 *)
Definition f_htmx_Get : fundecl :=
  (Fun ["value"] true []
    (SBlock [(SReturn [(ECall (EFun "aitch.NewAttribute") [(EGlob "htmx.attrGet"); (ELoc "value")] true)])])).

(** htmx/attributes.go:19 *)
Definition f_htmx_Post : fundecl :=
  (Fun ["value"] true []
    (SBlock [(SReturn [(ECall (EFun "aitch.NewAttribute") [(EGlob "htmx.attrPost"); (ELoc "value")] true)])])).

(** htmx/attributes.go:26 *)
Definition f_htmx_Put : fundecl :=
  (Fun ["value"] true []
    (SBlock [(SReturn [(ECall (EFun "aitch.NewAttribute") [(EGlob "htmx.attrPut"); (ELoc "value")] true)])])).

(** htmx/attributes.go:33 *)
Definition f_htmx_Delete : fundecl :=
  (Fun ["value"] true []
    (SBlock [(SReturn [(ECall (EFun "aitch.NewAttribute") [(EGlob "htmx.attrDelete"); (ELoc "value")] true)])])).

(** htmx/attributes.go:40 *)
Definition f_htmx_Patch : fundecl :=
  (Fun ["value"] true []
    (SBlock [(SReturn [(ECall (EFun "aitch.NewAttribute") [(EGlob "htmx.attrPatch"); (ELoc "value")] true)])])).

(** htmx/attributes.go:47 *)
Definition f_htmx_Target : fundecl :=
  (Fun ["value"] true []
    (SBlock [(SReturn [(ECall (EFun "aitch.NewAttribute") [(EGlob "htmx.attrTarget"); (ELoc "value")] true)])])).

(** htmx/attributes.go:54 *)
Definition f_htmx_Swap : fundecl :=
  (Fun ["value"] true []
    (SBlock [(SReturn [(ECall (EFun "aitch.NewAttribute") [(EGlob "htmx.attrSwap"); (ELoc "value")] true)])])).

(** htmx/attributes.go:61 *)
Definition f_htmx_SwapOob : fundecl :=
  (Fun ["value"] true []
    (SBlock [(SReturn [(ECall (EFun "aitch.NewAttribute") [(EGlob "htmx.attrSwapOob"); (ELoc "value")] true)])])).

(** htmx/attributes.go:70 *)
Definition f_htmx_Trigger : fundecl :=
  (Fun ["value"] true []
    (SBlock [(SReturn [(ECall (EFun "aitch.NewDelimitedAttribute") [(EGlob "htmx.attrTrigger"); (EGlob "htmx.space"); (ELoc "value")] true)])])).

(** htmx/attributes.go:77 *)
Definition f_htmx_Include : fundecl :=
  (Fun ["value"] true []
    (SBlock [(SReturn [(ECall (EFun "aitch.NewAttribute") [(EGlob "htmx.attrInclude"); (ELoc "value")] true)])])).

(** htmx/attributes.go:84 *)
Definition f_htmx_Select : fundecl :=
  (Fun ["value"] true []
    (SBlock [(SReturn [(ECall (EFun "aitch.NewAttribute") [(EGlob "htmx.attrSelect"); (ELoc "value")] true)])])).

(** htmx/attributes.go:93 *)
Definition f_htmx_Params : fundecl :=
  (Fun ["value"] true []
    (SBlock [(SReturn [(ECall (EFun "aitch.NewDelimitedAttribute") [(EGlob "htmx.attrParams"); (EGlob "htmx.space"); (ELoc "value")] true)])])).

(** htmx/attributes.go:100 *)
Definition f_htmx_PushURL : fundecl :=
  (Fun ["value"] true []
    (SBlock [(SReturn [(ECall (EFun "aitch.NewAttribute") [(EGlob "htmx.attrPushUrl"); (ELoc "value")] true)])])).

(** htmx/attributes.go:107 *)
Definition f_htmx_ReplaceURL : fundecl :=
  (Fun ["value"] true []
    (SBlock [(SReturn [(ECall (EFun "aitch.NewAttribute") [(EGlob "htmx.attrReplaceUrl"); (ELoc "value")] true)])])).

(** htmx/attributes.go:116 *)
Definition f_htmx_On : fundecl :=
  (Fun ["event"; "value"] true []
    (SBlock [(SReturn [(ECall (EFun "aitch.NewAttribute") [(ECall (EExt "append") [(EGlob "htmx.attrOn"); (ELoc "event")] true); (ELoc "value")] true)])])).

(** htmx/attributes.go:123 *)
Definition f_htmx_OnBeforeRequest : fundecl :=
  (Fun ["value"] true []
    (SBlock [(SReturn [(ECall (EFun "aitch.NewAttribute") [(EGlob "htmx.attrOnBeforeRequest"); (ELoc "value")] true)])])).

(** htmx/attributes.go:130 *)
Definition f_htmx_OnSend : fundecl :=
  (Fun ["value"] true []
    (SBlock [(SReturn [(ECall (EFun "aitch.NewAttribute") [(EGlob "htmx.attrOnSend"); (ELoc "value")] true)])])).

(** htmx/attributes.go:137 *)
Definition f_htmx_OnAfterRequest : fundecl :=
  (Fun ["value"] true []
    (SBlock [(SReturn [(ECall (EFun "aitch.NewAttribute") [(EGlob "htmx.attrOnAfterRequest"); (ELoc "value")] true)])])).

(** htmx/attributes.go:144 *)
Definition f_htmx_OnBeforeSwap : fundecl :=
  (Fun ["value"] true []
    (SBlock [(SReturn [(ECall (EFun "aitch.NewAttribute") [(EGlob "htmx.attrOnBeforeSwap"); (ELoc "value")] true)])])).

(** htmx/attributes.go:151 *)
Definition f_htmx_OnAfterSwap : fundecl :=
  (Fun ["value"] true []
    (SBlock [(SReturn [(ECall (EFun "aitch.NewAttribute") [(EGlob "htmx.attrOnAfterSwap"); (ELoc "value")] true)])])).

(** htmx/attributes.go:158 *)
Definition f_htmx_OnResponseError : fundecl :=
  (Fun ["value"] true []
    (SBlock [(SReturn [(ECall (EFun "aitch.NewAttribute") [(EGlob "htmx.attrOnResponseError"); (ELoc "value")] true)])])).

(** htmx/attributes.go:165 *)
Definition f_htmx_OnSendError : fundecl :=
  (Fun ["value"] true []
    (SBlock [(SReturn [(ECall (EFun "aitch.NewAttribute") [(EGlob "htmx.attrOnSendError"); (ELoc "value")] true)])])).

(** htmx/attributes.go:172 *)
Definition f_htmx_Confirm : fundecl :=
  (Fun ["value"] true []
    (SBlock [(SReturn [(ECall (EFun "aitch.NewAttribute") [(EGlob "htmx.attrConfirm"); (ELoc "value")] true)])])).

(** htmx/attributes.go:179 *)
Definition f_htmx_Disable : fundecl :=
  (Fun ["value"] true []
    (SBlock [(SReturn [(ECall (EFun "aitch.NewAttribute") [(EGlob "htmx.attrDisable"); (ELoc "value")] true)])])).

(** htmx/attributes.go:186 *)
Definition f_htmx_DisabledElt : fundecl :=
  (Fun ["value"] true []
    (SBlock [(SReturn [(ECall (EFun "aitch.NewAttribute") [(EGlob "htmx.attrDisabledElt"); (ELoc "value")] true)])])).

(** htmx/attributes.go:193 *)
Definition f_htmx_Boost : fundecl :=
  (Fun ["value"] true []
    (SBlock [(SReturn [(ECall (EFun "aitch.NewAttribute") [(EGlob "htmx.attrBoost"); (ELoc "value")] true)])])).

(** htmx/attributes.go:200 *)
Definition f_htmx_Ext : fundecl :=
  (Fun ["value"] true []
    (SBlock [(SReturn [(ECall (EFun "aitch.NewAttribute") [(EGlob "htmx.attrExt"); (ELoc "value")] true)])])).

(** htmx/attributes.go:207 *)
Definition f_htmx_Encoding : fundecl :=
  (Fun ["value"] true []
    (SBlock [(SReturn [(ECall (EFun "aitch.NewAttribute") [(EGlob "htmx.attrEncoding"); (ELoc "value")] true)])])).

(** htmx/attributes.go:214 *)
Definition f_htmx_HistoryElt : fundecl :=
  (Fun ["value"] true []
    (SBlock [(SReturn [(ECall (EFun "aitch.NewAttribute") [(EGlob "htmx.attrHistoryElt"); (ELoc "value")] true)])])).

(** htmx/attributes.go:221 *)
Definition f_htmx_Indicator : fundecl :=
  (Fun ["value"] true []
    (SBlock [(SReturn [(ECall (EFun "aitch.NewAttribute") [(EGlob "htmx.attrIndicator"); (ELoc "value")] true)])])).

(** htmx/attributes.go:228 *)
Definition f_htmx_Request : fundecl :=
  (Fun ["value"] true []
    (SBlock [(SReturn [(ECall (EFun "aitch.NewAttribute") [(EGlob "htmx.attrRequest"); (ELoc "value")] true)])])).

(** htmx/attributes.go:236 *)
Definition f_htmx_Vals : fundecl :=
  (Fun ["value"] true []
    (SBlock [(SReturn [(ECall (EFun "aitch.NewAttribute") [(EGlob "htmx.attrVals"); (ELoc "value")] true)])])).

(** htmx/attributes.go:245 *)
Definition f_htmx_Vars : fundecl :=
  (Fun ["value"] true []
    (SBlock [(SReturn [(ECall (EFun "aitch.NewDelimitedAttribute") [(EGlob "htmx.attrVars"); (EGlob "htmx.commaSpace"); (ELoc "value")] true)])])).

(** htmx/attributes.go:252 *)
Definition f_htmx_Var : fundecl :=
  (Fun ["name"; "value"] false []
    (SBlock [(SReturn [(ECall (EFun "aitch.NewConcatValue") [(ELoc "name"); (EGlob "htmx.colonSpace"); (ELoc "value")] false)])])).

(** htmx/attributes.go:262 *)
Definition f_htmx_Headers : fundecl :=
  (Fun ["value"] true []
    (SBlock [(SDefine ["foundHeadersMap"] [(EBool false)]);
     (SDefine ["foundOthers"] [(EBool false)]);
     (SDefine ["mergedHeadersMap"] [(EMake "map[string]any" [])]);
     (SRange "_" "v" (ELoc "value")
     (SBlock [(SIf (Some (SDefine ["hm"; "ok"] [(EAssert (ELoc "v") "HeadersMap")])) (ELoc "ok")
     (SBlock [(SAssign [(LLoc "foundHeadersMap")] [(EBool true)]);
     (SIf None (ELoc "foundOthers")
     (SBlock [SBreak])
     SSkip);
     (SRange "k" "val" (ELoc "hm")
     (SBlock [(SAssign [(LIndex (ELoc "mergedHeadersMap") (ELoc "k"))] [(ELoc "val")])]))])
     (SBlock [(SAssign [(LLoc "foundOthers")] [(EBool true)]);
     (SIf None (ELoc "foundHeadersMap")
     (SBlock [SBreak])
     SSkip)]))]));
     (SIf None (EAnd (ELoc "foundOthers") (ELoc "foundHeadersMap"))
     (SBlock [(SExpr (ECall (EExt "panic") [(EStr (B "htmx.Headers cannot mix HeadersMap with other value types"))] false))])
     SSkip);
     (SIf None (ELoc "foundHeadersMap")
     (SBlock [(SReturn [(ECall (EFun "aitch.NewAttribute") [(EGlob "htmx.attrHeaders"); (ECall (EFun "aitch.NewConcatValue") [(EMethod (ELoc "mergedHeadersMap") "serialize" [ENil] false)] true)] false)])])
     SSkip);
     (SReturn [(ECall (EFun "aitch.NewAttribute") [(EGlob "htmx.attrHeaders"); (ELoc "value")] true)])])).

(** htmx/attributes.go:298 *)
Definition f_htmx_HeadersJS : fundecl :=
  (Fun ["value"] true []
    (SBlock [(SVar "mergedHeadersMap" "HeadersMap");
     (SIf None (EBin OEq (ECall (EExt "len") [(ELoc "value")] false) (EInt 1))
     (SBlock [(SAssign [(LLoc "mergedHeadersMap")] [(EIndex (ELoc "value") (EInt 0))])])
     (SBlock [(SAssign [(LLoc "mergedHeadersMap")] [(EMake "map[string]any" [])]);
     (SRange "_" "hm" (ELoc "value")
     (SBlock [(SRange "k" "v" (ELoc "hm")
     (SBlock [(SAssign [(LIndex (ELoc "mergedHeadersMap") (ELoc "k"))] [(ELoc "v")])]))]))]));
     (SReturn [(ECall (EFun "aitch.NewAttribute") [(EGlob "htmx.attrHeaders"); (ECall (EFun "aitch.NewConcatValue") [(EMethod (ELoc "mergedHeadersMap") "serialize" [(EGlob "htmx.jsPrefix")] false)] true)] false)])])).

(** htmx/attributes.go:315 *)
Definition m_HeadersMap_serialize : fundecl :=
  (Fun ["m"; "prefix"] false []
    (SBlock [(SDefine ["result"] [(EMake "[]any" [(EInt 0); (EBin OAdd (EBin OMul (ECall (EExt "len") [(ELoc "m")] false) (EInt 2)) (EInt 3))])]);
     (SIf None (EBin OGt (ECall (EExt "len") [(ELoc "prefix")] false) (EInt 0))
     (SBlock [(SAssign [(LLoc "result")] [(ECall (EExt "append") [(ELoc "result"); (ELoc "prefix")] false)])])
     SSkip);
     (SAssign [(LLoc "result")] [(ECall (EExt "append") [(ELoc "result"); (ESliceLit "[]byte" [(EInt 123)])] false)]);
     (SDefine ["keys"] [(EMake "[]string" [(EInt 0); (ECall (EExt "len") [(ELoc "m")] false)])]);
     (SRange "k" "_" (ELoc "m")
     (SBlock [(SAssign [(LLoc "keys")] [(ECall (EExt "append") [(ELoc "keys"); (ELoc "k")] false)])]));
     (SExpr (ECall (EExt "sort.Strings") [(ELoc "keys")] false));
     (SDefine ["delimit"] [(EStr (B ""))]);
     (SRange "_" "key" (ELoc "keys")
     (SBlock [(SAssign [(LLoc "result")] [(ECall (EExt "append") [(ELoc "result"); (EConv "[]byte" (EBin OAdd (EBin OAdd (EBin OAdd (ELoc "delimit") (EStr (B "'"))) (ECall (EExt "strings.ReplaceAll") [(ELoc "key"); (EStr (B """")); (EStr (B "&quot;"))] false)) (EStr (B "': ")))); (EIndex (ELoc "m") (ELoc "key"))] false)]);
     (SAssign [(LLoc "delimit")] [(EStr (B ", "))])]));
     (SAssign [(LLoc "result")] [(ECall (EExt "append") [(ELoc "result"); (ESliceLit "[]byte" [(EInt 125)])] false)]);
     (SReturn [(ELoc "result")])])).

(** htmx/attributes.go:340 *)
Definition f_htmx_Inherit : fundecl :=
  (Fun ["value"] true []
    (SBlock [(SReturn [(ECall (EFun "aitch.NewDelimitedAttribute") [(EGlob "htmx.attrInherit"); (EGlob "htmx.space"); (ELoc "value")] true)])])).

(** htmx/attributes.go:349 *)
Definition f_htmx_Disinherit : fundecl :=
  (Fun ["value"] true []
    (SBlock [(SReturn [(ECall (EFun "aitch.NewDelimitedAttribute") [(EGlob "htmx.attrDisinherit"); (EGlob "htmx.space"); (ELoc "value")] true)])])).

(** htmx/attributes.go:356 *)
Definition f_htmx_Sync : fundecl :=
  (Fun ["value"] true []
    (SBlock [(SReturn [(ECall (EFun "aitch.NewAttribute") [(EGlob "htmx.attrSync"); (ELoc "value")] true)])])).

(** htmx/attributes.go:363 *)
Definition f_htmx_Preserve : fundecl :=
  (Fun ["value"] true []
    (SBlock [(SReturn [(ECall (EFun "aitch.NewAttribute") [(EGlob "htmx.attrPreserve"); (ELoc "value")] true)])])).

(** htmx/attributes.go:371 *)
Definition f_htmx_Prompt : fundecl :=
  (Fun ["value"] true []
    (SBlock [(SReturn [(ECall (EFun "aitch.NewAttribute") [(EGlob "htmx.attrPrompt"); (ELoc "value")] true)])])).

(** htmx/attributes.go:379 *)
Definition f_htmx_Validate : fundecl :=
  (Fun ["value"] true []
    (SBlock [(SReturn [(ECall (EFun "aitch.NewAttribute") [(EGlob "htmx.attrValidate"); (ELoc "value")] true)])])).

(** html/generator.go:13 *)
Definition f_html_GenerateCode : fundecl :=
  (Fun ["r"; "w"] false []
    (SBlock [(SIf None (EBin OEq (ELoc "w") ENil)
     (SBlock [(SAssign [(LLoc "w")] [(EExt "os.Stdout")])])
     SSkip);
     (SDefine ["elemMap"; "attrMap"; "boolAttrs"] [(ECall (EFun "html.mappings") [] false)]);
     (SDefine ["tokenizer"] [(ECall (EExt "golang.org/x/net/html.NewTokenizer") [(ELoc "r")] false)]);
     (SDefine ["indent"] [ELit true "box" [("v", (ESliceLit "[]byte" []))]]);
     (SDefine ["eof"] [(EBool false)]);
     (SDefine ["err"] [ELit true "box" [("v", ENil)]]);
     (SDefine ["nl"] [(ESliceLit "[]byte" [(EInt 10)])]);
     (SDefine ["tab"] [(EConv "byte" (EInt 9))]);
     (SDefine ["funcName"] [(EClosure (Fun ["fn"] false []
    (SBlock [(SDefine ["v"] [(ECall (EExt "reflect.ValueOf") [(ELoc "fn")] false)]);
     (SDefine ["result"] [(EStr (B "Unknown"))]);
     (SIf None (EBin OEq (EMethod (ELoc "v") "Kind" [] false) (EExt "reflect.Func"))
     (SBlock [(SIf (Some (SDefine ["fpp"] [(ECall (EExt "runtime.FuncForPC") [(EMethod (ELoc "v") "Pointer" [] false)] false)])) (EBin ONe (ELoc "fpp") ENil)
     (SBlock [(SDefine ["name"] [(EMethod (ELoc "fpp") "Name" [] false)]);
     (SIf (Some (SDefine ["ls"] [(ECall (EExt "strings.LastIndex") [(ELoc "name"); (EStr (B "/"))] false)])) (EBin OGt (ELoc "ls") (EInt 0))
     (SBlock [(SAssign [(LLoc "result")] [(ESub (ELoc "name") (Some (EBin OAdd (ELoc "ls") (EInt 1))) None)])])
     SSkip)])
     SSkip)])
     SSkip);
     (SReturn [(ELoc "result")])])))]);
     (SDefine ["write"] [(EClosure (Fun ["s"] false []
    (SBlock [(SAssign [LBlank; (LField (ELoc "err") "v")] [(EMethod (ELoc "w") "Write" [(EField (ELoc "indent") "v")] false)]);
     (SAssign [LBlank; (LField (ELoc "err") "v")] [(EMethod (ELoc "w") "Write" [(EConv "[]byte" (ELoc "s"))] false)]);
     (SAssign [LBlank; (LField (ELoc "err") "v")] [(EMethod (ELoc "w") "Write" [(ELoc "nl")] false)])])))]);
     (SDefine ["incIndent"] [(EClosure (Fun [] false []
    (SBlock [(SAssign [(LField (ELoc "indent") "v")] [(ECall (EExt "append") [(EField (ELoc "indent") "v"); (ELoc "tab")] false)])])))]);
     (SDefine ["decIndent"] [(EClosure (Fun [] false []
    (SBlock [(SIf None (EBin OGt (ECall (EExt "len") [(EField (ELoc "indent") "v")] false) (EInt 0))
     (SBlock [(SAssign [(LField (ELoc "indent") "v")] [(ESub (EField (ELoc "indent") "v") None (Some (EBin OSub (ECall (EExt "len") [(EField (ELoc "indent") "v")] false) (EInt 1))))])])
     SSkip)])))]);
     (SDefine ["escape"] [(EClosure (Fun ["s"] false []
    (SBlock [(SReturn [(ECall (EExt "strings.Replace") [(ECall (EExt "strings.Replace") [(ECall (EExt "strings.Replace") [(ECall (EExt "strings.Replace") [(ELoc "s"); (EStr (B "\")); (EStr (B "\\")); (EInt (-1))] false); (EStr [ascii_of_nat 9]); (EStr (B "\t")); (EInt (-1))] false); (EStr [ascii_of_nat 10]); (EStr (B "\n")); (EInt (-1))] false); (EStr (B """")); (EStr (B "\""")); (EInt (-1))] false)])])))]);
     (SDefine ["writeElementStart"] [(EClosure (Fun ["name"; "attrs"; "selfClosing"] false []
    (SBlock [(SDefine ["start"] [(EStr (B ""))]);
     (SIf (Some (SDefine ["elem"; "ok"] [(EIndex (ELoc "elemMap") (ECall (EExt "strings.ToLower") [(EConv "string" (ELoc "name"))] false))])) (ELoc "ok")
     (SBlock [(SAssign [(LLoc "start")] [(EBin OAdd (ECall (ELoc "funcName") [(ELoc "elem")] false) (EStr (B "(")))])])
     (SBlock [(SAssign [(LLoc "start")] [(EBin OAdd (EBin OAdd (EStr (B "aitch.Element(""")) (EConv "string" (ELoc "name"))) (EStr (B """, ")))])]));
     (SAssign [LBlank; (LField (ELoc "err") "v")] [(EMethod (ELoc "w") "Write" [(EField (ELoc "indent") "v")] false)]);
     (SAssign [LBlank; (LField (ELoc "err") "v")] [(EMethod (ELoc "w") "Write" [(EConv "[]byte" (ELoc "start"))] false)]);
     (SIf None (EAnd (ELoc "selfClosing") (EBin OEq (ECall (EExt "len") [(ELoc "attrs")] false) (EInt 0)))
     (SBlock [(SAssign [LBlank; (LField (ELoc "err") "v")] [(EMethod (ELoc "w") "Write" [(ESliceLit "[]byte" [(EInt 41); (EInt 44); (EInt 10)])] false)]);
     (SReturn [])])
     SSkip);
     (SRange "i" "a" (ELoc "attrs")
     (SBlock [(SIf None (EBin OGt (ELoc "i") (EInt 0))
     (SBlock [(SAssign [LBlank; (LField (ELoc "err") "v")] [(EMethod (ELoc "w") "Write" [(ESliceLit "[]byte" [(EInt 44); (EInt 32)])] false)])])
     SSkip);
     (SIf (Some (SDefine ["attr"; "ok"] [(EIndex (ELoc "attrMap") (ECall (EExt "strings.ToLower") [(EField (ELoc "a") "Key")] false))])) (ELoc "ok")
     (SBlock [(SIf None (EConv "bool" (EIndex (ELoc "boolAttrs") (ECall (EExt "strings.ToLower") [(EField (ELoc "a") "Key")] false)))
     (SBlock [(SAssign [LBlank; (LField (ELoc "err") "v")] [(EMethod (ELoc "w") "Write" [(EConv "[]byte" (ECall (ELoc "funcName") [(ELoc "attr")] false))] false)]);
     (SAssign [LBlank; (LField (ELoc "err") "v")] [(EMethod (ELoc "w") "Write" [(ESliceLit "[]byte" [(EInt 40); (EInt 41)])] false)])])
     (SBlock [(SAssign [LBlank; (LField (ELoc "err") "v")] [(EMethod (ELoc "w") "Write" [(EConv "[]byte" (ECall (ELoc "funcName") [(ELoc "attr")] false))] false)]);
     (SAssign [LBlank; (LField (ELoc "err") "v")] [(EMethod (ELoc "w") "Write" [(ESliceLit "[]byte" [(EInt 40); (EInt 34)])] false)]);
     (SAssign [LBlank; (LField (ELoc "err") "v")] [(EMethod (ELoc "w") "Write" [(EConv "[]byte" (ECall (ELoc "escape") [(EField (ELoc "a") "Val")] false))] false)]);
     (SAssign [LBlank; (LField (ELoc "err") "v")] [(EMethod (ELoc "w") "Write" [(ESliceLit "[]byte" [(EInt 34); (EInt 41)])] false)])]))])
     (SBlock [(SAssign [LBlank; (LField (ELoc "err") "v")] [(EMethod (ELoc "w") "Write" [(EConv "[]byte" (EStr (B "aitch.Attribute(""")))] false)]);
     (SAssign [LBlank; (LField (ELoc "err") "v")] [(EMethod (ELoc "w") "Write" [(EConv "[]byte" (EField (ELoc "a") "Key"))] false)]);
     (SAssign [LBlank; (LField (ELoc "err") "v")] [(EMethod (ELoc "w") "Write" [(ESliceLit "[]byte" [(EInt 34); (EInt 32); (EInt 44); (EInt 34)])] false)]);
     (SAssign [LBlank; (LField (ELoc "err") "v")] [(EMethod (ELoc "w") "Write" [(EConv "[]byte" (ECall (ELoc "escape") [(EField (ELoc "a") "Val")] false))] false)]);
     (SAssign [LBlank; (LField (ELoc "err") "v")] [(EMethod (ELoc "w") "Write" [(ESliceLit "[]byte" [(EInt 34); (EInt 41)])] false)])]))]));
     (SIf None (ELoc "selfClosing")
     (SBlock [(SAssign [LBlank; (LField (ELoc "err") "v")] [(EMethod (ELoc "w") "Write" [(ESliceLit "[]byte" [(EInt 41); (EInt 44)])] false)])])
     (SIf None (EBin OGt (ECall (EExt "len") [(ELoc "attrs")] false) (EInt 0))
     (SBlock [(SAssign [LBlank; (LField (ELoc "err") "v")] [(EMethod (ELoc "w") "Write" [(ESliceLit "[]byte" [(EInt 44)])] false)])])
     SSkip));
     (SAssign [LBlank; (LField (ELoc "err") "v")] [(EMethod (ELoc "w") "Write" [(ESliceLit "[]byte" [(EInt 10)])] false)]);
     (SIf None (ENot (ELoc "selfClosing"))
     (SBlock [(SExpr (ECall (ELoc "incIndent") [] false))])
     SSkip)])))]);
     (SExpr (ECall (ELoc "write") [(EStr (B "var template = aitch.Collection("))] false));
     (SExpr (ECall (ELoc "incIndent") [] false));
     (SFor None (EAnd (EBin OEq (EField (ELoc "err") "v") ENil) (ENot (ELoc "eof"))) SSkip
     (SBlock [(SDefine ["tokenType"] [(EMethod (ELoc "tokenizer") "Next" [] false)]);
     (SSwitch (ELoc "tokenType") [([(EExt "golang.org/x/net/html.ErrorToken")], (SBlock [(SIf (Some (SAssign [(LField (ELoc "err") "v")] [(EMethod (ELoc "tokenizer") "Err" [] false)])) (EBin OEq (EField (ELoc "err") "v") (EExt "io.EOF"))
     (SBlock [(SAssign [(LLoc "eof")] [(EBool true)]);
     (SAssign [(LField (ELoc "err") "v")] [ENil])])
     SSkip)])); ([(EExt "golang.org/x/net/html.TextToken")], (SBlock [(SDefine ["token"] [(EMethod (ELoc "tokenizer") "Token" [] false)]);
     (SIf None (EBin ONe (ECall (EExt "strings.Trim") [(EField (ELoc "token") "Data"); (EStr [ascii_of_nat 32; ascii_of_nat 10; ascii_of_nat 9])] false) (EStr (B "")))
     (SBlock [(SExpr (ECall (ELoc "write") [(EBin OAdd (EBin OAdd (EStr (B "html.Text(""")) (ECall (ELoc "escape") [(EField (ELoc "token") "Data")] false)) (EStr (B """),")))] false))])
     SSkip)])); ([(EExt "golang.org/x/net/html.StartTagToken")], (SBlock [(SDefine ["token"] [(EMethod (ELoc "tokenizer") "Token" [] false)]);
     (SExpr (ECall (ELoc "writeElementStart") [(EField (ELoc "token") "Data"); (EField (ELoc "token") "Attr"); (EBool false)] false))])); ([(EExt "golang.org/x/net/html.SelfClosingTagToken")], (SBlock [(SDefine ["token"] [(EMethod (ELoc "tokenizer") "Token" [] false)]);
     (SExpr (ECall (ELoc "writeElementStart") [(EField (ELoc "token") "Data"); (EField (ELoc "token") "Attr"); (EBool true)] false))])); ([(EExt "golang.org/x/net/html.EndTagToken")], (SBlock [(SExpr (ECall (ELoc "decIndent") [] false));
     (SExpr (ECall (ELoc "write") [(EStr (B "),"))] false))])); ([(EExt "golang.org/x/net/html.CommentToken")], (SBlock [(SDefine ["token"] [(EMethod (ELoc "tokenizer") "Token" [] false)]);
     (SExpr (ECall (ELoc "write") [(EBin OAdd (EBin OAdd (EStr (B "html.Comment(""")) (ECall (ELoc "escape") [(EField (ELoc "token") "Data")] false)) (EStr (B """),")))] false))])); ([(EExt "golang.org/x/net/html.DoctypeToken")], (SBlock [(SDefine ["token"] [(EMethod (ELoc "tokenizer") "Token" [] false)]);
     (SExpr (ECall (ELoc "write") [(EBin OAdd (EBin OAdd (EStr (B "html.PI(""DOCTYPE"", """)) (ECall (ELoc "escape") [(EField (ELoc "token") "Data")] false)) (EStr (B """),")))] false))]))] SSkip)]));
     (SIf None (EBin OEq (EField (ELoc "err") "v") ENil)
     (SBlock [(SExpr (ECall (ELoc "decIndent") [] false));
     (SExpr (ECall (ELoc "write") [(EStr [ascii_of_nat 41; ascii_of_nat 10])] false))])
     SSkip);
     (SReturn [(EField (ELoc "err") "v")])])).

(** html/generator.go:140 *)
Definition f_html_mappings : fundecl :=
  (Fun [] false [("elems", "map[string]any"); ("attrs", "map[string]any"); ("boolAttrs", "map[string]bool")]
    (SBlock [(SAssign [(LLoc "elems")] [(EMapLit [((EStr (B "a")), (EFun "html.A")); ((EStr (B "abbr")), (EFun "html.Abbr")); ((EStr (B "address")), (EFun "html.Address")); ((EStr (B "area")), (EFun "html.Area")); ((EStr (B "article")), (EFun "html.Article")); ((EStr (B "aside")), (EFun "html.Aside")); ((EStr (B "audio")), (EFun "html.Audio")); ((EStr (B "b")), (EFun "html.B")); ((EStr (B "base")), (EFun "html.Base")); ((EStr (B "blockquote")), (EFun "html.BlockQuote")); ((EStr (B "body")), (EFun "html.Body")); ((EStr (B "br")), (EFun "html.Br")); ((EStr (B "button")), (EFun "html.Button")); ((EStr (B "canvas")), (EFun "html.Canvas")); ((EStr (B "caption")), (EFun "html.Caption")); ((EStr (B "cite")), (EFun "html.Cite")); ((EStr (B "code")), (EFun "html.Code")); ((EStr (B "col")), (EFun "html.Col")); ((EStr (B "colgroup")), (EFun "html.ColGroup")); ((EStr (B "data")), (EFun "html.DataElement")); ((EStr (B "datalist")), (EFun "html.DataList")); ((EStr (B "dd")), (EFun "html.Dd")); ((EStr (B "del")), (EFun "html.Del")); ((EStr (B "details")), (EFun "html.Details")); ((EStr (B "dfn")), (EFun "html.Dfn")); ((EStr (B "dialog")), (EFun "html.Dialog")); ((EStr (B "div")), (EFun "html.Div")); ((EStr (B "dl")), (EFun "html.Dl")); ((EStr (B "dt")), (EFun "html.Dt")); ((EStr (B "em")), (EFun "html.Em")); ((EStr (B "embed")), (EFun "html.Embed")); ((EStr (B "fieldset")), (EFun "html.FieldSet")); ((EStr (B "figcaption")), (EFun "html.FigCaption")); ((EStr (B "figure")), (EFun "html.Figure")); ((EStr (B "footer")), (EFun "html.Footer")); ((EStr (B "form")), (EFun "html.Form")); ((EStr (B "h1")), (EFun "html.H1")); ((EStr (B "h2")), (EFun "html.H2")); ((EStr (B "h3")), (EFun "html.H3")); ((EStr (B "h4")), (EFun "html.H4")); ((EStr (B "h5")), (EFun "html.H5")); ((EStr (B "h6")), (EFun "html.H6")); ((EStr (B "head")), (EFun "html.Head")); ((EStr (B "header")), (EFun "html.Header")); ((EStr (B "hgroup")), (EFun "html.HGroup")); ((EStr (B "hr")), (EFun "html.Hr")); ((EStr (B "html")), (EFun "html.Html")); ((EStr (B "i")), (EFun "html.I")); ((EStr (B "iframe")), (EFun "html.IFrame")); ((EStr (B "img")), (EFun "html.Img")); ((EStr (B "input")), (EFun "html.Input")); ((EStr (B "ins")), (EFun "html.Ins")); ((EStr (B "kbd")), (EFun "html.Kbd")); ((EStr (B "label")), (EFun "html.Label")); ((EStr (B "legend")), (EFun "html.Legend")); ((EStr (B "li")), (EFun "html.Li")); ((EStr (B "link")), (EFun "html.Link")); ((EStr (B "main")), (EFun "html.Main")); ((EStr (B "mark")), (EFun "html.Mark")); ((EStr (B "menu")), (EFun "html.Menu")); ((EStr (B "meta")), (EFun "html.Meta")); ((EStr (B "meter")), (EFun "html.Meter")); ((EStr (B "nav")), (EFun "html.Nav")); ((EStr (B "noscript")), (EFun "html.NoScript")); ((EStr (B "object")), (EFun "html.Object")); ((EStr (B "ol")), (EFun "html.Ol")); ((EStr (B "optgroup")), (EFun "html.OptGroup")); ((EStr (B "option")), (EFun "html.Option")); ((EStr (B "p")), (EFun "html.P")); ((EStr (B "param")), (EFun "html.Param")); ((EStr (B "picture")), (EFun "html.Picture")); ((EStr (B "pre")), (EFun "html.Pre")); ((EStr (B "progress")), (EFun "html.Progress")); ((EStr (B "q")), (EFun "html.Q")); ((EStr (B "s")), (EFun "html.S")); ((EStr (B "samp")), (EFun "html.Samp")); ((EStr (B "script")), (EFun "html.Script")); ((EStr (B "section")), (EFun "html.Section")); ((EStr (B "select")), (EFun "html.Select")); ((EStr (B "slot")), (EFun "html.Slot")); ((EStr (B "small")), (EFun "html.Small")); ((EStr (B "source")), (EFun "html.Source")); ((EStr (B "span")), (EFun "html.Span")); ((EStr (B "strong")), (EFun "html.Strong")); ((EStr (B "style")), (EFun "html.StyleElement")); ((EStr (B "sub")), (EFun "html.Sub")); ((EStr (B "summary")), (EFun "html.Summary")); ((EStr (B "sup")), (EFun "html.Sup")); ((EStr (B "table")), (EFun "html.Table")); ((EStr (B "tbody")), (EFun "html.TBody")); ((EStr (B "td")), (EFun "html.Td")); ((EStr (B "template")), (EFun "html.Template")); ((EStr (B "textarea")), (EFun "html.Textarea")); ((EStr (B "tfoot")), (EFun "html.TFoot")); ((EStr (B "th")), (EFun "html.Th")); ((EStr (B "thead")), (EFun "html.THead")); ((EStr (B "time")), (EFun "html.Time")); ((EStr (B "title")), (EFun "html.TitleElement")); ((EStr (B "tr")), (EFun "html.Tr")); ((EStr (B "u")), (EFun "html.U")); ((EStr (B "ul")), (EFun "html.Ul")); ((EStr (B "var")), (EFun "html.Var")); ((EStr (B "video")), (EFun "html.Video")); ((EStr (B "wbr")), (EFun "html.Wbr"))])]);
     (SAssign [(LLoc "attrs")] [(EMapLit [((EStr (B "accept")), (EFun "html.Accept")); ((EStr (B "action")), (EFun "html.Action")); ((EStr (B "allowfullscreen")), (EFun "html.AllowFullScreen")); ((EStr (B "alt")), (EFun "html.Alt")); ((EStr (B "aria-")), (EFun "html.Aria")); ((EStr (B "aria-atomic")), (EFun "html.AriaAtomic")); ((EStr (B "aria-busy")), (EFun "html.AriaBusy")); ((EStr (B "aria-checked")), (EFun "html.AriaChecked")); ((EStr (B "aria-controls")), (EFun "html.AriaControls")); ((EStr (B "aria-describedby")), (EFun "html.AriaDescribedBy")); ((EStr (B "aria-disabled")), (EFun "html.AriaDisabled")); ((EStr (B "aria-expanded")), (EFun "html.AriaExpanded")); ((EStr (B "aria-flowto")), (EFun "html.AriaFlowTo")); ((EStr (B "aria-hidden")), (EFun "html.AriaHidden")); ((EStr (B "aria-invalid")), (EFun "html.AriaInvalid")); ((EStr (B "aria-label")), (EFun "html.AriaLabel")); ((EStr (B "aria-labelledby")), (EFun "html.AriaLabelledBy")); ((EStr (B "aria-live")), (EFun "html.AriaLive")); ((EStr (B "aria-owns")), (EFun "html.AriaOwns")); ((EStr (B "aria-placeholder")), (EFun "html.AriaPlaceholder")); ((EStr (B "aria-posinset")), (EFun "html.AriaPosInSet")); ((EStr (B "aria-pressed")), (EFun "html.AriaPressed")); ((EStr (B "aria-readonly")), (EFun "html.AriaReadonly")); ((EStr (B "aria-relevant")), (EFun "html.AriaRelevant")); ((EStr (B "aria-required")), (EFun "html.AriaRequired")); ((EStr (B "aria-selected")), (EFun "html.AriaSelected")); ((EStr (B "aria-setsize")), (EFun "html.AriaSetSize")); ((EStr (B "aria-valuemax")), (EFun "html.AriaValueMax")); ((EStr (B "aria-valuemin")), (EFun "html.AriaValueMin")); ((EStr (B "aria-valuenow")), (EFun "html.AriaValueNow")); ((EStr (B "aria-valuetext")), (EFun "html.AriaValueText")); ((EStr (B "as")), (EFun "html.As")); ((EStr (B "async")), (EFun "html.Async")); ((EStr (B "autocomplete")), (EFun "html.AutoComplete")); ((EStr (B "autofocus")), (EFun "html.AutoFocus")); ((EStr (B "autoplay")), (EFun "html.AutoPlay")); ((EStr (B "charset")), (EFun "html.Charset")); ((EStr (B "checked")), (EFun "html.Checked")); ((EStr (B "cite")), (EFun "html.CiteAttr")); ((EStr (B "class")), (EFun "html.Class")); ((EStr (B "cols")), (EFun "html.Cols")); ((EStr (B "colspan")), (EFun "html.ColSpan")); ((EStr (B "content")), (EFun "html.Content")); ((EStr (B "contenteditable")), (EFun "html.ContentEditable")); ((EStr (B "controls")), (EFun "html.Controls")); ((EStr (B "crossorigin")), (EFun "html.CrossOrigin")); ((EStr (B "data-")), (EFun "html.Data")); ((EStr (B "datetime")), (EFun "html.DateTime")); ((EStr (B "default")), (EFun "html.Default")); ((EStr (B "defer")), (EFun "html.Defer")); ((EStr (B "dir")), (EFun "html.Dir")); ((EStr (B "disabled")), (EFun "html.Disabled")); ((EStr (B "download")), (EFun "html.Download")); ((EStr (B "draggable")), (EFun "html.Draggable")); ((EStr (B "enctype")), (EFun "html.EncType")); ((EStr (B "for")), (EFun "html.For")); ((EStr (B "form")), (EFun "html.FormAttr")); ((EStr (B "formnovalidate")), (EFun "html.FormNoValidate")); ((EStr (B "height")), (EFun "html.Height")); ((EStr (B "hidden")), (EFun "html.Hidden")); ((EStr (B "href")), (EFun "html.Href")); ((EStr (B "id")), (EFun "html.Id")); ((EStr (B "inert")), (EFun "html.Inert")); ((EStr (B "integrity")), (EFun "html.Integrity")); ((EStr (B "ismap")), (EFun "html.IsMap")); ((EStr (B "itemscope")), (EFun "html.ItemScope")); ((EStr (B "lang")), (EFun "html.Lang")); ((EStr (B "list")), (EFun "html.List")); ((EStr (B "loading")), (EFun "html.Loading")); ((EStr (B "loop")), (EFun "html.Loop")); ((EStr (B "max")), (EFun "html.Max")); ((EStr (B "maxlength")), (EFun "html.MaxLength")); ((EStr (B "method")), (EFun "html.Method")); ((EStr (B "min")), (EFun "html.Min")); ((EStr (B "minlength")), (EFun "html.MinLength")); ((EStr (B "multiple")), (EFun "html.Multiple")); ((EStr (B "muted")), (EFun "html.Muted")); ((EStr (B "name")), (EFun "html.Name")); ((EStr (B "nomodule")), (EFun "html.NoModule")); ((EStr (B "novalidate")), (EFun "html.NoValidate")); ((EStr (B "onabort")), (EFun "html.OnAbort")); ((EStr (B "onbeforeunload")), (EFun "html.OnBeforeUnload")); ((EStr (B "onblur")), (EFun "html.OnBlur")); ((EStr (B "oncanplay")), (EFun "html.OnCanPlay")); ((EStr (B "oncanplaythrough")), (EFun "html.OnCanPlayThrough")); ((EStr (B "onchange")), (EFun "html.OnChange")); ((EStr (B "onclick")), (EFun "html.OnClick")); ((EStr (B "oncontextmenu")), (EFun "html.OnContextMenu")); ((EStr (B "oncopy")), (EFun "html.OnCopy")); ((EStr (B "oncut")), (EFun "html.OnCut")); ((EStr (B "ondblclick")), (EFun "html.OnDblClick")); ((EStr (B "ondrag")), (EFun "html.OnDrag")); ((EStr (B "ondragend")), (EFun "html.OnDragEnd")); ((EStr (B "ondragenter")), (EFun "html.OnDragEnter")); ((EStr (B "ondragleave")), (EFun "html.OnDragLeave")); ((EStr (B "ondragover")), (EFun "html.OnDragOver")); ((EStr (B "ondragstart")), (EFun "html.OnDragStart")); ((EStr (B "ondrop")), (EFun "html.OnDrop")); ((EStr (B "ondurationchange")), (EFun "html.OnDurationChange")); ((EStr (B "onended")), (EFun "html.OnEnded")); ((EStr (B "onerror")), (EFun "html.OnError")); ((EStr (B "onfocus")), (EFun "html.OnFocus")); ((EStr (B "onhashchange")), (EFun "html.OnHashChange")); ((EStr (B "oninput")), (EFun "html.OnInput")); ((EStr (B "oninvalid")), (EFun "html.OnInvalid")); ((EStr (B "onkeydown")), (EFun "html.OnKeyDown")); ((EStr (B "onkeypress")), (EFun "html.OnKeyPress")); ((EStr (B "onkeyup")), (EFun "html.OnKeyUp")); ((EStr (B "onload")), (EFun "html.OnLoad")); ((EStr (B "onloadeddata")), (EFun "html.OnLoadedData")); ((EStr (B "onloadedmetadata")), (EFun "html.OnLoadedMetadata")); ((EStr (B "onmousedown")), (EFun "html.OnMouseDown")); ((EStr (B "onmouseenter")), (EFun "html.OnMouseEnter")); ((EStr (B "onmouseleave")), (EFun "html.OnMouseLeave")); ((EStr (B "onmousemove")), (EFun "html.OnMouseMove")); ((EStr (B "onmouseout")), (EFun "html.OnMouseOut")); ((EStr (B "onmouseover")), (EFun "html.OnMouseOver")); ((EStr (B "onmouseup")), (EFun "html.OnMouseUp")); ((EStr (B "onpagehide")), (EFun "html.OnPageHide")); ((EStr (B "onpageshow")), (EFun "html.OnPageShow")); ((EStr (B "onpaste")), (EFun "html.OnPaste")); ((EStr (B "onpause")), (EFun "html.OnPause")); ((EStr (B "onplay")), (EFun "html.OnPlay")); ((EStr (B "onplaying")), (EFun "html.OnPlaying")); ((EStr (B "onpopstate")), (EFun "html.OnPopState")); ((EStr (B "onprogress")), (EFun "html.OnProgress")); ((EStr (B "onratechange")), (EFun "html.OnRateChange")); ((EStr (B "onreset")), (EFun "html.OnReset")); ((EStr (B "onresize")), (EFun "html.OnResize")); ((EStr (B "onscroll")), (EFun "html.OnScroll")); ((EStr (B "onseeked")), (EFun "html.OnSeeked")); ((EStr (B "onseeking")), (EFun "html.OnSeeking")); ((EStr (B "onselect")), (EFun "html.OnSelect")); ((EStr (B "onstalled")), (EFun "html.OnStalled")); ((EStr (B "onsubmit")), (EFun "html.OnSubmit")); ((EStr (B "onsuspend")), (EFun "html.OnSuspend")); ((EStr (B "ontimeupdate")), (EFun "html.OnTimeUpdate")); ((EStr (B "ontoggle")), (EFun "html.OnToggle")); ((EStr (B "onunload")), (EFun "html.OnUnload")); ((EStr (B "onvolumechange")), (EFun "html.OnVolumeChange")); ((EStr (B "onwaiting")), (EFun "html.OnWaiting")); ((EStr (B "open")), (EFun "html.Open")); ((EStr (B "pattern")), (EFun "html.Pattern")); ((EStr (B "placeholder")), (EFun "html.Placeholder")); ((EStr (B "playsinline")), (EFun "html.PlaysInline")); ((EStr (B "popover")), (EFun "html.PopOver")); ((EStr (B "popovertarget")), (EFun "html.PopOverTarget")); ((EStr (B "popovertargetaction")), (EFun "html.PopOverTargetAction")); ((EStr (B "poster")), (EFun "html.Poster")); ((EStr (B "preload")), (EFun "html.Preload")); ((EStr (B "readonly")), (EFun "html.ReadOnly")); ((EStr (B "referrerpolicy")), (EFun "html.ReferrerPolicy")); ((EStr (B "rel")), (EFun "html.Rel")); ((EStr (B "required")), (EFun "html.Required")); ((EStr (B "reversed")), (EFun "html.Reversed")); ((EStr (B "role")), (EFun "html.Role")); ((EStr (B "rows")), (EFun "html.Rows")); ((EStr (B "rowspan")), (EFun "html.RowSpan")); ((EStr (B "selected")), (EFun "html.Selected")); ((EStr (B "slot")), (EFun "html.SlotAttr")); ((EStr (B "spellcheck")), (EFun "html.Spellcheck")); ((EStr (B "src")), (EFun "html.Src")); ((EStr (B "srcset")), (EFun "html.SrcSet")); ((EStr (B "step")), (EFun "html.Step")); ((EStr (B "style")), (EFun "html.Style")); ((EStr (B "tabindex")), (EFun "html.TabIndex")); ((EStr (B "target")), (EFun "html.Target")); ((EStr (B "title")), (EFun "html.Title")); ((EStr (B "translate")), (EFun "html.Translate")); ((EStr (B "type")), (EFun "html.Type")); ((EStr (B "value")), (EFun "html.Value")); ((EStr (B "width")), (EFun "html.Width"))])]);
     (SAssign [(LLoc "boolAttrs")] [(EMapLit [((EStr (B "allowfullscreen")), (EBool true)); ((EStr (B "async")), (EBool true)); ((EStr (B "autofocus")), (EBool true)); ((EStr (B "autoplay")), (EBool true)); ((EStr (B "checked")), (EBool true)); ((EStr (B "controls")), (EBool true)); ((EStr (B "default")), (EBool true)); ((EStr (B "defer")), (EBool true)); ((EStr (B "disabled")), (EBool true)); ((EStr (B "formnovalidate")), (EBool true)); ((EStr (B "hidden")), (EBool true)); ((EStr (B "inert")), (EBool true)); ((EStr (B "ismap")), (EBool true)); ((EStr (B "itemscope")), (EBool true)); ((EStr (B "loop")), (EBool true)); ((EStr (B "multiple")), (EBool true)); ((EStr (B "muted")), (EBool true)); ((EStr (B "nomodule")), (EBool true)); ((EStr (B "novalidate")), (EBool true)); ((EStr (B "open")), (EBool true)); ((EStr (B "playsinline")), (EBool true)); ((EStr (B "readonly")), (EBool true)); ((EStr (B "required")), (EBool true)); ((EStr (B "reversed")), (EBool true)); ((EStr (B "selected")), (EBool true)); ((EStr (B "spellcheck")), (EBool true)); ((EStr (B "translate")), (EBool true))])]);
     (SReturn [(ELoc "elems"); (ELoc "attrs"); (ELoc "boolAttrs")])])).

(** svg/generator.go:13 *)
Definition f_svg_GenerateCode : fundecl :=
  (Fun ["r"; "w"] false []
    (SBlock [(SIf None (EBin OEq (ELoc "w") ENil)
     (SBlock [(SAssign [(LLoc "w")] [(EExt "os.Stdout")])])
     SSkip);
     (SDefine ["elemMap"; "attrMap"] [(ECall (EFun "svg.mappings") [] false)]);
     (SDefine ["tokenizer"] [(ECall (EExt "golang.org/x/net/html.NewTokenizer") [(ELoc "r")] false)]);
     (SDefine ["indent"] [ELit true "box" [("v", (ESliceLit "[]byte" []))]]);
     (SDefine ["eof"] [(EBool false)]);
     (SDefine ["err"] [ELit true "box" [("v", ENil)]]);
     (SDefine ["nl"] [(ESliceLit "[]byte" [(EInt 10)])]);
     (SDefine ["tab"] [(EConv "byte" (EInt 9))]);
     (SDefine ["funcName"] [(EClosure (Fun ["fn"] false []
    (SBlock [(SDefine ["v"] [(ECall (EExt "reflect.ValueOf") [(ELoc "fn")] false)]);
     (SDefine ["result"] [(EStr (B "Unknown"))]);
     (SIf None (EBin OEq (EMethod (ELoc "v") "Kind" [] false) (EExt "reflect.Func"))
     (SBlock [(SIf (Some (SDefine ["fpp"] [(ECall (EExt "runtime.FuncForPC") [(EMethod (ELoc "v") "Pointer" [] false)] false)])) (EBin ONe (ELoc "fpp") ENil)
     (SBlock [(SDefine ["name"] [(EMethod (ELoc "fpp") "Name" [] false)]);
     (SIf (Some (SDefine ["ls"] [(ECall (EExt "strings.LastIndex") [(ELoc "name"); (EStr (B "/"))] false)])) (EBin OGt (ELoc "ls") (EInt 0))
     (SBlock [(SAssign [(LLoc "result")] [(ESub (ELoc "name") (Some (EBin OAdd (ELoc "ls") (EInt 1))) None)])])
     SSkip)])
     SSkip)])
     SSkip);
     (SReturn [(ELoc "result")])])))]);
     (SDefine ["write"] [(EClosure (Fun ["s"] false []
    (SBlock [(SAssign [LBlank; (LField (ELoc "err") "v")] [(EMethod (ELoc "w") "Write" [(EField (ELoc "indent") "v")] false)]);
     (SAssign [LBlank; (LField (ELoc "err") "v")] [(EMethod (ELoc "w") "Write" [(EConv "[]byte" (ELoc "s"))] false)]);
     (SAssign [LBlank; (LField (ELoc "err") "v")] [(EMethod (ELoc "w") "Write" [(ELoc "nl")] false)])])))]);
     (SDefine ["incIndent"] [(EClosure (Fun [] false []
    (SBlock [(SAssign [(LField (ELoc "indent") "v")] [(ECall (EExt "append") [(EField (ELoc "indent") "v"); (ELoc "tab")] false)])])))]);
     (SDefine ["decIndent"] [(EClosure (Fun [] false []
    (SBlock [(SIf None (EBin OGt (ECall (EExt "len") [(EField (ELoc "indent") "v")] false) (EInt 0))
     (SBlock [(SAssign [(LField (ELoc "indent") "v")] [(ESub (EField (ELoc "indent") "v") None (Some (EBin OSub (ECall (EExt "len") [(EField (ELoc "indent") "v")] false) (EInt 1))))])])
     SSkip)])))]);
     (SDefine ["escape"] [(EClosure (Fun ["s"] false []
    (SBlock [(SReturn [(ECall (EExt "strings.Replace") [(ECall (EExt "strings.Replace") [(ECall (EExt "strings.Replace") [(ECall (EExt "strings.Replace") [(ELoc "s"); (EStr (B "\")); (EStr (B "\\")); (EInt (-1))] false); (EStr [ascii_of_nat 9]); (EStr (B "\t")); (EInt (-1))] false); (EStr [ascii_of_nat 10]); (EStr (B "\n")); (EInt (-1))] false); (EStr (B """")); (EStr (B "\""")); (EInt (-1))] false)])])))]);
     (SDefine ["writeElementStart"] [(EClosure (Fun ["name"; "attrs"; "selfClosing"] false []
    (SBlock [(SDefine ["start"] [(EStr (B ""))]);
     (SIf (Some (SDefine ["elem"; "ok"] [(EIndex (ELoc "elemMap") (ECall (EExt "strings.ToLower") [(EConv "string" (ELoc "name"))] false))])) (ELoc "ok")
     (SBlock [(SAssign [(LLoc "start")] [(EBin OAdd (ECall (ELoc "funcName") [(ELoc "elem")] false) (EStr (B "(")))])])
     (SBlock [(SAssign [(LLoc "start")] [(EBin OAdd (EBin OAdd (EStr (B "aitch.Element(""")) (EConv "string" (ELoc "name"))) (EStr (B """, ")))])]));
     (SAssign [LBlank; (LField (ELoc "err") "v")] [(EMethod (ELoc "w") "Write" [(EField (ELoc "indent") "v")] false)]);
     (SAssign [LBlank; (LField (ELoc "err") "v")] [(EMethod (ELoc "w") "Write" [(EConv "[]byte" (ELoc "start"))] false)]);
     (SIf None (EAnd (ELoc "selfClosing") (EBin OEq (ECall (EExt "len") [(ELoc "attrs")] false) (EInt 0)))
     (SBlock [(SAssign [LBlank; (LField (ELoc "err") "v")] [(EMethod (ELoc "w") "Write" [(ESliceLit "[]byte" [(EInt 41); (EInt 44); (EInt 10)])] false)]);
     (SReturn [])])
     SSkip);
     (SRange "i" "a" (ELoc "attrs")
     (SBlock [(SIf None (EBin OGt (ELoc "i") (EInt 0))
     (SBlock [(SAssign [LBlank; (LField (ELoc "err") "v")] [(EMethod (ELoc "w") "Write" [(ESliceLit "[]byte" [(EInt 44); (EInt 32)])] false)])])
     SSkip);
     (SIf (Some (SDefine ["attr"; "ok"] [(EIndex (ELoc "attrMap") (ECall (EExt "strings.ToLower") [(EField (ELoc "a") "Key")] false))])) (ELoc "ok")
     (SBlock [(SAssign [LBlank; (LField (ELoc "err") "v")] [(EMethod (ELoc "w") "Write" [(EConv "[]byte" (ECall (ELoc "funcName") [(ELoc "attr")] false))] false)]);
     (SAssign [LBlank; (LField (ELoc "err") "v")] [(EMethod (ELoc "w") "Write" [(ESliceLit "[]byte" [(EInt 40); (EInt 34)])] false)]);
     (SAssign [LBlank; (LField (ELoc "err") "v")] [(EMethod (ELoc "w") "Write" [(EConv "[]byte" (ECall (ELoc "escape") [(EField (ELoc "a") "Val")] false))] false)]);
     (SAssign [LBlank; (LField (ELoc "err") "v")] [(EMethod (ELoc "w") "Write" [(ESliceLit "[]byte" [(EInt 34); (EInt 41)])] false)])])
     (SBlock [(SAssign [LBlank; (LField (ELoc "err") "v")] [(EMethod (ELoc "w") "Write" [(EConv "[]byte" (EStr (B "aitch.Attribute(""")))] false)]);
     (SAssign [LBlank; (LField (ELoc "err") "v")] [(EMethod (ELoc "w") "Write" [(EConv "[]byte" (EField (ELoc "a") "Key"))] false)]);
     (SAssign [LBlank; (LField (ELoc "err") "v")] [(EMethod (ELoc "w") "Write" [(ESliceLit "[]byte" [(EInt 34); (EInt 32); (EInt 44); (EInt 34)])] false)]);
     (SAssign [LBlank; (LField (ELoc "err") "v")] [(EMethod (ELoc "w") "Write" [(EConv "[]byte" (ECall (ELoc "escape") [(EField (ELoc "a") "Val")] false))] false)]);
     (SAssign [LBlank; (LField (ELoc "err") "v")] [(EMethod (ELoc "w") "Write" [(ESliceLit "[]byte" [(EInt 34); (EInt 41)])] false)])]))]));
     (SIf None (ELoc "selfClosing")
     (SBlock [(SAssign [LBlank; (LField (ELoc "err") "v")] [(EMethod (ELoc "w") "Write" [(ESliceLit "[]byte" [(EInt 41); (EInt 44)])] false)])])
     (SIf None (EBin OGt (ECall (EExt "len") [(ELoc "attrs")] false) (EInt 0))
     (SBlock [(SAssign [LBlank; (LField (ELoc "err") "v")] [(EMethod (ELoc "w") "Write" [(ESliceLit "[]byte" [(EInt 44)])] false)])])
     SSkip));
     (SAssign [LBlank; (LField (ELoc "err") "v")] [(EMethod (ELoc "w") "Write" [(ESliceLit "[]byte" [(EInt 10)])] false)]);
     (SIf None (ENot (ELoc "selfClosing"))
     (SBlock [(SExpr (ECall (ELoc "incIndent") [] false))])
     SSkip)])))]);
     (SExpr (ECall (ELoc "write") [(EStr (B "var template = aitch.Collection("))] false));
     (SExpr (ECall (ELoc "incIndent") [] false));
     (SFor None (EAnd (EBin OEq (EField (ELoc "err") "v") ENil) (ENot (ELoc "eof"))) SSkip
     (SBlock [(SDefine ["tokenType"] [(EMethod (ELoc "tokenizer") "Next" [] false)]);
     (SSwitch (ELoc "tokenType") [([(EExt "golang.org/x/net/html.ErrorToken")], (SBlock [(SIf (Some (SAssign [(LField (ELoc "err") "v")] [(EMethod (ELoc "tokenizer") "Err" [] false)])) (EBin OEq (EField (ELoc "err") "v") (EExt "io.EOF"))
     (SBlock [(SAssign [(LLoc "eof")] [(EBool true)]);
     (SAssign [(LField (ELoc "err") "v")] [ENil])])
     SSkip)])); ([(EExt "golang.org/x/net/html.TextToken")], (SBlock [(SDefine ["token"] [(EMethod (ELoc "tokenizer") "Token" [] false)]);
     (SIf None (EBin ONe (ECall (EExt "strings.Trim") [(EField (ELoc "token") "Data"); (EStr [ascii_of_nat 32; ascii_of_nat 10; ascii_of_nat 9])] false) (EStr (B "")))
     (SBlock [(SExpr (ECall (ELoc "write") [(EBin OAdd (EBin OAdd (EStr (B "svg.Text(""")) (ECall (ELoc "escape") [(EField (ELoc "token") "Data")] false)) (EStr (B """),")))] false))])
     SSkip)])); ([(EExt "golang.org/x/net/html.StartTagToken")], (SBlock [(SDefine ["token"] [(EMethod (ELoc "tokenizer") "Token" [] false)]);
     (SExpr (ECall (ELoc "writeElementStart") [(EField (ELoc "token") "Data"); (EField (ELoc "token") "Attr"); (EBool false)] false))])); ([(EExt "golang.org/x/net/html.SelfClosingTagToken")], (SBlock [(SDefine ["token"] [(EMethod (ELoc "tokenizer") "Token" [] false)]);
     (SExpr (ECall (ELoc "writeElementStart") [(EField (ELoc "token") "Data"); (EField (ELoc "token") "Attr"); (EBool true)] false))])); ([(EExt "golang.org/x/net/html.EndTagToken")], (SBlock [(SExpr (ECall (ELoc "decIndent") [] false));
     (SExpr (ECall (ELoc "write") [(EStr (B "),"))] false))])); ([(EExt "golang.org/x/net/html.CommentToken")], (SBlock [(SDefine ["token"] [(EMethod (ELoc "tokenizer") "Token" [] false)]);
     (SExpr (ECall (ELoc "write") [(EBin OAdd (EBin OAdd (EStr (B "svg.Comment(""")) (ECall (ELoc "escape") [(EField (ELoc "token") "Data")] false)) (EStr (B """),")))] false))]))] SSkip)]));
     (SIf None (EBin OEq (EField (ELoc "err") "v") ENil)
     (SBlock [(SExpr (ECall (ELoc "decIndent") [] false));
     (SExpr (ECall (ELoc "write") [(EStr [ascii_of_nat 41; ascii_of_nat 10])] false))])
     SSkip);
     (SReturn [(EField (ELoc "err") "v")])])).

(** svg/generator.go:132 *)
Definition f_svg_mappings : fundecl :=
  (Fun [] false [("elems", "map[string]any"); ("attrs", "map[string]any")]
    (SBlock [(SAssign [(LLoc "elems")] [(EMapLit [((EStr (B "altGlyph")), (EFun "svg.AltGlyph")); ((EStr (B "animate")), (EFun "svg.Animate")); ((EStr (B "animateMotion")), (EFun "svg.AnimateMotion")); ((EStr (B "animateTransform")), (EFun "svg.AnimateTransform")); ((EStr (B "circle")), (EFun "svg.Circle")); ((EStr (B "clipPath")), (EFun "svg.ClipPath")); ((EStr (B "defs")), (EFun "svg.Defs")); ((EStr (B "desc")), (EFun "svg.Desc")); ((EStr (B "discard")), (EFun "svg.Discard")); ((EStr (B "ellipse")), (EFun "svg.Ellipse")); ((EStr (B "feBlend")), (EFun "svg.FeBlend")); ((EStr (B "feColorMatrix")), (EFun "svg.FeColorMatrix")); ((EStr (B "feComponentTransfer")), (EFun "svg.FeComponentTransfer")); ((EStr (B "feComposite")), (EFun "svg.FeComposite")); ((EStr (B "feConvolveMatrix")), (EFun "svg.FeConvolveMatrix")); ((EStr (B "feDiffuseLighting")), (EFun "svg.FeDiffuseLighting")); ((EStr (B "feDisplacementMap")), (EFun "svg.FeDisplacementMap")); ((EStr (B "feDistantLight")), (EFun "svg.FeDistantLight")); ((EStr (B "feDropShadow")), (EFun "svg.FeDropShadow")); ((EStr (B "feFlood")), (EFun "svg.FeFlood")); ((EStr (B "feFuncA")), (EFun "svg.FeFuncA")); ((EStr (B "feFuncB")), (EFun "svg.FeFuncB")); ((EStr (B "feFuncG")), (EFun "svg.FeFuncG")); ((EStr (B "feFuncR")), (EFun "svg.FeFuncR")); ((EStr (B "feGaussianBlur")), (EFun "svg.FeGaussianBlur")); ((EStr (B "feImage")), (EFun "svg.FeImage")); ((EStr (B "feMerge")), (EFun "svg.FeMerge")); ((EStr (B "feMergeNode")), (EFun "svg.FeMergeNode")); ((EStr (B "feMorphology")), (EFun "svg.FeMorphology")); ((EStr (B "feOffset")), (EFun "svg.FeOffset")); ((EStr (B "fePointLight")), (EFun "svg.FePointLight")); ((EStr (B "feSpecularLighting")), (EFun "svg.FeSpecularLighting")); ((EStr (B "feSpotLight")), (EFun "svg.FeSpotLight")); ((EStr (B "feTile")), (EFun "svg.FeTile")); ((EStr (B "feTurbulence")), (EFun "svg.FeTurbulence")); ((EStr (B "filter")), (EFun "svg.Filter")); ((EStr (B "foreignObject")), (EFun "svg.ForeignObject")); ((EStr (B "g")), (EFun "svg.G")); ((EStr (B "glyph")), (EFun "svg.Glyph")); ((EStr (B "line")), (EFun "svg.Line")); ((EStr (B "linearGradient")), (EFun "svg.LinearGradient")); ((EStr (B "marker")), (EFun "svg.Marker")); ((EStr (B "mask")), (EFun "svg.Mask")); ((EStr (B "metadata")), (EFun "svg.Metadata")); ((EStr (B "mpath")), (EFun "svg.Mpath")); ((EStr (B "path")), (EFun "svg.Path")); ((EStr (B "pattern")), (EFun "svg.Pattern")); ((EStr (B "polygon")), (EFun "svg.Polygon")); ((EStr (B "polyline")), (EFun "svg.Polyline")); ((EStr (B "radialGradient")), (EFun "svg.RadialGradient")); ((EStr (B "rect")), (EFun "svg.Rect")); ((EStr (B "script")), (EFun "svg.Script")); ((EStr (B "set")), (EFun "svg.Set")); ((EStr (B "solidcolor")), (EFun "svg.SolidColor")); ((EStr (B "stop")), (EFun "svg.Stop")); ((EStr (B "style")), (EFun "svg.StyleElement")); ((EStr (B "svg")), (EFun "svg.Svg")); ((EStr (B "symbol")), (EFun "svg.Symbol")); ((EStr (B "text")), (EFun "svg.TextElement")); ((EStr (B "textPath")), (EFun "svg.TextPath")); ((EStr (B "title")), (EFun "svg.Title")); ((EStr (B "tref")), (EFun "svg.TRef")); ((EStr (B "tspan")), (EFun "svg.TSpan")); ((EStr (B "use")), (EFun "svg.Use"))])]);
     (SAssign [(LLoc "attrs")] [(EMapLit [((EStr (B "accumulate")), (EFun "svg.Accumulate")); ((EStr (B "additive")), (EFun "svg.Additive")); ((EStr (B "alignment-baseline")), (EFun "svg.AlignmentBaseline")); ((EStr (B "attributeName")), (EFun "svg.AttributeName")); ((EStr (B "attributeType")), (EFun "svg.AttributeType")); ((EStr (B "baseline-shift")), (EFun "svg.BaselineShift")); ((EStr (B "begin")), (EFun "svg.Begin")); ((EStr (B "by")), (EFun "svg.By")); ((EStr (B "calcMode")), (EFun "svg.CalcMode")); ((EStr (B "class")), (EFun "svg.Class")); ((EStr (B "clip")), (EFun "svg.Clip")); ((EStr (B "clip-path")), (EFun "svg.ClipPathAttr")); ((EStr (B "clip-rule")), (EFun "svg.ClipRule")); ((EStr (B "color")), (EFun "svg.Color")); ((EStr (B "color-interpolation")), (EFun "svg.ColorInterpolation")); ((EStr (B "color-interpolation-filters")), (EFun "svg.ColorInterpolationFilters")); ((EStr (B "color-profile")), (EFun "svg.ColorProfile")); ((EStr (B "color-rendering")), (EFun "svg.ColorRendering")); ((EStr (B "cursor")), (EFun "svg.Cursor")); ((EStr (B "cx")), (EFun "svg.Cx")); ((EStr (B "cy")), (EFun "svg.Cy")); ((EStr (B "d")), (EFun "svg.D")); ((EStr (B "direction")), (EFun "svg.Direction")); ((EStr (B "display")), (EFun "svg.Display")); ((EStr (B "dominant-baseline")), (EFun "svg.DominantBaseline")); ((EStr (B "dur")), (EFun "svg.Dur")); ((EStr (B "dx")), (EFun "svg.Dx")); ((EStr (B "dy")), (EFun "svg.Dy")); ((EStr (B "enable-background")), (EFun "svg.EnableBackground")); ((EStr (B "end")), (EFun "svg.End")); ((EStr (B "externalResourcesRequired")), (EFun "svg.ExternalResourcesRequired")); ((EStr (B "fill")), (EFun "svg.Fill")); ((EStr (B "fill-opacity")), (EFun "svg.FillOpacity")); ((EStr (B "fill-rule")), (EFun "svg.FillRule")); ((EStr (B "filter")), (EFun "svg.FilterAttr")); ((EStr (B "filterUnits")), (EFun "svg.FilterUnits")); ((EStr (B "flood-color")), (EFun "svg.FloodColor")); ((EStr (B "flood-opacity")), (EFun "svg.FloodOpacity")); ((EStr (B "font-family")), (EFun "svg.FontFamily")); ((EStr (B "font-size")), (EFun "svg.FontSize")); ((EStr (B "font-size-adjust")), (EFun "svg.FontSizeAdjust")); ((EStr (B "font-stretch")), (EFun "svg.FontStretch")); ((EStr (B "font-style")), (EFun "svg.FontStyle")); ((EStr (B "font-variant")), (EFun "svg.FontVariant")); ((EStr (B "font-weight")), (EFun "svg.FontWeight")); ((EStr (B "from")), (EFun "svg.From")); ((EStr (B "fx")), (EFun "svg.Fx")); ((EStr (B "fy")), (EFun "svg.Fy")); ((EStr (B "glyph-orientation-horizontal")), (EFun "svg.GlyphOrientationHorizontal")); ((EStr (B "glyph-orientation-vertical")), (EFun "svg.GlyphOrientationVertical")); ((EStr (B "gradientTransform")), (EFun "svg.GradientTransform")); ((EStr (B "gradientUnits")), (EFun "svg.GradientUnits")); ((EStr (B "height")), (EFun "svg.Height")); ((EStr (B "href")), (EFun "svg.Href")); ((EStr (B "id")), (EFun "svg.Id")); ((EStr (B "image-rendering")), (EFun "svg.ImageRendering")); ((EStr (B "kerning")), (EFun "svg.Kerning")); ((EStr (B "keyPoints")), (EFun "svg.KeyPoints")); ((EStr (B "keySplines")), (EFun "svg.KeySplines")); ((EStr (B "keyTimes")), (EFun "svg.KeyTimes")); ((EStr (B "lengthAdjust")), (EFun "svg.LengthAdjust")); ((EStr (B "letter-spacing")), (EFun "svg.LetterSpacing")); ((EStr (B "lighting-color")), (EFun "svg.LightingColor")); ((EStr (B "marker-end")), (EFun "svg.MarkerEnd")); ((EStr (B "marker-mid")), (EFun "svg.MarkerMid")); ((EStr (B "marker-start")), (EFun "svg.MarkerStart")); ((EStr (B "markerHeight")), (EFun "svg.MarkerHeight")); ((EStr (B "markerUnits")), (EFun "svg.MarkerUnits")); ((EStr (B "markerWidth")), (EFun "svg.MarkerWidth")); ((EStr (B "mask")), (EFun "svg.MaskAttr")); ((EStr (B "onblur")), (EFun "svg.OnBlur")); ((EStr (B "onclick")), (EFun "svg.OnClick")); ((EStr (B "onfocus")), (EFun "svg.OnFocus")); ((EStr (B "onload")), (EFun "svg.OnLoad")); ((EStr (B "onmousedown")), (EFun "svg.OnMouseDown")); ((EStr (B "onmousemove")), (EFun "svg.OnMouseMove")); ((EStr (B "onmouseout")), (EFun "svg.OnMouseOut")); ((EStr (B "onmouseover")), (EFun "svg.OnMouseOver")); ((EStr (B "onmouseup")), (EFun "svg.OnMouseUp")); ((EStr (B "onunload")), (EFun "svg.OnUnload")); ((EStr (B "opacity")), (EFun "svg.Opacity")); ((EStr (B "orient")), (EFun "svg.Orient")); ((EStr (B "path")), (EFun "svg.PathAttr")); ((EStr (B "pathLength")), (EFun "svg.PathLength")); ((EStr (B "patternContentUnits")), (EFun "svg.PatternContentUnits")); ((EStr (B "patternTransform")), (EFun "svg.PatternTransform")); ((EStr (B "patternUnits")), (EFun "svg.PatternUnits")); ((EStr (B "pointer-events")), (EFun "svg.PointerEvents")); ((EStr (B "points")), (EFun "svg.Points")); ((EStr (B "preserveAspectRatio")), (EFun "svg.PreserveAspectRatio")); ((EStr (B "primitiveUnits")), (EFun "svg.PrimitiveUnits")); ((EStr (B "r")), (EFun "svg.R")); ((EStr (B "refX")), (EFun "svg.RefX")); ((EStr (B "refY")), (EFun "svg.RefY")); ((EStr (B "repeatCount")), (EFun "svg.RepeatCount")); ((EStr (B "repeatDur")), (EFun "svg.RepeatDur")); ((EStr (B "requiredExtensions")), (EFun "svg.RequiredExtensions")); ((EStr (B "requiredFeatures")), (EFun "svg.RequiredFeatures")); ((EStr (B "rotate")), (EFun "svg.Rotate")); ((EStr (B "rx")), (EFun "svg.Rx")); ((EStr (B "ry")), (EFun "svg.Ry")); ((EStr (B "shape-rendering")), (EFun "svg.ShapeRendering")); ((EStr (B "spreadMethod")), (EFun "svg.SpreadMethod")); ((EStr (B "stop-color")), (EFun "svg.StopColor")); ((EStr (B "stop-opacity")), (EFun "svg.StopOpacity")); ((EStr (B "stroke")), (EFun "svg.Stroke")); ((EStr (B "stroke-dasharray")), (EFun "svg.StrokeDashArray")); ((EStr (B "stroke-dashoffset")), (EFun "svg.StrokeDashOffset")); ((EStr (B "stroke-linecap")), (EFun "svg.StrokeLineCap")); ((EStr (B "stroke-linejoin")), (EFun "svg.StrokeLineJoin")); ((EStr (B "stroke-miterlimit")), (EFun "svg.StrokeMiterLimit")); ((EStr (B "stroke-opacity")), (EFun "svg.StrokeOpacity")); ((EStr (B "stroke-width")), (EFun "svg.StrokeWidth")); ((EStr (B "style")), (EFun "svg.Style")); ((EStr (B "systemLanguage")), (EFun "svg.SystemLanguage")); ((EStr (B "tabindex")), (EFun "svg.TabIndex")); ((EStr (B "text-anchor")), (EFun "svg.TextAnchor")); ((EStr (B "text-decoration")), (EFun "svg.TextDecoration")); ((EStr (B "text-rendering")), (EFun "svg.TextRendering")); ((EStr (B "textLength")), (EFun "svg.TextLength")); ((EStr (B "to")), (EFun "svg.To")); ((EStr (B "type")), (EFun "svg.Type")); ((EStr (B "unicode-bidi")), (EFun "svg.UnicodeBidi")); ((EStr (B "values")), (EFun "svg.Values")); ((EStr (B "visibility")), (EFun "svg.Visibility")); ((EStr (B "width")), (EFun "svg.Width")); ((EStr (B "word-spacing")), (EFun "svg.WordSpacing")); ((EStr (B "writing-mode")), (EFun "svg.WritingMode")); ((EStr (B "x")), (EFun "svg.X")); ((EStr (B "x1")), (EFun "svg.X1")); ((EStr (B "x2")), (EFun "svg.X2")); ((EStr (B "xlink:actuate")), (EFun "svg.XlinkActuate")); ((EStr (B "xlink:arcrole")), (EFun "svg.XlinkArcrole")); ((EStr (B "xlink:href")), (EFun "svg.XlinkHref")); ((EStr (B "xlink:role")), (EFun "svg.XlinkRole")); ((EStr (B "xlink:show")), (EFun "svg.XlinkShow")); ((EStr (B "xlink:title")), (EFun "svg.XlinkTitle")); ((EStr (B "xml:base")), (EFun "svg.XmlBase")); ((EStr (B "xml:lang")), (EFun "svg.XmlLang")); ((EStr (B "xml:space")), (EFun "svg.XmlSpace")); ((EStr (B "y")), (EFun "svg.Y")); ((EStr (B "y1")), (EFun "svg.Y1")); ((EStr (B "y2")), (EFun "svg.Y2"))])]);
     (SReturn [(ELoc "elems"); (ELoc "attrs")])])).

Definition lib_funcs : list (string * fundecl) :=
  [("html.Text", f_html_Text);
   ("html.Comment", f_html_Comment);
   ("html.PI", f_html_PI);
   ("html.A", f_html_A);
   ("html.Abbr", f_html_Abbr);
   ("html.Address", f_html_Address);
   ("html.Area", f_html_Area);
   ("html.Article", f_html_Article);
   ("html.Aside", f_html_Aside);
   ("html.Audio", f_html_Audio);
   ("html.B", f_html_B);
   ("html.Base", f_html_Base);
   ("html.BlockQuote", f_html_BlockQuote);
   ("html.Body", f_html_Body);
   ("html.Br", f_html_Br);
   ("html.Button", f_html_Button);
   ("html.Canvas", f_html_Canvas);
   ("html.Caption", f_html_Caption);
   ("html.Cite", f_html_Cite);
   ("html.Code", f_html_Code);
   ("html.Col", f_html_Col);
   ("html.ColGroup", f_html_ColGroup);
   ("html.DataElement", f_html_DataElement);
   ("html.DataList", f_html_DataList);
   ("html.Dd", f_html_Dd);
   ("html.Del", f_html_Del);
   ("html.Dfn", f_html_Dfn);
   ("html.Dt", f_html_Dt);
   ("html.Details", f_html_Details);
   ("html.Dialog", f_html_Dialog);
   ("html.Div", f_html_Div);
   ("html.Dl", f_html_Dl);
   ("html.Em", f_html_Em);
   ("html.Embed", f_html_Embed);
   ("html.Form", f_html_Form);
   ("html.FieldSet", f_html_FieldSet);
   ("html.FigCaption", f_html_FigCaption);
   ("html.Figure", f_html_Figure);
   ("html.Footer", f_html_Footer);
   ("html.H1", f_html_H1);
   ("html.H2", f_html_H2);
   ("html.H3", f_html_H3);
   ("html.H4", f_html_H4);
   ("html.H5", f_html_H5);
   ("html.H6", f_html_H6);
   ("html.Head", f_html_Head);
   ("html.Header", f_html_Header);
   ("html.HGroup", f_html_HGroup);
   ("html.Hr", f_html_Hr);
   ("html.Html", f_html_Html);
   ("html.I", f_html_I);
   ("html.IFrame", f_html_IFrame);
   ("html.Img", f_html_Img);
   ("html.Input", f_html_Input);
   ("html.Ins", f_html_Ins);
   ("html.Kbd", f_html_Kbd);
   ("html.Label", f_html_Label);
   ("html.Legend", f_html_Legend);
   ("html.Li", f_html_Li);
   ("html.Link", f_html_Link);
   ("html.Main", f_html_Main);
   ("html.Mark", f_html_Mark);
   ("html.Menu", f_html_Menu);
   ("html.Meta", f_html_Meta);
   ("html.Meter", f_html_Meter);
   ("html.Nav", f_html_Nav);
   ("html.NoScript", f_html_NoScript);
   ("html.Object", f_html_Object);
   ("html.Ol", f_html_Ol);
   ("html.OptGroup", f_html_OptGroup);
   ("html.Option", f_html_Option);
   ("html.P", f_html_P);
   ("html.Para", f_html_Para);
   ("html.Param", f_html_Param);
   ("html.Picture", f_html_Picture);
   ("html.Pre", f_html_Pre);
   ("html.Progress", f_html_Progress);
   ("html.Q", f_html_Q);
   ("html.S", f_html_S);
   ("html.Samp", f_html_Samp);
   ("html.Script", f_html_Script);
   ("html.Section", f_html_Section);
   ("html.Select", f_html_Select);
   ("html.Slot", f_html_Slot);
   ("html.Small", f_html_Small);
   ("html.Source", f_html_Source);
   ("html.Span", f_html_Span);
   ("html.Strong", f_html_Strong);
   ("html.StyleElement", f_html_StyleElement);
   ("html.Sub", f_html_Sub);
   ("html.Sup", f_html_Sup);
   ("html.Summary", f_html_Summary);
   ("html.Table", f_html_Table);
   ("html.TBody", f_html_TBody);
   ("html.Td", f_html_Td);
   ("html.Template", f_html_Template);
   ("html.Textarea", f_html_Textarea);
   ("html.TFoot", f_html_TFoot);
   ("html.Th", f_html_Th);
   ("html.THead", f_html_THead);
   ("html.Time", f_html_Time);
   ("html.TitleElement", f_html_TitleElement);
   ("html.Tr", f_html_Tr);
   ("html.Ul", f_html_Ul);
   ("html.U", f_html_U);
   ("html.Var", f_html_Var);
   ("html.Video", f_html_Video);
   ("html.Wbr", f_html_Wbr);
   ("html.Bdi", f_html_Bdi);
   ("html.Bdo", f_html_Bdo);
   ("html.Map", f_html_Map);
   ("html.Output", f_html_Output);
   ("html.Rp", f_html_Rp);
   ("html.Rt", f_html_Rt);
   ("html.Ruby", f_html_Ruby);
   ("html.Search", f_html_Search);
   ("html.Track", f_html_Track);
   ("html.Async", f_html_Async);
   ("html.AutoFocus", f_html_AutoFocus);
   ("html.AutoPlay", f_html_AutoPlay);
   ("html.Checked", f_html_Checked);
   ("html.Controls", f_html_Controls);
   ("html.CrossOrigin", f_html_CrossOrigin);
   ("html.DateTime", f_html_DateTime);
   ("html.Defer", f_html_Defer);
   ("html.Disabled", f_html_Disabled);
   ("html.Download", f_html_Download);
   ("html.Draggable", f_html_Draggable);
   ("html.Loop", f_html_Loop);
   ("html.Multiple", f_html_Multiple);
   ("html.Muted", f_html_Muted);
   ("html.PlaysInline", f_html_PlaysInline);
   ("html.ReadOnly", f_html_ReadOnly);
   ("html.Required", f_html_Required);
   ("html.Selected", f_html_Selected);
   ("html.Accept", f_html_Accept);
   ("html.Action", f_html_Action);
   ("html.Alt", f_html_Alt);
   ("html.Aria", f_html_Aria);
   ("html.As", f_html_As);
   ("html.AutoComplete", f_html_AutoComplete);
   ("html.Charset", f_html_Charset);
   ("html.CiteAttr", f_html_CiteAttr);
   ("html.Class", f_html_Class);
   ("html.Cols", f_html_Cols);
   ("html.ColSpan", f_html_ColSpan);
   ("html.Content", f_html_Content);
   ("html.ContentEditable", f_html_ContentEditable);
   ("html.Dir", f_html_Dir);
   ("html.Data", f_html_Data);
   ("html.EncType", f_html_EncType);
   ("html.For", f_html_For);
   ("html.FormAttr", f_html_FormAttr);
   ("html.NoValidate", f_html_NoValidate);
   ("html.FormNoValidate", f_html_FormNoValidate);
   ("html.Height", f_html_Height);
   ("html.Hidden", f_html_Hidden);
   ("html.Href", f_html_Href);
   ("html.Id", f_html_Id);
   ("html.Integrity", f_html_Integrity);
   ("html.Lang", f_html_Lang);
   ("html.List", f_html_List);
   ("html.Loading", f_html_Loading);
   ("html.Max", f_html_Max);
   ("html.MaxLength", f_html_MaxLength);
   ("html.Method", f_html_Method);
   ("html.Min", f_html_Min);
   ("html.MinLength", f_html_MinLength);
   ("html.Name", f_html_Name);
   ("html.Pattern", f_html_Pattern);
   ("html.Placeholder", f_html_Placeholder);
   ("html.PopOver", f_html_PopOver);
   ("html.PopOverTarget", f_html_PopOverTarget);
   ("html.PopOverTargetAction", f_html_PopOverTargetAction);
   ("html.Poster", f_html_Poster);
   ("html.Preload", f_html_Preload);
   ("html.ReferrerPolicy", f_html_ReferrerPolicy);
   ("html.Rel", f_html_Rel);
   ("html.Role", f_html_Role);
   ("html.Rows", f_html_Rows);
   ("html.RowSpan", f_html_RowSpan);
   ("html.SlotAttr", f_html_SlotAttr);
   ("html.Src", f_html_Src);
   ("html.SrcSet", f_html_SrcSet);
   ("html.Step", f_html_Step);
   ("html.Style", f_html_Style);
   ("html.TabIndex", f_html_TabIndex);
   ("html.Target", f_html_Target);
   ("html.Title", f_html_Title);
   ("html.Type", f_html_Type);
   ("html.Value", f_html_Value);
   ("html.Width", f_html_Width);
   ("html.AllowFullScreen", f_html_AllowFullScreen);
   ("html.Default", f_html_Default);
   ("html.Inert", f_html_Inert);
   ("html.IsMap", f_html_IsMap);
   ("html.ItemScope", f_html_ItemScope);
   ("html.NoModule", f_html_NoModule);
   ("html.Open", f_html_Open);
   ("html.Reversed", f_html_Reversed);
   ("html.Spellcheck", f_html_Spellcheck);
   ("html.Translate", f_html_Translate);
   ("html.AriaAtomic", f_html_AriaAtomic);
   ("html.AriaBusy", f_html_AriaBusy);
   ("html.AriaChecked", f_html_AriaChecked);
   ("html.AriaControls", f_html_AriaControls);
   ("html.AriaDescribedBy", f_html_AriaDescribedBy);
   ("html.AriaDisabled", f_html_AriaDisabled);
   ("html.AriaExpanded", f_html_AriaExpanded);
   ("html.AriaFlowTo", f_html_AriaFlowTo);
   ("html.AriaHidden", f_html_AriaHidden);
   ("html.AriaInvalid", f_html_AriaInvalid);
   ("html.AriaLabel", f_html_AriaLabel);
   ("html.AriaLabelledBy", f_html_AriaLabelledBy);
   ("html.AriaLive", f_html_AriaLive);
   ("html.AriaOwns", f_html_AriaOwns);
   ("html.AriaPlaceholder", f_html_AriaPlaceholder);
   ("html.AriaPosInSet", f_html_AriaPosInSet);
   ("html.AriaPressed", f_html_AriaPressed);
   ("html.AriaReadonly", f_html_AriaReadonly);
   ("html.AriaRelevant", f_html_AriaRelevant);
   ("html.AriaRequired", f_html_AriaRequired);
   ("html.AriaSelected", f_html_AriaSelected);
   ("html.AriaSetSize", f_html_AriaSetSize);
   ("html.AriaValueMax", f_html_AriaValueMax);
   ("html.AriaValueMin", f_html_AriaValueMin);
   ("html.AriaValueNow", f_html_AriaValueNow);
   ("html.AriaValueText", f_html_AriaValueText);
   ("html.OnAbort", f_html_OnAbort);
   ("html.OnBeforeUnload", f_html_OnBeforeUnload);
   ("html.OnBlur", f_html_OnBlur);
   ("html.OnCanPlay", f_html_OnCanPlay);
   ("html.OnCanPlayThrough", f_html_OnCanPlayThrough);
   ("html.OnChange", f_html_OnChange);
   ("html.OnClick", f_html_OnClick);
   ("html.OnContextMenu", f_html_OnContextMenu);
   ("html.OnCopy", f_html_OnCopy);
   ("html.OnCut", f_html_OnCut);
   ("html.OnDblClick", f_html_OnDblClick);
   ("html.OnDrag", f_html_OnDrag);
   ("html.OnDragEnd", f_html_OnDragEnd);
   ("html.OnDragEnter", f_html_OnDragEnter);
   ("html.OnDragLeave", f_html_OnDragLeave);
   ("html.OnDragOver", f_html_OnDragOver);
   ("html.OnDragStart", f_html_OnDragStart);
   ("html.OnDrop", f_html_OnDrop);
   ("html.OnDurationChange", f_html_OnDurationChange);
   ("html.OnEnded", f_html_OnEnded);
   ("html.OnError", f_html_OnError);
   ("html.OnFocus", f_html_OnFocus);
   ("html.OnHashChange", f_html_OnHashChange);
   ("html.OnInput", f_html_OnInput);
   ("html.OnInvalid", f_html_OnInvalid);
   ("html.OnKeyDown", f_html_OnKeyDown);
   ("html.OnKeyPress", f_html_OnKeyPress);
   ("html.OnKeyUp", f_html_OnKeyUp);
   ("html.OnLoad", f_html_OnLoad);
   ("html.OnLoadedData", f_html_OnLoadedData);
   ("html.OnLoadedMetadata", f_html_OnLoadedMetadata);
   ("html.OnMouseDown", f_html_OnMouseDown);
   ("html.OnMouseEnter", f_html_OnMouseEnter);
   ("html.OnMouseLeave", f_html_OnMouseLeave);
   ("html.OnMouseMove", f_html_OnMouseMove);
   ("html.OnMouseOut", f_html_OnMouseOut);
   ("html.OnMouseOver", f_html_OnMouseOver);
   ("html.OnMouseUp", f_html_OnMouseUp);
   ("html.OnPageHide", f_html_OnPageHide);
   ("html.OnPageShow", f_html_OnPageShow);
   ("html.OnPaste", f_html_OnPaste);
   ("html.OnPause", f_html_OnPause);
   ("html.OnPlay", f_html_OnPlay);
   ("html.OnPlaying", f_html_OnPlaying);
   ("html.OnPopState", f_html_OnPopState);
   ("html.OnProgress", f_html_OnProgress);
   ("html.OnRateChange", f_html_OnRateChange);
   ("html.OnReset", f_html_OnReset);
   ("html.OnResize", f_html_OnResize);
   ("html.OnScroll", f_html_OnScroll);
   ("html.OnSeeked", f_html_OnSeeked);
   ("html.OnSeeking", f_html_OnSeeking);
   ("html.OnSelect", f_html_OnSelect);
   ("html.OnStalled", f_html_OnStalled);
   ("html.OnSubmit", f_html_OnSubmit);
   ("html.OnSuspend", f_html_OnSuspend);
   ("html.OnTimeUpdate", f_html_OnTimeUpdate);
   ("html.OnToggle", f_html_OnToggle);
   ("html.OnUnload", f_html_OnUnload);
   ("html.OnVolumeChange", f_html_OnVolumeChange);
   ("html.OnWaiting", f_html_OnWaiting);
   ("html.OnPointerDown", f_html_OnPointerDown);
   ("html.OnPointerUp", f_html_OnPointerUp);
   ("html.OnPointerMove", f_html_OnPointerMove);
   ("html.OnPointerEnter", f_html_OnPointerEnter);
   ("html.OnPointerLeave", f_html_OnPointerLeave);
   ("html.OnPointerOver", f_html_OnPointerOver);
   ("html.OnPointerOut", f_html_OnPointerOut);
   ("html.OnPointerCancel", f_html_OnPointerCancel);
   ("html.OnTouchStart", f_html_OnTouchStart);
   ("html.OnTouchMove", f_html_OnTouchMove);
   ("html.OnTouchEnd", f_html_OnTouchEnd);
   ("html.OnTouchCancel", f_html_OnTouchCancel);
   ("html.OnAnimationStart", f_html_OnAnimationStart);
   ("html.OnAnimationEnd", f_html_OnAnimationEnd);
   ("html.OnAnimationIteration", f_html_OnAnimationIteration);
   ("html.OnTransitionEnd", f_html_OnTransitionEnd);
   ("html.OnBeforeInput", f_html_OnBeforeInput);
   ("html.OnSlotChange", f_html_OnSlotChange);
   ("html.OnFormData", f_html_OnFormData);
   ("html.AccessKey", f_html_AccessKey);
   ("html.AutoCapitalize", f_html_AutoCapitalize);
   ("html.AutoCorrect", f_html_AutoCorrect);
   ("html.EnterKeyHint", f_html_EnterKeyHint);
   ("html.ExportParts", f_html_ExportParts);
   ("html.InputMode", f_html_InputMode);
   ("html.Is", f_html_Is);
   ("html.ItemId", f_html_ItemId);
   ("html.ItemProp", f_html_ItemProp);
   ("html.ItemRef", f_html_ItemRef);
   ("html.ItemType", f_html_ItemType);
   ("html.Nonce", f_html_Nonce);
   ("html.Part", f_html_Part);
   ("html.WritingSuggestions", f_html_WritingSuggestions);
   ("svg.Text", f_svg_Text);
   ("svg.Comment", f_svg_Comment);
   ("svg.Svg", f_svg_Svg);
   ("svg.AltGlyph", f_svg_AltGlyph);
   ("svg.Animate", f_svg_Animate);
   ("svg.AnimateMotion", f_svg_AnimateMotion);
   ("svg.AnimateTransform", f_svg_AnimateTransform);
   ("svg.Circle", f_svg_Circle);
   ("svg.ClipPath", f_svg_ClipPath);
   ("svg.Defs", f_svg_Defs);
   ("svg.Desc", f_svg_Desc);
   ("svg.Discard", f_svg_Discard);
   ("svg.Ellipse", f_svg_Ellipse);
   ("svg.FeBlend", f_svg_FeBlend);
   ("svg.FeColorMatrix", f_svg_FeColorMatrix);
   ("svg.FeComponentTransfer", f_svg_FeComponentTransfer);
   ("svg.FeComposite", f_svg_FeComposite);
   ("svg.FeConvolveMatrix", f_svg_FeConvolveMatrix);
   ("svg.FeDiffuseLighting", f_svg_FeDiffuseLighting);
   ("svg.FeDisplacementMap", f_svg_FeDisplacementMap);
   ("svg.FeDistantLight", f_svg_FeDistantLight);
   ("svg.FeDropShadow", f_svg_FeDropShadow);
   ("svg.FeFlood", f_svg_FeFlood);
   ("svg.FeFuncA", f_svg_FeFuncA);
   ("svg.FeFuncB", f_svg_FeFuncB);
   ("svg.FeFuncG", f_svg_FeFuncG);
   ("svg.FeFuncR", f_svg_FeFuncR);
   ("svg.FeGaussianBlur", f_svg_FeGaussianBlur);
   ("svg.FeImage", f_svg_FeImage);
   ("svg.FeMerge", f_svg_FeMerge);
   ("svg.FeMergeNode", f_svg_FeMergeNode);
   ("svg.FeMorphology", f_svg_FeMorphology);
   ("svg.FeOffset", f_svg_FeOffset);
   ("svg.FePointLight", f_svg_FePointLight);
   ("svg.FeSpecularLighting", f_svg_FeSpecularLighting);
   ("svg.FeSpotLight", f_svg_FeSpotLight);
   ("svg.FeTile", f_svg_FeTile);
   ("svg.FeTurbulence", f_svg_FeTurbulence);
   ("svg.Filter", f_svg_Filter);
   ("svg.ForeignObject", f_svg_ForeignObject);
   ("svg.G", f_svg_G);
   ("svg.Glyph", f_svg_Glyph);
   ("svg.Line", f_svg_Line);
   ("svg.LinearGradient", f_svg_LinearGradient);
   ("svg.Marker", f_svg_Marker);
   ("svg.Mask", f_svg_Mask);
   ("svg.Metadata", f_svg_Metadata);
   ("svg.Mpath", f_svg_Mpath);
   ("svg.Path", f_svg_Path);
   ("svg.Pattern", f_svg_Pattern);
   ("svg.Polygon", f_svg_Polygon);
   ("svg.Polyline", f_svg_Polyline);
   ("svg.RadialGradient", f_svg_RadialGradient);
   ("svg.Rect", f_svg_Rect);
   ("svg.Script", f_svg_Script);
   ("svg.Set", f_svg_Set);
   ("svg.SolidColor", f_svg_SolidColor);
   ("svg.Stop", f_svg_Stop);
   ("svg.StyleElement", f_svg_StyleElement);
   ("svg.Symbol", f_svg_Symbol);
   ("svg.TextElement", f_svg_TextElement);
   ("svg.TextPath", f_svg_TextPath);
   ("svg.Title", f_svg_Title);
   ("svg.TRef", f_svg_TRef);
   ("svg.TSpan", f_svg_TSpan);
   ("svg.Use", f_svg_Use);
   ("svg.Switch", f_svg_Switch);
   ("svg.View", f_svg_View);
   ("svg.Accumulate", f_svg_Accumulate);
   ("svg.Additive", f_svg_Additive);
   ("svg.AlignmentBaseline", f_svg_AlignmentBaseline);
   ("svg.AttributeName", f_svg_AttributeName);
   ("svg.AttributeType", f_svg_AttributeType);
   ("svg.BaselineShift", f_svg_BaselineShift);
   ("svg.Begin", f_svg_Begin);
   ("svg.By", f_svg_By);
   ("svg.CalcMode", f_svg_CalcMode);
   ("svg.Class", f_svg_Class);
   ("svg.Clip", f_svg_Clip);
   ("svg.ClipPathAttr", f_svg_ClipPathAttr);
   ("svg.ClipRule", f_svg_ClipRule);
   ("svg.Color", f_svg_Color);
   ("svg.ColorInterpolation", f_svg_ColorInterpolation);
   ("svg.ColorInterpolationFilters", f_svg_ColorInterpolationFilters);
   ("svg.ColorProfile", f_svg_ColorProfile);
   ("svg.ColorRendering", f_svg_ColorRendering);
   ("svg.Cursor", f_svg_Cursor);
   ("svg.Cx", f_svg_Cx);
   ("svg.Cy", f_svg_Cy);
   ("svg.D", f_svg_D);
   ("svg.Direction", f_svg_Direction);
   ("svg.Display", f_svg_Display);
   ("svg.DominantBaseline", f_svg_DominantBaseline);
   ("svg.Dur", f_svg_Dur);
   ("svg.Dx", f_svg_Dx);
   ("svg.Dy", f_svg_Dy);
   ("svg.EnableBackground", f_svg_EnableBackground);
   ("svg.End", f_svg_End);
   ("svg.ExternalResourcesRequired", f_svg_ExternalResourcesRequired);
   ("svg.Fill", f_svg_Fill);
   ("svg.FillOpacity", f_svg_FillOpacity);
   ("svg.FillRule", f_svg_FillRule);
   ("svg.FilterAttr", f_svg_FilterAttr);
   ("svg.FilterUnits", f_svg_FilterUnits);
   ("svg.FloodColor", f_svg_FloodColor);
   ("svg.FloodOpacity", f_svg_FloodOpacity);
   ("svg.FontFamily", f_svg_FontFamily);
   ("svg.FontSize", f_svg_FontSize);
   ("svg.FontSizeAdjust", f_svg_FontSizeAdjust);
   ("svg.FontStretch", f_svg_FontStretch);
   ("svg.FontStyle", f_svg_FontStyle);
   ("svg.FontVariant", f_svg_FontVariant);
   ("svg.FontWeight", f_svg_FontWeight);
   ("svg.From", f_svg_From);
   ("svg.Fx", f_svg_Fx);
   ("svg.Fy", f_svg_Fy);
   ("svg.GlyphOrientationHorizontal", f_svg_GlyphOrientationHorizontal);
   ("svg.GlyphOrientationVertical", f_svg_GlyphOrientationVertical);
   ("svg.GradientTransform", f_svg_GradientTransform);
   ("svg.GradientUnits", f_svg_GradientUnits);
   ("svg.Height", f_svg_Height);
   ("svg.Href", f_svg_Href);
   ("svg.Id", f_svg_Id);
   ("svg.ImageRendering", f_svg_ImageRendering);
   ("svg.Kerning", f_svg_Kerning);
   ("svg.KeyPoints", f_svg_KeyPoints);
   ("svg.KeySplines", f_svg_KeySplines);
   ("svg.KeyTimes", f_svg_KeyTimes);
   ("svg.LengthAdjust", f_svg_LengthAdjust);
   ("svg.LetterSpacing", f_svg_LetterSpacing);
   ("svg.LightingColor", f_svg_LightingColor);
   ("svg.MarkerEnd", f_svg_MarkerEnd);
   ("svg.MarkerMid", f_svg_MarkerMid);
   ("svg.MarkerStart", f_svg_MarkerStart);
   ("svg.MarkerHeight", f_svg_MarkerHeight);
   ("svg.MarkerUnits", f_svg_MarkerUnits);
   ("svg.MarkerWidth", f_svg_MarkerWidth);
   ("svg.MaskAttr", f_svg_MaskAttr);
   ("svg.OnBlur", f_svg_OnBlur);
   ("svg.OnClick", f_svg_OnClick);
   ("svg.OnFocus", f_svg_OnFocus);
   ("svg.OnLoad", f_svg_OnLoad);
   ("svg.OnMouseDown", f_svg_OnMouseDown);
   ("svg.OnMouseMove", f_svg_OnMouseMove);
   ("svg.OnMouseOut", f_svg_OnMouseOut);
   ("svg.OnMouseOver", f_svg_OnMouseOver);
   ("svg.OnMouseUp", f_svg_OnMouseUp);
   ("svg.OnUnload", f_svg_OnUnload);
   ("svg.Opacity", f_svg_Opacity);
   ("svg.Orient", f_svg_Orient);
   ("svg.PathAttr", f_svg_PathAttr);
   ("svg.PathLength", f_svg_PathLength);
   ("svg.PatternContentUnits", f_svg_PatternContentUnits);
   ("svg.PatternTransform", f_svg_PatternTransform);
   ("svg.PatternUnits", f_svg_PatternUnits);
   ("svg.PointerEvents", f_svg_PointerEvents);
   ("svg.Points", f_svg_Points);
   ("svg.PreserveAspectRatio", f_svg_PreserveAspectRatio);
   ("svg.PrimitiveUnits", f_svg_PrimitiveUnits);
   ("svg.R", f_svg_R);
   ("svg.RefX", f_svg_RefX);
   ("svg.RefY", f_svg_RefY);
   ("svg.RepeatCount", f_svg_RepeatCount);
   ("svg.RepeatDur", f_svg_RepeatDur);
   ("svg.RequiredExtensions", f_svg_RequiredExtensions);
   ("svg.RequiredFeatures", f_svg_RequiredFeatures);
   ("svg.Rotate", f_svg_Rotate);
   ("svg.Rx", f_svg_Rx);
   ("svg.Ry", f_svg_Ry);
   ("svg.ShapeRendering", f_svg_ShapeRendering);
   ("svg.SpreadMethod", f_svg_SpreadMethod);
   ("svg.StopColor", f_svg_StopColor);
   ("svg.StopOpacity", f_svg_StopOpacity);
   ("svg.Stroke", f_svg_Stroke);
   ("svg.StrokeDashArray", f_svg_StrokeDashArray);
   ("svg.StrokeDashOffset", f_svg_StrokeDashOffset);
   ("svg.StrokeLineCap", f_svg_StrokeLineCap);
   ("svg.StrokeLineJoin", f_svg_StrokeLineJoin);
   ("svg.StrokeMiterLimit", f_svg_StrokeMiterLimit);
   ("svg.StrokeOpacity", f_svg_StrokeOpacity);
   ("svg.StrokeWidth", f_svg_StrokeWidth);
   ("svg.Style", f_svg_Style);
   ("svg.SystemLanguage", f_svg_SystemLanguage);
   ("svg.TabIndex", f_svg_TabIndex);
   ("svg.TextAnchor", f_svg_TextAnchor);
   ("svg.TextDecoration", f_svg_TextDecoration);
   ("svg.TextRendering", f_svg_TextRendering);
   ("svg.TextLength", f_svg_TextLength);
   ("svg.To", f_svg_To);
   ("svg.Type", f_svg_Type);
   ("svg.UnicodeBidi", f_svg_UnicodeBidi);
   ("svg.Values", f_svg_Values);
   ("svg.Visibility", f_svg_Visibility);
   ("svg.Width", f_svg_Width);
   ("svg.WordSpacing", f_svg_WordSpacing);
   ("svg.WritingMode", f_svg_WritingMode);
   ("svg.X", f_svg_X);
   ("svg.X1", f_svg_X1);
   ("svg.X2", f_svg_X2);
   ("svg.XlinkActuate", f_svg_XlinkActuate);
   ("svg.XlinkArcrole", f_svg_XlinkArcrole);
   ("svg.XlinkHref", f_svg_XlinkHref);
   ("svg.XlinkRole", f_svg_XlinkRole);
   ("svg.XlinkShow", f_svg_XlinkShow);
   ("svg.XlinkTitle", f_svg_XlinkTitle);
   ("svg.XmlBase", f_svg_XmlBase);
   ("svg.XmlLang", f_svg_XmlLang);
   ("svg.XmlSpace", f_svg_XmlSpace);
   ("svg.Y", f_svg_Y);
   ("svg.Y1", f_svg_Y1);
   ("svg.Y2", f_svg_Y2);
   ("css.Display", f_css_Display);
   ("css.Position", f_css_Position);
   ("css.Top", f_css_Top);
   ("css.Right", f_css_Right);
   ("css.Bottom", f_css_Bottom);
   ("css.Left", f_css_Left);
   ("css.ZIndex", f_css_ZIndex);
   ("css.Float", f_css_Float);
   ("css.Clear", f_css_Clear);
   ("css.Flex", f_css_Flex);
   ("css.FlexGrow", f_css_FlexGrow);
   ("css.FlexShrink", f_css_FlexShrink);
   ("css.FlexBasis", f_css_FlexBasis);
   ("css.JustifyContent", f_css_JustifyContent);
   ("css.AlignItems", f_css_AlignItems);
   ("css.AlignContent", f_css_AlignContent);
   ("css.AlignSelf", f_css_AlignSelf);
   ("css.Gap", f_css_Gap);
   ("css.RowGap", f_css_RowGap);
   ("css.ColumnGap", f_css_ColumnGap);
   ("css.Width", f_css_Width);
   ("css.Height", f_css_Height);
   ("css.MinWidth", f_css_MinWidth);
   ("css.MaxWidth", f_css_MaxWidth);
   ("css.MinHeight", f_css_MinHeight);
   ("css.MaxHeight", f_css_MaxHeight);
   ("css.Margin", f_css_Margin);
   ("css.MarginTop", f_css_MarginTop);
   ("css.MarginRight", f_css_MarginRight);
   ("css.MarginBottom", f_css_MarginBottom);
   ("css.MarginLeft", f_css_MarginLeft);
   ("css.Padding", f_css_Padding);
   ("css.PaddingTop", f_css_PaddingTop);
   ("css.PaddingRight", f_css_PaddingRight);
   ("css.PaddingBottom", f_css_PaddingBottom);
   ("css.PaddingLeft", f_css_PaddingLeft);
   ("css.Border", f_css_Border);
   ("css.BorderWidth", f_css_BorderWidth);
   ("css.BorderColor", f_css_BorderColor);
   ("css.BorderStyle", f_css_BorderStyle);
   ("css.BorderRadius", f_css_BorderRadius);
   ("css.BorderTop", f_css_BorderTop);
   ("css.BorderBottom", f_css_BorderBottom);
   ("css.BorderLeft", f_css_BorderLeft);
   ("css.BorderRight", f_css_BorderRight);
   ("css.Background", f_css_Background);
   ("css.BackgroundColor", f_css_BackgroundColor);
   ("css.BackgroundImage", f_css_BackgroundImage);
   ("css.BackgroundSize", f_css_BackgroundSize);
   ("css.BackgroundPosition", f_css_BackgroundPosition);
   ("css.BackgroundRepeat", f_css_BackgroundRepeat);
   ("css.Color", f_css_Color);
   ("css.FontSize", f_css_FontSize);
   ("css.FontWeight", f_css_FontWeight);
   ("css.FontFamily", f_css_FontFamily);
   ("css.LineHeight", f_css_LineHeight);
   ("css.LetterSpacing", f_css_LetterSpacing);
   ("css.TextAlign", f_css_TextAlign);
   ("css.TextTransform", f_css_TextTransform);
   ("css.TextDecoration", f_css_TextDecoration);
   ("css.WhiteSpace", f_css_WhiteSpace);
   ("css.WordBreak", f_css_WordBreak);
   ("css.Opacity", f_css_Opacity);
   ("css.BoxShadow", f_css_BoxShadow);
   ("css.Visibility", f_css_Visibility);
   ("css.Overflow", f_css_Overflow);
   ("css.OverflowX", f_css_OverflowX);
   ("css.OverflowY", f_css_OverflowY);
   ("css.Cursor", f_css_Cursor);
   ("css.Transition", f_css_Transition);
   ("css.TransitionDuration", f_css_TransitionDuration);
   ("css.TransitionTimingFunction", f_css_TransitionTimingFunction);
   ("css.Transform", f_css_Transform);
   ("css.Animation", f_css_Animation);
   ("css.UserSelect", f_css_UserSelect);
   ("css.PointerEvents", f_css_PointerEvents);
   ("css.Isolation", f_css_Isolation);
   ("css.ObjectFit", f_css_ObjectFit);
   ("css.ObjectPosition", f_css_ObjectPosition);
   ("css.BoxSizing", f_css_BoxSizing);
   ("css.AspectRatio", f_css_AspectRatio);
   ("css.Contain", f_css_Contain);
   ("css.ContentVisibility", f_css_ContentVisibility);
   ("css.Resize", f_css_Resize);
   ("css.GridTemplateColumns", f_css_GridTemplateColumns);
   ("css.GridTemplateRows", f_css_GridTemplateRows);
   ("css.GridColumn", f_css_GridColumn);
   ("css.GridRow", f_css_GridRow);
   ("css.GridArea", f_css_GridArea);
   ("css.GridAutoFlow", f_css_GridAutoFlow);
   ("css.PlaceItems", f_css_PlaceItems);
   ("css.PlaceContent", f_css_PlaceContent);
   ("css.PlaceSelf", f_css_PlaceSelf);
   ("css.FontStyle", f_css_FontStyle);
   ("css.FontVariant", f_css_FontVariant);
   ("css.FontStretch", f_css_FontStretch);
   ("css.Direction", f_css_Direction);
   ("css.TabSize", f_css_TabSize);
   ("css.ListStyle", f_css_ListStyle);
   ("css.ListStyleType", f_css_ListStyleType);
   ("css.ListStylePosition", f_css_ListStylePosition);
   ("css.ListStyleImage", f_css_ListStyleImage);
   ("css.BorderCollapse", f_css_BorderCollapse);
   ("css.BorderSpacing", f_css_BorderSpacing);
   ("css.TableLayout", f_css_TableLayout);
   ("css.EmptyCells", f_css_EmptyCells);
   ("css.Filter", f_css_Filter);
   ("css.BackdropFilter", f_css_BackdropFilter);
   ("css.MixBlendMode", f_css_MixBlendMode);
   ("css.BoxDecorationBreak", f_css_BoxDecorationBreak);
   ("css.ScrollBehavior", f_css_ScrollBehavior);
   ("css.ScrollSnapType", f_css_ScrollSnapType);
   ("css.ScrollSnapAlign", f_css_ScrollSnapAlign);
   ("css.ScrollMargin", f_css_ScrollMargin);
   ("css.ScrollPadding", f_css_ScrollPadding);
   ("css.AnimationName", f_css_AnimationName);
   ("css.AnimationDuration", f_css_AnimationDuration);
   ("css.AnimationTimingFunction", f_css_AnimationTimingFunction);
   ("css.AnimationDelay", f_css_AnimationDelay);
   ("css.AnimationIterationCount", f_css_AnimationIterationCount);
   ("css.AnimationDirection", f_css_AnimationDirection);
   ("css.AnimationFillMode", f_css_AnimationFillMode);
   ("css.AnimationPlayState", f_css_AnimationPlayState);
   ("css.TransitionProperty", f_css_TransitionProperty);
   ("css.TransitionDelay", f_css_TransitionDelay);
   ("css.TouchAction", f_css_TouchAction);
   ("css.WillChange", f_css_WillChange);
   ("css.CaretColor", f_css_CaretColor);
   ("css.ScrollSnapStop", f_css_ScrollSnapStop);
   ("css.Speak", f_css_Speak);
   ("css.PageBreakBefore", f_css_PageBreakBefore);
   ("css.PageBreakAfter", f_css_PageBreakAfter);
   ("css.PageBreakInside", f_css_PageBreakInside);
   ("css.styleAttribute", f_css_styleAttribute);
   ("css.Px", f_css_Px);
   ("css.Pt", f_css_Pt);
   ("css.Pc", f_css_Pc);
   ("css.In", f_css_In);
   ("css.Cm", f_css_Cm);
   ("css.Mm", f_css_Mm);
   ("css.Em", f_css_Em);
   ("css.Rem", f_css_Rem);
   ("css.Percent", f_css_Percent);
   ("css.Vw", f_css_Vw);
   ("css.Vh", f_css_Vh);
   ("css.VMin", f_css_VMin);
   ("css.VMax", f_css_VMax);
   ("css.Ch", f_css_Ch);
   ("css.Ex", f_css_Ex);
   ("htmx.Get", f_htmx_Get);
   ("htmx.Post", f_htmx_Post);
   ("htmx.Put", f_htmx_Put);
   ("htmx.Delete", f_htmx_Delete);
   ("htmx.Patch", f_htmx_Patch);
   ("htmx.Target", f_htmx_Target);
   ("htmx.Swap", f_htmx_Swap);
   ("htmx.SwapOob", f_htmx_SwapOob);
   ("htmx.Trigger", f_htmx_Trigger);
   ("htmx.Include", f_htmx_Include);
   ("htmx.Select", f_htmx_Select);
   ("htmx.Params", f_htmx_Params);
   ("htmx.PushURL", f_htmx_PushURL);
   ("htmx.ReplaceURL", f_htmx_ReplaceURL);
   ("htmx.On", f_htmx_On);
   ("htmx.OnBeforeRequest", f_htmx_OnBeforeRequest);
   ("htmx.OnSend", f_htmx_OnSend);
   ("htmx.OnAfterRequest", f_htmx_OnAfterRequest);
   ("htmx.OnBeforeSwap", f_htmx_OnBeforeSwap);
   ("htmx.OnAfterSwap", f_htmx_OnAfterSwap);
   ("htmx.OnResponseError", f_htmx_OnResponseError);
   ("htmx.OnSendError", f_htmx_OnSendError);
   ("htmx.Confirm", f_htmx_Confirm);
   ("htmx.Disable", f_htmx_Disable);
   ("htmx.DisabledElt", f_htmx_DisabledElt);
   ("htmx.Boost", f_htmx_Boost);
   ("htmx.Ext", f_htmx_Ext);
   ("htmx.Encoding", f_htmx_Encoding);
   ("htmx.HistoryElt", f_htmx_HistoryElt);
   ("htmx.Indicator", f_htmx_Indicator);
   ("htmx.Request", f_htmx_Request);
   ("htmx.Vals", f_htmx_Vals);
   ("htmx.Vars", f_htmx_Vars);
   ("htmx.Var", f_htmx_Var);
   ("htmx.Headers", f_htmx_Headers);
   ("htmx.HeadersJS", f_htmx_HeadersJS);
   ("HeadersMap.serialize", m_HeadersMap_serialize);
   ("htmx.Inherit", f_htmx_Inherit);
   ("htmx.Disinherit", f_htmx_Disinherit);
   ("htmx.Sync", f_htmx_Sync);
   ("htmx.Preserve", f_htmx_Preserve);
   ("htmx.Prompt", f_htmx_Prompt);
   ("htmx.Validate", f_htmx_Validate);
   ("html.GenerateCode", f_html_GenerateCode);
   ("html.mappings", f_html_mappings);
   ("svg.GenerateCode", f_svg_GenerateCode);
   ("svg.mappings", f_svg_mappings)].

Definition lib_globals : list (string * expr) :=
  [("html.tagA", (EConv "[]byte" (EStr (B "a"))));
   ("html.tagAbbr", (EConv "[]byte" (EStr (B "abbr"))));
   ("html.tagAddress", (EConv "[]byte" (EStr (B "address"))));
   ("html.tagArea", (EConv "[]byte" (EStr (B "area"))));
   ("html.tagArticle", (EConv "[]byte" (EStr (B "article"))));
   ("html.tagAside", (EConv "[]byte" (EStr (B "aside"))));
   ("html.tagAudio", (EConv "[]byte" (EStr (B "audio"))));
   ("html.tagB", (EConv "[]byte" (EStr (B "b"))));
   ("html.tagBase", (EConv "[]byte" (EStr (B "base"))));
   ("html.tagBlockquote", (EConv "[]byte" (EStr (B "blockquote"))));
   ("html.tagBody", (EConv "[]byte" (EStr (B "body"))));
   ("html.tagBr", (EConv "[]byte" (EStr (B "br"))));
   ("html.tagButton", (EConv "[]byte" (EStr (B "button"))));
   ("html.tagCanvas", (EConv "[]byte" (EStr (B "canvas"))));
   ("html.tagCaption", (EConv "[]byte" (EStr (B "caption"))));
   ("html.tagCite", (EConv "[]byte" (EStr (B "cite"))));
   ("html.tagCode", (EConv "[]byte" (EStr (B "code"))));
   ("html.tagCol", (EConv "[]byte" (EStr (B "col"))));
   ("html.tagColgroup", (EConv "[]byte" (EStr (B "colgroup"))));
   ("html.tagData", (EConv "[]byte" (EStr (B "data"))));
   ("html.tagDatalist", (EConv "[]byte" (EStr (B "datalist"))));
   ("html.tagDd", (EConv "[]byte" (EStr (B "dd"))));
   ("html.tagDel", (EConv "[]byte" (EStr (B "del"))));
   ("html.tagDetails", (EConv "[]byte" (EStr (B "details"))));
   ("html.tagDfn", (EConv "[]byte" (EStr (B "dfn"))));
   ("html.tagDialog", (EConv "[]byte" (EStr (B "dialog"))));
   ("html.tagDiv", (EConv "[]byte" (EStr (B "div"))));
   ("html.tagDl", (EConv "[]byte" (EStr (B "dl"))));
   ("html.tagDt", (EConv "[]byte" (EStr (B "dt"))));
   ("html.tagEm", (EConv "[]byte" (EStr (B "em"))));
   ("html.tagEmbed", (EConv "[]byte" (EStr (B "embed"))));
   ("html.tagFieldset", (EConv "[]byte" (EStr (B "fieldset"))));
   ("html.tagFigcaption", (EConv "[]byte" (EStr (B "figcaption"))));
   ("html.tagFigure", (EConv "[]byte" (EStr (B "figure"))));
   ("html.tagFooter", (EConv "[]byte" (EStr (B "footer"))));
   ("html.tagForm", (EConv "[]byte" (EStr (B "form"))));
   ("html.tagH1", (EConv "[]byte" (EStr (B "h1"))));
   ("html.tagH2", (EConv "[]byte" (EStr (B "h2"))));
   ("html.tagH3", (EConv "[]byte" (EStr (B "h3"))));
   ("html.tagH4", (EConv "[]byte" (EStr (B "h4"))));
   ("html.tagH5", (EConv "[]byte" (EStr (B "h5"))));
   ("html.tagH6", (EConv "[]byte" (EStr (B "h6"))));
   ("html.tagHead", (EConv "[]byte" (EStr (B "head"))));
   ("html.tagHeader", (EConv "[]byte" (EStr (B "header"))));
   ("html.tagHgroup", (EConv "[]byte" (EStr (B "hgroup"))));
   ("html.tagHr", (EConv "[]byte" (EStr (B "hr"))));
   ("html.tagHtml", (EConv "[]byte" (EStr (B "html"))));
   ("html.tagI", (EConv "[]byte" (EStr (B "i"))));
   ("html.tagIframe", (EConv "[]byte" (EStr (B "iframe"))));
   ("html.tagImg", (EConv "[]byte" (EStr (B "img"))));
   ("html.tagInput", (EConv "[]byte" (EStr (B "input"))));
   ("html.tagIns", (EConv "[]byte" (EStr (B "ins"))));
   ("html.tagKbd", (EConv "[]byte" (EStr (B "kbd"))));
   ("html.tagLabel", (EConv "[]byte" (EStr (B "label"))));
   ("html.tagLegend", (EConv "[]byte" (EStr (B "legend"))));
   ("html.tagLi", (EConv "[]byte" (EStr (B "li"))));
   ("html.tagLink", (EConv "[]byte" (EStr (B "link"))));
   ("html.tagMain", (EConv "[]byte" (EStr (B "main"))));
   ("html.tagMark", (EConv "[]byte" (EStr (B "mark"))));
   ("html.tagMenu", (EConv "[]byte" (EStr (B "menu"))));
   ("html.tagMeta", (EConv "[]byte" (EStr (B "meta"))));
   ("html.tagMeter", (EConv "[]byte" (EStr (B "meter"))));
   ("html.tagNav", (EConv "[]byte" (EStr (B "nav"))));
   ("html.tagNoscript", (EConv "[]byte" (EStr (B "noscript"))));
   ("html.tagObject", (EConv "[]byte" (EStr (B "object"))));
   ("html.tagOl", (EConv "[]byte" (EStr (B "ol"))));
   ("html.tagOptgroup", (EConv "[]byte" (EStr (B "optgroup"))));
   ("html.tagOption", (EConv "[]byte" (EStr (B "option"))));
   ("html.tagP", (EConv "[]byte" (EStr (B "p"))));
   ("html.tagParam", (EConv "[]byte" (EStr (B "param"))));
   ("html.tagPicture", (EConv "[]byte" (EStr (B "picture"))));
   ("html.tagPre", (EConv "[]byte" (EStr (B "pre"))));
   ("html.tagProgress", (EConv "[]byte" (EStr (B "progress"))));
   ("html.tagQ", (EConv "[]byte" (EStr (B "q"))));
   ("html.tagS", (EConv "[]byte" (EStr (B "s"))));
   ("html.tagSamp", (EConv "[]byte" (EStr (B "samp"))));
   ("html.tagScript", (EConv "[]byte" (EStr (B "script"))));
   ("html.tagSection", (EConv "[]byte" (EStr (B "section"))));
   ("html.tagSelect", (EConv "[]byte" (EStr (B "select"))));
   ("html.tagSlot", (EConv "[]byte" (EStr (B "slot"))));
   ("html.tagSmall", (EConv "[]byte" (EStr (B "small"))));
   ("html.tagSource", (EConv "[]byte" (EStr (B "source"))));
   ("html.tagSpan", (EConv "[]byte" (EStr (B "span"))));
   ("html.tagStrong", (EConv "[]byte" (EStr (B "strong"))));
   ("html.tagStyle", (EConv "[]byte" (EStr (B "style"))));
   ("html.tagSub", (EConv "[]byte" (EStr (B "sub"))));
   ("html.tagSummary", (EConv "[]byte" (EStr (B "summary"))));
   ("html.tagSup", (EConv "[]byte" (EStr (B "sup"))));
   ("html.tagTable", (EConv "[]byte" (EStr (B "table"))));
   ("html.tagTbody", (EConv "[]byte" (EStr (B "tbody"))));
   ("html.tagTd", (EConv "[]byte" (EStr (B "td"))));
   ("html.tagTemplate", (EConv "[]byte" (EStr (B "template"))));
   ("html.tagTextarea", (EConv "[]byte" (EStr (B "textarea"))));
   ("html.tagTfoot", (EConv "[]byte" (EStr (B "tfoot"))));
   ("html.tagTh", (EConv "[]byte" (EStr (B "th"))));
   ("html.tagThead", (EConv "[]byte" (EStr (B "thead"))));
   ("html.tagTime", (EConv "[]byte" (EStr (B "time"))));
   ("html.tagTitle", (EConv "[]byte" (EStr (B "title"))));
   ("html.tagTr", (EConv "[]byte" (EStr (B "tr"))));
   ("html.tagU", (EConv "[]byte" (EStr (B "u"))));
   ("html.tagUl", (EConv "[]byte" (EStr (B "ul"))));
   ("html.tagVar", (EConv "[]byte" (EStr (B "var"))));
   ("html.tagVideo", (EConv "[]byte" (EStr (B "video"))));
   ("html.tagWbr", (EConv "[]byte" (EStr (B "wbr"))));
   ("html.tagBdi", (EConv "[]byte" (EStr (B "bdi"))));
   ("html.tagBdo", (EConv "[]byte" (EStr (B "bdo"))));
   ("html.tagMap", (EConv "[]byte" (EStr (B "map"))));
   ("html.tagOutput", (EConv "[]byte" (EStr (B "output"))));
   ("html.tagRp", (EConv "[]byte" (EStr (B "rp"))));
   ("html.tagRt", (EConv "[]byte" (EStr (B "rt"))));
   ("html.tagRuby", (EConv "[]byte" (EStr (B "ruby"))));
   ("html.tagSearch", (EConv "[]byte" (EStr (B "search"))));
   ("html.tagTrack", (EConv "[]byte" (EStr (B "track"))));
   ("html.space", (ESliceLit "[]byte" [(EInt 32)]));
   ("html.stylesDelim", (ESliceLit "[]byte" [(EInt 59); (EInt 32)]));
   ("html.attrAccept", (EConv "[]byte" (EStr (B "accept"))));
   ("html.attrAction", (EConv "[]byte" (EStr (B "action"))));
   ("html.attrAlt", (EConv "[]byte" (EStr (B "alt"))));
   ("html.attrAria", (EConv "[]byte" (EStr (B "aria-"))));
   ("html.attrAs", (EConv "[]byte" (EStr (B "as"))));
   ("html.attrAsync", (EConv "[]byte" (EStr (B "async"))));
   ("html.attrAutocomplete", (EConv "[]byte" (EStr (B "autocomplete"))));
   ("html.attrAutofocus", (EConv "[]byte" (EStr (B "autofocus"))));
   ("html.attrAutoplay", (EConv "[]byte" (EStr (B "autoplay"))));
   ("html.attrCharset", (EConv "[]byte" (EStr (B "charset"))));
   ("html.attrChecked", (EConv "[]byte" (EStr (B "checked"))));
   ("html.attrCite", (EConv "[]byte" (EStr (B "cite"))));
   ("html.attrClass", (EConv "[]byte" (EStr (B "class"))));
   ("html.attrCols", (EConv "[]byte" (EStr (B "cols"))));
   ("html.attrColspan", (EConv "[]byte" (EStr (B "colspan"))));
   ("html.attrContent", (EConv "[]byte" (EStr (B "content"))));
   ("html.attrContenteditable", (EConv "[]byte" (EStr (B "contenteditable"))));
   ("html.attrControls", (EConv "[]byte" (EStr (B "controls"))));
   ("html.attrCrossorigin", (EConv "[]byte" (EStr (B "crossorigin"))));
   ("html.attrData", (EConv "[]byte" (EStr (B "data-"))));
   ("html.attrDatetime", (EConv "[]byte" (EStr (B "datetime"))));
   ("html.attrDefer", (EConv "[]byte" (EStr (B "defer"))));
   ("html.attrDir", (EConv "[]byte" (EStr (B "dir"))));
   ("html.attrDisabled", (EConv "[]byte" (EStr (B "disabled"))));
   ("html.attrDownload", (EConv "[]byte" (EStr (B "download"))));
   ("html.attrDraggable", (EConv "[]byte" (EStr (B "draggable"))));
   ("html.attrEnctype", (EConv "[]byte" (EStr (B "enctype"))));
   ("html.attrFor", (EConv "[]byte" (EStr (B "for"))));
   ("html.attrForm", (EConv "[]byte" (EStr (B "form"))));
   ("html.attrHeight", (EConv "[]byte" (EStr (B "height"))));
   ("html.attrHidden", (EConv "[]byte" (EStr (B "hidden"))));
   ("html.attrHref", (EConv "[]byte" (EStr (B "href"))));
   ("html.attrId", (EConv "[]byte" (EStr (B "id"))));
   ("html.attrIntegrity", (EConv "[]byte" (EStr (B "integrity"))));
   ("html.attrLang", (EConv "[]byte" (EStr (B "lang"))));
   ("html.attrList", (EConv "[]byte" (EStr (B "list"))));
   ("html.attrLoading", (EConv "[]byte" (EStr (B "loading"))));
   ("html.attrLoop", (EConv "[]byte" (EStr (B "loop"))));
   ("html.attrMax", (EConv "[]byte" (EStr (B "max"))));
   ("html.attrMaxlength", (EConv "[]byte" (EStr (B "maxlength"))));
   ("html.attrMethod", (EConv "[]byte" (EStr (B "method"))));
   ("html.attrMin", (EConv "[]byte" (EStr (B "min"))));
   ("html.attrMinlength", (EConv "[]byte" (EStr (B "minlength"))));
   ("html.attrMultiple", (EConv "[]byte" (EStr (B "multiple"))));
   ("html.attrMuted", (EConv "[]byte" (EStr (B "muted"))));
   ("html.attrName", (EConv "[]byte" (EStr (B "name"))));
   ("html.attrNovalidate", (EConv "[]byte" (EStr (B "novalidate"))));
   ("html.attrFormnovalidate", (EConv "[]byte" (EStr (B "formnovalidate"))));
   ("html.attrPattern", (EConv "[]byte" (EStr (B "pattern"))));
   ("html.attrPlaceholder", (EConv "[]byte" (EStr (B "placeholder"))));
   ("html.attrPlaysinline", (EConv "[]byte" (EStr (B "playsinline"))));
   ("html.attrPopover", (EConv "[]byte" (EStr (B "popover"))));
   ("html.attrPopovertarget", (EConv "[]byte" (EStr (B "popovertarget"))));
   ("html.attrPopovertargetaction", (EConv "[]byte" (EStr (B "popovertargetaction"))));
   ("html.attrPoster", (EConv "[]byte" (EStr (B "poster"))));
   ("html.attrPreload", (EConv "[]byte" (EStr (B "preload"))));
   ("html.attrReadonly", (EConv "[]byte" (EStr (B "readonly"))));
   ("html.attrReferrerpolicy", (EConv "[]byte" (EStr (B "referrerpolicy"))));
   ("html.attrRel", (EConv "[]byte" (EStr (B "rel"))));
   ("html.attrRequired", (EConv "[]byte" (EStr (B "required"))));
   ("html.attrRole", (EConv "[]byte" (EStr (B "role"))));
   ("html.attrRows", (EConv "[]byte" (EStr (B "rows"))));
   ("html.attrRowspan", (EConv "[]byte" (EStr (B "rowspan"))));
   ("html.attrSelected", (EConv "[]byte" (EStr (B "selected"))));
   ("html.attrSlot", (EConv "[]byte" (EStr (B "slot"))));
   ("html.attrSrc", (EConv "[]byte" (EStr (B "src"))));
   ("html.attrSrcset", (EConv "[]byte" (EStr (B "srcset"))));
   ("html.attrStep", (EConv "[]byte" (EStr (B "step"))));
   ("html.attrStyle", (EConv "[]byte" (EStr (B "style"))));
   ("html.attrTabindex", (EConv "[]byte" (EStr (B "tabindex"))));
   ("html.attrTarget", (EConv "[]byte" (EStr (B "target"))));
   ("html.attrTitle", (EConv "[]byte" (EStr (B "title"))));
   ("html.attrType", (EConv "[]byte" (EStr (B "type"))));
   ("html.attrValue", (EConv "[]byte" (EStr (B "value"))));
   ("html.attrWidth", (EConv "[]byte" (EStr (B "width"))));
   ("html.attrAllowfullscreen", (EConv "[]byte" (EStr (B "allowfullscreen"))));
   ("html.attrDefault", (EConv "[]byte" (EStr (B "default"))));
   ("html.attrInert", (EConv "[]byte" (EStr (B "inert"))));
   ("html.attrIsmap", (EConv "[]byte" (EStr (B "ismap"))));
   ("html.attrItemscope", (EConv "[]byte" (EStr (B "itemscope"))));
   ("html.attrNomodule", (EConv "[]byte" (EStr (B "nomodule"))));
   ("html.attrOpen", (EConv "[]byte" (EStr (B "open"))));
   ("html.attrReversed", (EConv "[]byte" (EStr (B "reversed"))));
   ("html.attrSpellcheck", (EConv "[]byte" (EStr (B "spellcheck"))));
   ("html.attrTranslate", (EConv "[]byte" (EStr (B "translate"))));
   ("html.attrAriaAtomic", (EConv "[]byte" (EStr (B "aria-atomic"))));
   ("html.attrAriaBusy", (EConv "[]byte" (EStr (B "aria-busy"))));
   ("html.attrAriaChecked", (EConv "[]byte" (EStr (B "aria-checked"))));
   ("html.attrAriaControls", (EConv "[]byte" (EStr (B "aria-controls"))));
   ("html.attrAriaDescribedby", (EConv "[]byte" (EStr (B "aria-describedby"))));
   ("html.attrAriaDisabled", (EConv "[]byte" (EStr (B "aria-disabled"))));
   ("html.attrAriaExpanded", (EConv "[]byte" (EStr (B "aria-expanded"))));
   ("html.attrAriaFlowto", (EConv "[]byte" (EStr (B "aria-flowto"))));
   ("html.attrAriaHidden", (EConv "[]byte" (EStr (B "aria-hidden"))));
   ("html.attrAriaInvalid", (EConv "[]byte" (EStr (B "aria-invalid"))));
   ("html.attrAriaLabel", (EConv "[]byte" (EStr (B "aria-label"))));
   ("html.attrAriaLabelledby", (EConv "[]byte" (EStr (B "aria-labelledby"))));
   ("html.attrAriaLive", (EConv "[]byte" (EStr (B "aria-live"))));
   ("html.attrAriaOwns", (EConv "[]byte" (EStr (B "aria-owns"))));
   ("html.attrAriaPlaceholder", (EConv "[]byte" (EStr (B "aria-placeholder"))));
   ("html.attrAriaPosinset", (EConv "[]byte" (EStr (B "aria-posinset"))));
   ("html.attrAriaPressed", (EConv "[]byte" (EStr (B "aria-pressed"))));
   ("html.attrAriaReadonly", (EConv "[]byte" (EStr (B "aria-readonly"))));
   ("html.attrAriaRelevant", (EConv "[]byte" (EStr (B "aria-relevant"))));
   ("html.attrAriaRequired", (EConv "[]byte" (EStr (B "aria-required"))));
   ("html.attrAriaSelected", (EConv "[]byte" (EStr (B "aria-selected"))));
   ("html.attrAriaSetsize", (EConv "[]byte" (EStr (B "aria-setsize"))));
   ("html.attrAriaValuemax", (EConv "[]byte" (EStr (B "aria-valuemax"))));
   ("html.attrAriaValuemin", (EConv "[]byte" (EStr (B "aria-valuemin"))));
   ("html.attrAriaValuenow", (EConv "[]byte" (EStr (B "aria-valuenow"))));
   ("html.attrAriaValuetext", (EConv "[]byte" (EStr (B "aria-valuetext"))));
   ("html.attrOnAbort", (EConv "[]byte" (EStr (B "onabort"))));
   ("html.attrOnBeforeUnload", (EConv "[]byte" (EStr (B "onbeforeunload"))));
   ("html.attrOnBlur", (EConv "[]byte" (EStr (B "onblur"))));
   ("html.attrOnCanPlay", (EConv "[]byte" (EStr (B "oncanplay"))));
   ("html.attrOnCanPlayThrough", (EConv "[]byte" (EStr (B "oncanplaythrough"))));
   ("html.attrOnChange", (EConv "[]byte" (EStr (B "onchange"))));
   ("html.attrOnClick", (EConv "[]byte" (EStr (B "onclick"))));
   ("html.attrOnContextMenu", (EConv "[]byte" (EStr (B "oncontextmenu"))));
   ("html.attrOnCopy", (EConv "[]byte" (EStr (B "oncopy"))));
   ("html.attrOnCut", (EConv "[]byte" (EStr (B "oncut"))));
   ("html.attrOnDblClick", (EConv "[]byte" (EStr (B "ondblclick"))));
   ("html.attrOnDrag", (EConv "[]byte" (EStr (B "ondrag"))));
   ("html.attrOnDragEnd", (EConv "[]byte" (EStr (B "ondragend"))));
   ("html.attrOnDragEnter", (EConv "[]byte" (EStr (B "ondragenter"))));
   ("html.attrOnDragLeave", (EConv "[]byte" (EStr (B "ondragleave"))));
   ("html.attrOnDragOver", (EConv "[]byte" (EStr (B "ondragover"))));
   ("html.attrOnDragStart", (EConv "[]byte" (EStr (B "ondragstart"))));
   ("html.attrOnDrop", (EConv "[]byte" (EStr (B "ondrop"))));
   ("html.attrOnDurationChange", (EConv "[]byte" (EStr (B "ondurationchange"))));
   ("html.attrOnEnded", (EConv "[]byte" (EStr (B "onended"))));
   ("html.attrOnError", (EConv "[]byte" (EStr (B "onerror"))));
   ("html.attrOnFocus", (EConv "[]byte" (EStr (B "onfocus"))));
   ("html.attrOnHashChange", (EConv "[]byte" (EStr (B "onhashchange"))));
   ("html.attrOnInput", (EConv "[]byte" (EStr (B "oninput"))));
   ("html.attrOnInvalid", (EConv "[]byte" (EStr (B "oninvalid"))));
   ("html.attrOnKeyDown", (EConv "[]byte" (EStr (B "onkeydown"))));
   ("html.attrOnKeyPress", (EConv "[]byte" (EStr (B "onkeypress"))));
   ("html.attrOnKeyUp", (EConv "[]byte" (EStr (B "onkeyup"))));
   ("html.attrOnLoad", (EConv "[]byte" (EStr (B "onload"))));
   ("html.attrOnLoadedData", (EConv "[]byte" (EStr (B "onloadeddata"))));
   ("html.attrOnLoadedMetadata", (EConv "[]byte" (EStr (B "onloadedmetadata"))));
   ("html.attrOnMouseDown", (EConv "[]byte" (EStr (B "onmousedown"))));
   ("html.attrOnMouseEnter", (EConv "[]byte" (EStr (B "onmouseenter"))));
   ("html.attrOnMouseLeave", (EConv "[]byte" (EStr (B "onmouseleave"))));
   ("html.attrOnMouseMove", (EConv "[]byte" (EStr (B "onmousemove"))));
   ("html.attrOnMouseOut", (EConv "[]byte" (EStr (B "onmouseout"))));
   ("html.attrOnMouseOver", (EConv "[]byte" (EStr (B "onmouseover"))));
   ("html.attrOnMouseUp", (EConv "[]byte" (EStr (B "onmouseup"))));
   ("html.attrOnPageHide", (EConv "[]byte" (EStr (B "onpagehide"))));
   ("html.attrOnPageShow", (EConv "[]byte" (EStr (B "onpageshow"))));
   ("html.attrOnPaste", (EConv "[]byte" (EStr (B "onpaste"))));
   ("html.attrOnPause", (EConv "[]byte" (EStr (B "onpause"))));
   ("html.attrOnPlay", (EConv "[]byte" (EStr (B "onplay"))));
   ("html.attrOnPlaying", (EConv "[]byte" (EStr (B "onplaying"))));
   ("html.attrOnPopState", (EConv "[]byte" (EStr (B "onpopstate"))));
   ("html.attrOnProgress", (EConv "[]byte" (EStr (B "onprogress"))));
   ("html.attrOnRateChange", (EConv "[]byte" (EStr (B "onratechange"))));
   ("html.attrOnReset", (EConv "[]byte" (EStr (B "onreset"))));
   ("html.attrOnResize", (EConv "[]byte" (EStr (B "onresize"))));
   ("html.attrOnScroll", (EConv "[]byte" (EStr (B "onscroll"))));
   ("html.attrOnSeeked", (EConv "[]byte" (EStr (B "onseeked"))));
   ("html.attrOnSeeking", (EConv "[]byte" (EStr (B "onseeking"))));
   ("html.attrOnSelect", (EConv "[]byte" (EStr (B "onselect"))));
   ("html.attrOnStalled", (EConv "[]byte" (EStr (B "onstalled"))));
   ("html.attrOnSubmit", (EConv "[]byte" (EStr (B "onsubmit"))));
   ("html.attrOnSuspend", (EConv "[]byte" (EStr (B "onsuspend"))));
   ("html.attrOnTimeUpdate", (EConv "[]byte" (EStr (B "ontimeupdate"))));
   ("html.attrOnToggle", (EConv "[]byte" (EStr (B "ontoggle"))));
   ("html.attrOnUnload", (EConv "[]byte" (EStr (B "onunload"))));
   ("html.attrOnVolumeChange", (EConv "[]byte" (EStr (B "onvolumechange"))));
   ("html.attrOnWaiting", (EConv "[]byte" (EStr (B "onwaiting"))));
   ("html.attrOnPointerDown", (EConv "[]byte" (EStr (B "onpointerdown"))));
   ("html.attrOnPointerUp", (EConv "[]byte" (EStr (B "onpointerup"))));
   ("html.attrOnPointerMove", (EConv "[]byte" (EStr (B "onpointermove"))));
   ("html.attrOnPointerEnter", (EConv "[]byte" (EStr (B "onpointerenter"))));
   ("html.attrOnPointerLeave", (EConv "[]byte" (EStr (B "onpointerleave"))));
   ("html.attrOnPointerOver", (EConv "[]byte" (EStr (B "onpointerover"))));
   ("html.attrOnPointerOut", (EConv "[]byte" (EStr (B "onpointerout"))));
   ("html.attrOnPointerCancel", (EConv "[]byte" (EStr (B "onpointercancel"))));
   ("html.attrOnTouchStart", (EConv "[]byte" (EStr (B "ontouchstart"))));
   ("html.attrOnTouchMove", (EConv "[]byte" (EStr (B "ontouchmove"))));
   ("html.attrOnTouchEnd", (EConv "[]byte" (EStr (B "ontouchend"))));
   ("html.attrOnTouchCancel", (EConv "[]byte" (EStr (B "ontouchcancel"))));
   ("html.attrOnAnimationStart", (EConv "[]byte" (EStr (B "onanimationstart"))));
   ("html.attrOnAnimationEnd", (EConv "[]byte" (EStr (B "onanimationend"))));
   ("html.attrOnAnimationIteration", (EConv "[]byte" (EStr (B "onanimationiteration"))));
   ("html.attrOnTransitionEnd", (EConv "[]byte" (EStr (B "ontransitionend"))));
   ("html.attrOnBeforeInput", (EConv "[]byte" (EStr (B "onbeforeinput"))));
   ("html.attrOnSlotChange", (EConv "[]byte" (EStr (B "onslotchange"))));
   ("html.attrOnFormData", (EConv "[]byte" (EStr (B "onformdata"))));
   ("html.attrAccessKey", (EConv "[]byte" (EStr (B "accesskey"))));
   ("html.attrAutoCapitalize", (EConv "[]byte" (EStr (B "autocapitalize"))));
   ("html.attrAutoCorrect", (EConv "[]byte" (EStr (B "autocorrect"))));
   ("html.attrEnterKeyHint", (EConv "[]byte" (EStr (B "enterkeyhint"))));
   ("html.attrExportParts", (EConv "[]byte" (EStr (B "exportparts"))));
   ("html.attrInputMode", (EConv "[]byte" (EStr (B "inputmode"))));
   ("html.attrIs", (EConv "[]byte" (EStr (B "is"))));
   ("html.attrItemId", (EConv "[]byte" (EStr (B "itemid"))));
   ("html.attrItemProp", (EConv "[]byte" (EStr (B "itemprop"))));
   ("html.attrItemRef", (EConv "[]byte" (EStr (B "itemref"))));
   ("html.attrItemType", (EConv "[]byte" (EStr (B "itemtype"))));
   ("html.attrNonce", (EConv "[]byte" (EStr (B "nonce"))));
   ("html.attrPart", (EConv "[]byte" (EStr (B "part"))));
   ("html.attrWritingSuggestions", (EConv "[]byte" (EStr (B "writingsuggestions"))));
   ("svg.tagAltGlyph", (EConv "[]byte" (EStr (B "altGlyph"))));
   ("svg.tagAnimate", (EConv "[]byte" (EStr (B "animate"))));
   ("svg.tagAnimateMotion", (EConv "[]byte" (EStr (B "animateMotion"))));
   ("svg.tagAnimateTransform", (EConv "[]byte" (EStr (B "animateTransform"))));
   ("svg.tagCircle", (EConv "[]byte" (EStr (B "circle"))));
   ("svg.tagClipPath", (EConv "[]byte" (EStr (B "clipPath"))));
   ("svg.tagDefs", (EConv "[]byte" (EStr (B "defs"))));
   ("svg.tagDesc", (EConv "[]byte" (EStr (B "desc"))));
   ("svg.tagDiscard", (EConv "[]byte" (EStr (B "discard"))));
   ("svg.tagEllipse", (EConv "[]byte" (EStr (B "ellipse"))));
   ("svg.tagFeBlend", (EConv "[]byte" (EStr (B "feBlend"))));
   ("svg.tagFeColorMatrix", (EConv "[]byte" (EStr (B "feColorMatrix"))));
   ("svg.tagFeComponentTransfer", (EConv "[]byte" (EStr (B "feComponentTransfer"))));
   ("svg.tagFeComposite", (EConv "[]byte" (EStr (B "feComposite"))));
   ("svg.tagFeConvolveMatrix", (EConv "[]byte" (EStr (B "feConvolveMatrix"))));
   ("svg.tagFeDiffuseLighting", (EConv "[]byte" (EStr (B "feDiffuseLighting"))));
   ("svg.tagFeDisplacementMap", (EConv "[]byte" (EStr (B "feDisplacementMap"))));
   ("svg.tagFeDistantLight", (EConv "[]byte" (EStr (B "feDistantLight"))));
   ("svg.tagFeDropShadow", (EConv "[]byte" (EStr (B "feDropShadow"))));
   ("svg.tagFeFlood", (EConv "[]byte" (EStr (B "feFlood"))));
   ("svg.tagFeFuncA", (EConv "[]byte" (EStr (B "feFuncA"))));
   ("svg.tagFeFuncB", (EConv "[]byte" (EStr (B "feFuncB"))));
   ("svg.tagFeFuncG", (EConv "[]byte" (EStr (B "feFuncG"))));
   ("svg.tagFeFuncR", (EConv "[]byte" (EStr (B "feFuncR"))));
   ("svg.tagFeGaussianBlur", (EConv "[]byte" (EStr (B "feGaussianBlur"))));
   ("svg.tagFeImage", (EConv "[]byte" (EStr (B "feImage"))));
   ("svg.tagFeMerge", (EConv "[]byte" (EStr (B "feMerge"))));
   ("svg.tagFeMergeNode", (EConv "[]byte" (EStr (B "feMergeNode"))));
   ("svg.tagFeMorphology", (EConv "[]byte" (EStr (B "feMorphology"))));
   ("svg.tagFeOffset", (EConv "[]byte" (EStr (B "feOffset"))));
   ("svg.tagFePointLight", (EConv "[]byte" (EStr (B "fePointLight"))));
   ("svg.tagFeSpecularLighting", (EConv "[]byte" (EStr (B "feSpecularLighting"))));
   ("svg.tagFeSpotLight", (EConv "[]byte" (EStr (B "feSpotLight"))));
   ("svg.tagFeTile", (EConv "[]byte" (EStr (B "feTile"))));
   ("svg.tagFeTurbulence", (EConv "[]byte" (EStr (B "feTurbulence"))));
   ("svg.tagFilter", (EConv "[]byte" (EStr (B "filter"))));
   ("svg.tagForeignObject", (EConv "[]byte" (EStr (B "foreignObject"))));
   ("svg.tagG", (EConv "[]byte" (EStr (B "g"))));
   ("svg.tagGlyph", (EConv "[]byte" (EStr (B "glyph"))));
   ("svg.tagLine", (EConv "[]byte" (EStr (B "line"))));
   ("svg.tagLinearGradient", (EConv "[]byte" (EStr (B "linearGradient"))));
   ("svg.tagMarker", (EConv "[]byte" (EStr (B "marker"))));
   ("svg.tagMask", (EConv "[]byte" (EStr (B "mask"))));
   ("svg.tagMetadata", (EConv "[]byte" (EStr (B "metadata"))));
   ("svg.tagMpath", (EConv "[]byte" (EStr (B "mpath"))));
   ("svg.tagPath", (EConv "[]byte" (EStr (B "path"))));
   ("svg.tagPattern", (EConv "[]byte" (EStr (B "pattern"))));
   ("svg.tagPolygon", (EConv "[]byte" (EStr (B "polygon"))));
   ("svg.tagPolyline", (EConv "[]byte" (EStr (B "polyline"))));
   ("svg.tagRadialGradient", (EConv "[]byte" (EStr (B "radialGradient"))));
   ("svg.tagRect", (EConv "[]byte" (EStr (B "rect"))));
   ("svg.tagScript", (EConv "[]byte" (EStr (B "script"))));
   ("svg.tagSet", (EConv "[]byte" (EStr (B "set"))));
   ("svg.tagSolidColor", (EConv "[]byte" (EStr (B "solidcolor"))));
   ("svg.tagStop", (EConv "[]byte" (EStr (B "stop"))));
   ("svg.tagStyle", (EConv "[]byte" (EStr (B "style"))));
   ("svg.tagSvg", (EConv "[]byte" (EStr (B "svg"))));
   ("svg.tagSymbol", (EConv "[]byte" (EStr (B "symbol"))));
   ("svg.tagText", (EConv "[]byte" (EStr (B "text"))));
   ("svg.tagTextPath", (EConv "[]byte" (EStr (B "textPath"))));
   ("svg.tagTitle", (EConv "[]byte" (EStr (B "title"))));
   ("svg.tagTRef", (EConv "[]byte" (EStr (B "tref"))));
   ("svg.tagTSpan", (EConv "[]byte" (EStr (B "tspan"))));
   ("svg.tagUse", (EConv "[]byte" (EStr (B "use"))));
   ("svg.tagSwitch", (EConv "[]byte" (EStr (B "switch"))));
   ("svg.tagView", (EConv "[]byte" (EStr (B "view"))));
   ("svg.stylesDelim", (ESliceLit "[]byte" [(EInt 59); (EInt 32)]));
   ("svg.attrAccumulate", (EConv "[]byte" (EStr (B "accumulate"))));
   ("svg.attrAdditive", (EConv "[]byte" (EStr (B "additive"))));
   ("svg.attrAlignmentBaseline", (EConv "[]byte" (EStr (B "alignment-baseline"))));
   ("svg.attrAttributeName", (EConv "[]byte" (EStr (B "attributeName"))));
   ("svg.attrAttributeType", (EConv "[]byte" (EStr (B "attributeType"))));
   ("svg.attrBaselineShift", (EConv "[]byte" (EStr (B "baseline-shift"))));
   ("svg.attrBegin", (EConv "[]byte" (EStr (B "begin"))));
   ("svg.attrBy", (EConv "[]byte" (EStr (B "by"))));
   ("svg.attrCalcMode", (EConv "[]byte" (EStr (B "calcMode"))));
   ("svg.attrClass", (EConv "[]byte" (EStr (B "class"))));
   ("svg.attrClip", (EConv "[]byte" (EStr (B "clip"))));
   ("svg.attrClipPath", (EConv "[]byte" (EStr (B "clip-path"))));
   ("svg.attrClipRule", (EConv "[]byte" (EStr (B "clip-rule"))));
   ("svg.attrColor", (EConv "[]byte" (EStr (B "color"))));
   ("svg.attrColorInterpolation", (EConv "[]byte" (EStr (B "color-interpolation"))));
   ("svg.attrColorInterpolationFilters", (EConv "[]byte" (EStr (B "color-interpolation-filters"))));
   ("svg.attrColorProfile", (EConv "[]byte" (EStr (B "color-profile"))));
   ("svg.attrColorRendering", (EConv "[]byte" (EStr (B "color-rendering"))));
   ("svg.attrCursor", (EConv "[]byte" (EStr (B "cursor"))));
   ("svg.attrCx", (EConv "[]byte" (EStr (B "cx"))));
   ("svg.attrCy", (EConv "[]byte" (EStr (B "cy"))));
   ("svg.attrD", (EConv "[]byte" (EStr (B "d"))));
   ("svg.attrDirection", (EConv "[]byte" (EStr (B "direction"))));
   ("svg.attrDisplay", (EConv "[]byte" (EStr (B "display"))));
   ("svg.attrDominantBaseline", (EConv "[]byte" (EStr (B "dominant-baseline"))));
   ("svg.attrDur", (EConv "[]byte" (EStr (B "dur"))));
   ("svg.attrDx", (EConv "[]byte" (EStr (B "dx"))));
   ("svg.attrDy", (EConv "[]byte" (EStr (B "dy"))));
   ("svg.attrEnablebackground", (EConv "[]byte" (EStr (B "enable-background"))));
   ("svg.attrEnd", (EConv "[]byte" (EStr (B "end"))));
   ("svg.attrExternalResourcesRequired", (EConv "[]byte" (EStr (B "externalResourcesRequired"))));
   ("svg.attrFill", (EConv "[]byte" (EStr (B "fill"))));
   ("svg.attrFillOpacity", (EConv "[]byte" (EStr (B "fill-opacity"))));
   ("svg.attrFillRule", (EConv "[]byte" (EStr (B "fill-rule"))));
   ("svg.attrFilter", (EConv "[]byte" (EStr (B "filter"))));
   ("svg.attrFilterUnits", (EConv "[]byte" (EStr (B "filterUnits"))));
   ("svg.attrFloodColor", (EConv "[]byte" (EStr (B "flood-color"))));
   ("svg.attrFloodOpacity", (EConv "[]byte" (EStr (B "flood-opacity"))));
   ("svg.attrFontFamily", (EConv "[]byte" (EStr (B "font-family"))));
   ("svg.attrFontSize", (EConv "[]byte" (EStr (B "font-size"))));
   ("svg.attrFontSizeAdjust", (EConv "[]byte" (EStr (B "font-size-adjust"))));
   ("svg.attrFontStretch", (EConv "[]byte" (EStr (B "font-stretch"))));
   ("svg.attrFontStyle", (EConv "[]byte" (EStr (B "font-style"))));
   ("svg.attrFontVariant", (EConv "[]byte" (EStr (B "font-variant"))));
   ("svg.attrFontWeight", (EConv "[]byte" (EStr (B "font-weight"))));
   ("svg.attrFrom", (EConv "[]byte" (EStr (B "from"))));
   ("svg.attrFx", (EConv "[]byte" (EStr (B "fx"))));
   ("svg.attrFy", (EConv "[]byte" (EStr (B "fy"))));
   ("svg.attrGlyphOrientationHorizontal", (EConv "[]byte" (EStr (B "glyph-orientation-horizontal"))));
   ("svg.attrGlyphOrientationVertical", (EConv "[]byte" (EStr (B "glyph-orientation-vertical"))));
   ("svg.attrGradientTransform", (EConv "[]byte" (EStr (B "gradientTransform"))));
   ("svg.attrGradientUnits", (EConv "[]byte" (EStr (B "gradientUnits"))));
   ("svg.attrHeight", (EConv "[]byte" (EStr (B "height"))));
   ("svg.attrHref", (EConv "[]byte" (EStr (B "href"))));
   ("svg.attrId", (EConv "[]byte" (EStr (B "id"))));
   ("svg.attrImageRendering", (EConv "[]byte" (EStr (B "image-rendering"))));
   ("svg.attrKerning", (EConv "[]byte" (EStr (B "kerning"))));
   ("svg.attrKeyPoints", (EConv "[]byte" (EStr (B "keyPoints"))));
   ("svg.attrKeySplines", (EConv "[]byte" (EStr (B "keySplines"))));
   ("svg.attrKeyTimes", (EConv "[]byte" (EStr (B "keyTimes"))));
   ("svg.attrLengthAdjust", (EConv "[]byte" (EStr (B "lengthAdjust"))));
   ("svg.attrLetterspacing", (EConv "[]byte" (EStr (B "letter-spacing"))));
   ("svg.attrLightingColor", (EConv "[]byte" (EStr (B "lighting-color"))));
   ("svg.attrMarkerEnd", (EConv "[]byte" (EStr (B "marker-end"))));
   ("svg.attrMarkerMid", (EConv "[]byte" (EStr (B "marker-mid"))));
   ("svg.attrMarkerStart", (EConv "[]byte" (EStr (B "marker-start"))));
   ("svg.attrMarkerHeight", (EConv "[]byte" (EStr (B "markerHeight"))));
   ("svg.attrMarkerUnits", (EConv "[]byte" (EStr (B "markerUnits"))));
   ("svg.attrMarkerWidth", (EConv "[]byte" (EStr (B "markerWidth"))));
   ("svg.attrMask", (EConv "[]byte" (EStr (B "mask"))));
   ("svg.attrOnBlur", (EConv "[]byte" (EStr (B "onblur"))));
   ("svg.attrOnClick", (EConv "[]byte" (EStr (B "onclick"))));
   ("svg.attrOnFocus", (EConv "[]byte" (EStr (B "onfocus"))));
   ("svg.attrOnLoad", (EConv "[]byte" (EStr (B "onload"))));
   ("svg.attrOnMouseDown", (EConv "[]byte" (EStr (B "onmousedown"))));
   ("svg.attrOnMouseMove", (EConv "[]byte" (EStr (B "onmousemove"))));
   ("svg.attrOnMouseOut", (EConv "[]byte" (EStr (B "onmouseout"))));
   ("svg.attrOnMouseOver", (EConv "[]byte" (EStr (B "onmouseover"))));
   ("svg.attrOnMouseUp", (EConv "[]byte" (EStr (B "onmouseup"))));
   ("svg.attrOnUnload", (EConv "[]byte" (EStr (B "onunload"))));
   ("svg.attrOpacity", (EConv "[]byte" (EStr (B "opacity"))));
   ("svg.attrOrient", (EConv "[]byte" (EStr (B "orient"))));
   ("svg.attrPath", (EConv "[]byte" (EStr (B "path"))));
   ("svg.attrPathLength", (EConv "[]byte" (EStr (B "pathLength"))));
   ("svg.attrPatternContentUnits", (EConv "[]byte" (EStr (B "patternContentUnits"))));
   ("svg.attrPatternTransform", (EConv "[]byte" (EStr (B "patternTransform"))));
   ("svg.attrPatternUnits", (EConv "[]byte" (EStr (B "patternUnits"))));
   ("svg.attrPointerEvents", (EConv "[]byte" (EStr (B "pointer-events"))));
   ("svg.attrPoints", (EConv "[]byte" (EStr (B "points"))));
   ("svg.attrPreserveAspectRatio", (EConv "[]byte" (EStr (B "preserveAspectRatio"))));
   ("svg.attrPrimitiveUnits", (EConv "[]byte" (EStr (B "primitiveUnits"))));
   ("svg.attrR", (EConv "[]byte" (EStr (B "r"))));
   ("svg.attrRefX", (EConv "[]byte" (EStr (B "refX"))));
   ("svg.attrRefY", (EConv "[]byte" (EStr (B "refY"))));
   ("svg.attrRepeatCount", (EConv "[]byte" (EStr (B "repeatCount"))));
   ("svg.attrRepeatDur", (EConv "[]byte" (EStr (B "repeatDur"))));
   ("svg.attrRequiredExtensions", (EConv "[]byte" (EStr (B "requiredExtensions"))));
   ("svg.attrRequiredFeatures", (EConv "[]byte" (EStr (B "requiredFeatures"))));
   ("svg.attrRotate", (EConv "[]byte" (EStr (B "rotate"))));
   ("svg.attrRx", (EConv "[]byte" (EStr (B "rx"))));
   ("svg.attrRy", (EConv "[]byte" (EStr (B "ry"))));
   ("svg.attrShapeRendering", (EConv "[]byte" (EStr (B "shape-rendering"))));
   ("svg.attrSpreadMethod", (EConv "[]byte" (EStr (B "spreadMethod"))));
   ("svg.attrStopColor", (EConv "[]byte" (EStr (B "stop-color"))));
   ("svg.attrStopOpacity", (EConv "[]byte" (EStr (B "stop-opacity"))));
   ("svg.attrStroke", (EConv "[]byte" (EStr (B "stroke"))));
   ("svg.attrStrokeDashArray", (EConv "[]byte" (EStr (B "stroke-dasharray"))));
   ("svg.attrStrokeDashOffset", (EConv "[]byte" (EStr (B "stroke-dashoffset"))));
   ("svg.attrStrokeLineCap", (EConv "[]byte" (EStr (B "stroke-linecap"))));
   ("svg.attrStrokeLineJoin", (EConv "[]byte" (EStr (B "stroke-linejoin"))));
   ("svg.attrStrokeMiterLimit", (EConv "[]byte" (EStr (B "stroke-miterlimit"))));
   ("svg.attrStrokeOpacity", (EConv "[]byte" (EStr (B "stroke-opacity"))));
   ("svg.attrStrokeWidth", (EConv "[]byte" (EStr (B "stroke-width"))));
   ("svg.attrStyle", (EConv "[]byte" (EStr (B "style"))));
   ("svg.attrSystemLanguage", (EConv "[]byte" (EStr (B "systemLanguage"))));
   ("svg.attrTabindex", (EConv "[]byte" (EStr (B "tabindex"))));
   ("svg.attrTextAnchor", (EConv "[]byte" (EStr (B "text-anchor"))));
   ("svg.attrTextDecoration", (EConv "[]byte" (EStr (B "text-decoration"))));
   ("svg.attrTextRendering", (EConv "[]byte" (EStr (B "text-rendering"))));
   ("svg.attrTextLength", (EConv "[]byte" (EStr (B "textLength"))));
   ("svg.attrTo", (EConv "[]byte" (EStr (B "to"))));
   ("svg.attrType", (EConv "[]byte" (EStr (B "type"))));
   ("svg.attrUnicodeBidi", (EConv "[]byte" (EStr (B "unicode-bidi"))));
   ("svg.attrValues", (EConv "[]byte" (EStr (B "values"))));
   ("svg.attrVisibility", (EConv "[]byte" (EStr (B "visibility"))));
   ("svg.attrWidth", (EConv "[]byte" (EStr (B "width"))));
   ("svg.attrWordSpacing", (EConv "[]byte" (EStr (B "word-spacing"))));
   ("svg.attrWritingMode", (EConv "[]byte" (EStr (B "writing-mode"))));
   ("svg.attrX", (EConv "[]byte" (EStr (B "x"))));
   ("svg.attrX1", (EConv "[]byte" (EStr (B "x1"))));
   ("svg.attrX2", (EConv "[]byte" (EStr (B "x2"))));
   ("svg.attrXlinkActuate", (EConv "[]byte" (EStr (B "xlink:actuate"))));
   ("svg.attrXlinkArcrole", (EConv "[]byte" (EStr (B "xlink:arcrole"))));
   ("svg.attrXlinkHref", (EConv "[]byte" (EStr (B "xlink:href"))));
   ("svg.attrXlinkRole", (EConv "[]byte" (EStr (B "xlink:role"))));
   ("svg.attrXlinkShow", (EConv "[]byte" (EStr (B "xlink:show"))));
   ("svg.attrXlinkTitle", (EConv "[]byte" (EStr (B "xlink:title"))));
   ("svg.attrXmlBase", (EConv "[]byte" (EStr (B "xml:base"))));
   ("svg.attrXmlLang", (EConv "[]byte" (EStr (B "xml:lang"))));
   ("svg.attrXmlSpace", (EConv "[]byte" (EStr (B "xml:space"))));
   ("svg.attrY", (EConv "[]byte" (EStr (B "y"))));
   ("svg.attrY1", (EConv "[]byte" (EStr (B "y1"))));
   ("svg.attrY2", (EConv "[]byte" (EStr (B "y2"))));
   ("css.stylesDelim", (ESliceLit "[]byte" [(EInt 59); (EInt 32)]));
   ("css.attrStyle", (EConv "[]byte" (EStr (B "style"))));
   ("css.propDisplay", (EConv "[]byte" (EStr (B "display:"))));
   ("css.propPosition", (EConv "[]byte" (EStr (B "position:"))));
   ("css.propTop", (EConv "[]byte" (EStr (B "top:"))));
   ("css.propRight", (EConv "[]byte" (EStr (B "right:"))));
   ("css.propBottom", (EConv "[]byte" (EStr (B "bottom:"))));
   ("css.propLeft", (EConv "[]byte" (EStr (B "left:"))));
   ("css.propZIndex", (EConv "[]byte" (EStr (B "z-index:"))));
   ("css.propFloat", (EConv "[]byte" (EStr (B "float:"))));
   ("css.propClear", (EConv "[]byte" (EStr (B "clear:"))));
   ("css.propFlex", (EConv "[]byte" (EStr (B "flex:"))));
   ("css.propFlexGrow", (EConv "[]byte" (EStr (B "flex-grow:"))));
   ("css.propFlexShrink", (EConv "[]byte" (EStr (B "flex-shrink:"))));
   ("css.propFlexBasis", (EConv "[]byte" (EStr (B "flex-basis:"))));
   ("css.propJustifyContent", (EConv "[]byte" (EStr (B "justify-content:"))));
   ("css.propAlignItems", (EConv "[]byte" (EStr (B "align-items:"))));
   ("css.propAlignContent", (EConv "[]byte" (EStr (B "align-content:"))));
   ("css.propAlignSelf", (EConv "[]byte" (EStr (B "align-self:"))));
   ("css.propGap", (EConv "[]byte" (EStr (B "gap:"))));
   ("css.propRowGap", (EConv "[]byte" (EStr (B "row-gap:"))));
   ("css.propColumnGap", (EConv "[]byte" (EStr (B "column-gap:"))));
   ("css.propWidth", (EConv "[]byte" (EStr (B "width:"))));
   ("css.propHeight", (EConv "[]byte" (EStr (B "height:"))));
   ("css.propMinWidth", (EConv "[]byte" (EStr (B "min-width:"))));
   ("css.propMaxWidth", (EConv "[]byte" (EStr (B "max-width:"))));
   ("css.propMinHeight", (EConv "[]byte" (EStr (B "min-height:"))));
   ("css.propMaxHeight", (EConv "[]byte" (EStr (B "max-height:"))));
   ("css.propMargin", (EConv "[]byte" (EStr (B "margin:"))));
   ("css.propMarginTop", (EConv "[]byte" (EStr (B "margin-top:"))));
   ("css.propMarginRight", (EConv "[]byte" (EStr (B "margin-right:"))));
   ("css.propMarginBottom", (EConv "[]byte" (EStr (B "margin-bottom:"))));
   ("css.propMarginLeft", (EConv "[]byte" (EStr (B "margin-left:"))));
   ("css.propPadding", (EConv "[]byte" (EStr (B "padding:"))));
   ("css.propPaddingTop", (EConv "[]byte" (EStr (B "padding-top:"))));
   ("css.propPaddingRight", (EConv "[]byte" (EStr (B "padding-right:"))));
   ("css.propPaddingBottom", (EConv "[]byte" (EStr (B "padding-bottom:"))));
   ("css.propPaddingLeft", (EConv "[]byte" (EStr (B "padding-left:"))));
   ("css.propBorder", (EConv "[]byte" (EStr (B "border:"))));
   ("css.propBorderWidth", (EConv "[]byte" (EStr (B "border-width:"))));
   ("css.propBorderColor", (EConv "[]byte" (EStr (B "border-color:"))));
   ("css.propBorderStyle", (EConv "[]byte" (EStr (B "border-style:"))));
   ("css.propBorderRadius", (EConv "[]byte" (EStr (B "border-radius:"))));
   ("css.propBorderTop", (EConv "[]byte" (EStr (B "border-top:"))));
   ("css.propBorderBottom", (EConv "[]byte" (EStr (B "border-bottom:"))));
   ("css.propBorderLeft", (EConv "[]byte" (EStr (B "border-left:"))));
   ("css.propBorderRight", (EConv "[]byte" (EStr (B "border-right:"))));
   ("css.propBackground", (EConv "[]byte" (EStr (B "background:"))));
   ("css.propBackgroundColor", (EConv "[]byte" (EStr (B "background-color:"))));
   ("css.propBackgroundImage", (EConv "[]byte" (EStr (B "background-image:"))));
   ("css.propBackgroundSize", (EConv "[]byte" (EStr (B "background-size:"))));
   ("css.propBackgroundPosition", (EConv "[]byte" (EStr (B "background-position:"))));
   ("css.propBackgroundRepeat", (EConv "[]byte" (EStr (B "background-repeat:"))));
   ("css.propColor", (EConv "[]byte" (EStr (B "color:"))));
   ("css.propFontSize", (EConv "[]byte" (EStr (B "font-size:"))));
   ("css.propFontWeight", (EConv "[]byte" (EStr (B "font-weight:"))));
   ("css.propFontFamily", (EConv "[]byte" (EStr (B "font-family:"))));
   ("css.propLineHeight", (EConv "[]byte" (EStr (B "line-height:"))));
   ("css.propLetterSpacing", (EConv "[]byte" (EStr (B "letter-spacing:"))));
   ("css.propTextAlign", (EConv "[]byte" (EStr (B "text-align:"))));
   ("css.propTextTransform", (EConv "[]byte" (EStr (B "text-transform:"))));
   ("css.propTextDecoration", (EConv "[]byte" (EStr (B "text-decoration:"))));
   ("css.propWhiteSpace", (EConv "[]byte" (EStr (B "white-space:"))));
   ("css.propWordBreak", (EConv "[]byte" (EStr (B "word-break:"))));
   ("css.propOpacity", (EConv "[]byte" (EStr (B "opacity:"))));
   ("css.propBoxShadow", (EConv "[]byte" (EStr (B "box-shadow:"))));
   ("css.propVisibility", (EConv "[]byte" (EStr (B "visibility:"))));
   ("css.propOverflow", (EConv "[]byte" (EStr (B "overflow:"))));
   ("css.propOverflowX", (EConv "[]byte" (EStr (B "overflow-x:"))));
   ("css.propOverflowY", (EConv "[]byte" (EStr (B "overflow-y:"))));
   ("css.propCursor", (EConv "[]byte" (EStr (B "cursor:"))));
   ("css.propTransition", (EConv "[]byte" (EStr (B "transition:"))));
   ("css.propTransitionDuration", (EConv "[]byte" (EStr (B "transition-duration:"))));
   ("css.propTransitionTiming", (EConv "[]byte" (EStr (B "transition-timing-function:"))));
   ("css.propTransform", (EConv "[]byte" (EStr (B "transform:"))));
   ("css.propAnimation", (EConv "[]byte" (EStr (B "animation:"))));
   ("css.propUserSelect", (EConv "[]byte" (EStr (B "user-select:"))));
   ("css.propPointerEvents", (EConv "[]byte" (EStr (B "pointer-events:"))));
   ("css.propIsolation", (EConv "[]byte" (EStr (B "isolation:"))));
   ("css.propObjectFit", (EConv "[]byte" (EStr (B "object-fit:"))));
   ("css.propObjectPosition", (EConv "[]byte" (EStr (B "object-position:"))));
   ("css.propBoxSizing", (EConv "[]byte" (EStr (B "box-sizing:"))));
   ("css.propAspectRatio", (EConv "[]byte" (EStr (B "aspect-ratio:"))));
   ("css.propContain", (EConv "[]byte" (EStr (B "contain:"))));
   ("css.propContentVisibility", (EConv "[]byte" (EStr (B "content-visibility:"))));
   ("css.propResize", (EConv "[]byte" (EStr (B "resize:"))));
   ("css.propGridTemplateColumns", (EConv "[]byte" (EStr (B "grid-template-columns:"))));
   ("css.propGridTemplateRows", (EConv "[]byte" (EStr (B "grid-template-rows:"))));
   ("css.propGridColumn", (EConv "[]byte" (EStr (B "grid-column:"))));
   ("css.propGridRow", (EConv "[]byte" (EStr (B "grid-row:"))));
   ("css.propGridArea", (EConv "[]byte" (EStr (B "grid-area:"))));
   ("css.propGridAutoFlow", (EConv "[]byte" (EStr (B "grid-auto-flow:"))));
   ("css.propPlaceItems", (EConv "[]byte" (EStr (B "place-items:"))));
   ("css.propPlaceContent", (EConv "[]byte" (EStr (B "place-content:"))));
   ("css.propPlaceSelf", (EConv "[]byte" (EStr (B "place-self:"))));
   ("css.propFontStyle", (EConv "[]byte" (EStr (B "font-style:"))));
   ("css.propFontVariant", (EConv "[]byte" (EStr (B "font-variant:"))));
   ("css.propFontStretch", (EConv "[]byte" (EStr (B "font-stretch:"))));
   ("css.propDirection", (EConv "[]byte" (EStr (B "direction:"))));
   ("css.propTabSize", (EConv "[]byte" (EStr (B "tab-size:"))));
   ("css.propListStyle", (EConv "[]byte" (EStr (B "list-style:"))));
   ("css.propListStyleType", (EConv "[]byte" (EStr (B "list-style-type:"))));
   ("css.propListStylePosition", (EConv "[]byte" (EStr (B "list-style-position:"))));
   ("css.propListStyleImage", (EConv "[]byte" (EStr (B "list-style-image:"))));
   ("css.propBorderCollapse", (EConv "[]byte" (EStr (B "border-collapse:"))));
   ("css.propBorderSpacing", (EConv "[]byte" (EStr (B "border-spacing:"))));
   ("css.propTableLayout", (EConv "[]byte" (EStr (B "table-layout:"))));
   ("css.propEmptyCells", (EConv "[]byte" (EStr (B "empty-cells:"))));
   ("css.propFilter", (EConv "[]byte" (EStr (B "filter:"))));
   ("css.propBackdropFilter", (EConv "[]byte" (EStr (B "backdrop-filter:"))));
   ("css.propMixBlendMode", (EConv "[]byte" (EStr (B "mix-blend-mode:"))));
   ("css.propBoxDecorationBreak", (EConv "[]byte" (EStr (B "box-decoration-break:"))));
   ("css.propScrollBehavior", (EConv "[]byte" (EStr (B "scroll-behavior:"))));
   ("css.propScrollSnapType", (EConv "[]byte" (EStr (B "scroll-snap-type:"))));
   ("css.propScrollSnapAlign", (EConv "[]byte" (EStr (B "scroll-snap-align:"))));
   ("css.propScrollMargin", (EConv "[]byte" (EStr (B "scroll-margin:"))));
   ("css.propScrollPadding", (EConv "[]byte" (EStr (B "scroll-padding:"))));
   ("css.propAnimationName", (EConv "[]byte" (EStr (B "animation-name:"))));
   ("css.propAnimationDuration", (EConv "[]byte" (EStr (B "animation-duration:"))));
   ("css.propAnimationTimingFunction", (EConv "[]byte" (EStr (B "animation-timing-function:"))));
   ("css.propAnimationDelay", (EConv "[]byte" (EStr (B "animation-delay:"))));
   ("css.propAnimationIterationCount", (EConv "[]byte" (EStr (B "animation-iteration-count:"))));
   ("css.propAnimationDirection", (EConv "[]byte" (EStr (B "animation-direction:"))));
   ("css.propAnimationFillMode", (EConv "[]byte" (EStr (B "animation-fill-mode:"))));
   ("css.propAnimationPlayState", (EConv "[]byte" (EStr (B "animation-play-state:"))));
   ("css.propTransitionProperty", (EConv "[]byte" (EStr (B "transition-property:"))));
   ("css.propTransitionDelay", (EConv "[]byte" (EStr (B "transition-delay:"))));
   ("css.propTouchAction", (EConv "[]byte" (EStr (B "touch-action:"))));
   ("css.propWillChange", (EConv "[]byte" (EStr (B "will-change:"))));
   ("css.propCaretColor", (EConv "[]byte" (EStr (B "caret-color:"))));
   ("css.propScrollSnapStop", (EConv "[]byte" (EStr (B "scroll-snap-stop:"))));
   ("css.propSpeak", (EConv "[]byte" (EStr (B "speak:"))));
   ("css.propPageBreakBefore", (EConv "[]byte" (EStr (B "page-break-before:"))));
   ("css.propPageBreakAfter", (EConv "[]byte" (EStr (B "page-break-after:"))));
   ("css.propPageBreakInside", (EConv "[]byte" (EStr (B "page-break-inside:"))));
   ("css.unitPx", (EConv "[]byte" (EStr (B "px"))));
   ("css.unitPt", (EConv "[]byte" (EStr (B "pt"))));
   ("css.unitPc", (EConv "[]byte" (EStr (B "pc"))));
   ("css.unitInch", (EConv "[]byte" (EStr (B "in"))));
   ("css.unitCm", (EConv "[]byte" (EStr (B "cm"))));
   ("css.unitMm", (EConv "[]byte" (EStr (B "mm"))));
   ("css.unitEm", (EConv "[]byte" (EStr (B "em"))));
   ("css.unitRem", (EConv "[]byte" (EStr (B "rem"))));
   ("css.unitPercent", (EConv "[]byte" (EStr (B "%"))));
   ("css.unitVw", (EConv "[]byte" (EStr (B "vw"))));
   ("css.unitVh", (EConv "[]byte" (EStr (B "vh"))));
   ("css.unitVmin", (EConv "[]byte" (EStr (B "vmin"))));
   ("css.unitVmax", (EConv "[]byte" (EStr (B "vmax"))));
   ("css.unitCh", (EConv "[]byte" (EStr (B "ch"))));
   ("css.unitEx", (EConv "[]byte" (EStr (B "ex"))));
   ("htmx.space", (ESliceLit "[]byte" [(EInt 32)]));
   ("htmx.commaSpace", (ESliceLit "[]byte" [(EInt 44); (EInt 32)]));
   ("htmx.colonSpace", (ESliceLit "[]byte" [(EInt 58); (EInt 32)]));
   ("htmx.jsPrefix", (EConv "[]byte" (EStr (B "js:"))));
   ("htmx.attrGet", (EConv "[]byte" (EStr (B "hx-get"))));
   ("htmx.attrPost", (EConv "[]byte" (EStr (B "hx-post"))));
   ("htmx.attrPut", (EConv "[]byte" (EStr (B "hx-put"))));
   ("htmx.attrDelete", (EConv "[]byte" (EStr (B "hx-delete"))));
   ("htmx.attrPatch", (EConv "[]byte" (EStr (B "hx-patch"))));
   ("htmx.attrTarget", (EConv "[]byte" (EStr (B "hx-target"))));
   ("htmx.attrSwap", (EConv "[]byte" (EStr (B "hx-swap"))));
   ("htmx.attrSwapOob", (EConv "[]byte" (EStr (B "hx-swap-oob"))));
   ("htmx.attrTrigger", (EConv "[]byte" (EStr (B "hx-trigger"))));
   ("htmx.attrInclude", (EConv "[]byte" (EStr (B "hx-include"))));
   ("htmx.attrSelect", (EConv "[]byte" (EStr (B "hx-select"))));
   ("htmx.attrParams", (EConv "[]byte" (EStr (B "hx-params"))));
   ("htmx.attrPushUrl", (EConv "[]byte" (EStr (B "hx-push-url"))));
   ("htmx.attrReplaceUrl", (EConv "[]byte" (EStr (B "hx-replace-url"))));
   ("htmx.attrOn", (EConv "[]byte" (EStr (B "hx-on:"))));
   ("htmx.attrOnBeforeRequest", (EConv "[]byte" (EStr (B "hx-on:before-request"))));
   ("htmx.attrOnSend", (EConv "[]byte" (EStr (B "hx-on:send"))));
   ("htmx.attrOnAfterRequest", (EConv "[]byte" (EStr (B "hx-on:after-request"))));
   ("htmx.attrOnBeforeSwap", (EConv "[]byte" (EStr (B "hx-on:before-swap"))));
   ("htmx.attrOnAfterSwap", (EConv "[]byte" (EStr (B "hx-on:after-swap"))));
   ("htmx.attrOnResponseError", (EConv "[]byte" (EStr (B "hx-on:response-error"))));
   ("htmx.attrOnSendError", (EConv "[]byte" (EStr (B "hx-on:send-error"))));
   ("htmx.attrConfirm", (EConv "[]byte" (EStr (B "hx-confirm"))));
   ("htmx.attrDisable", (EConv "[]byte" (EStr (B "hx-disable"))));
   ("htmx.attrDisabledElt", (EConv "[]byte" (EStr (B "hx-disabled-elt"))));
   ("htmx.attrBoost", (EConv "[]byte" (EStr (B "hx-boost"))));
   ("htmx.attrExt", (EConv "[]byte" (EStr (B "hx-ext"))));
   ("htmx.attrEncoding", (EConv "[]byte" (EStr (B "hx-encoding"))));
   ("htmx.attrHistoryElt", (EConv "[]byte" (EStr (B "hx-history-elt"))));
   ("htmx.attrIndicator", (EConv "[]byte" (EStr (B "hx-indicator"))));
   ("htmx.attrRequest", (EConv "[]byte" (EStr (B "hx-request"))));
   ("htmx.attrVals", (EConv "[]byte" (EStr (B "hx-vals"))));
   ("htmx.attrVars", (EConv "[]byte" (EStr (B "hx-vars"))));
   ("htmx.attrHeaders", (EConv "[]byte" (EStr (B "hx-headers"))));
   ("htmx.attrInherit", (EConv "[]byte" (EStr (B "hx-inherit"))));
   ("htmx.attrDisinherit", (EConv "[]byte" (EStr (B "hx-disinherit"))));
   ("htmx.attrSync", (EConv "[]byte" (EStr (B "hx-sync"))));
   ("htmx.attrPreserve", (EConv "[]byte" (EStr (B "hx-preserve"))));
   ("htmx.attrPrompt", (EConv "[]byte" (EStr (B "hx-prompt"))));
   ("htmx.attrValidate", (EConv "[]byte" (EStr (B "hx-validate"))))].

Definition lib_consts : list (string * expr) :=
  [("css.Important", (EStr (B " !important")));
   ("css.DisplayBlock", (EStr (B "block")));
   ("css.DisplayInline", (EStr (B "inline")));
   ("css.DisplayInlineBlock", (EStr (B "inline-block")));
   ("css.DisplayFlex", (EStr (B "flex")));
   ("css.DisplayGrid", (EStr (B "grid")));
   ("css.DisplayNone", (EStr (B "none")));
   ("css.PositionStatic", (EStr (B "static")));
   ("css.PositionRelative", (EStr (B "relative")));
   ("css.PositionAbsolute", (EStr (B "absolute")));
   ("css.PositionFixed", (EStr (B "fixed")));
   ("css.PositionSticky", (EStr (B "sticky")));
   ("css.TextLeft", (EStr (B "left")));
   ("css.TextCenter", (EStr (B "center")));
   ("css.TextRight", (EStr (B "right")));
   ("css.TextJustify", (EStr (B "justify")));
   ("css.BorderNone", (EStr (B "none")));
   ("css.BorderSolid", (EStr (B "solid")));
   ("css.BorderDashed", (EStr (B "dashed")));
   ("css.BorderDotted", (EStr (B "dotted")));
   ("css.BorderDouble", (EStr (B "double")));
   ("css.BorderGroove", (EStr (B "groove")));
   ("css.BorderRidge", (EStr (B "ridge")));
   ("css.BorderInset", (EStr (B "inset")));
   ("css.BorderOutset", (EStr (B "outset")));
   ("css.FontWeightNormal", (EStr (B "normal")));
   ("css.FontWeightBold", (EStr (B "bold")));
   ("css.FontWeightLight", (EStr (B "lighter")));
   ("css.FontWeightBolder", (EStr (B "bolder")));
   ("css.JustifyStart", (EStr (B "flex-start")));
   ("css.JustifyCenter", (EStr (B "center")));
   ("css.JustifyEnd", (EStr (B "flex-end")));
   ("css.JustifyBetween", (EStr (B "space-between")));
   ("css.JustifyAround", (EStr (B "space-around")));
   ("css.AlignStart", (EStr (B "start")));
   ("css.AlignCenter", (EStr (B "center")));
   ("css.AlignEnd", (EStr (B "end")));
   ("css.AlignStretch", (EStr (B "stretch")));
   ("css.AlignBaseline", (EStr (B "baseline")));
   ("css.OverflowVisible", (EStr (B "visible")));
   ("css.OverflowHidden", (EStr (B "hidden")));
   ("css.OverflowScroll", (EStr (B "scroll")));
   ("css.OverflowAuto", (EStr (B "auto")));
   ("css.VisibilityVisible", (EStr (B "visible")));
   ("css.VisibilityHidden", (EStr (B "hidden")));
   ("css.VisibilityCollapse", (EStr (B "collapse")));
   ("css.TextTransformNone", (EStr (B "none")));
   ("css.TextTransformCapitalize", (EStr (B "capitalize")));
   ("css.TextTransformUppercase", (EStr (B "uppercase")));
   ("css.TextTransformLowercase", (EStr (B "lowercase")));
   ("css.WhiteSpaceNormal", (EStr (B "normal")));
   ("css.WhiteSpaceNowrap", (EStr (B "nowrap")));
   ("css.WhiteSpacePre", (EStr (B "pre")));
   ("css.WhiteSpacePreWrap", (EStr (B "pre-wrap")));
   ("css.WhiteSpacePreLine", (EStr (B "pre-line")));
   ("htmx.SwapOuterHTML", (EStr (B "outerHTML")));
   ("htmx.SwapInnerHTML", (EStr (B "innerHTML")));
   ("htmx.SwapTextContent", (EStr (B "textContent")));
   ("htmx.SwapNone", (EStr (B "none")));
   ("htmx.SwapDelete", (EStr (B "delete")));
   ("htmx.SwapBeforeBegin", (EStr (B "beforebegin")));
   ("htmx.SwapAfterBegin", (EStr (B "afterbegin")));
   ("htmx.SwapBeforeEnd", (EStr (B "beforeend")));
   ("htmx.SwapAfterEnd", (EStr (B "afterend")));
   ("htmx.TriggerClick", (EStr (B "click")));
   ("htmx.TriggerChange", (EStr (B "change")));
   ("htmx.TriggerSubmit", (EStr (B "submit")));
   ("htmx.TriggerLoad", (EStr (B "load")));
   ("htmx.TriggerEvery", (EStr (B "every")));
   ("htmx.TriggerRevealed", (EStr (B "revealed")));
   ("htmx.TriggerIntersect", (EStr (B "intersect")));
   ("htmx.EventBeforeRequest", (EStr (B "before-request")));
   ("htmx.EventSend", (EStr (B "send")));
   ("htmx.EventAfterRequest", (EStr (B "after-request")));
   ("htmx.EventBeforeSwap", (EStr (B "before-swap")));
   ("htmx.EventAfterSwap", (EStr (B "after-swap")));
   ("htmx.EventResponseError", (EStr (B "response-error")));
   ("htmx.EventSendError", (EStr (B "send-error")));
   ("htmx.SyncAbort", (EStr (B "abort")));
   ("htmx.SyncDrop", (EStr (B "drop")));
   ("htmx.SyncReplace", (EStr (B "replace")));
   ("htmx.SyncQueue", (EStr (B "queue")));
   ("htmx.SyncQueueFirst", (EStr (B "queue first")));
   ("htmx.SyncQueueLast", (EStr (B "queue last")));
   ("htmx.SyncQueueAll", (EStr (B "queue all")));
   ("htmx.AttrGet", (EStr (B "hx-get")));
   ("htmx.AttrPost", (EStr (B "hx-post")));
   ("htmx.AttrPut", (EStr (B "hx-put")));
   ("htmx.AttrDelete", (EStr (B "hx-delete")));
   ("htmx.AttrPatch", (EStr (B "hx-patch")));
   ("htmx.AttrTarget", (EStr (B "hx-target")));
   ("htmx.AttrSwap", (EStr (B "hx-swap")));
   ("htmx.AttrSwapOob", (EStr (B "hx-swap-oob")));
   ("htmx.AttrTrigger", (EStr (B "hx-trigger")));
   ("htmx.AttrInclude", (EStr (B "hx-include")));
   ("htmx.AttrSelect", (EStr (B "hx-select")));
   ("htmx.AttrParams", (EStr (B "hx-params")));
   ("htmx.AttrPushURL", (EStr (B "hx-push-url")));
   ("htmx.AttrReplaceURL", (EStr (B "hx-replace-url")));
   ("htmx.AttrConfirm", (EStr (B "hx-confirm")));
   ("htmx.AttrDisable", (EStr (B "hx-disable")));
   ("htmx.AttrDisabledElt", (EStr (B "hx-disabled-elt")));
   ("htmx.AttrBoost", (EStr (B "hx-boost")));
   ("htmx.AttrExt", (EStr (B "hx-ext")));
   ("htmx.AttrEncoding", (EStr (B "hx-encoding")));
   ("htmx.AttrHistoryElt", (EStr (B "hx-history-elt")));
   ("htmx.AttrIndicator", (EStr (B "hx-indicator")));
   ("htmx.AttrRequest", (EStr (B "hx-request")));
   ("htmx.AttrOn", (EStr (B "hx-on")));
   ("htmx.AttrVals", (EStr (B "hx-vals")));
   ("htmx.AttrVars", (EStr (B "hx-vars")));
   ("htmx.AttrHeaders", (EStr (B "hx-headers")));
   ("htmx.AttrInherit", (EStr (B "hx-inherit")));
   ("htmx.AttrDisinherit", (EStr (B "hx-disinherit")));
   ("htmx.AttrPreserve", (EStr (B "hx-preserve")));
   ("htmx.AttrPrompt", (EStr (B "hx-prompt")));
   ("htmx.AttrSync", (EStr (B "hx-sync")));
   ("htmx.AttrValidate", (EStr (B "hx-validate")))].
