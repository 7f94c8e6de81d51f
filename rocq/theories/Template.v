(** template.go: nodes inside an html/template.

    html/template is library code.  Modelled of it: a template whose actions
    are all of the form {{token .}}.  Its parse tree is a list of literal texts
    and tokens; the texts are those left after html/template has processed them
    (it drops HTML comments, for instance).  A token stands in the text between
    tags, or as an attribute value in quotes, where an empty result of type HTML
    or HTMLAttr gives nothing; or inside a tag where an attribute could stand,
    where html/template gives nothing for an empty HTMLAttr but ZgotmplZ for an
    empty HTML (htmlNameFilter).  Tokens in scripts, styles and comments, and
    those named like a keyword of the template language, or html or urlquery
    (which html/template treats specially), are left out. *)
From Verif Require Import Bytes IO Nodes Values Render Build.

Section Template.
Context {W : UserWorld}.

(** [inside]: inside a tag. *)
Inductive piece := PText (t : bytes) | PToken (inside : bool) (k : bytes).

(** template.go 31: a map; [None] is a nil Node. *)
Definition node_map := list (bytes * option (node U)).

(** template.go 56-64: contextFuncMap keeps the nodes that are not nil. *)
Definition func_map (nm : node_map) : list (bytes * node U) :=
  flat_map (fun kn => match snd kn with Some n => [(fst kn, n)] | None => [] end) nm.
Fixpoint func_of (fm : list (bytes * node U)) (k : bytes) : option (node U) :=
  match fm with
  | [] => None
  | (k', n) :: fm' => if beq k' k then Some n else func_of fm' k
  end.

(** A parsed template with the function of each token; template.go 10-12. *)
Inductive tpiece := TText (t : bytes) | TNode (inside : bool) (n : node U).
Definition template := list tpiece.

(** template.go 36-46 with text/template's Parse: a token without a function
    is an error ([None]). *)
Fixpoint parse (ps : list piece) (fm : list (bytes * node U)) : option template :=
  match ps with
  | [] => Some []
  | PText t :: ps' => option_map (cons (TText t)) (parse ps' fm)
  | PToken i k :: ps' =>
      match func_of fm k with
      | None => None
      | Some n => option_map (cons (TNode i n)) (parse ps' fm)
      end
  end.
Definition new_template (ps : list piece) (nm : node_map) : option template := parse ps (func_map nm).

(** text/template's goodName: the names that Funcs takes.  For names with bytes
    outside ASCII, where it consults Unicode tables, [other] answers. *)
Definition func_name (other : bytes -> bool) (k : bytes) : bool :=
  if existsb (fun c => 128 <=? nat_of_ascii c) k then other k
  else match k with
       | [] => false
       | c :: k' =>
           (Ascii.eqb c "_" || is_letter c) &&
           forallb (fun c => Ascii.eqb c "_" || is_letter c || is_digit c) k'
       end.

(** template.go 36-46: Funcs panics when it is given a name it does not take;
    [Done None] is an error. *)
Definition NewTemplate (other : bytes -> bool) (ps : list piece) (nm : node_map) : outcome (option template) :=
  if forallb (fun kn => func_name other (fst kn)) (func_map nm) then Done (new_template ps nm) else Panic.

(** template.go 48-54. *)
Definition MustNewTemplate (other : bytes -> bool) (ps : list piece) (nm : node_map) : outcome template :=
  match NewTemplate other ps nm with
  | Done (Some t) => Done t
  | Done None => Panic                                       (* 52 *)
  | Panic => Panic
  end.

(** What html/template makes of the empty result of a token's function: for an
    attribute node the function has the result type HTMLAttr, for others HTML
    (template.go 67, 72). *)
Definition filtered (inside : bool) (n : node U) : bytes :=
  if inside && negb (is_attr n) then B "ZgotmplZ" else [].

(** text/template's exec (walk): a text is one Write; a token calls the
    function of template.go 66-78, which renders the node and yields an empty
    result; an error it returns ends the execution; otherwise the result is
    filtered and printed (fmt.Fprint writes even when it is empty).  A failing Write ends
    the execution.  The result is the returned error and ctx.Error.  (A node's
    error is wrapped in a template.ExecError; [Some e] stands for the wrapper.) *)
Fixpoint exec (t : template) (fr : frame U) (cerr : option error)
  : io U (option error * option error) :=
  match t with
  | [] => Ret (None, cerr)
  | TText x :: t' =>
      Wr x (fun _ e => match e with Some _ => Ret (e, cerr) | None => exec t' fr cerr end)
  | TNode i n :: t' =>
      '(r, cerr') <- render n fr cerr ;;
      match r with
      | Some _ => Ret (r, cerr')
      | None => Wr (filtered i n) (fun _ e => match e with Some _ => Ret (e, cerr') | None => exec t' fr cerr' end)
      end
  end.

(** template.go 21-28: Execute makes a new context each time. *)
Definition execute (t : template) (data : option mref) (cargo : gval U) : io U (option error) :=
  '(r, _) <- exec t (Frame data cargo None) None ;; Ret r.

End Template.
