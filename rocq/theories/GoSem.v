(** A semantics for the Go subset of [GoSyntax.v].

    A Go program is interpreted over a heap of structs, arrays and maps; its
    interactions with the writer, with user code and with the order of map
    iteration are those of [IO.v].  Evaluating a syntax tree gives a [prog],
    which [go_run] executes with a step budget.

    Simplifications.  Strings and [[]byte]s are values (no aliasing between
    byte slices; nil and empty [[]byte] differ only in comparisons with nil).
    All slices start at offset 0 of their array.  A map in an interface or with a
    method is a [HeadersMap] (of htmx, not nil), the only named map type.  Closures copy the variables
    they capture (the translator checks that none is assigned afterwards).
    A function of the program as a value is a struct "func" with its full name.
    Panics are not recovered.  Package variables are evaluated where they are
    used (the translator checks that none is assigned). *)
From Coq Require Import ZArith.
From Verif Require Import Bytes IO Escape Nodes Values Build Slices GoSyntax.
From Verif Require Headers Generator Template Reflect.

Section Sem.
Context {W : UserWorld}.

Definition loc := nat.

(** ** Values

    [VNil] is the nil of every type.  [VAny g] is a value of the user's data
    (not nil) held in an interface, [VKey k] a [DynamicValueKey] so held.
    [VSlice l n]: the first [n] cells of array [l], whose length is the
    capacity.  The function values are the user's functions and closures.
    [VReader ts e] is an io.Reader of which the tokenizer of
    golang.org/x/net/html makes the tokens [ts] and then the error [e].
    [VTyped] is for package context's Get, which looks at values with all of
    their type: [TVal r] is the value [r] of [Reflect.v] in an interface;
    [TValue iface r ro] is a reflect.Value, of interface type or not, got from
    an unexported field or not; [TInvalid] the zero reflect.Value; [TType t] a
    reflect.Type; [TPath p] the Index of a reflect.StructField. *)
Inductive typed : Type :=
| TVal (r : Reflect.rval)
| TValue (iface : bool) (r : Reflect.rval) (ro : bool)
| TInvalid
| TType (t : Reflect.gtype)
| TPath (p : list nat).
Inductive gv : Type :=
| VNil
| VBool (b : bool)
| VInt (z : Z)
| VFloat (t : bytes)
| VStr (s : bytes)
| VBytes (b : bytes)
| VSlice (l : loc) (n : nat)
| VMap (l : loc)
| VPtr (l : loc)
| VStruct (tag : string) (fs : list (string * gv))
| VErr (e : error)
| VWriter
| VAny (g : gval U)
| VKey (k : bytes)
| VRegex (p : bytes)
| VRefl (g : gval U)
| VCond (f : condfn U)
| VDyn (f : dynfn U)
| VItems (f : ctx U -> U -> list (gval U) * U)
| VNodes (f : ctx U -> U -> list (option (node U)) * U)
| VYield (p : yprog U)
| VImper (p : iprog U)
| VClo (f : fundecl) (captured : list (string * gv))
| VReader (ts : list Generator.gtok) (e : error)
| VTyped (x : typed).

Definition venv := list (string * gv).

Inductive obj : Type :=
| OStruct (tag : string) (fs : list (string * gv))
| OArr (cells : list gv)
| OMap (entries : list (bytes * gv)).

Definition heap := list obj.

Inductive flow : Type := FNext | FBreak | FContinue | FReturn (vs : list gv).

Inductive callee : Type := CFun (name : string) | CVal (f : gv).

(** [PHeap k]: a heap operation, [None] is a panic; [PUser l k]: user code that
    looks at the context at [l]; [PState k]: user code without a context;
    [PLoop b s k]: repeat [b] from state [s] until it answers [inr]. *)
Inductive prog (A : Type) : Type :=
| PRet (a : A)
| PPanic
| PHeap (k : heap -> option (prog A * heap))
| PUser (l : loc) (k : ctx U -> U -> prog A * U)
| PState (k : U -> prog A * U)
| PWrite (d : bytes) (k : nat -> option error -> prog A)
| PPick (ks : list bytes) (k : list bytes -> prog A)
| PCall (c : callee) (args : list gv) (spread : bool) (k : list gv -> prog A)
| PLoop (b : venv -> prog (venv + flow * venv)) (s : venv) (k : flow * venv -> prog A).
Arguments PRet {A}. Arguments PPanic {A}. Arguments PHeap {A}. Arguments PUser {A}.
Arguments PState {A}. Arguments PWrite {A}. Arguments PPick {A}. Arguments PCall {A}.
Arguments PLoop {A}.

Fixpoint pbind {A B : Type} (p : prog A) (f : A -> prog B) : prog B :=
  match p with
  | PRet a => f a
  | PPanic => PPanic
  | PHeap k => PHeap (fun h => match k h with
                               | Some (q, h') => Some (pbind q f, h')
                               | None => None
                               end)
  | PUser l k => PUser l (fun c u => let '(q, u') := k c u in (pbind q f, u'))
  | PState k => PState (fun u => let '(q, u') := k u in (pbind q f, u'))
  | PWrite d k => PWrite d (fun n e => pbind (k n e) f)
  | PPick ks k => PPick ks (fun o => pbind (k o) f)
  | PCall c args sp k => PCall c args sp (fun vs => pbind (k vs) f)
  | PLoop b s k => PLoop b s (fun r => pbind (k r) f)
  end.

Local Notation "x <-- p ;; q" := (pbind p (fun x => q))
  (at level 100, p at next level, right associativity).
Local Notation "' pat <-- p ;; q" := (pbind p (fun x => match x with pat => q end))
  (at level 100, pat pattern, p at next level, right associativity).

(** ** Helpers *)

Fixpoint assoc {A} (x : string) (l : list (string * A)) : option A :=
  match l with
  | [] => None
  | (y, v) :: l' => if String.eqb y x then Some v else assoc x l'
  end.
Fixpoint set_assoc {A} (x : string) (v : A) (l : list (string * A)) : list (string * A) :=
  match l with
  | [] => []
  | (y, w) :: l' => if String.eqb y x then (y, v) :: l' else (y, w) :: set_assoc x v l'
  end.
Fixpoint bassoc {A} (x : bytes) (l : list (bytes * A)) : option A :=
  match l with
  | [] => None
  | (y, v) :: l' => if beq y x then Some v else bassoc x l'
  end.
(** Storing into a map; a new key goes to the end. *)
Fixpoint bstore {A} (x : bytes) (v : A) (l : list (bytes * A)) : list (bytes * A) :=
  match l with
  | [] => [(x, v)]
  | (y, w) :: l' => if beq y x then (y, v) :: l' else (y, w) :: bstore x v l'
  end.

Definition verr (e : option error) : gv := match e with Some e => VErr e | None => VNil end.
Definition err_of (v : gv) : option (option error) :=
  match v with VErr e => Some (Some e) | VNil => Some None | _ => None end.
Definition any_of (g : gval U) : gv := match g with GNil => VNil | _ => VAny g end.
Definition bytes_of (v : gv) : option bytes :=
  match v with VBytes b | VStr b => Some b | VNil => Some [] | _ => None end.

Definition lift {A} (o : option A) : prog A :=
  match o with Some a => PRet a | None => PPanic end.
Definition one (vs : list gv) : prog gv := match vs with [v] => PRet v | _ => PPanic end.

(** The value of io.EOF. *)
Definition io_EOF : error := 0.
(** The error of Parse; template.go does not look into it. *)
Definition template_error : error := 1.

(** Go's zero value of a type. *)
Definition zero_of (t : string) : gv :=
  if String.eqb t "int" then VInt 0
  else if String.eqb t "bool" then VBool false
  else if String.eqb t "string" then VStr []
  else VNil.

(** ** Heap *)

Definition alloc (o : obj) : prog loc :=
  PHeap (fun h => Some (PRet (length h), h ++ [o])).
Definition load (l : loc) : prog obj :=
  PHeap (fun h => match nth_error h l with Some o => Some (PRet o, h) | None => None end).
Definition update (l : loc) (o : obj) : prog unit :=
  PHeap (fun h => Some (PRet tt, set_nth h l o)).

(** The cells of a slice. *)
Definition cells (v : gv) : prog (list gv) :=
  match v with
  | VNil => PRet []
  | VSlice l n =>
      o <-- load l ;;
      match o with OArr cs => PRet (firstn n cs) | _ => PPanic end
  | VAny (GSlice _ xs) => PRet (map any_of xs)
  | _ => PPanic
  end.

Definition new_slice (vs : list gv) : prog gv :=
  l <-- alloc (OArr vs) ;; PRet (VSlice l (length vs)).

(** Capacity for [need] elements when [cap] do not suffice (runtime/slice.go
    nextslicecap, without the rounding to allocator size classes). *)
Definition grow (cap need : nat) : nat :=
  if 2 * cap <? need then need else Nat.max need (go_grow cap).

Fixpoint write_cells (cs : list gv) (i : nat) (vs : list gv) : list gv :=
  match vs with
  | [] => cs
  | v :: vs' => write_cells (set_nth cs i v) (S i) vs'
  end.

(** [append(s, vs...)]. *)
Definition append_slice (s : gv) (vs : list gv) : prog gv :=
  match vs with
  | [] => PRet s
  | _ =>
      match s with
      | VNil => new_slice vs
      | VSlice l n =>
          o <-- load l ;;
          match o with
          | OArr cs =>
              let need := n + length vs in
              if need <=? length cs then
                _ <-- update l (OArr (write_cells cs n vs)) ;; PRet (VSlice l need)
              else
                let cap := grow (length cs) need in
                l' <-- alloc (OArr (firstn n cs ++ vs ++ repeat VNil (cap - need))) ;;
                PRet (VSlice l' need)
          | _ => PPanic
          end
      | _ => PPanic
      end
  end.

(** ** Program and configuration

    [c_panics] is the package variable PanicOnInvalidName.  The data model has
    one constructor for all signed integers, one for all unsigned ones and one
    for both floats; [c_int], [c_uint], [c_float] say which Go type they have.
    [c_letters] says which names with bytes outside ASCII are identifiers,
    [c_parse] how html/template reads a text.  [c_known] says which nodes user
    code has at hand and need not build: any node that is on the heap, say of a
    package variable or of a closure. *)
Record config := Config {
  c_prog : program;
  c_panics : bool;
  c_int : string;
  c_uint : string;
  c_float : string;
  c_letters : bytes -> bool;
  c_parse : bytes -> option (list Template.piece);
  c_types : Reflect.decls * Reflect.implements * Reflect.gtype;
  c_known : heap -> node U -> option gv
}.
Variable C : config.
(** Struct declarations, method sets, and the type parameter T. *)
Definition t_decls : Reflect.decls := fst (fst (c_types C)).
Definition t_implements : Reflect.implements := snd (fst (c_types C)).
Definition t_param : Reflect.gtype := snd (c_types C).

Definition lookup_fun (f : string) : option fundecl := assoc f (p_funcs (c_prog C)).
Definition has_fun (f : string) : bool :=
  match lookup_fun f with Some _ => true | None => false end.
Definition dot (tag m : string) : string := (tag ++ "." ++ m)%string.

(** The type tag of a pointer's target. *)
Definition tag_of (h : heap) (v : gv) : option string :=
  match v with
  | VPtr l => match nth_error h l with Some (OStruct t _) => Some t | _ => None end
  | _ => None
  end.

(** Type assertion [v.(t)]: the value as seen at type [t]. *)
Definition has_type (h : heap) (v : gv) (t : string) : option gv :=
  match assoc t (p_ifaces (c_prog C)) with
  | Some ms =>
      match tag_of h v with
      | Some tag => if forallb (fun m => has_fun (dot tag m)) ms then Some v else None
      | None => None
      end
  | None =>
      match v with
      | VPtr _ =>
          match tag_of h v with
          | Some tag => if String.eqb t (String "*" tag) then Some v else None
          | None => None
          end
      | VStruct tag _ => if String.eqb t tag then Some v else None
      | VKey k => if String.eqb t "DynamicValueKey" then Some (VStr k) else None
      | VDyn _ | VClo _ _ => if String.eqb t "DynamicValueFunc" then Some v else None
      | VStr _ => if String.eqb t "string" then Some v else None
      | VBytes _ => if String.eqb t "[]byte" then Some v else None
      | VMap _ => if String.eqb t "HeadersMap" then Some v else None
      | VAny g =>
          match g with
          | GNil => None
          | GBool b => if String.eqb t "bool" then Some (VBool b) else None
          | GBytes b => if String.eqb t "[]byte" then Some (VBytes b) else None
          | GString s => if String.eqb t "string" then Some (VStr s) else None
          | GInt z => if String.eqb t (c_int C) then Some (VInt z) else None
          | GUint n => if String.eqb t (c_uint C) then Some (VInt (Z.of_N n)) else None
          | GFloat x => if String.eqb t (c_float C) then Some (VFloat x) else None
          | GStringer _ => if String.eqb t "fmt.Stringer" then Some v else None
          | GFunc _ => if String.eqb t "func() any" then Some v else None
          | GMap _ => if String.eqb t "map[string]any" then Some v else None
          | GSlice typed _ =>
              if String.eqb t "[]any" && negb typed then Some v else None
          | GOther _ => None
          end
      | VTyped (TVal r) =>
          if String.eqb t "T" && Reflect.assert_type t_implements t_param r then Some v else None
      | _ => None
      end
  end.

(** ** Operators *)

Definition is_nil (v : gv) : bool := match v with VNil => true | _ => false end.

(** [==]; comparing two values neither of which is nil is only defined for
    basic types and errors. *)
Definition equal (a b : gv) : option bool :=
  match a, b with
  | VNil, _ => Some (is_nil b)
  | _, VNil => Some false
  | VInt x, VInt y => Some (Z.eqb x y)
  | VStr x, VStr y => Some (beq x y)
  | VBool x, VBool y => Some (Bool.eqb x y)
  | VErr x, VErr y => Some (Nat.eqb x y)
  | _, _ => None
  end.

Definition binary (op : binop) (a b : gv) : option gv :=
  match op, a, b with
  | OEq, _, _ => option_map VBool (equal a b)
  | ONe, _, _ => option_map (fun r => VBool (negb r)) (equal a b)
  | OLt, VInt x, VInt y => Some (VBool (Z.ltb x y))
  | OLe, VInt x, VInt y => Some (VBool (Z.leb x y))
  | OGt, VInt x, VInt y => Some (VBool (Z.ltb y x))
  | OGe, VInt x, VInt y => Some (VBool (Z.leb y x))
  | OAdd, VInt x, VInt y => Some (VInt (x + y))
  | OSub, VInt x, VInt y => Some (VInt (x - y))
  | OMul, VInt x, VInt y => Some (VInt (x * y))
  | OAdd, VStr x, VStr y => Some (VStr (x ++ y))
  | _, _, _ => None
  end.

Definition field (v : gv) (f : string) : prog gv :=
  match v with
  | VPtr l =>
      o <-- load l ;;
      match o with OStruct _ fs => lift (assoc f fs) | _ => PPanic end
  | VStruct _ fs => lift (assoc f fs)
  | _ => PPanic
  end.

(** [v[i]] and [r, ok := v[i]]; the result is [(r, ok)].  A missing entry of a
    map gives nil (the only map with another element type that is read without
    [ok] is the [map[string]bool] of the generator, see [convert]). *)
Definition index (v i : gv) : prog (gv * bool) :=
  match v, i with
  | VSlice l n, VInt z =>
      if (0 <=? z)%Z && (z <? Z.of_nat n)%Z then
        cs <-- cells v ;;
        match nth_error cs (Z.to_nat z) with Some x => PRet (x, true) | None => PPanic end
      else PPanic
  | VMap l, VStr k =>
      o <-- load l ;;
      match o with
      | OMap es => PRet (match bassoc k es with Some x => (x, true) | None => (VNil, false) end)
      | _ => PPanic
      end
  | VAny (GMap m), VStr k =>
      PState (fun u => (PRet (match mget u m k with
                              | Some g => (any_of g, true)
                              | None => (VNil, false)
                              end), u))
  | VNil, VStr _ => PRet (VNil, false)
  | _, _ => PPanic
  end.

Definition length_of (v : gv) : prog gv :=
  match v with
  | VNil => PRet (VInt 0)
  | VSlice _ n => PRet (VInt (Z.of_nat n))
  | VBytes b | VStr b => PRet (VInt (Z.of_nat (length b)))
  | VAny (GSlice _ xs) => PRet (VInt (Z.of_nat (length xs)))
  | VMap l =>
      o <-- load l ;;
      match o with OMap es => PRet (VInt (Z.of_nat (length es))) | _ => PPanic end
  | _ => PPanic
  end.

(** [v[lo:hi]]. *)
Definition sub_slice (v : gv) (lo hi : option gv) : prog gv :=
  let bound (o : option gv) (d : nat) : option nat :=
    match o with
    | None => Some d
    | Some (VInt z) => if (0 <=? z)%Z then Some (Z.to_nat z) else None
    | Some _ => None
    end in
  match v with
  | VNil =>
      match bound lo 0, bound hi 0 with
      | Some 0, Some 0 => PRet VNil
      | _, _ => PPanic
      end
  | VBytes b =>
      match bound lo 0, bound hi (length b) with
      | Some i, Some j =>
          if (i <=? j) && (j <=? length b) then PRet (VBytes (subslice b i j)) else PPanic
      | _, _ => PPanic
      end
  | VStr b =>
      match bound lo 0, bound hi (length b) with
      | Some i, Some j =>
          if (i <=? j) && (j <=? length b) then PRet (VStr (subslice b i j)) else PPanic
      | _, _ => PPanic
      end
  | VSlice l n =>
      match bound lo 0, bound hi n with
      | Some 0, Some j =>
          o <-- load l ;;
          match o with
          | OArr cs => if j <=? length cs then PRet (VSlice l j) else PPanic
          | _ => PPanic
          end
      | _, _ => PPanic
      end
  | _ => PPanic
  end.

(** Conversion "bool" stands where an element of a [map[string]bool] is the
    condition of an [if]. *)
Definition convert (t : string) (v : gv) : option gv :=
  if String.eqb t "[]byte" then
    match v with VStr b | VBytes b => Some (VBytes b) | VNil => Some VNil | _ => None end
  else if String.eqb t "string" then
    match v with VStr b | VBytes b => Some (VStr b) | VNil => Some (VStr []) | _ => None end
  else if String.eqb t "bool" then
    match v with VBool _ => Some v | VNil => Some (VBool false) | _ => None end
  else match v with VInt _ | VFloat _ => Some v | _ => None end.

Definition make (t : string) (args : list gv) : prog gv :=
  if String.eqb (substring 0 4 t) "map[" then
    l <-- alloc (OMap []) ;; PRet (VMap l)
  else
    match args with
    | [VInt n] =>
        if (n <? 0)%Z then PPanic
        else if String.eqb t "[]byte" then PRet (VBytes (repeat Ascii.zero (Z.to_nat n)))
        else l <-- alloc (OArr (repeat VNil (Z.to_nat n))) ;; PRet (VSlice l (Z.to_nat n))
    | [VInt n; VInt c] =>
        if (n <? 0)%Z || (c <? n)%Z then PPanic
        else l <-- alloc (OArr (repeat VNil (Z.to_nat c))) ;; PRet (VSlice l (Z.to_nat n))
    | _ => PPanic
    end.

Definition ascii_of_Z (z : Z) : ascii := ascii_of_N (Z.to_N z).
Definition Z_of_ascii (c : ascii) : Z := Z.of_N (N_of_ascii c).
Fixpoint bytes_of_ints (vs : list gv) : option bytes :=
  match vs with
  | [] => Some []
  | VInt z :: vs' => option_map (cons (ascii_of_Z z)) (bytes_of_ints vs')
  | _ => None
  end.

Definition append_builtin (args : list gv) (spread : bool) : prog gv :=
  match args with
  | s :: vs =>
      if spread then
        match vs with
        | [t] =>
            match s, t with
            | VBytes a, VBytes b | VBytes a, VStr b => PRet (VBytes (a ++ b))
            | VNil, VBytes b => PRet (VBytes b)
            | _, _ => ts <-- cells t ;; append_slice s ts
            end
        | _ => PPanic
        end
      else
        match s with
        | VBytes a => b <-- lift (bytes_of_ints vs) ;; PRet (VBytes (a ++ b))
        | _ => append_slice s vs
        end
  | [] => PPanic
  end.

(** The regular expression of aitch.go 13, the only one in the program. *)
Definition tag_pattern : bytes := B "^[a-zA-Z][a-zA-Z0-9._\-:]*$".

Fixpoint strings_of (vs : list gv) : option (list bytes) :=
  match vs with
  | [] => Some []
  | VStr s :: vs' => option_map (cons s) (strings_of vs')
  | _ => None
  end.

(** [sort.Strings(v)], in place. *)
Definition sort_in_place (v : gv) : prog (list gv) :=
  match v with
  | VNil => PRet []
  | VSlice l n =>
      o <-- load l ;;
      match o with
      | OArr cs =>
          match strings_of (firstn n cs) with
          | Some ks =>
              _ <-- update l (OArr (map VStr (Headers.sort_strings ks) ++ skipn n cs)) ;; PRet []
          | None => PPanic
          end
      | _ => PPanic
      end
  | _ => PPanic
  end.

(** [strings.Trim(s, cut)] for ASCII characters to cut. *)
Definition cut_by (cut : bytes) (c : ascii) : bool := existsb (Ascii.eqb c) cut.
Fixpoint trim_left (cut s : bytes) : bytes :=
  match s with
  | c :: s' => if cut_by cut c then trim_left cut s' else s
  | [] => []
  end.
Definition trim (cut s : bytes) : bytes := rev (trim_left cut (rev (trim_left cut s))).
(** [strings.LastIndex(s, c)] for one character; [r] is the answer so far, [i]
    the place reached. *)
Fixpoint last_index_from (c : ascii) (s : bytes) (i : nat) (r : Z) : Z :=
  match s with
  | [] => r
  | x :: s' => last_index_from c s' (S i) (if Ascii.eqb x c then Z.of_nat i else r)
  end.
Definition last_index (c : ascii) (s : bytes) : Z := last_index_from c s 0 (-1).

(** The name that the runtime has for a function of the program. *)
Definition full_name (f : string) : bytes :=
  if prefix "aitch." f then B "github.com/go-andiamo/" ++ B f
  else B "github.com/go-andiamo/aitch/" ++ B f.
Definition func_value (f : string) : gv := VStruct "func" [("name"%string, VStr (full_name f))].

(** Names of other packages as values: kinds of reflect, token types of
    golang.org/x/net/html (token.go). *)
Definition ext_values : list (string * gv) :=
  [("reflect.Slice", VStr (B "slice"));
   ("reflect.Func", VStr (B "func"));
   ("reflect.Ptr", VStr (B "ptr"));
   ("reflect.Map", VStr (B "map"));
   ("reflect.String", VStr (B "string"));
   ("reflect.Struct", VStr (B "struct"));
   ("os.Stdout", VWriter);
   ("io.EOF", VErr io_EOF);
   ("golang.org/x/net/html.ErrorToken", VInt 0);
   ("golang.org/x/net/html.TextToken", VInt 1);
   ("golang.org/x/net/html.StartTagToken", VInt 2);
   ("golang.org/x/net/html.EndTagToken", VInt 3);
   ("golang.org/x/net/html.SelfClosingTagToken", VInt 4);
   ("golang.org/x/net/html.CommentToken", VInt 5);
   ("golang.org/x/net/html.DoctypeToken", VInt 6)]%string.

(** Builtins and functions of other packages ([strings.ReplaceAll],
    [strings.Replace] and [strings.LastIndex] only for a single byte;
    [strings.ToLower] as far as it matters for looking up ASCII keys, see
    [Generator.to_lower]). *)
Definition external (f : string) (args : list gv) (spread : bool) : prog (list gv) :=
  if String.eqb f "append" then v <-- append_builtin args spread ;; PRet [v]
  else if String.eqb f "len" then
    match args with [v] => r <-- length_of v ;; PRet [r] | _ => PPanic end
  else if String.eqb f "strings.HasPrefix" then
    match args with [VStr s; VStr p] => PRet [VBool (has_prefix p s)] | _ => PPanic end
  else if String.eqb f "strings.ContainsAny" then
    match args with
    | [VStr s; VStr cs] => PRet [VBool (existsb (fun c => existsb (Ascii.eqb c) cs) s)]
    | _ => PPanic
    end
  else if String.eqb f "strconv.FormatInt" then
    match args with [VInt z; VInt 10] => PRet [VStr (format_int z)] | _ => PPanic end
  else if String.eqb f "strconv.FormatUint" then
    match args with [VInt z; VInt 10] => PRet [VStr (format_uint (Z.to_N z))] | _ => PPanic end
  else if String.eqb f "strconv.FormatFloat" then
    match args with
    | [VFloat t; VInt 103; VInt (-1); VInt bits] =>
        if (bits =? (if String.eqb (c_float C) "float32" then 32 else 64))%Z
        then PRet [VStr t] else PPanic
    | _ => PPanic
    end
  else if String.eqb f "reflect.ValueOf" then
    match args with
    | [VAny g] => PRet [VRefl g]
    | [VNil] => PRet [VRefl GNil]
    | [VTyped (TVal r)] => PRet [VTyped (TValue false r false)]
    | [VStr s] => PRet [VTyped (TValue false (Reflect.RString None s) false)]
    | [VStruct "func" fs] => PRet [VStruct "reflect.Value" fs]
    | _ => PPanic
    end
  else if String.eqb f "regexp.MustCompile" then
    match args with [VStr p] => PRet [VRegex p] | _ => PPanic end
  else if String.eqb f "sort.Strings" then
    match args with [v] => sort_in_place v | _ => PPanic end
  else if String.eqb f "strings.ReplaceAll" then
    match args with
    | [VStr s; VStr [c]; VStr r] =>
        PRet [VStr (flat_map (fun x => if Ascii.eqb x c then r else [x]) s)]
    | _ => PPanic
    end
  else if String.eqb f "strings.Replace" then
    match args with
    | [VStr s; VStr [c]; VStr r; VInt (-1)] => PRet [VStr (Generator.replace1 c r s)]
    | _ => PPanic
    end
  else if String.eqb f "strings.ToLower" then
    match args with [VStr s] => PRet [VStr (Generator.to_lower s)] | _ => PPanic end
  else if String.eqb f "strings.Trim" then
    match args with [VStr s; VStr cut] => PRet [VStr (trim cut s)] | _ => PPanic end
  else if String.eqb f "strings.LastIndex" then
    match args with [VStr s; VStr [c]] => PRet [VInt (last_index c s)] | _ => PPanic end
  else if String.eqb f "runtime.FuncForPC" then
    match args with [VStruct "pc" fs] => PRet [VStruct "runtime.Func" fs] | _ => PPanic end
  else if String.eqb f "golang.org/x/net/html.NewTokenizer" then
    match args with
    | [VReader ts e] =>
        l <-- alloc (OStruct "html.Tokenizer" [("rest"%string, VReader ts e); ("now"%string, VNil)]) ;;
        PRet [VPtr l]
    | _ => PPanic
    end
  else if String.eqb f "fmt.Sprintf" then PRet [VStr []]
  else if String.eqb f "html/template.New" then
    match args with
    | [VStr _] =>
        l <-- alloc (OStruct "html/template.Template" [("funcs"%string, VNil); ("text"%string, VNil)]) ;;
        PRet [VPtr l]
    | _ => PPanic
    end
  else if String.eqb f "html/template.HTML" then
    match args with [VStr s] => PRet [VStruct "html/template.HTML" [("s"%string, VStr s)]] | _ => PPanic end
  else if String.eqb f "html/template.HTMLAttr" then
    match args with [VStr s] => PRet [VStruct "html/template.HTMLAttr" [("s"%string, VStr s)]] | _ => PPanic end
  else PPanic.

(** Methods of library values: [bytes.Buffer], [reflect.Value], [*regexp.Regexp],
    [io.Writer], [fmt.Stringer]. *)
Definition buffer_method (l : loc) (fs : list (string * gv)) (m : string) (args : list gv)
  : prog (list gv) :=
  match assoc "buf" fs with
  | Some (VBytes b) =>
      if String.eqb m "Write" then
        match args with
        | [d] =>
            match bytes_of d with
            | Some d =>
                _ <-- update l (OStruct "bytes.Buffer" [("buf"%string, VBytes (b ++ d))]) ;;
                PRet [VInt (Z.of_nat (length d)); VNil]
            | None => PPanic
            end
        | _ => PPanic
        end
      else if String.eqb m "Bytes" then PRet [VBytes b]
      else PPanic
  | _ => PPanic
  end.

Definition items_of (g : gval U) : option (list (gval U)) :=
  match g with
  | GSlice _ xs => Some xs
  | GBytes b => Some (map (fun a => GUint (N_of_ascii a)) b)
  | _ => None
  end.

Definition reflect_method (g : gval U) (m : string) (args : list gv) : prog (list gv) :=
  if String.eqb m "Kind" then
    PRet [VStr (match items_of g with Some _ => B "slice" | None => B "other" end)]
  else if String.eqb m "Len" then
    match items_of g with
    | Some xs => PRet [VInt (Z.of_nat (length xs))]
    | None => PPanic
    end
  else if String.eqb m "Index" then
    match items_of g, args with
    | Some xs, [VInt z] =>
        if (z <? 0)%Z then PPanic
        else match nth_error xs (Z.to_nat z) with
             | Some x => PRet [VRefl x]
             | None => PPanic
             end
    | _, _ => PPanic
    end
  else if String.eqb m "Interface" then PRet [any_of g]
  else PPanic.

(** reflect on values with types, after [Reflect.v].  The kind of a pointer's
    target is Interface if the type says so (that of a field is not asked for). *)
Definition kind_of (t : Reflect.gtype) : bytes :=
  match t with
  | Reflect.TOther _ => B "other"
  | Reflect.TString _ => B "string"
  | Reflect.TPtr _ _ => B "ptr"
  | Reflect.TMap _ _ _ => B "map"
  | Reflect.TStruct _ => B "struct"
  | Reflect.TIface _ => B "interface"
  end.
Definition is_iface (t : Reflect.gtype) : bool := match t with Reflect.TIface _ => true | _ => false end.
(** A value in an interface. *)
Definition boxed_value (r : Reflect.rval) : gv := match r with Reflect.RNil => VNil | _ => VTyped (TVal r) end.
Definition typed_method (x : typed) (m : string) (args : list gv) : prog (list gv) :=
  if String.eqb m "reflect.Kind" then
    match x, args with
    | TValue iface r _, [] =>
        PRet [VStr (if iface then B "interface"
                    else match Reflect.type_of r with Some t => kind_of t | None => B "invalid" end)]
    | TInvalid, [] => PRet [VStr (B "invalid")]
    | TType t, [] => PRet [VStr (kind_of t)]
    | _, _ => PPanic
    end
  else if String.eqb m "reflect.Elem" then
    match x, args with
    | TValue false (Reflect.RPtr _ e target) ro, [] =>
        PRet [VTyped (match target with Some r => TValue (is_iface e) r ro | None => TInvalid end)]
    | _, _ => PPanic
    end
  else if String.eqb m "reflect.Type" then
    match x, args with
    | TValue false r _, [] => match Reflect.type_of r with Some t => PRet [VTyped (TType t)] | None => PPanic end
    | _, _ => PPanic
    end
  else if String.eqb m "reflect.Key" then
    match x, args with TType (Reflect.TMap _ k _), [] => PRet [VTyped (TType k)] | _, _ => PPanic end
  else if String.eqb m "reflect.MapIndex" then
    match x, args with
    | TValue false (Reflect.RMap _ (Reflect.TString None) e es) ro, [VTyped (TValue false (Reflect.RString None k) _)] =>
        PRet [VTyped (match Reflect.lookup es k with Some r => TValue (is_iface e) r ro | None => TInvalid end)]
    | _, _ => PPanic
    end
  else if String.eqb m "reflect.FieldByName" then
    match x, args with
    | TType (Reflect.TStruct s), [VStr k] =>
        match Reflect.field_by_name t_decls s k with
        | Some p => PRet [VStruct "reflect.StructField" [("Index"%string, VTyped (TPath p))]; VBool true]
        | None => PRet [VStruct "reflect.StructField" [("Index"%string, VNil)]; VBool false]
        end
    | _, _ => PPanic
    end
  else if String.eqb m "reflect.FieldByIndex" then
    match x, args with
    | TValue false (Reflect.RStruct s fs) ro, [VTyped (TPath p)] =>
        match Reflect.field_by_index (Reflect.RStruct s fs) p true with
        | Reflect.Panics => PPanic
        | Reflect.Returns None => PRet [VTyped TInvalid]
        | Reflect.Returns (Some r) =>
            PRet [VTyped (TValue false r (ro || negb (Reflect.exported_at t_decls s p)))]
        end
    | _, _ => PPanic
    end
  else if String.eqb m "reflect.IsValid" then
    match x, args with
    | TValue _ _ _, [] => PRet [VBool true]
    | TInvalid, [] => PRet [VBool false]
    | _, _ => PPanic
    end
  else if String.eqb m "reflect.Interface" then
    match x, args with
    | TValue _ r false, [] => PRet [boxed_value r]
    | _, _ => PPanic
    end
  else PPanic.

(** The tokenizer of golang.org/x/net/html: [rest] is what it has still to give,
    [now] the token (or the error) that [Next] gave last. *)
Definition token_type (t : Generator.gtok) : Z :=
  match t with
  | Generator.GText _ => 1
  | Generator.GStart _ _ => 2
  | Generator.GEnd _ => 3
  | Generator.GSelf _ _ => 4
  | Generator.GComment _ => 5
  | Generator.GDoctype _ => 6
  end.
Definition token_attrs (t : Generator.gtok) : list (bytes * bytes) :=
  match t with Generator.GStart _ l | Generator.GSelf _ l => l | _ => [] end.
Definition token_data (t : Generator.gtok) : bytes :=
  match t with
  | Generator.GText d | Generator.GComment d | Generator.GDoctype d => d
  | Generator.GStart n _ | Generator.GSelf n _ | Generator.GEnd n => n
  end.
Definition attribute_value (a : bytes * bytes) : gv :=
  VStruct "html.Attribute"
    [("Namespace"%string, VStr []); ("Key"%string, VStr (fst a)); ("Val"%string, VStr (snd a))].
Definition tokenizer (rest now : gv) : obj :=
  OStruct "html.Tokenizer" [("rest"%string, rest); ("now"%string, now)].
Definition tokenizer_next (v : gv) : prog (list gv) :=
  match v with
  | VPtr l =>
      rest <-- field v "rest" ;;
      match rest with
      | VReader (t :: ts) e =>
          _ <-- update l (tokenizer (VReader ts e) (VReader [t] e)) ;; PRet [VInt (token_type t)]
      | VReader [] e => _ <-- update l (tokenizer rest rest) ;; PRet [VInt 0]
      | _ => PPanic
      end
  | _ => PPanic
  end.
Definition tokenizer_token (v : gv) : prog (list gv) :=
  now <-- field v "now" ;;
  match now with
  | VReader [t] _ =>
      attrs <-- new_slice (map attribute_value (token_attrs t)) ;;
      PRet [VStruct "html.Token"
              [("Type"%string, VInt (token_type t)); ("Data"%string, VStr (token_data t));
               ("Attr"%string, attrs)]]
  | _ => PPanic
  end.
Definition tokenizer_err (v : gv) : prog (list gv) :=
  now <-- field v "now" ;;
  match now with
  | VReader [] e => PRet [VErr e]
  | _ => PRet [VNil]
  end.

(** html/template: a template has a map of functions, and after Parse the text.
    What the parser makes of a text is given by the configuration, [None] is a
    syntax error; a token without a function is an error too.  Funcs copies the
    map into that of the template (which here has none yet); it panics on names
    that are not identifiers and on values that are not functions.  Execute
    calls the function of a token with the data, ends with the error it returns,
    and writes its result (an empty one in template.go) otherwise. *)
Definition template_obj (funcs text : gv) : obj :=
  OStruct "html/template.Template" [("funcs"%string, funcs); ("text"%string, text)].
Definition is_closure (v : gv) : bool := match v with VClo _ _ => true | _ => false end.
Definition good_func (e : bytes * gv) : bool := Template.func_name (c_letters C) (fst e) && is_closure (snd e).
Definition template_funcs (v m : gv) : prog (list gv) :=
  funcs <-- field v "funcs" ;; text <-- field v "text" ;;
  match v, funcs, m with
  | VPtr l, VNil, VMap lm =>
      o <-- load lm ;;
      match o with
      | OMap es =>
          if forallb good_func es then
            lf <-- alloc (OMap es) ;; _ <-- update l (template_obj (VMap lf) text) ;; PRet [v]
          else PPanic
      | _ => PPanic
      end
  | _, _, _ => PPanic
  end.
Definition known_token (es : list (bytes * gv)) (p : Template.piece) : bool :=
  match p with
  | Template.PText _ => true
  | Template.PToken _ k => match bassoc k es with Some _ => true | None => false end
  end.
Definition template_parse (v : gv) (text : bytes) : prog (list gv) :=
  funcs <-- field v "funcs" ;;
  match v, funcs with
  | VPtr l, VMap lf =>
      o <-- load lf ;;
      match o with
      | OMap es =>
          match c_parse C text with
          | Some ps =>
              if forallb (known_token es) ps
              then _ <-- update l (template_obj funcs (VStr text)) ;; PRet [v; VNil]
              else PRet [VNil; VErr template_error]
          | None => PRet [VNil; VErr template_error]
          end
      | _ => PPanic
      end
  | _, _ => PPanic
  end.
Definition write_to (wr : gv) (d : bytes) (k : prog (list gv)) : prog (list gv) :=
  match wr with
  | VWriter => PWrite d (fun _ e => match e with Some _ => PRet [verr e] | None => k end)
  | _ => PPanic
  end.
(** What html/template writes for an empty result of type HTML or HTMLAttr. *)
Definition filtered_result (inside : bool) (t : string) : bytes :=
  if inside && negb (String.eqb t "html/template.HTMLAttr") then B "ZgotmplZ" else [].
Fixpoint execute_pieces (es : list (bytes * gv)) (ps : list Template.piece) (wr data : gv) : prog (list gv) :=
  match ps with
  | [] => PRet [VNil]
  | Template.PText t :: ps' => write_to wr t (execute_pieces es ps' wr data)
  | Template.PToken inside k :: ps' =>
      match bassoc k es with
      | Some f =>
          PCall (CVal f) [data] false (fun vs =>
            match vs with
            | [VStruct t [(_, VStr [])]; VNil] => write_to wr (filtered_result inside t) (execute_pieces es ps' wr data)
            | [VStruct _ _; VErr e] => PRet [VErr e]
            | _ => PPanic
            end)
      | None => PPanic
      end
  end.
Definition template_execute (v wr data : gv) : prog (list gv) :=
  funcs <-- field v "funcs" ;; text <-- field v "text" ;;
  match funcs, text with
  | VMap lf, VStr text =>
      o <-- load lf ;;
      match o, c_parse C text with
      | OMap es, Some ps => execute_pieces es ps wr data
      | _, _ => PPanic
      end
  | _, _ => PPanic
  end.

(** Methods of values of other packages that are called by name. *)
Definition library_method (f : string) (args : list gv) : prog (list gv) :=
  if String.eqb f "html.Tokenizer.Next" then
    match args with [v] => tokenizer_next v | _ => PPanic end
  else if String.eqb f "html.Tokenizer.Token" then
    match args with [v] => tokenizer_token v | _ => PPanic end
  else if String.eqb f "html.Tokenizer.Err" then
    match args with [v] => tokenizer_err v | _ => PPanic end
  else if String.eqb f "reflect.Value.Kind" then
    match args with [_] => PRet [VStr (B "func")] | _ => PPanic end
  else if String.eqb f "reflect.Value.Pointer" then
    match args with [VStruct _ fs] => PRet [VStruct "pc" fs] | _ => PPanic end
  else if String.eqb f "runtime.Func.Name" then
    match args with [v] => r <-- field v "name" ;; PRet [r] | _ => PPanic end
  else if String.eqb f "html/template.Template.Funcs" then
    match args with [v; m] => template_funcs v m | _ => PPanic end
  else if String.eqb f "html/template.Template.Parse" then
    match args with [v; VStr text] => template_parse v text | _ => PPanic end
  else if String.eqb f "html/template.Template.Execute" then
    match args with [v; wr; data] => template_execute v wr data | _ => PPanic end
  else match args with VTyped x :: args' => typed_method x f args' | _ => PPanic end.

(** [v.m(args)]. *)
Definition invoke (v : gv) (m : string) (args : list gv) (spread : bool) : prog (list gv) :=
  match v with
  | VPtr l =>
      o <-- load l ;;
      match o with
      | OStruct tag fs =>
          match assoc m fs with
          | Some f => PCall (CVal f) args spread PRet
          | None =>
              if String.eqb tag "bytes.Buffer" then buffer_method l fs m args
              else PCall (CFun (dot tag m)) (v :: args) spread PRet
          end
      | _ => PPanic
      end
  | VStruct tag fs =>
      match assoc m fs with
      | Some f => PCall (CVal f) args spread PRet
      | None => PCall (CFun (dot tag m)) (v :: args) spread PRet
      end
  | VWriter =>
      match args with
      | [d] =>
          match bytes_of d with
          | Some d =>
              if String.eqb m "Write"
              then PWrite d (fun n e => PRet [VInt (Z.of_nat n); verr e])
              else PPanic
          | None => PPanic
          end
      | _ => PPanic
      end
  | VAny (GStringer f) =>
      if String.eqb m "String"
      then PState (fun u => let '(b, u') := f u in (PRet [VStr b], u'))
      else PPanic
  | VRegex p =>
      match args with
      | [VStr s] =>
          if String.eqb m "MatchString" && beq p tag_pattern
          then PRet [VBool (valid_name s)] else PPanic
      | _ => PPanic
      end
  | VRefl g => reflect_method g m args
  | VTyped _ => PCall (CFun (dot "reflect" m)) (v :: args) spread PRet
  | VMap _ => PCall (CFun (dot "HeadersMap" m)) (v :: args) spread PRet
  | _ => PPanic
  end.

(** ** Expressions *)

Definition truth (v : gv) : prog bool := match v with VBool b => PRet b | _ => PPanic end.

(** A struct literal: the given fields, zero values for the others. *)
Definition struct_fields (t : string) (given : list (string * gv)) : option (list (string * gv)) :=
  option_map
    (map (fun '(f, ft) => (f, match assoc f given with Some v => v | None => zero_of ft end)))
    (if String.eqb t "struct{}" then Some [] else assoc t (p_structs (c_prog C))).

(** Lists of expressions, fields, map entries; [ev] evaluates one expression. *)
Definition evs_with (ev : expr -> prog (list gv)) : list expr -> prog (list gv) :=
  fix go es :=
  match es with
  | [] => PRet []
  | e :: es' => vs <-- ev e ;; v <-- one vs ;; rest <-- go es' ;; PRet (v :: rest)
  end.
Definition fields_with (ev : expr -> prog (list gv))
  : list (string * expr) -> prog (list (string * gv)) :=
  fix go fs :=
  match fs with
  | [] => PRet []
  | (f, e) :: fs' =>
      vs <-- ev e ;; v <-- one vs ;; rest <-- go fs' ;; PRet ((f, v) :: rest)
  end.
Definition entries_with (ev : expr -> prog (list gv))
  : list (expr * expr) -> prog (list (bytes * gv)) :=
  fix go kvs :=
  match kvs with
  | [] => PRet []
  | (k, v) :: kvs' =>
      ks <-- ev k ;; k <-- one ks ;; vs <-- ev v ;; v <-- one vs ;; rest <-- go kvs' ;;
      match k with VStr k => PRet ((k, v) :: rest) | _ => PPanic end
  end.
Definition bound_with (ev : expr -> prog (list gv)) (e : option expr) : prog (option gv) :=
  match e with
  | Some e => vs <-- ev e ;; v <-- one vs ;; PRet (Some v)
  | None => PRet None
  end.

(** The results of an expression (several for a call).  [EGlob] evaluates the
    package variable's initial value with [glob]. *)
Fixpoint eval_with (glob : string -> prog gv) (e : expr) (en : venv) {struct e}
  : prog (list gv) :=
  let ev1 (e : expr) := vs <-- eval_with glob e en ;; one vs in
  let evs := evs_with (fun e => eval_with glob e en) in
  match e with
  | ELoc x => match assoc x en with Some v => PRet [v] | None => PPanic end
  | EGlob g =>
      if String.eqb g "aitch.PanicOnInvalidName" then PRet [VBool (c_panics C)]
      else v <-- glob g ;; PRet [v]
  | EFun f => PRet [func_value f]
  | EExt f => match assoc f ext_values with Some v => PRet [v] | None => PPanic end
  | ENil => PRet [VNil]
  | EBool b => PRet [VBool b]
  | EInt z => PRet [VInt z]
  | EStr s => PRet [VStr s]
  | ENot a =>
      v <-- ev1 a ;; b <-- truth v ;; PRet [VBool (negb b)]
  | EAnd a b =>
      v <-- ev1 a ;; x <-- truth v ;;
      if x then w <-- ev1 b ;; y <-- truth w ;; PRet [VBool y] else PRet [VBool false]
  | EOr a b =>
      v <-- ev1 a ;; x <-- truth v ;;
      if x then PRet [VBool true] else w <-- ev1 b ;; y <-- truth w ;; PRet [VBool y]
  | EBin op a b =>
      v <-- ev1 a ;; w <-- ev1 b ;; r <-- lift (binary op v w) ;; PRet [r]
  | EField a f => v <-- ev1 a ;; r <-- field v f ;; PRet [r]
  | EIndex a i => v <-- ev1 a ;; w <-- ev1 i ;; r <-- index v w ;; PRet [fst r]
  | ESub a lo hi =>
      v <-- ev1 a ;;
      l <-- bound_with (fun e => eval_with glob e en) lo ;;
      r <-- bound_with (fun e => eval_with glob e en) hi ;;
      s <-- sub_slice v l r ;; PRet [s]
  | ECall f args spread =>
      match f with
      | EFun name => vs <-- evs args ;; PCall (CFun name) vs spread PRet
      | EExt name => vs <-- evs args ;; external name vs spread
      | _ => v <-- ev1 f ;; vs <-- evs args ;; PCall (CVal v) vs spread PRet
      end
  | EMethod a m args spread =>
      v <-- ev1 a ;; vs <-- evs args ;; invoke v m vs spread
  | EAssert a t =>
      v <-- ev1 a ;;
      PHeap (fun h => match has_type h v t with Some r => Some (PRet [r], h) | None => None end)
  | EConv t a => v <-- ev1 a ;; r <-- lift (convert t v) ;; PRet [r]
  | EMake t args => vs <-- evs args ;; r <-- make t vs ;; PRet [r]
  | ELit addr t fields =>
      given <-- fields_with (fun e => eval_with glob e en) fields ;;
      fs <-- lift (struct_fields t given) ;;
      if addr then l <-- alloc (OStruct t fs) ;; PRet [VPtr l] else PRet [VStruct t fs]
  | ESliceLit t es =>
      vs <-- evs es ;;
      if String.eqb t "[]byte" then r <-- lift (bytes_of_ints vs) ;; PRet [VBytes r]
      else r <-- new_slice vs ;; PRet [r]
  | EMapLit kvs =>
      es <-- entries_with (fun e => eval_with glob e en) kvs ;;
      l <-- alloc (OMap es) ;; PRet [VMap l]
  | EClosure f => PRet [VClo f en]
  end.

(** A package variable; one may refer to another, not deeper. *)
Definition global_with (glob : string -> prog gv) (g : string) : prog gv :=
  match assoc g (p_globals (c_prog C)) with
  | Some e => vs <-- eval_with glob e [] ;; one vs
  | None => PPanic
  end.
Definition global (g : string) : prog gv := global_with (global_with (fun _ => PPanic)) g.

Definition eval (e : expr) (en : venv) : prog (list gv) := eval_with global e en.
Definition eval1 (e : expr) (en : venv) : prog gv := vs <-- eval e en ;; one vs.
Definition evals (es : list expr) (en : venv) : prog (list gv) :=
  evs_with (fun e => eval e en) es.

(** ** Statements *)

(** [x, ok := v.(t)]. *)
Definition assert_ok (v : gv) (t : string) : prog (list gv) :=
  PHeap (fun h => Some (match has_type h v t with
                        | Some r => PRet [r; VBool true]
                        | None => PRet [VNil; VBool false]
                        end, h)).

(** The right-hand side of an assignment to [n] operands. *)
Definition rhs (n : nat) (es : list expr) (en : venv) : prog (list gv) :=
  match es with
  | [e] =>
      if n =? 1 then v <-- eval1 e en ;; PRet [v]
      else match e with
           | EIndex a i =>
               v <-- eval1 a en ;; w <-- eval1 i en ;; r <-- index v w ;;
               PRet [fst r; VBool (snd r)]
           | EAssert a t => v <-- eval1 a en ;; assert_ok v t
           | _ => eval e en
           end
  | _ => evals es en
  end.

(** New variables; [_] declares none. *)
Fixpoint push (xs : list string) (vs : list gv) (en : venv) : prog venv :=
  match xs, vs with
  | [], [] => PRet en
  | x :: xs', v :: vs' =>
      push xs' vs' (if String.eqb x "_" then en else (x, v) :: en)
  | _, _ => PPanic
  end.

Inductive ref : Type :=
| RBlank
| RLoc (x : string)
| RField (v : gv) (f : string)
| RIndex (v i : gv).

Definition eval_lhs (l : lhs) (en : venv) : prog ref :=
  match l with
  | LBlank => PRet RBlank
  | LLoc x => PRet (RLoc x)
  | LField e f => v <-- eval1 e en ;; PRet (RField v f)
  | LIndex e i => v <-- eval1 e en ;; w <-- eval1 i en ;; PRet (RIndex v w)
  end.
Fixpoint eval_lhss (ls : list lhs) (en : venv) : prog (list ref) :=
  match ls with
  | [] => PRet []
  | l :: ls' => r <-- eval_lhs l en ;; rs <-- eval_lhss ls' en ;; PRet (r :: rs)
  end.

Definition store (r : ref) (v : gv) (en : venv) : prog venv :=
  match r with
  | RBlank => PRet en
  | RLoc x => match assoc x en with Some _ => PRet (set_assoc x v en) | None => PPanic end
  | RField (VPtr l) f =>
      o <-- load l ;;
      match o with
      | OStruct t fs =>
          match assoc f fs with
          | Some _ => _ <-- update l (OStruct t (set_assoc f v fs)) ;; PRet en
          | None => PPanic
          end
      | _ => PPanic
      end
  | RIndex (VSlice l n) (VInt z) =>
      if (0 <=? z)%Z && (z <? Z.of_nat n)%Z then
        o <-- load l ;;
        match o with
        | OArr cs => _ <-- update l (OArr (set_nth cs (Z.to_nat z) v)) ;; PRet en
        | _ => PPanic
        end
      else PPanic
  | RIndex (VMap l) (VStr k) =>
      o <-- load l ;;
      match o with
      | OMap es => _ <-- update l (OMap (bstore k v es)) ;; PRet en
      | _ => PPanic
      end
  | _ => PPanic
  end.
Fixpoint stores (rs : list ref) (vs : list gv) (en : venv) : prog venv :=
  match rs, vs with
  | [], [] => PRet en
  | r :: rs', v :: vs' => en' <-- store r v en ;; stores rs' vs' en'
  | _, _ => PPanic
  end.

(** Leaving a block: the variables declared in it go away. *)
Definition leave (outer inner : venv) : venv := skipn (length inner - length outer) inner.

(** What [range] goes through: for each step, how to get key and value. *)
Definition range_items (v : gv) : prog (list (prog (gv * gv))) :=
  match v with
  | VNil => PRet []
  | VSlice l n =>
      PRet (map (fun i =>
                   o <-- load l ;;
                   match o with
                   | OArr cs => match nth_error cs i with
                                | Some x => PRet (VInt (Z.of_nat i), x)
                                | None => PPanic
                                end
                   | _ => PPanic
                   end) (seq 0 n))
  | VBytes b =>
      PRet (map (fun '(i, c) => PRet (VInt (Z.of_nat i), VInt (Z_of_ascii c)))
                (combine (seq 0 (length b)) b))
  | VAny (GSlice _ xs) =>
      PRet (map (fun '(i, x) => PRet (VInt (Z.of_nat i), any_of x))
                (combine (seq 0 (length xs)) xs))
  | VMap l =>
      o <-- load l ;;
      match o with
      | OMap es =>
          PPick (map fst es) (fun ks =>
            PRet (map (fun k =>
                         o <-- load l ;;
                         match o with
                         | OMap es => match bassoc k es with
                                      | Some x => PRet (VStr k, x)
                                      | None => PPanic
                                      end
                         | _ => PPanic
                         end) ks))
      | _ => PPanic
      end
  | _ => PPanic
  end.

(** Lists of statements, the loop of [range], the clauses of switches; [ex]
    executes one statement. *)
Definition block_with (ex : stmt -> venv -> prog (flow * venv))
  : list stmt -> venv -> prog (flow * venv) :=
  fix go ss en :=
  match ss with
  | [] => PRet (FNext, en)
  | s :: ss' =>
      '(f, en1) <-- ex s en ;;
      match f with FNext => go ss' en1 | _ => PRet (f, en1) end
  end.
Definition range_with (body : venv -> prog (flow * venv)) (k v : string)
  : list (prog (gv * gv)) -> venv -> prog (flow * venv) :=
  fix go items en :=
  match items with
  | [] => PRet (FNext, en)
  | item :: items' =>
      '(x, y) <-- item ;;
      en1 <-- push [k; v] [x; y] en ;;
      '(f, en2) <-- body en1 ;;
      match f with
      | FNext | FContinue => go items' (leave en en2)
      | FBreak => PRet (FNext, leave en en2)
      | FReturn vs => PRet (FReturn vs, leave en en2)
      end
  end.
Definition matches (v : gv) (ls : list gv) : option bool :=
  fold_right (fun l r => match equal v l, r with
                         | Some x, Some y => Some (x || y)
                         | _, _ => None
                         end) (Some false) ls.
Definition switch_with (ex : stmt -> prog (flow * venv)) (en : venv) (v : gv) (default : stmt)
  : list (list expr * stmt) -> prog (flow * venv) :=
  fix go cs :=
  match cs with
  | [] => ex default
  | (labels, body) :: cs' =>
      ls <-- evals labels en ;; b <-- lift (matches v ls) ;;
      if b then ex body else go cs'
  end.
Definition named (x : string) (v : gv) (en : venv) : venv :=
  if String.eqb x "_" then en else (x, v) :: en.
Definition tswitch_with (ex : stmt -> venv -> prog (flow * venv)) (en : venv) (x : string)
  (h : heap) (v : gv) (default : stmt) : list (string * stmt) -> prog (flow * venv) :=
  fix go cs :=
  match cs with
  | [] => ex default (named x v en)
  | (t, body) :: cs' =>
      match has_type h v t with
      | Some r => ex body (named x r en)
      | None => go cs'
      end
  end.
Definition panic_args (e : expr) : option (list expr) :=
  match e with
  | ECall (EExt f) args _ => if String.eqb f "panic" then Some args else None
  | _ => None
  end.

Fixpoint exec (s : stmt) (en : venv) {struct s} : prog (flow * venv) :=
  match s with
  | SSkip => PRet (FNext, en)
  | SBlock ss => '(f, en') <-- block_with exec ss en ;; PRet (f, leave en en')
  | SExpr e =>
      match panic_args e with
      | Some args => _ <-- evals args en ;; PPanic
      | None => _ <-- eval e en ;; PRet (FNext, en)
      end
  | SDefine xs es =>
      vs <-- rhs (length xs) es en ;; en' <-- push xs vs en ;; PRet (FNext, en')
  | SAssign ls es =>
      rs <-- eval_lhss ls en ;; vs <-- rhs (length ls) es en ;;
      en' <-- stores rs vs en ;; PRet (FNext, en')
  | SVar x t =>
      if String.eqb t "bytes.Buffer" then
        l <-- alloc (OStruct "bytes.Buffer" [("buf"%string, VBytes [])]) ;;
        PRet (FNext, (x, VPtr l) :: en)
      else PRet (FNext, (x, zero_of t) :: en)
  | SCopy x lo src =>
      v <-- eval1 lo en ;; w <-- eval1 src en ;;
      match assoc x en, v, bytes_of w with
      | Some (VBytes b), VInt z, Some d =>
          if (0 <=? z)%Z && (z <=? Z.of_nat (length b))%Z
          then PRet (FNext, set_assoc x (VBytes (copy_at b (Z.to_nat z) d)) en)
          else PPanic
      | _, _, _ => PPanic
      end
  | SIf init c s1 s2 =>
      '(_, en1) <-- (match init with Some s => exec s en | None => PRet (FNext, en) end) ;;
      v <-- eval1 c en1 ;; b <-- truth v ;;
      '(f, en2) <-- (if b then exec s1 en1 else exec s2 en1) ;;
      PRet (f, leave en en2)
  | SFor init c post body =>
      '(_, en1) <-- (match init with Some s => exec s en | None => PRet (FNext, en) end) ;;
      PLoop
        (fun en2 =>
           v <-- eval1 c en2 ;; b <-- truth v ;;
           if b then
             '(f, en3) <-- exec body en2 ;;
             match f with
             | FNext | FContinue =>
                 '(_, en4) <-- exec post (leave en2 en3) ;; PRet (inl en4)
             | FBreak => PRet (inr (FNext, leave en2 en3))
             | FReturn vs => PRet (inr (FReturn vs, leave en2 en3))
             end
           else PRet (inr (FNext, en2)))
        en1
        (fun '(f, en5) => PRet (f, leave en en5))
  | SRange k v e body =>
      r <-- eval1 e en ;; items <-- range_items r ;;
      range_with (exec body) k v items en
  | SSwitch e cases default =>
      v <-- eval1 e en ;; switch_with (fun s => exec s en) en v default cases
  | STypeSwitch x e cases default =>
      v <-- eval1 e en ;;
      '(f, en') <-- PHeap (fun h => Some (tswitch_with exec en x h v default cases, h)) ;;
      PRet (f, leave en en')
  | SReturn es => vs <-- rhs (length es) es en ;; PRet (FReturn vs, en)
  | SBreak => PRet (FBreak, en)
  | SContinue => PRet (FContinue, en)
  end.

(** ** Calls *)

(** Parameter passing; without [spread] the arguments of a variadic parameter
    are packed into a slice (nil if there are none). *)
Fixpoint bind_params (ps : list string) (variadic spread : bool) (args : list gv) (en : venv)
  : prog venv :=
  match ps with
  | [] => match args with [] => PRet en | _ => PPanic end
  | p :: ps' =>
      match ps', variadic, spread with
      | [], true, false =>
          v <-- (match args with [] => PRet VNil | _ => new_slice args end) ;;
          PRet ((p, v) :: en)
      | _, _, _ =>
          match args with
          | a :: args' => bind_params ps' variadic spread args' ((p, a) :: en)
          | [] => PPanic
          end
      end
  end.

Definition call_fun (f : fundecl) (captured : venv) (args : list gv) (spread : bool)
  : prog (list gv) :=
  let 'Fun ps variadic named body := f in
  en <-- bind_params ps variadic spread args captured ;;
  '(fl, _) <-- exec body (map (fun '(x, t) => (x, zero_of t)) named ++ en) ;;
  match fl with
  | FReturn vs => PRet vs
  | FNext => PRet []
  | _ => PPanic
  end.

(** ** User code

    The user's functions build the nodes they return or render, or hand in nodes
    that they have: [reify] is the heap representation of a node of the model. *)

Definition mapP {A B} (f : A -> prog B) : list A -> prog (list B) :=
  fix go l :=
  match l with
  | [] => PRet []
  | x :: l' => y <-- f x ;; ys <-- go l' ;; PRet (y :: ys)
  end.
Fixpoint reify_value (v : value U) : prog gv :=
  let 'Val b dyn concats := v in
  cs <-- mapP reify_value concats ;;
  s <-- new_slice cs ;;
  PRet (VStruct "Value"
          [("value"%string, VBytes b);
           ("dynamicFunc"%string, match dyn with Some f => VDyn f | None => VNil end);
           ("concats"%string, s)]).
Definition reify_values (vs : list (value U)) : prog gv :=
  xs <-- mapP reify_value vs ;; new_slice xs.
Definition new_struct (t : string) (fs : list (string * gv)) : prog gv :=
  l <-- alloc (OStruct t fs) ;; PRet (VPtr l).

Definition reify_attr (a : attr U) : prog gv :=
  match a with
  | APlain n vs =>
      s <-- reify_values vs ;;
      new_struct "attribute" [("name"%string, VBytes n); ("values"%string, s)]
  | ABool n => new_struct "booleanAttribute" [("name"%string, VBytes n)]
  | ADelim n d vs =>
      s <-- reify_values vs ;;
      new_struct "delimitedAttribute"
        [("name"%string, VBytes n); ("delimiter"%string, VBytes d); ("values"%string, s)]
  end.
Definition reify_attrs (l : list (attr U)) : prog gv :=
  xs <-- mapP reify_attr l ;; new_slice xs.
Definition reify_cond (c : attr U * list (condfn U)) : prog gv :=
  a <-- reify_attr (fst c) ;;
  s <-- new_slice (map VCond (snd c)) ;;
  PRet (VStruct "conditionalAttribute" [("attribute"%string, a); ("conditions"%string, s)]).
Definition reify_conds (l : list (attr U * list (condfn U))) : prog gv :=
  xs <-- mapP reify_cond l ;; new_slice xs.
Definition reify_indices (idx : list (bytes * nat)) : prog gv :=
  l <-- alloc (OMap (map (fun '(n, i) => (n, VInt (Z.of_nat i))) idx)) ;; PRet (VMap l).

(** User code hands in the node it has, or else builds it, from children that it
    has or builds. *)
Fixpoint reify (n : node U) : prog gv :=
  PHeap (fun h => Some (
  match c_known C h n with
  | Some v => PRet v
  | None =>
  match n with
  | NAttr a => reify_attr a
  | NElement name attrs idx conds ns =>
      a <-- reify_attrs attrs ;; i <-- reify_indices idx ;; c <-- reify_conds conds ;;
      xs <-- mapP reify ns ;; s <-- new_slice xs ;;
      new_struct "element"
        [("name"%string, VBytes name); ("attributes"%string, a); ("attIndices"%string, i);
         ("conditionals"%string, c); ("contents"%string, s)]
  | NVoid name attrs idx conds =>
      a <-- reify_attrs attrs ;; i <-- reify_indices idx ;; c <-- reify_conds conds ;;
      new_struct "voidElement"
        [("name"%string, VBytes name); ("attributes"%string, a); ("attIndices"%string, i);
         ("conditionals"%string, c)]
  | NText vs => s <-- reify_values vs ;; new_struct "text" [("values"%string, s)]
  | NComment vs => s <-- reify_values vs ;; new_struct "comment" [("values"%string, s)]
  | NPI name vs =>
      s <-- reify_values vs ;;
      new_struct "pi" [("name"%string, VBytes name); ("values"%string, s)]
  | NFragment vs => s <-- reify_values vs ;; new_struct "fragment" [("values"%string, s)]
  | NCollection ns =>
      xs <-- mapP reify ns ;; s <-- new_slice xs ;; new_struct "collection" [("nodes"%string, s)]
  | NConditional f attrs ns =>
      xs <-- mapP reify ns ;; s <-- new_slice xs ;; a <-- reify_attrs attrs ;;
      new_struct "conditional"
        [("nodes"%string, s); ("attributes"%string, a); ("fn"%string, VCond f)]
  | NCollect f => new_struct "contentCollector" [("collector"%string, VNodes f)]
  | NImper p =>
      new_struct "imperative"
        [("fn"%string, match p with Some p => VImper p | None => VNil end)]
  | NIter f ns =>
      xs <-- mapP reify ns ;; s <-- new_slice xs ;;
      new_struct "iterator" [("nodes"%string, s); ("fn"%string, VItems f)]
  | NYield p ns =>
      xs <-- mapP reify ns ;; s <-- new_slice xs ;;
      new_struct "yieldIterator" [("fn"%string, VYield p); ("nodes"%string, s)]
  | NDocument prologue ns =>
      p <-- (match prologue with Some n => reify n | None => PRet VNil end) ;;
      xs <-- mapP reify ns ;; s <-- new_slice xs ;;
      new_struct "document" [("prologue"%string, p); ("contents"%string, s)]
  end
  end, h)).
Definition reify_opt (n : option (node U)) : prog gv :=
  match n with Some n => reify n | None => PRet VNil end.
(** The plain attributes given to Start have no spare room for values: Start
    would write to it (C33). *)
Definition roomy (h : heap) (v : gv) : bool :=
  match v with
  | VPtr l =>
      match nth_error h l with
      | Some (OStruct _ fs) =>
          match assoc "values" fs with
          | Some (VSlice l' n) =>
              match nth_error h l' with Some (OArr cs) => negb (n =? length cs) | _ => true end
          | _ => true
          end
      | _ => true
      end
  | _ => true
  end.
Definition reify_start (n : option (node U)) : prog gv :=
  match n with
  | Some (NAttr (APlain m vs)) =>
      PHeap (fun h => Some (
        match c_known C h (NAttr (APlain m vs)) with
        | Some v => if roomy h v then reify_attr (APlain m vs) else PRet v
        | None => reify_attr (APlain m vs)
        end, h))
  | _ => reify_opt n
  end.

(** A context object. *)
Definition ctx_obj (e : option error) (d : option mref) (g : gval U) (parent : gv) : obj :=
  OStruct "Context"
    [("Error"%string, verr e);
     ("Data"%string, match d with Some m => VAny (GMap m) | None => VNil end);
     ("Cargo"%string, any_of g);
     ("Writer"%string, VWriter);
     ("Parent"%string, parent)].
Fixpoint reify_ctx (c : ctx U) : prog gv :=
  let 'Ctx e d g p := c in
  parent <-- (match p with Some c => reify_ctx c | None => PRet VNil end) ;;
  l <-- alloc (ctx_obj e d g parent) ;; PRet (VPtr l).

Definition ptr (v : gv) : prog loc := match v with VPtr l => PRet l | _ => PPanic end.
Definition call (f : string) (args : list gv) (spread : bool) : prog (list gv) :=
  PCall (CFun f) args spread PRet.
Definition get_error (l : loc) : prog (option error) :=
  v <-- field (VPtr l) "Error" ;; lift (err_of v).

(** The function given to Imperative; [ic] is its ImperativeContext. *)
Fixpoint user_imper (p : iprog U) (ic : gv) : prog (list gv) :=
  match p with
  | IRet e => PRet [verr e]
  | IRead k =>
      vs <-- call "imperativeContext.Context" [ic] false ;; v <-- one vs ;; l <-- ptr v ;;
      PUser l (fun c u => let '(p', u') := k c u in (user_imper p' ic, u'))
  | IWriteString s k =>
      _ <-- call "imperativeContext.WriteString" [ic; VStr s] false ;; user_imper k ic
  | IWriteRaw d k =>
      _ <-- call "imperativeContext.WriteRaw" [ic; VBytes d] false ;; user_imper k ic
  | IWriteNodes ns k =>
      xs <-- mapP reify_opt ns ;; s <-- new_slice xs ;;
      _ <-- call "imperativeContext.WriteNodes" [ic; s] true ;; user_imper k ic
  | IStart name isVoid attrs k =>
      xs <-- mapP reify_start attrs ;; s <-- new_slice xs ;;
      _ <-- call "imperativeContext.Start" [ic; VBytes name; VBool isVoid; s] true ;;
      user_imper k ic
  | IEnd k => _ <-- call "imperativeContext.End" [ic] false ;; user_imper k ic
  | IEndAll k => _ <-- call "imperativeContext.EndAll" [ic] false ;; user_imper k ic
  | IRender n inner k =>
      v <-- reify n ;;
      l <-- (match inner with
             | None =>
                 vs <-- call "imperativeContext.Context" [ic] false ;; v <-- one vs ;; ptr v
             | Some fr =>
                 parent <-- (match f_parent fr with
                             | Some c => reify_ctx c
                             | None => PRet VNil
                             end) ;;
                 alloc (ctx_obj None (f_data fr) (f_cargo fr) parent)
             end) ;;
      rs <-- invoke v "Render" [VPtr l] false ;; r <-- one rs ;;
      x <-- lift (err_of r) ;;
      e <-- get_error l ;;
      user_imper (k x e) ic
  | IDirect d k => PWrite d (fun m e => user_imper (k m e) ic)
  | ISetError e k =>
      vs <-- call "imperativeContext.Context" [ic] false ;; v <-- one vs ;;
      _ <-- store (RField v "Error") (verr e) [] ;;
      user_imper k ic
  end.

(** The function given to IterateYield; [y] is the yield function. *)
Fixpoint user_yield (p : yprog U) (l : loc) (y : gv) : prog (list gv) :=
  match p with
  | YRet => PRet []
  | YYield item k => PCall (CVal y) [any_of item] false (fun _ => user_yield k l y)
  | YRead k => PUser l (fun c u => let '(p', u') := k c u in (user_yield p' l y, u'))
  end.

(** ** Running *)

(** The body of a callee. *)
Definition body_of (c : callee) (args : list gv) (spread : bool) : prog (list gv) :=
  match c with
  | CFun f =>
      match lookup_fun f with
      | Some fd => call_fun fd [] args spread
      | None => library_method f args
      end
  | CVal (VClo fd en) => call_fun fd en args spread
  | CVal (VCond f) =>
      match args with
      | [VPtr l] => PUser l (fun c u => let '(b, u') := f c u in (PRet [VBool b], u'))
      | _ => PPanic
      end
  | CVal (VDyn f) =>
      match args with
      | [VPtr l] => PUser l (fun c u => let '(b, u') := f c u in (PRet [VBytes b], u'))
      | _ => PPanic
      end
  | CVal (VItems f) =>
      match args with
      | [VPtr l] =>
          PUser l (fun c u => let '(xs, u') := f c u in (PRet [VAny (GSlice false xs)], u'))
      | _ => PPanic
      end
  | CVal (VNodes f) =>
      match args with
      | [VPtr l] =>
          PUser l (fun c u => let '(ns, u') := f c u in
                              (xs <-- mapP reify_opt ns ;; s <-- new_slice xs ;; PRet [s], u'))
      | _ => PPanic
      end
  | CVal (VImper p) =>
      match args with [ic] => user_imper p ic | _ => PPanic end
  | CVal (VYield p) =>
      match args with [VPtr l; y] => user_yield p l y | _ => PPanic end
  | CVal (VAny (GFunc f)) =>
      match args with
      | [] => PState (fun u => let '(g, u') := f u in (PRet [any_of g], u'))
      | _ => PPanic
      end
  | _ => PPanic
  end.

(** What user code sees of the context object at [l]. *)
Fixpoint snapshot (n : nat) (h : heap) (l : loc) : option (ctx U) :=
  match n with
  | 0 => None
  | S n' =>
      match nth_error h l with
      | Some (OStruct tag fs) =>
          if negb (String.eqb tag "Context") then None else
          match assoc "Error" fs, assoc "Data" fs, assoc "Cargo" fs, assoc "Parent" fs with
          | Some ve, Some vd, Some vc, Some vp =>
              match err_of ve,
                    (match vd with VAny (GMap m) => Some (Some m) | VNil => Some None | _ => None end),
                    (match vc with VAny g => Some g | VNil => Some GNil | _ => None end),
                    (match vp with
                     | VPtr lp => option_map Some (snapshot n' h lp)
                     | VNil => Some None
                     | _ => None
                     end) with
              | Some e, Some d, Some g, Some p => Some (Ctx e d g p)
              | _, _, _, _ => None
              end
          | _, _, _, _ => None
          end
      | _ => None
      end
  end.

Inductive result (A : Type) : Type :=
| ROk (a : A) (h : heap) (w : world U)
| RPanic (w : world U).
Arguments ROk {A}. Arguments RPanic {A}.

(** Run with a budget of steps; [None] when the budget is used up. *)
Fixpoint go_run (n : nat) {A : Type} (E : env) (p : prog A) (h : heap) (w : world U)
  : option (result A) :=
  match n with
  | 0 => None
  | S n' =>
      match p with
      | PRet a => Some (ROk a h w)
      | PPanic => Some (RPanic w)
      | PHeap k =>
          match k h with
          | Some (q, h') => go_run n' E q h' w
          | None => Some (RPanic w)
          end
      | PUser l k =>
          match snapshot n' h l with
          | Some c =>
              let '(q, u') := k c (w_u w) in
              go_run n' E q h (World (w_log w) u' (w_tick w))
          | None => None
          end
      | PState k =>
          let '(q, u') := k (w_u w) in
          go_run n' E q h (World (w_log w) u' (w_tick w))
      | PWrite d k =>
          let '(m, e) := e_wr E (w_log w) d in
          go_run n' E (k m e) h (World (w_log w ++ [WCall d m e]) (w_u w) (w_tick w))
      | PPick ks k =>
          go_run n' E (k (e_ord E (w_tick w) ks)) h
            (World (w_log w) (w_u w) (S (w_tick w)))
      | PCall c args spread k =>
          match go_run n' E (body_of c args spread) h w with
          | Some (ROk vs h' w') => go_run n' E (k vs) h' w'
          | Some (RPanic w') => Some (RPanic w')
          | None => None
          end
      | PLoop b s k =>
          match go_run n' E (b s) h w with
          | Some (ROk (inl s') h' w') => go_run n' E (PLoop b s' k) h' w'
          | Some (ROk (inr r) h' w') => go_run n' E (k r) h' w'
          | Some (RPanic w') => Some (RPanic w')
          | None => None
          end
      end
  end.

End Sem.

Arguments PRet {W A}. Arguments PPanic {W A}. Arguments PHeap {W A}. Arguments PUser {W A}.
Arguments PState {W A}. Arguments PWrite {W A}. Arguments PPick {W A}. Arguments PCall {W A}.
Arguments PLoop {W A}. Arguments ROk {W A}. Arguments RPanic {W A}.
