(** Package context: Get and MustGet (context/context.go 38-89), with as much
    of Go's types and of package reflect as they use.

    Simplifications: every type that is not of kind string, pointer, map,
    struct or interface is a [TOther]; values are looked at in one moment, so
    pointers are followed structurally. *)
From Verif Require Import Bytes IO.

(** Go types.  A defined type of kind string, pointer or map carries its
    number; [None] is the predeclared [string] or a type literal.  Struct types
    are numbers into a table of declarations, so that they may be recursive. *)
Inductive gtype :=
| TOther (id : nat)
| TString (name : option nat)
| TPtr (name : option nat) (elem : gtype)
| TMap (name : option nat) (key elem : gtype)
| TStruct (s : nat)
| TIface (i : nat).

(** reflect.StructField as far as used. *)
Record field := Field { fl_name : bytes; fl_exported : bool; fl_embedded : bool; fl_type : gtype }.
Definition decls := list (list field).
Definition fields_of (D : decls) (s : nat) : list field := nth s D [].

(** Go values, each with its dynamic type.  [RNil] is a nil interface. *)
Inductive rval :=
| RNil
| ROther (id payload : nat)
| RString (name : option nat) (s : bytes)
| RPtr (name : option nat) (elem : gtype) (target : option rval)
| RMap (name : option nat) (key elem : gtype) (entries : list (bytes * rval))
| RStruct (s : nat) (fields : list rval).

Definition type_of (v : rval) : option gtype :=
  match v with
  | RNil => None
  | ROther id _ => Some (TOther id)
  | RString n _ => Some (TString n)
  | RPtr n e _ => Some (TPtr n e)
  | RMap n k e _ => Some (TMap n k e)
  | RStruct s _ => Some (TStruct s)
  end.

(** Which concrete types implement which interface: Go's method sets. *)
Definition implements := nat -> gtype -> bool.

Fixpoint gtype_eqb (a b : gtype) : bool :=
  let oeq (x y : option nat) := match x, y with
    | Some n, Some m => Nat.eqb n m | None, None => true | _, _ => false end in
  match a, b with
  | TOther x, TOther y => Nat.eqb x y
  | TString x, TString y => oeq x y
  | TPtr x a', TPtr y b' => oeq x y && gtype_eqb a' b'
  | TMap x k e, TMap y k' e' => oeq x y && gtype_eqb k k' && gtype_eqb e e'
  | TStruct x, TStruct y => Nat.eqb x y
  | TIface x, TIface y => Nat.eqb x y
  | _, _ => false
  end.

(** The type assertion [v.(T)] (Go spec, "Type assertions"): with an interface
    type T the value must implement it, otherwise have exactly that type; a nil
    interface fails either way. *)
Definition assert_type (M : implements) (T : gtype) (v : rval) : bool :=
  match type_of v with
  | None => false
  | Some t => match T with TIface i => M i t | _ => gtype_eqb t T end
  end.

Fixpoint lookup {A} (l : list (bytes * A)) (k : bytes) : option A :=
  match l with
  | [] => None
  | (k', v) :: l' => if beq k' k then Some v else lookup l' k
  end.

(** ** reflect.Type.FieldByName *)

(** The struct type that an embedded field of type T or [*T] leads to. *)
Definition embedded_struct (f : field) : option nat :=
  if fl_embedded f then
    match fl_type f with
    | TStruct s => Some s
    | TPtr _ (TStruct s) => Some s
    | _ => None
    end
  else None.

(** Number the elements of a list. *)
Fixpoint number {A} (i : nat) (l : list A) : list (nat * A) :=
  match l with [] => [] | x :: l' => (i, x) :: number (S i) l' end.

(** The embedded structs one level deeper, with the index path to each. *)
Definition deeper (D : decls) (level : list (nat * list nat)) : list (nat * list nat) :=
  flat_map (fun sp =>
    flat_map (fun jf => match embedded_struct (snd jf) with
                        | Some t => [(t, snd sp ++ [fst jf])]
                        | None => []
                        end) (number 0 (fields_of D (fst sp)))) level.
(** Fields of that name at this level. *)
Definition matches (D : decls) (k : bytes) (level : list (nat * list nat)) : list (list nat) :=
  flat_map (fun sp =>
    flat_map (fun jf => if beq (fl_name (snd jf)) k then [snd sp ++ [fst jf]] else [])
             (number 0 (fields_of D (fst sp)))) level.

(** Breadth-first by levels: the only match at the shallowest level with a
    match (reflect/type.go FieldByNameFunc; its [visited] and [count] maps avoid
    repeated work and detect that one struct is reached twice at a level, which
    here gives two matches).  There are no more levels worth a look than struct
    types. *)
Fixpoint by_level (D : decls) (k : bytes) (fuel : nat) (level : list (nat * list nat)) : option (list nat) :=
  match fuel with
  | 0 => None
  | S fuel' =>
      match matches D k level with
      | [] => by_level D k fuel' (deeper D level)
      | [p] => Some p
      | _ => None
      end
  end.
(** reflect/type.go FieldByName: first a direct look at the fields of the
    struct itself; the first one wins (there can be several called [_]). *)
Definition field_by_name (D : decls) (s : nat) (k : bytes) : option (list nat) :=
  match matches D k [(s, [])] with
  | p :: _ => Some p
  | [] => by_level D k (S (length D)) [(s, [])]
  end.

(** ** reflect.Value.FieldByIndex *)

Inductive outcome (A : Type) := Returns (a : A) | Panics.
Arguments Returns {A}. Arguments Panics {A}.

(** reflect/value.go FieldByIndex: an embedded pointer on the way is followed,
    and panics when nil.  [None] cannot happen for well-typed values. *)
Fixpoint field_by_index (v : rval) (path : list nat) (first : bool) : outcome (option rval) :=
  match path with
  | [] => Returns (Some v)
  | j :: path' =>
      let into w := match w with
        | RStruct _ fs =>
            match nth_error fs j with
            | Some x => field_by_index x path' false
            | None => Returns None
            end
        | _ => Returns None
        end in
      if first then into v
      else match v with
           | RPtr _ (TStruct _) (Some w) => into w
           | RPtr _ (TStruct _) None => Panics
           | _ => into v
           end
  end.

(** Whether the field at the end of the path is exported; otherwise
    [Value.Interface] panics (reflect/value.go Field sets flagEmbedRO or
    flagStickyRO; a further Field drops flagEmbedRO). *)
Fixpoint exported_at (D : decls) (s : nat) (path : list nat) : bool :=
  match path with
  | [] => false
  | j :: path' =>
      match nth_error (fields_of D s) j with
      | None => false
      | Some f =>
          match path' with
          | [] => fl_exported f
          | _ => match embedded_struct f with Some t => exported_at D t path' | None => false end
          end
      end
  end.

(** ** Get *)

(** context.go 10-21, the fields Get reads. *)
Record gctx := GCtx { g_data : option (list (bytes * rval)); g_cargo : rval }.

Definition typed (M : implements) (T : gtype) (v : rval) : outcome (option rval) :=
  Returns (if assert_type M T v then Some v else None).

(** context.go 60-77: the map or struct [v].  [reflect.ValueOf(key)] has type
    [string]; MapIndex panics when that is not assignable to the map's key type,
    which for a defined string type it is not. *)
Definition look_in (D : decls) (M : implements) (T : gtype) (v : rval) (key : bytes)
  : outcome (option rval) :=
  match v with
  | RMap _ kt _ entries =>
      match kt with
      | TString None =>
          match lookup entries key with
          | Some x => typed M T x
          | None => Returns None
          end
      | TString (Some _) => Panics
      | _ => Returns None
      end
  | RStruct s _ =>
      match field_by_name D s key with
      | None => Returns None
      | Some path =>
          match field_by_index v path true with
          | Panics => Panics
          | Returns None => Returns None
          | Returns (Some x) =>
              if exported_at D s path then typed M T x else Panics
          end
      end
  | _ => Returns None
  end.

(** context.go 55-78. *)
Definition from_cargo (D : decls) (M : implements) (T : gtype) (cargo : rval) (key : bytes)
  : outcome (option rval) :=
  match cargo with
  | RPtr _ (TIface _) _ => Returns None     (* Elem has kind Interface *)
  | RPtr _ _ (Some v) => look_in D M T v key
  | RPtr _ _ None => Returns None           (* Elem of nil: kind Invalid *)
  | v => look_in D M T v key
  end.

(** context.go 43-80: [Get[T]]; [Returns (Some v)] is (v, true),
    [Returns None] is (zero, false). *)
Definition get (D : decls) (M : implements) (T : gtype) (c : option gctx) (key : bytes)
  : outcome (option rval) :=
  match c with
  | None => Returns None
  | Some c =>
      let later :=
        match g_cargo c with
        | RNil => Returns None
        | cargo => from_cargo D M T cargo key
        end in
      match g_data c with
      | None => later
      | Some data =>
          match lookup data key with
          | Some v => if assert_type M T v then Returns (Some v) else later
          | None => later
          end
      end
  end.

(** context.go 83-89. *)
Definition must_get (D : decls) (M : implements) (T : gtype) (c : option gctx) (key : bytes)
  : outcome rval :=
  match get D M T c key with
  | Returns (Some v) => Returns v
  | Returns None => Panics
  | Panics => Panics
  end.

(** context.go 23-29: [New]. *)
Definition new_context (data : option (list (bytes * rval))) (cargo : rval) : option gctx :=
  Some (GCtx data cargo).
