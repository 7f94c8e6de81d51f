(** What a key means in a context. *)
From Verif Require Import Bytes IO Reflect.

(** [p], a list of field positions, leads from struct type [s] through embedded
    structs (or pointers to structs) to struct type [t]. *)
Inductive through (D : decls) : nat -> list nat -> nat -> Prop :=
| through_here s : through D s [] s
| through_field s j f t p u :
    nth_error (fields_of D s) j = Some f -> fl_embedded f = true ->
    (fl_type f = TStruct t \/ exists n, fl_type f = TPtr n (TStruct t)) ->
    through D t p u -> through D s (j :: p) u.

(** A field called [k], promoted or not, is at [p]. *)
Definition field_at (D : decls) (s : nat) (k : bytes) (p : list nat) : Prop :=
  exists q j t f, p = q ++ [j] /\ through D s q t /\ nth_error (fields_of D t) j = Some f /\ fl_name f = k.

(** Go's rule for the selector [x.k] (Go spec, "Selectors"): the field at the
    shallowest depth, if there is exactly one there. *)
Definition selects (D : decls) (s : nat) (k : bytes) (p : list nat) : Prop :=
  field_at D s k p /\ forall p', field_at D s k p' -> p' <> p -> length p < length p'.

(** The value at [p] inside a struct, following embedded pointers. *)
Inductive value_at : rval -> list nat -> rval -> Prop :=
| value_last s fs j v : nth_error fs j = Some v -> value_at (RStruct s fs) [j] v
| value_struct s fs j t gs p v :
    nth_error fs j = Some (RStruct t gs) -> p <> [] -> value_at (RStruct t gs) p v ->
    value_at (RStruct s fs) (j :: p) v
| value_ptr s fs j n t w p v :
    nth_error fs j = Some (RPtr n (TStruct t) (Some w)) -> p <> [] -> value_at w p v ->
    value_at (RStruct s fs) (j :: p) v.

(** The value has type T: exactly that type, or one that implements it. *)
Definition is_a (M : implements) (T : gtype) (v : rval) : Prop :=
  match T with
  | TIface i => exists t, type_of v = Some t /\ M i t = true
  | _ => type_of v = Some T
  end.

(** An entry of the context's Data. *)
Definition in_data (c : gctx) (k : bytes) (v : rval) : Prop :=
  exists data, g_data c = Some data /\ lookup data k = Some v.

(** The map or struct that Cargo is, or points to. *)
Inductive carried : rval -> rval -> Prop :=
| carried_self v : carried v v
| carried_ptr n e v : (forall i, e <> TIface i) -> carried (RPtr n e (Some v)) v.

(** An entry of a string-keyed map, or a field of a struct. *)
Inductive entry_of (D : decls) : rval -> bytes -> rval -> Prop :=
| entry_map n e entries k v :
    lookup entries k = Some v -> entry_of D (RMap n (TString None) e entries) k v
| entry_field s fs p k v :
    selects D s k p -> value_at (RStruct s fs) p v -> entry_of D (RStruct s fs) k v.
Definition in_cargo (D : decls) (c : gctx) (k : bytes) (v : rval) : Prop :=
  exists w, carried (g_cargo c) w /\ entry_of D w k v.

(** No two fields of a struct have the same name other than the blank one,
    which is not exported (Go spec, "Struct types", "Exported identifiers"). *)
Definition decls_ok (D : decls) : Prop :=
  Forall (fun fds =>
    NoDup (filter (fun n => negb (beq n (B "_"))) (map fl_name fds)) /\
    Forall (fun f => fl_name f = B "_" -> fl_exported f = false) fds) D.

(** The field at [p] is exported. *)
Definition exported (D : decls) (s : nat) (p : list nat) : Prop :=
  exists q j t f, p = q ++ [j] /\ through D s q t /\
    nth_error (fields_of D t) j = Some f /\ fl_exported f = true.

(** Cargo that cannot hurt: not a map whose key type is a defined string type,
    and the field of a struct, if there is one, is exported and can be reached
    without going through a nil pointer. *)
Definition harmless (D : decls) (cargo : rval) (k : bytes) : Prop :=
  forall w, carried cargo w ->
  match w with
  | RMap _ (TString (Some _)) _ _ => False
  | RStruct s _ => k <> B "_" /\ forall p, selects D s k p -> exported D s p /\ exists v, value_at w p v
  | _ => True
  end.

(** Values whose parts have the types that the declarations say. *)
Inductive fits (D : decls) : gtype -> rval -> Prop :=
| fits_other i x : fits D (TOther i) (ROther i x)
| fits_string n x : fits D (TString n) (RString n x)
| fits_nil_ptr n e : fits D (TPtr n e) (RPtr n e None)
| fits_ptr n e v : fits D e v -> fits D (TPtr n e) (RPtr n e (Some v))
| fits_map n k e l : Forall (fun x => fits D e (snd x)) l -> fits D (TMap n k e) (RMap n k e l)
| fits_struct s vs : Forall2 (fun f v => fits D (fl_type f) v) (fields_of D s) vs ->
    fits D (TStruct s) (RStruct s vs)
| fits_nil i : fits D (TIface i) RNil
| fits_iface i t v : (forall j, t <> TIface j) -> fits D t v -> fits D (TIface i) v.

(** The three things in Cargo that make Get panic. *)
Inductive trap (D : decls) (k : bytes) : rval -> Prop :=
| trap_key n d e entries : trap D k (RMap n (TString (Some d)) e entries)
| trap_unexported s fs p : selects D s k p -> ~ exported D s p -> trap D k (RStruct s fs)
| trap_nil s fs q r n t : selects D s k (q ++ r) -> r <> [] ->
    value_at (RStruct s fs) q (RPtr n (TStruct t) None) -> trap D k (RStruct s fs).
