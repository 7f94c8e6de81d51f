(** The memory that rendering code writes to.

    While it renders, the library appends to slices of [Value]s in two places:
    the scratch attribute [use] of renderAttributes (element.go 10-54) and the
    [attValues] of ImperativeContext.Start (imperative.go 78-132).  The
    functional model of Render.v computes the resulting lists.  Here the same
    two pieces of code run on backing arrays, so that several goroutines can
    run them at once.

    An array is either shared (it belongs to a node of the template) or was
    allocated by the goroutine itself; no slice of a goroutine's own arrays
    ever leaves it. *)
From Verif Require Import Bytes IO Nodes Values Render Slices.

Section Memory.
Context {W : UserWorld}.

Inductive addr := Shared (i : nat) | Own (i : nat).

(** What becomes visible outside: the start of an attribute, each of its
    values, its end. *)
Inductive out := OAttr (name : bytes) (delim : option bytes) | OVal (v : option (value U)) | OBool (name : bytes) | OEnd.

(** Programs over memory: load, store, allocate, show. *)
Inductive mprog (A : Type) : Type :=
| MRet (a : A)
| MLoad (x : addr) (j : nat) (k : option (value U) -> mprog A)
| MStore (x : addr) (j : nat) (v : option (value U)) (k : mprog A)
| MAlloc (cap : nat) (k : nat -> mprog A)
| MShow (o : out) (k : mprog A).
Arguments MRet {A}. Arguments MLoad {A}. Arguments MStore {A}. Arguments MAlloc {A}. Arguments MShow {A}.

Fixpoint mbind {A B} (p : mprog A) (f : A -> mprog B) : mprog B :=
  match p with
  | MRet a => f a
  | MLoad x j k => MLoad x j (fun v => mbind (k v) f)
  | MStore x j v k => MStore x j v (mbind k f)
  | MAlloc c k => MAlloc c (fun i => mbind (k i) f)
  | MShow o k => MShow o (mbind k f)
  end.

(** Arrays: index, then cell. *)
Definition arrays := list (list (option (value U))).
Definition cell (m : arrays) (i j : nat) : option (value U) := nth j (nth i m []) None.
Definition put (m : arrays) (i j : nat) (v : option (value U)) : arrays :=
  set_nth m i (set_nth (nth i m []) j v).
Definition load (sh own : arrays) (x : addr) (j : nat) : option (value U) :=
  match x with Shared i => cell sh i j | Own i => cell own i j end.

(** ** Goroutines *)

Record thread (A : Type) := Thread { t_prog : mprog A; t_own : arrays; t_out : list out }.
Arguments Thread {A}. Arguments t_prog {A}. Arguments t_own {A}. Arguments t_out {A}.

(** One memory operation of one goroutine. *)
Definition tstep {A} (sh : arrays) (t : thread A) : arrays * thread A :=
  match t_prog t with
  | MRet _ => (sh, t)
  | MLoad x j k => (sh, Thread (k (load sh (t_own t) x j)) (t_own t) (t_out t))
  | MStore (Shared i) j v k => (put sh i j v, Thread k (t_own t) (t_out t))
  | MStore (Own i) j v k => (sh, Thread k (put (t_own t) i j v) (t_out t))
  | MAlloc c k => (sh, Thread (k (length (t_own t))) (t_own t ++ [repeat None c]) (t_out t))
  | MShow o k => (sh, Thread k (t_own t) (t_out t ++ [o]))
  end.

(** A schedule names the goroutine that makes the next step. *)
Fixpoint interleave {A} (sched : list nat) (sh : arrays) (ts : list (thread A))
  : arrays * list (thread A) :=
  match sched with
  | [] => (sh, ts)
  | i :: sched' =>
      match nth_error ts i with
      | None => interleave sched' sh ts
      | Some t => let '(sh', t') := tstep sh t in interleave sched' sh' (set_nth ts i t')
      end
  end.

(** A goroutine alone, to the end. *)
Fixpoint alone {A} (p : mprog A) (sh own : arrays) (tr : list out)
  : A * arrays * arrays * list out :=
  match p with
  | MRet a => (a, sh, own, tr)
  | MLoad x j k => alone (k (load sh own x j)) sh own tr
  | MStore (Shared i) j v k => alone k (put sh i j v) own tr
  | MStore (Own i) j v k => alone k sh (put own i j v) tr
  | MAlloc c k => alone (k (length own)) sh (own ++ [repeat None c]) tr
  | MShow o k => alone k sh own (tr ++ [o])
  end.

(** ** Slices *)

Record mslice := MSlice { m_at : addr; m_len : nat; m_cap : nat }.
Definition mnil : mslice := MSlice (Own 0) 0 0.

(** Copy [n] cells. *)
Fixpoint mcopy (n : nat) (from : addr) (i : nat) (to : addr) (j : nat) : mprog unit :=
  match n with
  | 0 => MRet tt
  | S n' => MLoad from i (fun v => MStore to j v (mcopy n' from (S i) to (S j)))
  end.

(** Capacity of the new array when one of capacity [c] must hold [n] cells
    (runtime/slice.go); all that matters is that it is large enough. *)
Definition growth := nat -> nat -> nat.
Definition grows (g : growth) : Prop := forall c n, n <= g c n.

(** [append(s, src...)]. *)
Definition mappend (g : growth) (s src : mslice) : mprog mslice :=
  let n := m_len s + m_len src in
  if n <=? m_cap s then
    mbind (mcopy (m_len src) (m_at src) 0 (m_at s) (m_len s)) (fun _ =>
    MRet (MSlice (m_at s) n (m_cap s)))
  else
    MAlloc (g (m_cap s) n) (fun a =>
    mbind (mcopy (m_len s) (m_at s) 0 (Own a) 0) (fun _ =>
    mbind (mcopy (m_len src) (m_at src) 0 (Own a) (m_len s)) (fun _ =>
    MRet (MSlice (Own a) n (g (m_cap s) n))))).

(** [append(s, v)]. *)
Definition mappend1 (g : growth) (s : mslice) (v : option (value U)) : mprog mslice :=
  let n := S (m_len s) in
  if n <=? m_cap s then MStore (m_at s) (m_len s) v (MRet (MSlice (m_at s) n (m_cap s)))
  else
    MAlloc (g (m_cap s) n) (fun a =>
    mbind (mcopy (m_len s) (m_at s) 0 (Own a) 0) (fun _ =>
    MStore (Own a) (m_len s) v (MRet (MSlice (Own a) n (g (m_cap s) n))))).

(** Attribute nodes with their [values] slices. *)
Inductive mattr :=
| MPlain (name : bytes) (vs : mslice)
| MBool (name : bytes)
| MDelim (name delim : bytes) (vs : mslice).
Definition mattr_name (a : mattr) : bytes :=
  match a with MPlain n _ => n | MBool n => n | MDelim n _ _ => n end.

(** Rendering (attribute.go 12-28, 62-72, 105-125): load and show the values
    one by one. *)
Fixpoint mvalues (n : nat) (x : addr) (j : nat) : mprog unit :=
  match n with
  | 0 => MRet tt
  | S n' => MLoad x j (fun v => MShow (OVal v) (mvalues n' x (S j)))
  end.
Definition mrender (a : mattr) : mprog unit :=
  match a with
  | MPlain n s => MShow (OAttr n None) (mbind (mvalues (m_len s) (m_at s) 0) (fun _ => MShow OEnd (MRet tt)))
  | MBool n => MShow (OBool n) (MRet tt)
  | MDelim n d s =>
      MShow (OAttr n (Some d)) (mbind (mvalues (m_len s) (m_at s) 0) (fun _ => MShow OEnd (MRet tt)))
  end.

(** ** renderAttributes (element.go 10-52) *)

Definition get_values (a : mattr) : option mslice :=
  match a with MPlain _ s => Some s | MBool _ => None | MDelim _ _ s => Some s end.

(** element.go 20-24, 42-46: append the values of each attribute. *)
Fixpoint mappend_all (g : growth) (s : mslice) (l : list mattr) : mprog mslice :=
  match l with
  | [] => MRet s
  | a :: l' =>
      match get_values a with
      | Some src => mbind (mappend g s src) (fun s' => mappend_all g s' l')
      | None => mappend_all g s l'
      end
  end.

(** element.go 15-25 and 37-47: with [use.values] the slice [s]; the result is
    [use.values] afterwards. *)
Definition use_delim (g : growth) (s : mslice) (name delim : bytes) (own : mslice) (more : list mattr)
  : mprog mslice :=
  mbind (mappend g (MSlice (m_at s) 0 (m_cap s)) own) (fun s1 =>
  mbind (mappend_all g s1 more) (fun s2 =>
  mbind (mrender (MDelim name delim s2)) (fun _ => MRet s2))).

(** One name: the static attribute, if any, and the active conditional ones
    (element.go 11-32 and 33-52; both cases of a name in the order the two maps
    are ranged over). *)
Definition use_name (g : growth) (s : mslice) (st : option mattr) (act : list mattr) : mprog mslice :=
  match st with
  | Some at_ =>
      match act with
      | [] => mbind (mrender at_) (fun _ => MRet s)
      | _ =>
          match at_ with
          | MDelim n d own => use_delim g s n d own act
          | _ => mbind (mrender (last act at_)) (fun _ => MRet s)
          end
      end
  | None =>
      match act with
      | [] => MRet s
      | MDelim n d own :: more => use_delim g s n d own more
      | first :: more => mbind (mrender (last more first)) (fun _ => MRet s)
      end
  end.
Fixpoint use_names (g : growth) (s : mslice) (l : list (option mattr * list mattr)) : mprog unit :=
  match l with
  | [] => MRet tt
  | (st, act) :: l' => mbind (use_name g s st act) (fun s' => use_names g s' l')
  end.
Definition use_attributes (g : growth) (l : list (option mattr * list mattr)) : mprog unit :=
  use_names g mnil l.

(** ** Start (imperative.go 78-132) *)

(** imperative.go 90-95, one value of [da.values] at a time. *)
Fixpoint start_append (g : growth) (delim : bytes) (n : nat) (x : addr) (j : nat) (avs : mslice)
  : mprog mslice :=
  match n with
  | 0 => MRet avs
  | S n' =>
      MLoad x j (fun dv =>
      mbind (if 0 <? m_len avs then mappend1 g avs (Some (Val delim None [])) else MRet avs) (fun a1 =>
      mbind (mappend1 g a1 dv) (fun a2 =>
      start_append g delim n' x (S j) a2)))
  end.
(** imperative.go 107-113. *)
Fixpoint start_fill (g : growth) (delim : bytes) (n : nat) (x : addr) (j : nat) (avs : mslice)
  : mprog mslice :=
  match n with
  | 0 => MRet avs
  | S n' =>
      MLoad x j (fun v =>
      mbind (if 0 <? j then mappend1 g avs (Some (Val delim None [])) else MRet avs) (fun a1 =>
      mbind (mappend1 g a1 v) (fun a2 =>
      start_fill g delim n' x (S j) a2)))
  end.

(** imperative.go 84-120: attNames and attValues as one list. *)
Fixpoint set_assoc {A} (l : list (bytes * A)) (name : bytes) (x : A) : list (bytes * A) :=
  match l with
  | [] => []
  | (n, y) :: l' => if beq n name then (n, x) :: l' else (n, y) :: set_assoc l' name x
  end.
Fixpoint get_assoc {A} (l : list (bytes * A)) (name : bytes) : option A :=
  match l with
  | [] => None
  | (n, y) :: l' => if beq n name then Some y else get_assoc l' name
  end.
Definition start_one (g : growth) (acc : list (bytes * option mslice)) (a : mattr)
  : mprog (list (bytes * option mslice)) :=
  match get_assoc acc (mattr_name a) with
  | Some old =>
      match a with
      | MDelim n d s =>
          mbind (start_append g d (m_len s) (m_at s) 0
                   (match old with Some avs => avs | None => mnil end)) (fun avs =>
          MRet (set_assoc acc n (if m_len s =? 0 then old else Some avs)))
      | MPlain n s => MRet (set_assoc acc n (Some s))
      | MBool n => MRet (set_assoc acc n None)
      end
  | None =>
      match a with
      | MDelim n d s =>
          MAlloc (m_len s * 2) (fun i =>
          mbind (start_fill g d (m_len s) (m_at s) 0 (MSlice (Own i) 0 (m_len s * 2))) (fun avs =>
          MRet (acc ++ [(n, Some avs)])))
      | MPlain n s => MRet (acc ++ [(n, Some s)])
      | MBool n => MRet (acc ++ [(n, None)])
      end
  end.
Fixpoint start_all (g : growth) (acc : list (bytes * option mslice)) (l : list mattr)
  : mprog (list (bytes * option mslice)) :=
  match l with
  | [] => MRet acc
  | a :: l' => mbind (start_one g acc a) (fun acc' => start_all g acc' l')
  end.
(** imperative.go 121-131. *)
Fixpoint start_show (l : list (bytes * option mslice)) : mprog unit :=
  match l with
  | [] => MRet tt
  | (n, None) :: l' => MShow (OBool n) (start_show l')
  | (n, Some s) :: l' =>
      MShow (OAttr n None)
        (mbind (mvalues (m_len s) (m_at s) 0) (fun _ => MShow OEnd (start_show l')))
  end.
Definition start_attributes (g : growth) (l : list mattr) : mprog unit :=
  mbind (start_all g [] l) start_show.

End Memory.

Arguments mprog : clear implicits.
Arguments mprog {W} A.
Arguments MRet {W A}. Arguments MLoad {W A}. Arguments MStore {W A}.
Arguments MAlloc {W A}. Arguments MShow {W A}.
Arguments thread {W} A.
Arguments Thread {W A}. Arguments t_prog {W A}. Arguments t_own {W A}. Arguments t_out {W A}.
