(** CURRENT_DATE, CURRENT_DATETIME, CURRENT_TIME, CURRENT_TIMESTAMP and WithCurrentTime:
    internal/formatter.go 133-178, internal/context.go 188-198, internal/function_bind.go
    1887-1921, 2100-2134, 2263-2297, 2426-2460, and internal/function_date.go 9-19,
    function_datetime.go 8-18, function_time.go 8-18, function_timestamp.go 8-18. *)
From Coq Require Import Ascii String List ZArith Lia Bool.
From Verif Require Import GoBase DecModel InstantModel ClockTextModel ZoneModel PartModel CastModel.
Import ListNotations.
Local Open Scope string_scope.
Open Scope Z_scope.

(** function_register.go:388-393 currentTimeFuncMap *)
Inductive cfn := CDate | CDatetime | CTime | CTimestamp.

(** A query as far as the clock is concerned: calls of the four functions, with or without
    a time zone; constants; a call of some other function of two arguments; and a use of a
    view or of a function that CREATE VIEW or CREATE FUNCTION defined.  Instants are
    nanoseconds since 1970. *)
Inductive expr :=
| Current (f : cfn) (zone : option string)
| Const (n : Z)
| Both (a b : expr)
| Defined (name : nat).

(** The SQL that is sent to SQLite.  An argument is an integer or a text. *)
Inductive arg := AInt (n : Z) | AText (s : string).
Inductive sql :=
| SCurrent (f : cfn) (args : list arg)
| SConst (n : Z)
| SBoth (a b : sql).

(** time.Time.UnixNano: int64 arithmetic, which wraps. *)
Definition unix_nano (t : Z) : Z := wrap64 t.

Definition defs := nat -> option sql.

(** formatter.go:133-178 getFuncNameAndArgs.  The time of the context is added after the
    arguments that were written.  The body of a function is put in place (spec.go:95-100) and
    SQLite does the same for a view; [None]: no such view or function. *)
Fixpoint format (ds : defs) (cur : option Z) (e : expr) : option sql :=
  match e with
  | Current f zone =>
      let written := match zone with Some z => [AText z] | None => [] end in
      let added := match cur with Some t => [AInt (unix_nano t)] | None => [] end in
      Some (SCurrent f (written ++ added)%list)
  | Const n => Some (SConst n)
  | Both a b => match format ds cur a, format ds cur b with Some x, Some y => Some (SBoth x y) | _, _ => None end
  | Defined v => ds v
  end.

(** CREATE VIEW and CREATE FUNCTION keep the text of their body as it was formatted:
    spec.go:382-390, and analyzer.go:360-371 with spec.go:529-551.  (A function with a
    templated argument keeps the text of its body instead and is formatted by the query that
    calls it, spec.go:70-93; it is not modelled here.) *)
Definition create (ds : defs) (cur : option Z) (v : nat) (e : expr) : defs :=
  fun w => if Nat.eqb w v then format ds cur e else ds w.

(** What the functions return: the value that is shown is the date, the date and time, the
    time of day of the time.Time in its own location (value.go:1570, 1722, 1839), or the
    instant.  The text keeps microseconds; the value here keeps nanoseconds. *)
Inductive shown := ADate (day : Z) | ADatetime (w : Z) | ATime (clock : Z) | ATimestamp (t : Z).
Definition show (f : cfn) (l : loc) (t : Z) : shown :=
  match f with
  | CDate => ADate (wall l t / ns_per_day)
  | CDatetime => ADatetime (wall l t)
  | CTime => ATime (wall l t mod ns_per_day)
  | CTimestamp => ATimestamp t
  end.

(** The result of a query: the function of [SBoth] may be any function. *)
Inductive value := VShown (s : shown) | VConst (n : Z) | VBoth (a b : value).

Section Now.
(** time.LoadLocation and the location of the process (time.Local) *)
Variable load : string -> option loc.
Variable local : loc.
Definition place_loc (p : place loc) : loc := match p with FixedZone off => fixed off | Loaded l => l end.
(** util.go:36-74 toLocation, with an empty cache; ZoneModel has the cache. *)
Definition locate (z : string) : res loc := match make load z with Some (_, p) => Ok (place_loc p) | None => Err end.

(** value.go: ToInt64 and ToString of an integer and of a text *)
Definition to_int (a : arg) : res Z := match a with AInt n => Ok n | AText s => cast_string_int64 s end.
Definition to_text (a : arg) : string := match a with AInt n => dec n | AText s => s end.

(** The four binders, which differ in the last step only.  [now] is what time.Now() returns
    if it is called.  More than two arguments do not happen: the functions take at most one
    and one is added. *)
Definition current (f : cfn) (args : list arg) (now : Z) : res shown :=
  match args with
  | [] => bind (locate "") (fun l => Ok (show f l now))
  | [AInt n] => Ok (show f local n)
  | [AText z] => bind (locate z) (fun l => Ok (show f l now))
  | [a; b] => bind (to_int a) (fun n => bind (locate (to_text b)) (fun l => Ok (show f l n)))
  | _ => Err
  end.

(** Running the SQL.  [clock i] is the i-th reading of the clock; every call may read it
    anew.  Returns the result and the number of readings that were used. *)
Fixpoint run (clock : nat -> Z) (s : sql) (i : nat) : res value * nat :=
  match s with
  | SConst n => (Ok (VConst n), i)
  | SCurrent f args => (bind (current f args (clock i)) (fun v => Ok (VShown v)), S i)
  | SBoth a b =>
      match run clock a i with
      | (Ok x, j) => match run clock b j with
                     | (Ok y, k) => (Ok (VBoth x y), k)
                     | (Err, k) => (Err, k)
                     | (GoPanic, k) => (GoPanic, k)
                     end
      | r => r
      end
  end.
(** QueryContext with a context that has the time [cur] or none *)
Definition query (ds : defs) (cur : option Z) (clock : nat -> Z) (e : expr) : res value :=
  match format ds cur e with Some s => fst (run clock s 0) | None => Err end.
(** PrepareContext with one context and a query of the statement with another: the statement
    keeps the SQL (stmt.go:187-260), and the second context adds nothing. *)
Definition prepared_query (ds : defs) (prepare_cur query_cur : option Z) (clock : nat -> Z) (e : expr) : res value :=
  match format ds prepare_cur e with Some s => fst (run clock s 0) | None => Err end.
End Now.
