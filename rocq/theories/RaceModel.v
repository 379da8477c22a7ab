(** Goroutines that share one catalog: which accesses of internal/catalog.go happen under the
    mutex and which do not, one step per access, for any number of connections of one database
    (driver.go:40-55 gives them the same *Catalog).

    Only tables and views are followed; a name stands for its spec.  The SQL statements sent to
    SQLite in between are left out (SQLite's own locks are not modelled). *)
From Coq Require Import Ascii String List Bool Arith.
Import ListNotations.
Local Open Scope string_scope.

Definition mem (n : string) (l : list string) : bool := existsb (String.eqb n) l.

(** ** catalog.go:57-66: c.tables, the keys of c.tableMap, and the names that c.catalog knows *)
Record cat := Cat { c_tables : list string; c_map : list string; c_found : list string }.

(** ** The accesses *)
Inductive instr :=
| ILock | IUnlock                 (* c.mu *)
| IRead                           (* a read of c.tableMap *)
| IWrite (n : string)             (* c.tableMap[n] = spec: Go marks the map as being written, *)
| IWriting (n : string)           (* then stores and removes the mark *)
| IAppend (n : string)            (* c.tables = append(c.tables, spec) *)
| IEnter (n : string)             (* addTableSpecRecursive: c.catalog gets the table *)
| INew                            (* catalog.go:314-319 resetCatalog: the assignments of empty values, taken as one step *)
| IAdd (n : string)               (* addTableSpec *)
| IDel (n : string)               (* deleteTableSpecByName *)
| IDelFn (known : bool)           (* deleteFunctionSpecByName *)
| IFind (n : string).             (* FindTable, for the analyzer *)

(** ** What the statements of a script do with the catalog *)
Inductive op :=
| OSync (rows : list string)      (* catalog.go:174-218 Sync; rows: those updated since the last *)
| OCreate (n : string)            (* catalog.go:220-233 AddNewTableSpec *)
| ODrop (n : string)              (* stmt_action.go:258-269 *)
| OClean (n : string)             (* stmt_action.go:118, 190: a temporary table or view *)
| ODropFn (known : bool)          (* catalog.go:263-274 DeleteFunctionSpec *)
| OFind (n : string)              (* catalog.go:86-91, a reference to a table *)
| OWild.                          (* wildcard_table.go:151-153, a reference to a wildcard table *)
Definition code_of (o : op) : list instr :=
  match o with
  | OSync rows => (ILock :: map IAdd rows ++ [IUnlock])%list
  | OCreate n => [ILock; IAdd n; IUnlock]
  | ODrop n => [IRead; ILock; IDel n; IUnlock]
  | OClean n => [ILock; IDel n; IUnlock]
  | ODropFn known => [ILock; IDelFn known; IUnlock]
  | OFind n => [IFind n]
  | OWild => [IRead]
  end.
(** analyzer.go:187-232: every script starts with Sync, then each statement is analyzed and run. *)
Definition select_stmt (rows refs : list string) : list op := OSync rows :: map OFind refs.
Definition create_stmt (rows : list string) (n : string) : list op := [OSync rows; OCreate n].
Definition drop_stmt (rows : list string) (n : string) : list op := [OSync rows; ODrop n].

(** ** Steps that only the holder of the mutex takes *)
Definition put (n : string) (l : list string) : list string := if mem n l then l else (l ++ [n])%list.
Definition solo (c : cat) (code : list instr) : option (cat * list instr) :=
  match code with
  | IWrite n :: r => Some (c, IWriting n :: r)
  | IWriting n :: r => Some (Cat (c_tables c) (put n (c_map c)) (c_found c), r)
  | IAppend n :: r => Some (Cat (c_tables c ++ [n])%list (c_map c) (c_found c), r)
  | IEnter n :: r => Some (Cat (c_tables c) (c_map c) (put n (c_found c)), r)
  | INew :: r => Some (Cat [] [] [], r)
  (* catalog.go:427-439 *)
  | IAdd n :: r => Some (c, ((if mem n (c_map c) then [IWrite n] else [IAppend n; IWrite n; IEnter n]) ++ r)%list)
  (* catalog.go:276-293: an unknown name is an error *)
  | IDel n :: r => Some (c, if mem n (c_map c) then (INew :: map IAdd (filter (fun m => negb (String.eqb n m)) (c_tables c)) ++ r)%list else r)
  (* catalog.go:295-312 *)
  | IDelFn known :: r => Some (c, if known then (INew :: map IAdd (c_tables c) ++ r)%list else r)
  | _ => None
  end.
(** Does the instruction look into c.tableMap? *)
Definition touches (i : instr) : bool := match i with IRead | IWrite _ | IAdd _ | IDel _ => true | _ => false end.

(** ** Goroutines.  The head of [t_ops] is the operation whose code is running; [t_saw] are the
    answers of FindTable. *)
Record thread := Th { t_ops : list op; t_code : list instr; t_saw : list (string * bool) }.
Definition load (ops : list op) : list instr := match ops with o :: _ => code_of o | [] => [] end.
Definition start (ops : list op) : thread := Th ops (load ops) [].
Definition advance (ops : list op) (code : list instr) (saw : list (string * bool)) : thread :=
  match code with [] => Th (tl ops) (load (tl ops)) saw | _ => Th ops code saw end.
Record state := St { s_cat : cat; s_lock : option nat; s_writing : bool; s_dead : bool; s_threads : list thread }.
Definition init (c : cat) (progs : list (list op)) : state := St c None false false (map start progs).
Fixpoint set_nth {A} (l : list A) (i : nat) (x : A) : list A :=
  match l, i with [], _ => [] | _ :: r, O => x :: r | y :: r, S j => y :: set_nth r j x end.

(** One step of goroutine [i]; None: it is blocked, has nothing left or the process is gone.  Go
    aborts the process when a map is read or written while it is being written. *)
Definition step (s : state) (i : nat) : option state :=
  if s_dead s then None else
  match nth_error (s_threads s) i with
  | None => None
  | Some t =>
      let goto code saw := set_nth (s_threads s) i (advance (t_ops t) code saw) in
      match t_code t with
      | [] => None
      | ILock :: r => match s_lock s with
                      | None => Some (St (s_cat s) (Some i) (s_writing s) false (goto r (t_saw t)))
                      | Some _ => None
                      end
      | IUnlock :: r => Some (St (s_cat s) None (s_writing s) false (goto r (t_saw t)))
      | IFind n :: r => Some (St (s_cat s) (s_lock s) (s_writing s) false (goto r (t_saw t ++ [(n, mem n (c_found (s_cat s)))])%list))
      | IRead :: r => if s_writing s then Some (St (s_cat s) (s_lock s) true true (s_threads s))
                      else Some (St (s_cat s) (s_lock s) false false (goto r (t_saw t)))
      | x :: _ =>
          if touches x && s_writing s then Some (St (s_cat s) (s_lock s) true true (s_threads s)) else
          match solo (s_cat s) (t_code t) with
          | Some (c, r) =>
              let w := match x with IWrite _ => true | IWriting _ => false | _ => s_writing s end in
              Some (St c (s_lock s) w false (goto r (t_saw t)))
          | None => None
          end
      end
  end.
(** A schedule names the goroutine that runs next; one that cannot is passed over. *)
Fixpoint run (s : state) (sched : list nat) : state :=
  match sched with
  | [] => s
  | i :: r => match step s i with Some s' => run s' r | None => run s r end
  end.
