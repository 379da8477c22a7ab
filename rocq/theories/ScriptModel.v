(** Model of the execution of scripts: driver.go, internal/stmt_action.go, internal/conn.go,
    rows.go (Close) on top of the catalog models and of a small model of SQLite's schema. *)
From Coq Require Import Ascii String List ZArith Bool.
From Verif Require Import GoBase NameModel TreeModel CatalogModel PersistModel.
Import ListNotations.
Open Scope Z_scope.

(** ** SQLite, as far as scripts see it
    A database is a map from names to tables (with their rows, opaque numbers) and views.
    Identifiers are compared without regard to ASCII case, so keys are lower-cased. *)
Inductive obj := OTable (rows : list Z) | OView.
Definition db := amap obj.
Definition db_get (d : db) (n : string) : option obj := aget d (lower n).
Definition db_set (d : db) (n : string) (o : obj) : db := aset d (lower n) o.
Definition db_del (d : db) (n : string) : db := adel d (lower n).

(** The SQLite statements the actions issue (apart from those on zetasqlite_catalog).
    [QDml]'s function is the effect of the statement on the rows of its table and the number of
    affected rows, [None] when SQLite rejects it (a constraint, a run-time error). *)
Inductive sqstmt :=
| QCreateTable (n : string) (if_not_exists : bool) (rows : list Z)
| QCreateView (n : string) (if_not_exists : bool)
| QDropTable (n : string) (if_exists : bool)
| QDropView (n : string) (if_exists : bool)
| QDml (n : string) (f : list Z -> option (list Z * Z))
| QSelect (n : string)
| QIndex (n : string).

Definition sq_apply (d : db) (q : sqstmt) : option (db * Z) :=
  match q with
  | QCreateTable n ine rows =>
      match db_get d n with
      | Some _ => if ine then Some (d, 0) else None
      | None => Some (db_set d n (OTable rows), 0)
      end
  | QCreateView n ine =>
      match db_get d n with
      | Some _ => if ine then Some (d, 0) else None
      | None => Some (db_set d n OView, 0)
      end
  | QDropTable n ie =>
      match db_get d n with
      | Some (OTable _) => Some (db_del d n, 0)
      | Some OView => None
      | None => if ie then Some (d, 0) else None
      end
  | QDropView n ie =>
      match db_get d n with
      | Some OView => Some (db_del d n, 0)
      | Some (OTable _) => None
      | None => if ie then Some (d, 0) else None
      end
  | QDml n f =>
      match db_get d n with
      | Some (OTable rows) =>
          match f rows with Some (rows', k) => Some (db_set d n (OTable rows'), k) | None => None end
      | _ => None
      end
  | QSelect n => match db_get d n with Some _ => Some (d, 0) | None => None end
  | QIndex n => match db_get d n with Some (OTable _) => Some (d, 0) | _ => None end
  end.

(** internal/conn.go:8-47 [ChangedCatalog] (Updated is never written).  A deleted function
    may be a nil pointer (stmt_action.go:274), hence the option. *)
Record changed := CC {
  cc_tadd : list tspec; cc_tdel : list tspec;
  cc_fadd : list fspec; cc_fdel : list (option fspec)
}.
Definition cc_new : changed := CC [] [] [] [].

(** internal/conn.go:78-91, 103-123. *)
Definition cc_add_table (c : changed) (s : tspec) : changed :=
  CC (cc_tadd c ++ [s]) (filter (fun t => negb (String.eqb (ts_name t) (ts_name s))) (cc_tdel c))
     (cc_fadd c) (cc_fdel c).
Definition cc_delete_table (c : changed) (s : tspec) : changed :=
  CC (filter (fun t => negb (String.eqb (ts_name t) (ts_name s))) (cc_tadd c)) (cc_tdel c ++ [s])
     (cc_fadd c) (cc_fdel c).

(** internal/conn.go:93-101, 125-145; FuncName of a nil pointer panics. *)
Fixpoint drop_deleted (l : list (option fspec)) (n : string) : option (list (option fspec)) :=
  match l with
  | [] => Some []
  | None :: _ => None
  | Some f :: r =>
      match drop_deleted r n with
      | None => None
      | Some r' => Some (if String.eqb (fs_name f) n then r' else Some f :: r')
      end
  end.
Definition cc_add_function (c : changed) (f : fspec) : option changed :=
  match drop_deleted (cc_fdel c) (fs_name f) with
  | None => None
  | Some del => Some (CC (cc_tadd c) (cc_tdel c) (cc_fadd c ++ [f]) del)
  end.
Definition cc_delete_function (c : changed) (f : option fspec) : option changed :=
  match f with
  | None => match cc_fadd c with
            | [] => Some (CC (cc_tadd c) (cc_tdel c) [] (cc_fdel c ++ [None]))
            | _ => None
            end
  | Some s => Some (CC (cc_tadd c) (cc_tdel c)
                       (filter (fun t => negb (String.eqb (fs_name t) (fs_name s))) (cc_fadd c))
                       (cc_fdel c ++ [Some s]))
  end.

(** Everything a script can touch.  [w_faults] is an oracle consumed by the SQLite calls:
    [true] makes the call fail without effect (disk full, locked, interrupted, ...). *)
Record world := W {
  w_db : db;
  w_cat : catalog;
  w_saved : list row;
  w_fmap : amap fspec;
  w_cc : changed;
  w_time : Z;
  w_faults : list bool
}.
Definition set_db (w : world) (d : db) : world :=
  W d (w_cat w) (w_saved w) (w_fmap w) (w_cc w) (w_time w) (w_faults w).
Definition set_cat (w : world) (c : catalog) : world :=
  W (w_db w) c (w_saved w) (w_fmap w) (w_cc w) (w_time w) (w_faults w).
Definition set_saved (w : world) (r : list row) : world :=
  W (w_db w) (w_cat w) r (w_fmap w) (w_cc w) (w_time w + 1) (w_faults w).
Definition set_fmap (w : world) (m : amap fspec) : world :=
  W (w_db w) (w_cat w) (w_saved w) m (w_cc w) (w_time w) (w_faults w).
Definition set_cc (w : world) (c : changed) : world :=
  W (w_db w) (w_cat w) (w_saved w) (w_fmap w) c (w_time w) (w_faults w).
Definition set_faults (w : world) (f : list bool) : world :=
  W (w_db w) (w_cat w) (w_saved w) (w_fmap w) (w_cc w) (w_time w) f.

Definition next_fault (w : world) : bool := match w_faults w with b :: _ => b | [] => false end.
Definition used_fault (w : world) : world := set_faults w (tl (w_faults w)).

(** internal/conn.go:64-76: one statement sent to SQLite (in or outside a transaction). *)
Definition sq (w : world) (q : sqstmt) : world * res Z :=
  let w1 := used_fault w in
  if next_fault w then (w1, Err)
  else match sq_apply (w_db w) q with
       | Some (d, k) => (set_db w1 d, Ok k)
       | None => (w1, Err)
       end.
(** The same for statements on zetasqlite_catalog. *)
Definition sq_saved (w : world) (f : list row -> list row) : world * res Z :=
  let w1 := used_fault w in
  if next_fault w then (w1, Err) else (set_saved w1 (f (w_saved w1)), Ok 0).

(** Sequencing of Go calls that return early on error. *)
Definition andthen (r : world * res Z) (k : world -> world * res Z) : world * res Z :=
  match snd r with Ok _ => k (fst r) | Err => (fst r, Err) | GoPanic => (fst r, GoPanic) end.

(** internal/catalog.go:220-248 [AddNewTableSpec], [AddNewFunctionSpec]: memory first, then
    the stored copy. *)
Definition add_new_table_spec (w : world) (s : tspec) : world * res Z :=
  let (c, err) := add_table_spec (w_cat w) s in
  let w1 := set_cat w c in
  if err then (w1, Err)
  else if ts_temp s then (w1, Ok 0)
  else sq_saved w1 (fun rows => save_table rows s (w_time w1)).
Definition add_new_function_spec (w : world) (f : fspec) : world * res Z :=
  let (c, err) := add_function_spec (w_cat w) f in
  let w1 := set_cat w c in
  if err then (w1, Err)
  else if fs_temp f then (w1, Ok 0)
  else sq_saved w1 (fun rows => save_function rows f (w_time w1)).

(** internal/catalog.go:250-274 [DeleteTableSpec], [DeleteFunctionSpec]. *)
Definition delete_table_spec_sql (w : world) (n : string) : world * res Z :=
  let (c, err) := delete_table (w_cat w) n in
  let w1 := set_cat w c in
  if err then (w1, Err) else sq_saved w1 (fun rows => delete_row rows n).
Definition delete_function_spec_sql (w : world) (n : string) : world * res Z :=
  let (c, err) := delete_function (w_cat w) n in
  let w1 := set_cat w c in
  if err then (w1, Err) else sq_saved w1 (fun rows => delete_row rows n).

(** ** Actions *)
Inductive mode := MDefault | MOrReplace | MIfNotExists.
Definition mode_eqb (a b : mode) : bool :=
  match a, b with MDefault, MDefault | MOrReplace, MOrReplace | MIfNotExists, MIfNotExists => true | _, _ => false end.

(** internal/stmt_action.go: the StmtAction implementations.  [ACreateTable] carries the rows
    of a CREATE TABLE AS SELECT ([None] for a plain CREATE TABLE) and the number of indexes
    created in auto-index mode. *)
Inductive action :=
| ACreateTable (s : tspec) (m : mode) (ctas : option (list Z)) (indexes : nat)
| ACreateView (s : tspec) (m : mode)
| ACreateFunction (f : fspec)
| ADrop (view : bool) (n : string) (if_exists : bool)
| ADropFunction (n : string) (if_exists : bool)
| ADml (n : string) (f : list Z -> option (list Z * Z))
| AQuery (n : string)
| ABegin
| ACommit
| ATruncate (n : string)
| AMerge (stmts : list sqstmt).

(** internal/spec.go:130-157 [SQLiteSchema]: CREATE TABLE AS SELECT ignores the mode. *)
Definition schema_table (s : tspec) (m : mode) (ctas : option (list Z)) : sqstmt :=
  match ctas with
  | Some rows => QCreateTable (ts_name s) false rows
  | None => QCreateTable (ts_name s) (mode_eqb m MIfNotExists) []
  end.
(** internal/spec.go:159-170 [viewSQLiteSchema]. *)
Definition schema_view (s : tspec) (m : mode) : sqstmt :=
  QCreateView (ts_name s) (mode_eqb m MIfNotExists).

(** internal/stmt_action.go:44-61 [createIndexAutomatically]. *)
Fixpoint create_indexes (w : world) (n : string) (k : nat) : world * res Z :=
  match k with
  | O => (w, Ok 0)
  | S k' => andthen (sq w (QIndex n)) (fun w1 => create_indexes w1 n k')
  end.

(** internal/stmt_action.go:516-523 [MergeStmtAction.exec]. *)
Fixpoint exec_all (w : world) (l : list sqstmt) : world * res Z :=
  match l with
  | [] => (w, Ok 0)
  | q :: r => andthen (sq w q) (fun w1 => exec_all w1 r)
  end.

(** The [exec] methods: stmt_action.go:63-87 (table), 146-163 (view), 210-217 (function),
    259-280 (drop; the name is that of DropStmtNode.FormatSQL, formatter.go:1443-1454),
    323-329 (DML), 371-376 (query), 433-457 (BEGIN, COMMIT), 479-484 (TRUNCATE). *)
Definition action_exec (w : world) (a : action) : world * res Z :=
  match a with
  | ACreateTable s m ctas k =>
      andthen (if mode_eqb m MOrReplace then sq w (QDropTable (ts_name s) true) else (w, Ok 0)) (fun w1 =>
      andthen (sq w1 (schema_table s m ctas)) (fun w2 =>
      andthen (create_indexes w2 (ts_name s) k) (fun w3 =>
      andthen (add_new_table_spec w3 s) (fun w4 =>
      (if ts_temp s then w4 else set_cc w4 (cc_add_table (w_cc w4) s), Ok 0)))))
  | ACreateView s m =>
      andthen (if mode_eqb m MOrReplace then sq w (QDropView (ts_name s) true) else (w, Ok 0)) (fun w1 =>
      andthen (sq w1 (schema_view s m)) (fun w2 =>
      andthen (add_new_table_spec w2 s) (fun w3 => (w3, Ok 0))))
  | ACreateFunction f =>
      andthen (add_new_function_spec w f) (fun w1 =>
      let w2 := set_fmap w1 (aset (w_fmap w1) (fs_name f) f) in
      match cc_add_function (w_cc w2) f with
      | Some c => (set_cc w2 c, Ok 0)
      | None => (w2, GoPanic)
      end)
  | ADrop view n ie =>
      andthen (sq w (if view then QDropView n ie else QDropTable n ie)) (fun w1 =>
      let spec := aget (c_tmap (w_cat w1)) n in
      andthen (delete_table_spec_sql w1 n) (fun w2 =>
      match spec with
      | Some s => (set_cc w2 (cc_delete_table (w_cc w2) s), Ok 0)
      | None => (w2, GoPanic)
      end))
  | ADropFunction n _ =>
      andthen (delete_function_spec_sql w n) (fun w1 =>
      match cc_delete_function (w_cc w1) (aget (w_fmap w1) n) with
      | Some c => (set_fmap (set_cc w1 c) (adel (w_fmap w1) n), Ok 0)
      | None => (w1, GoPanic)
      end)
  | ADml n f => sq w (QDml n f)
  | AQuery n => sq w (QSelect n)
  | ABegin => (w, Ok 0)
  | ACommit => (w, Ok 0)
  | ATruncate n => sq w (QDml n (fun rows => Some ([], zlen rows)))
  | AMerge l => exec_all w l
  end.

(** The [Cleanup] methods: stmt_action.go:107-122, 179-194, 237-247; the others do nothing. *)
Definition action_cleanup (w : world) (a : action) : world * res Z :=
  match a with
  | ACreateTable s _ _ _ =>
      if ts_temp s then
        andthen (sq w (QDropTable (ts_name s) true)) (fun w1 => delete_table_spec_sql w1 (ts_name s))
      else (w, Ok 0)
  | ACreateView s _ =>
      if ts_temp s then
        andthen (sq w (QDropView (ts_name s) true)) (fun w1 => delete_table_spec_sql w1 (ts_name s))
      else (set_cc w (cc_add_table (w_cc w) s), Ok 0)
  | ACreateFunction f =>
      if fs_temp f then
        andthen (delete_function_spec_sql w (fs_name f)) (fun w1 => (set_fmap w1 (adel (w_fmap w1) (fs_name f)), Ok 0))
      else (w, Ok 0)
  | _ => (w, Ok 0)
  end.

(** driver.go:176-178, rows.go:46-51: all clean-ups run; the flag says whether one failed. *)
Fixpoint cleanup_all (w : world) (l : list action) : world * bool :=
  match l with
  | [] => (w, false)
  | a :: r =>
      let (w1, res) := action_cleanup w a in
      let (w2, failed) := cleanup_all w1 r in
      (w2, match res with Ok _ => failed | _ => true end)
  end.

(** internal/analyzer.go:185, 199-228: a statement of the script, analysed only when its turn
    comes.  Analysis is ZetaSQL's, so a statement is any function from the state of the
    catalog and of the function map to an action, or to an analysis error. *)
Definition afunc := catalog -> amap fspec -> option action.

(** The loop of driver.go:185-196 and 219-230: returns the world, the started actions and the
    outcome: of the last statement, or the error that stopped the script. *)
Fixpoint run_script (w : world) (fs : list afunc) (last : Z) : world * list action * res Z :=
  match fs with
  | [] => (w, [], Ok last)
  | f :: r =>
      match f (w_cat w) (w_fmap w) with
      | None => (w, [], Err)
      | Some a =>
          match action_exec w a with
          | (w1, Ok k) =>
              match run_script w1 r k with (w2, acts, out) => (w2, a :: acts, out) end
          | (w1, Err) => (w1, [a], Err)
          | (w1, GoPanic) => (w1, [a], GoPanic)
          end
      end
  end.

(** internal/analyzer.go:195-198 and driver.go:167: a call starts with the function map of the
    catalog and an empty change report.  Simplification: Sync (modelled in PersistModel) is left out: in a single process it
    re-adds what the catalog already holds. *)
Definition start_call (w : world) (namePath : list string) : world :=
  set_cc (set_fmap w (stmt_func_map (w_cat w) namePath)) cc_new.

(** driver.go:166-198 [ExecContext]. *)
Definition exec_context (w : world) (namePath : list string) (fs : list afunc) : world * res Z :=
  match run_script (start_call w namePath) fs 0 with
  | (w1, acts, out) =>
      let (w2, failed) := cleanup_all w1 acts in
      (w2, match out with
           | Ok k => if failed then Err else Ok k
           | Err => Err
           | GoPanic => GoPanic
           end)
  end.

(** driver.go:200-232 [QueryContext]: on success the actions are handed to the returned rows;
    on error nothing is cleaned up. *)
Definition query_context (w : world) (namePath : list string) (fs : list afunc) : world * res (list action) :=
  match run_script (start_call w namePath) fs 0 with
  | (w1, acts, Ok _) => (w1, Ok acts)
  | (w1, _, Err) => (w1, Err)
  | (w1, _, GoPanic) => (w1, GoPanic)
  end.
(** internal/rows.go:44-59 [Close]. *)
Definition rows_close (w : world) (acts : list action) : world * res Z :=
  let (w1, failed) := cleanup_all w acts in (w1, if failed then Err else Ok 0).

(** ** Prepare *)
(** internal/stmt_action.go: the [Prepare] methods (28-42, 130-144, 206-208, 282-284, 315-321,
    363-369, 429-431, 451-453, 475-477, 512-514).  [Ok true]: a statement is returned;
    [Ok false]: nil.  Preparing a statement in SQLite can fail (missing table, existing table). *)
Definition sq_prepare (w : world) (q : sqstmt) : world * res bool :=
  let w1 := used_fault w in
  if next_fault w then (w1, Err)
  else match q with
       | QCreateTable n ine _ | QCreateView n ine =>
           match db_get (w_db w) n with
           | Some _ => (w1, if ine then Ok true else Err)
           | None => (w1, Ok true)
           end
       | QDml n _ => (w1, match db_get (w_db w) n with Some (OTable _) => Ok true | _ => Err end)
       | QSelect n => (w1, match db_get (w_db w) n with Some _ => Ok true | None => Err end)
       | _ => (w1, Ok true)
       end.
Definition prepare_after (r : world * res Z) (q : sqstmt) : world * res bool :=
  match snd r with Ok _ => sq_prepare (fst r) q | Err => (fst r, Err) | GoPanic => (fst r, GoPanic) end.
Definition action_prepare (w : world) (a : action) : world * res bool :=
  match a with
  | ACreateTable s m ctas _ =>
      prepare_after (if mode_eqb m MOrReplace then sq w (QDropTable (ts_name s) true) else (w, Ok 0)) (schema_table s m ctas)
  | ACreateView s m =>
      prepare_after (if mode_eqb m MOrReplace then sq w (QDropView (ts_name s) true) else (w, Ok 0)) (schema_view s m)
  | ACreateFunction _ => (w, Ok true)
  | ADml n f => sq_prepare w (QDml n f)
  | AQuery n => sq_prepare w (QSelect n)
  | _ => (w, Ok false)
  end.
(** driver.go:145-164 [PrepareContext]. *)
Fixpoint prepare_loop (w : world) (fs : list afunc) (last : bool) : world * res bool :=
  match fs with
  | [] => (w, Ok last)
  | f :: r =>
      match f (w_cat w) (w_fmap w) with
      | None => (w, Err)
      | Some a =>
          match action_prepare w a with
          | (w1, Ok b) => prepare_loop w1 r b
          | (w1, Err) => (w1, Err)
          | (w1, GoPanic) => (w1, GoPanic)
          end
      end
  end.
Definition prepare_context (w : world) (namePath : list string) (fs : list afunc) : world * res bool :=
  prepare_loop (start_call w namePath) fs false.

(** internal/analyzer.go:545-548 [newTruncateStmtAction]: the name of the table ZetaSQL found,
    i.e. (up to case, which SQLite ignores) the last component of the written reference
    (catalog.go:449-456, 472-480 register each table under these names). *)
Definition truncate_target (ref : list string) : string := last ref EmptyString.
