(** Model of the in-memory catalog of internal/catalog.go and of its persisted copy, the
    SQLite table zetasqlite_catalog. *)
From Coq Require Import Ascii String List ZArith Bool.
From Verif Require Import GoBase NameModel TreeModel.
Import ListNotations.
Open Scope Z_scope.

(** internal/spec.go:105-115 [TableSpec].  Simplification: columns, primary key, query and
    create mode are one opaque text [ts_def]. *)
Record tspec := TS { ts_path : list string; ts_def : string; ts_temp : bool; ts_view : bool }.

(** internal/spec.go:36-46 [FunctionSpec].  Simplification: language, arguments, return
    type, body and code are one opaque text. *)
Record fspec := FS { fs_path : list string; fs_def : string; fs_temp : bool }.

(** internal/spec.go:126-128 [TableName], 48-50 [FuncName]. *)
Definition ts_name (s : tspec) : string := format_path (ts_path s).
Definition fs_name (s : fspec) : string := format_path (fs_path s).

(** internal/catalog.go:57-66 [Catalog], without db, lastSyncedAt and mutex. *)
Record catalog := Cat {
  c_tables : list tspec;
  c_functions : list fspec;
  c_tmap : amap tspec;
  c_fmap : amap fspec;
  c_ttree : tree tspec;
  c_ftree : tree fspec
}.

(** internal/catalog.go:74-81 [NewCatalog]. *)
Definition cat_new : catalog := Cat [] [] [] [] empty_tree empty_tree.

Definition is_nil {A} (l : list A) : bool := match l with [] => true | _ => false end.

(** internal/catalog.go:427-439 [addTableSpec]; the flag is the returned error (only the
    empty path fails, line 468-470; type conversion errors are not modelled). *)
Definition add_table_spec (c : catalog) (s : tspec) : catalog * bool :=
  match aget (c_tmap c) (ts_name s) with
  | Some _ =>
      (Cat (c_tables c) (c_functions c) (aset (c_tmap c) (ts_name s) s) (c_fmap c) (c_ttree c) (c_ftree c), false)
  | None =>
      (Cat (c_tables c ++ [s]) (c_functions c) (aset (c_tmap c) (ts_name s) s) (c_fmap c)
           (add_rec true (ts_path s) s (c_ttree c)) (c_ftree c), is_nil (ts_path s))
  end.

(** internal/catalog.go:413-425 [addFunctionSpec]. *)
Definition add_function_spec (c : catalog) (s : fspec) : catalog * bool :=
  match aget (c_fmap c) (fs_name s) with
  | Some _ =>
      (Cat (c_tables c) (c_functions c) (c_tmap c) (aset (c_fmap c) (fs_name s) s) (c_ttree c) (c_ftree c), false)
  | None =>
      (Cat (c_tables c) (c_functions c ++ [s]) (c_tmap c) (aset (c_fmap c) (fs_name s) s)
           (c_ttree c) (add_rec false (fs_path s) s (c_ftree c)), is_nil (fs_path s))
  end.

(** The loops of internal/catalog.go:320-329, stopping at the first error. *)
Fixpoint add_tables (c : catalog) (l : list tspec) : catalog * bool :=
  match l with
  | [] => (c, false)
  | s :: r => let (c', e) := add_table_spec c s in if e then (c', true) else add_tables c' r
  end.
Fixpoint add_functions (c : catalog) (l : list fspec) : catalog * bool :=
  match l with
  | [] => (c, false)
  | s :: r => let (c', e) := add_function_spec c s in if e then (c', true) else add_functions c' r
  end.

(** internal/catalog.go:314-331 [resetCatalog]. *)
Definition reset_catalog (tables : list tspec) (functions : list fspec) : catalog * bool :=
  let (c, e) := add_tables cat_new tables in
  if e then (c, true) else add_functions c functions.

(** internal/catalog.go:276-293 [deleteTableSpecByName]. *)
Definition delete_table (c : catalog) (name : string) : catalog * bool :=
  match aget (c_tmap c) name with
  | None => (c, true)
  | Some spec =>
      reset_catalog
        (filter (fun s => negb (String.eqb (format_path (ts_path spec)) (format_path (ts_path s)))) (c_tables c))
        (c_functions c)
  end.

(** internal/catalog.go:295-312 [deleteFunctionSpecByName]. *)
Definition delete_function (c : catalog) (name : string) : catalog * bool :=
  match aget (c_fmap c) name with
  | None => (c, true)
  | Some spec =>
      reset_catalog (c_tables c)
        (filter (fun s => negb (String.eqb (format_path (fs_path spec)) (format_path (fs_path s)))) (c_functions c))
  end.

(** internal/catalog.go:87-92 [FindTable] for a path that is not a wildcard, and
    102-104 [FindFunction]. *)
Definition find_table (c : catalog) (path : list string) : option tspec := tfind (c_ttree c) path.
Definition find_function (c : catalog) (path : list string) : option fspec := tfind (c_ftree c) path.

(** internal/catalog.go:154-172 [getFunctions] on the name path's components. *)
Definition get_functions (c : catalog) (namePath : list string) : list fspec :=
  match namePath with
  | [] => c_functions c
  | _ =>
      let key := format_path namePath in
      filter (fun fn => (zlen (fs_path fn) =? 1) ||
                        contains (format_path (removelast (fs_path fn))) key) (c_functions c)
  end.

(** internal/analyzer.go:195-198: the function map a statement is formatted with. *)
Definition stmt_func_map (c : catalog) (namePath : list string) : amap fspec :=
  fold_left (fun m s => aset m (fs_name s) s) (get_functions c namePath) [].

(** ** The catalog operations a history of DDL performs *)
Inductive cat_op :=
| AddT (s : tspec)
| AddF (s : fspec)
| DelT (name : string)
| DelF (name : string).

Definition cat_step (c : catalog) (o : cat_op) : catalog * bool :=
  match o with
  | AddT s => add_table_spec c s
  | AddF s => add_function_spec c s
  | DelT n => delete_table c n
  | DelF n => delete_function c n
  end.

Definition cat_run (ops : list cat_op) (c : catalog) : catalog :=
  fold_left (fun c o => fst (cat_step c o)) ops c.
