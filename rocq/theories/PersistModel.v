(** Model of the persisted catalog (SQLite table zetasqlite_catalog) and of Sync. *)
From Coq Require Import Ascii String List ZArith Bool.
From Verif Require Import GoBase NameModel TreeModel CatalogModel.
Import ListNotations.
Open Scope Z_scope.

(** internal/catalog.go:48-55 [CatalogSpecKind]. *)
Inductive kind := KTable | KView | KFunction.

(** The spec column: the JSON text of a TableSpec or of a FunctionSpec. Simplification:
    JSON encoding and decoding of the same type is the identity. *)
Inductive payload := PT (s : tspec) | PF (f : fspec).

(** One row of zetasqlite_catalog (catalog.go:17-25).  Simplifications: createdAt is left
    out; updatedAt is a logical time; the NUMERIC affinity that SQLite gives to STRING
    columns (names that look like numbers) is not modelled. *)
Record row := Row { r_name : string; r_kind : kind; r_spec : payload; r_stamp : Z }.

(** internal/catalog.go:26-42: INSERT ... ON CONFLICT(name) DO UPDATE SET spec, updatedAt;
    the kind of an existing row is kept. *)
Fixpoint upsert (rows : list row) (n : string) (k : kind) (p : payload) (t : Z) : list row :=
  match rows with
  | [] => [Row n k p t]
  | r :: rest =>
      if String.eqb (r_name r) n then Row n (r_kind r) p t :: rest
      else r :: upsert rest n k p t
  end.

(** internal/catalog.go:43-45. *)
Definition delete_row (rows : list row) (n : string) : list row :=
  filter (fun r => negb (String.eqb (r_name r) n)) rows.

(** internal/catalog.go:333-355 [saveTableSpec], 357-375 [saveFunctionSpec]. *)
Definition save_table (rows : list row) (s : tspec) (t : Z) : list row :=
  upsert rows (ts_name s) (if ts_view s then KView else KTable) (PT s) t.
Definition save_function (rows : list row) (f : fspec) (t : Z) : list row :=
  upsert rows (fs_name f) KFunction (PF f) t.

(** internal/catalog.go:384-404 [loadTableSpec], [loadFunctionSpec]: json.Unmarshal into the
    type the kind asks for.  A FunctionSpec text read as a TableSpec keeps the common fields
    (namePath, isTemp) and has no columns; likewise the other way round. *)
Definition decode_table (p : payload) : tspec :=
  match p with PT s => s | PF f => TS (fs_path f) "" (fs_temp f) false end.
Definition decode_function (p : payload) : fspec :=
  match p with PF f => f | PT s => FS (ts_path s) "" (ts_temp s) end.

Definition load_row (c : catalog) (r : row) : catalog :=
  match r_kind r with
  | KTable | KView => fst (add_table_spec c (decode_table (r_spec r)))
  | KFunction => fst (add_function_spec c (decode_function (r_spec r)))
  end.

(** internal/catalog.go:182-215: the rows selected by updatedAt >= lastSyncedAt are loaded in
    the order the query returns them.  (Loading fails only for empty name paths.) *)
Definition sync_rows (c : catalog) (rows : list row) (last : Z) : catalog :=
  fold_left load_row (filter (fun r => last <=? r_stamp r) rows) c.

(** internal/catalog.go:220-274: AddNew*Spec and Delete*Spec act on memory, then on the table. *)
Definition p_step (st : catalog * list row) (t : Z) (o : cat_op) : catalog * list row :=
  let (c, rows) := st in
  let (c', err) := cat_step c o in
  if err then (c', rows)
  else match o with
       | AddT s => (c', if ts_temp s then rows else save_table rows s t)
       | AddF f => (c', if fs_temp f then rows else save_function rows f t)
       | DelT n => (c', delete_row rows n)
       | DelF n => (c', delete_row rows n)
       end.

(** A history on one database file: DDL of the running process, and restarts (a new process
    starts with NewCatalog and lastSyncedAt = 0 and syncs before its first statement). *)
Inductive p_event :=
| PDdl (t : Z) (o : cat_op)
| PRestart.

Definition p_event_step (st : catalog * list row) (e : p_event) : catalog * list row :=
  match e with
  | PDdl t o => p_step st t o
  | PRestart => (fold_left load_row (snd st) cat_new, snd st)
  end.
Definition p_run (h : list p_event) : catalog * list row := fold_left p_event_step h (cat_new, []).

(** ** Two processes on one database (C10): writer W and reader R.
    W stamps a row (time.Now() in saveTableSpec, catalog.go:338) and later commits it; R's
    Sync takes [now] (catalog.go:181), runs the query, then sets lastSyncedAt := now. *)
Record two := Two {
  w_clock : Z;
  w_pending : list (tspec * Z);
  w_rows : list row;
  rd_cat : catalog;
  rd_last : Z;
  rd_now : option Z
}.
Definition two_init (t0 : Z) : two := Two t0 [] [] cat_new 0 None.

Inductive two_event :=
| Tick
| WStamp (s : tspec)
| WCommit
| WDrop (n : string)
| RBegin
| RQuery.

Definition two_step (st : two) (e : two_event) : two :=
  match e with
  | Tick => Two (w_clock st + 1) (w_pending st) (w_rows st) (rd_cat st) (rd_last st) (rd_now st)
  | WStamp s => Two (w_clock st) (w_pending st ++ [(s, w_clock st)]) (w_rows st) (rd_cat st) (rd_last st) (rd_now st)
  | WCommit =>
      match w_pending st with
      | [] => st
      | (s, t) :: rest => Two (w_clock st) rest (save_table (w_rows st) s t) (rd_cat st) (rd_last st) (rd_now st)
      end
  | WDrop n => Two (w_clock st) (w_pending st) (delete_row (w_rows st) n) (rd_cat st) (rd_last st) (rd_now st)
  | RBegin =>
      match rd_now st with
      | Some _ => st
      | None => Two (w_clock st) (w_pending st) (w_rows st) (rd_cat st) (rd_last st) (Some (w_clock st))
      end
  | RQuery =>
      match rd_now st with
      | None => st
      | Some now => Two (w_clock st) (w_pending st) (w_rows st)
                        (sync_rows (rd_cat st) (w_rows st) (rd_last st)) now None
      end
  end.
Definition two_run (h : list two_event) (st : two) : two := fold_left two_step h st.
