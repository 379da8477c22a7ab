(** A process that is killed, and the process that opens its database next: driver.go:40-55
    (NewCatalog), internal/catalog.go:175-218 (Sync), on top of ScriptModel. *)
From Coq Require Import Ascii String List ZArith Bool.
From Verif Require Import GoBase NameModel TreeModel CatalogModel PersistModel ScriptModel.
Import ListNotations.

(** Every statement that reaches SQLite outside of a transaction is committed on its own.  The
    first [k] calls to SQLite happen and the [j] calls after them do not: with [j] at least the
    number of calls that are left, what is stored at the end is what a process leaves that is
    killed after [k] calls. *)
Definition killed (w : world) (k j : nat) : world := set_faults w (repeat false k ++ repeat true j).

(** A new process: nothing but the file is left, and the first statement loads the catalog from
    it (PersistModel, PRestart). *)
Definition reopened (w : world) : world :=
  W (w_db w) (fold_left load_row (w_saved w) cat_new) (w_saved w) [] cc_new (w_time w) [].
