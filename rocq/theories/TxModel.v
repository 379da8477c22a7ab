(** Model of transactions (driver.go:238-282, internal/conn.go:49-76) and of the table of open
    databases (driver.go:21-76). *)
From Coq Require Import Ascii String List ZArith Bool.
From Verif Require Import GoBase CatalogModel PersistModel ScriptModel.
Import ListNotations.

(** ** Transactions of one connection *)
(** Where a statement is executed: outside of any transaction or in transaction [id]. *)
Inductive place := Auto | InTx (id : nat).

(** One driver connection below one database/sql connection.
    - [t_tx]: ZetaSQLiteConn.tx (driver.go:80);
    - [t_next]: the next transaction handle;
    - [t_done]: handles whose database/sql Tx is done: database/sql calls the driver's Commit or
      Rollback at most once per Tx and answers ErrTxDone afterwards (Tx.done);
    - [t_sqlite]: the transaction the SQLite connection is in.  go-sqlite3 1.14.16 issues
      ROLLBACK when COMMIT fails, so that a failed Commit ends the transaction too. *)
Record txstate := Tx { t_tx : option nat; t_next : nat; t_done : list nat; t_sqlite : option nat }.
Definition tx_init : txstate := Tx None 0 [] None.

(** Calls of the user; [ok] is SQLite's answer. *)
Inductive tx_event :=
| EBegin (ok : bool)
| ECommit (id : nat) (ok : bool)
| ERollback (id : nat) (ok : bool)
| EStmt.

Inductive tx_result := RBegun (id : nat) | RError | RDone | RRan (where_ : place) (sqlite : option nat).

Definition mem (x : nat) (l : list nat) : bool := existsb (Nat.eqb x) l.

(** driver.go:263-275 [ZetaSQLiteTx.Commit]/[Rollback] below database/sql's Tx: conn.tx is
    cleared by the deferred function whatever the result. *)
Definition tx_close (s : txstate) (id : nat) (ok : bool) : txstate * tx_result :=
  if (t_next s <=? id)%nat || mem id (t_done s) then (s, RError)
  else (Tx None (t_next s) (id :: t_done s)
           (match t_sqlite s with Some j => if Nat.eqb j id then None else Some j | None => None end),
        if ok then RDone else RError).

Definition tx_step (s : txstate) (e : tx_event) : txstate * tx_result :=
  match e with
  | EBegin ok =>
      (* driver.go:238-261 [BeginTx], [Begin]; SQLite has no nested transactions. *)
      match t_sqlite s with
      | Some _ => (s, RError)
      | None => if ok then (Tx (Some (t_next s)) (S (t_next s)) (t_done s) (Some (t_next s)), RBegun (t_next s))
                else (s, RError)
      end
  | ECommit id ok | ERollback id ok => tx_close s id ok
  | EStmt =>
      (* driver.go:146, 167, 201 [NewConn(c.conn, c.tx)]; internal/conn.go:57-76 *)
      (s, RRan (match t_tx s with Some id => InTx id | None => Auto end) (t_sqlite s))
  end.

Fixpoint tx_run (s : txstate) (h : list tx_event) : txstate * list tx_result :=
  match h with
  | [] => (s, [])
  | e :: r => let (s1, x) := tx_step s e in let (s2, xs) := tx_run s1 r in (s2, x :: xs)
  end.

(** ** A transaction around scripts
    BeginTx; the scripts of the body; Rollback.  SQLite restores its tables, views and the rows
    of zetasqlite_catalog; the in-memory catalog (catalog.go) is not part of it. *)
Definition tx_body (w : world) (np : list string) (scripts : list (list afunc)) : world :=
  fold_left (fun w fs => fst (exec_context w np fs)) scripts w.
Definition rollback (before after : world) : world :=
  W (w_db before) (w_cat after) (w_saved before) (w_fmap after) (w_cc after) (w_time after) (w_faults after).

(** ** The table of open databases *)
(** driver.go:40-55 [newDBAndCatalog], one step per memory access, for any number of
    goroutines.  Databases and catalogs are allocated from a counter. *)
Inductive pc :=
| PStart (name : string)                   (* before Lock *)
| PLookup (name : string)                  (* holds the mutex: driver.go:43 *)
| POpen (name : string)                    (* not found: driver.go:47-51 *)
| PStoreDB (name : string) (db cat : nat)  (* driver.go:52 *)
| PStoreCat (name : string) (db cat : nat) (* driver.go:53 *)
| PUnlock (name : string) (r : option (nat * nat)) (* deferred Unlock; [None]: sql.Open failed *)
| PDone (name : string) (r : option (nat * nat)).

Record dsn_state := Dsn {
  d_dbs : amap nat; d_cats : amap nat;
  d_next : nat;
  d_lock : option nat;          (* the goroutine holding nameToValueMapMu *)
  d_threads : list pc
}.

Fixpoint set_nth {A} (l : list A) (i : nat) (x : A) : list A :=
  match l, i with
  | [], _ => []
  | _ :: r, O => x :: r
  | y :: r, S j => y :: set_nth r j x
  end.

(** One step of goroutine [i] ([ok]: whether sql.Open succeeds); [None]: it is blocked. *)
Definition dsn_step (s : dsn_state) (i : nat) (ok : bool) : option dsn_state :=
  let goto p := set_nth (d_threads s) i p in
  match nth_error (d_threads s) i with
  | None => None
  | Some (PStart n) =>
      match d_lock s with
      | Some _ => None
      | None => Some (Dsn (d_dbs s) (d_cats s) (d_next s) (Some i) (goto (PLookup n)))
      end
  | Some (PLookup n) =>
      match aget (d_dbs s) n with
      | Some d =>
          (* nameToCatalogMap[name]: a missing key would give the nil catalog, here 0 *)
          let c := match aget (d_cats s) n with Some c => c | None => O end in
          Some (Dsn (d_dbs s) (d_cats s) (d_next s) (d_lock s) (goto (PUnlock n (Some (d, c)))))
      | None => Some (Dsn (d_dbs s) (d_cats s) (d_next s) (d_lock s) (goto (POpen n)))
      end
  | Some (POpen n) =>
      if ok then Some (Dsn (d_dbs s) (d_cats s) (S (S (d_next s))) (d_lock s) (goto (PStoreDB n (d_next s) (S (d_next s)))))
      else Some (Dsn (d_dbs s) (d_cats s) (d_next s) (d_lock s) (goto (PUnlock n None)))
  | Some (PStoreDB n d c) => Some (Dsn (aset (d_dbs s) n d) (d_cats s) (d_next s) (d_lock s) (goto (PStoreCat n d c)))
  | Some (PStoreCat n d c) =>
      Some (Dsn (d_dbs s) (aset (d_cats s) n c) (d_next s) (d_lock s) (goto (PUnlock n (Some (d, c)))))
  | Some (PUnlock n r) => Some (Dsn (d_dbs s) (d_cats s) (d_next s) None (goto (PDone n r)))
  | Some (PDone _ _) => None
  end.

(** Number 0 is the nil catalog; allocation starts at 1. *)
Definition dsn_init (names : list string) : dsn_state := Dsn [] [] 1 None (map PStart names).

Fixpoint dsn_run (s : dsn_state) (sched : list (nat * bool)) : dsn_state :=
  match sched with
  | [] => s
  | (i, ok) :: r => match dsn_step s i ok with Some s' => dsn_run s' r | None => dsn_run s r end
  end.

(** The SQLite storage behind the k-th physical connection of sql.DB number [d] opened with
    [name]: one per file; for a plain in-memory name a new one for every connection (SQLite). *)
Inductive storage := File (name : string) | Memory (d k : nat).
Definition storage_of (name : string) (d k : nat) : storage :=
  if String.eqb name ":memory:" || String.eqb name "" then Memory d k else File name.
