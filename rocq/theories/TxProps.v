(** C17, C18, C20: transactions and connections. *)
From Coq Require Import Ascii String List ZArith Lia Bool.
From Verif Require Import GoBase GoBaseFacts NameModel TreeModel CatalogModel CatalogSpec CatalogProofs PersistModel ScriptModel ScriptSpec ScriptProofs ScriptProps TxModel TxSpec TxProofs.
Import ListNotations.
Local Open Scope string_scope.

(** C17: after every history [h] of calls, a statement runs in the transaction that is open
    from the user's point of view, or outside of any, and SQLite is in the same state. *)
Theorem c17_statement_place : forall h,
  let o := open_tx (combine h (snd (tx_run tx_init h))) in
  snd (tx_step (fst (tx_run tx_init h)) EStmt) =
    RRan (match o with Some id => InTx id | None => Auto end) o.
Proof. exact c17_lemma. Qed.
Print Assumptions c17_statement_place.

(** Commit and Rollback close the transaction, whether they succeed or fail, and nothing
    reopens it. *)
Theorem c17_commit_rollback_close : forall h id ok,
  let after e := open_tx (combine (h ++ [e])%list (snd (tx_run tx_init (h ++ [e])%list))) in
  after (ECommit id ok) <> Some id /\ after (ERollback id ok) <> Some id.
Proof. exact c17_close_lemma. Qed.
Print Assumptions c17_commit_rollback_close.

(** In between, the transaction stays open: neither statements, nor calls on other handles,
    nor a second BeginTx close or replace it. *)
Theorem c17_stays_open : forall h id e,
  let opened g := open_tx (combine g (snd (tx_run tx_init g))) in
  opened h = Some id -> (forall ok, e <> ECommit id ok /\ e <> ERollback id ok) -> opened (h ++ [e])%list = Some id.
Proof.
  intros h id e opened Ho He. unfold opened in *. fold (pairs (h ++ [e])%list). fold (pairs h) in Ho. rewrite pairs_snoc.
  pose proof (tx_run_inv h [] tx_init tx_inv_init) as I. rewrite app_nil_r in I. fold (pairs h) in I. destruct I as [H1 H2 _ _ _].
  unfold open_tx in *. rewrite rev_app_distr. simpl. rewrite Ho in H1. rewrite H1 in H2.
  destruct e as [ok|j ok|j ok|]; simpl.
  - rewrite H2. exact Ho.
  - rewrite Ho. destruct (Nat.eqb_spec id j) as [<-|]; [destruct (proj1 (He ok)); reflexivity|reflexivity].
  - rewrite Ho. destruct (Nat.eqb_spec id j) as [<-|]; [destruct (proj2 (He ok)); reflexivity|reflexivity].
  - exact Ho.
Qed.
Print Assumptions c17_stays_open.

(** Begin; statement; failing Commit; statement; Begin; Rollback of the first handle;
    statement; Rollback. *)
Example c17_example :
  snd (tx_run tx_init [EStmt; EBegin true; EStmt; EBegin true; ECommit 0 false; EStmt; EBegin true; ERollback 0 true; EStmt; ERollback 1 true; EStmt]) =
  [RRan Auto None; RBegun 0; RRan (InTx 0) (Some 0); RError; RError; RRan Auto None; RBegun 1; RError;
   RRan (InTx 1) (Some 1); RDone; RRan Auto None]%nat.
Proof. reflexivity. Qed.

(** C18 for transactions without DDL: the catalog, the tables and the stored catalog are as
    before.  Missing: DDL, for which C18 is false. *)
Theorem c18_rollback_partial : forall w np scripts,
  (forall fs f c m a, In fs scripts -> In f fs -> f c m = Some a -> not_ddl a) ->
  let w' := rollback w (tx_body w np scripts) in
  w_cat w' = w_cat w /\ w_db w' = w_db w /\ w_saved w' = w_saved w.
Proof. intros w np scripts H. exact (c18_lemma np scripts H w). Qed.
Print Assumptions c18_rollback_partial.

Definition c18_body : list (list afunc) := [[st (ADml "t" (fun rows => Some (9%Z :: rows, 1%Z))); st (AQuery "t")]; [bad]].
Example c18_example :
  (forall fs f c m a, In fs c18_body -> In f fs -> f c m = Some a -> not_ddl a) /\
  w_db (tx_body c11_world [] c18_body) <> w_db c11_world.
Proof.
  split; [|vm_compute; discriminate]. intros fs f c m a [<-|[<-|[]]] Hf; repeat destruct Hf as [<-|Hf]; try contradiction;
    intros H; try discriminate H; injection H as <-; exact I.
Qed.

(** C18 is false for every DROP TABLE and every CREATE TABLE: after the rollback the dropped
    table exists but cannot be named, the created one can be named but does not exist. *)
Theorem c18_rollback_refuted :
  (forall w np n, reachable_cat w -> no_faults w -> is_table (w_db w) n -> in_catalog_t w n ->
     let w' := rollback w (tx_body w np [[st (ADrop false n false)]]) in
     db_get (w_db w') n = db_get (w_db w) n /\ ~ in_catalog_t w' n) /\
  (forall w np s, reachable_cat w -> ts_path s <> [] -> ts_temp s = false -> no_faults w -> absent (w_db w) (ts_name s) ->
     let w' := rollback w (tx_body w np [[st (ACreateTable s MDefault None 0)]]) in
     absent (w_db w') (ts_name s) /\ in_catalog_t w' (ts_name s)).
Proof.
  split.
  - intros w np n Hr. exact (c18_lost_lemma w np n (reachable_cinv w Hr)).
  - intros w np s Hr. exact (c18_ghost_lemma w np s (reachable_cinv w Hr)).
Qed.
Print Assumptions c18_rollback_refuted.

Example c18_refuted_example :
  reachable_cat c11_world /\ no_faults c11_world /\ is_table (w_db c11_world) "t" /\ in_catalog_t c11_world "t" /\
  absent (w_db c11_world) (ts_name (tbl "new" false)).
Proof. destruct c11_example as [A [B [C D]]]. split; [exact A|]. split; [exact B|]. split; [exact C|]. split; [exact D|reflexivity]. Qed.

(** C20: for every schedule of any number of goroutines, two calls of Open that returned share
    database and catalog handle exactly when their names are equal (and the catalog is never
    nil).  Missing: that the handle determines the stored data, which fails for ":memory:". *)
Theorem c20_one_handle_per_name_partial : forall names sched i j ni nj di ci dj cj,
  let s := dsn_run (dsn_init names) sched in
  nth_error (d_threads s) i = Some (PDone ni (Some (di, ci))) ->
  nth_error (d_threads s) j = Some (PDone nj (Some (dj, cj))) ->
  (ni = nj -> di = dj /\ ci = cj) /\ (ni <> nj -> di <> dj /\ ci <> cj) /\ ci <> 0%nat /\ cj <> 0%nat.
Proof. exact c20_lemma. Qed.
Print Assumptions c20_one_handle_per_name_partial.

(** No schedule deadlocks: as long as a call has not returned, some goroutine can move. *)
Theorem c20_no_deadlock : forall names sched,
  let s := dsn_run (dsn_init names) sched in
  forall i p, nth_error (d_threads s) i = Some p -> (forall n r, p <> PDone n r) ->
  exists j s', dsn_step s j true = Some s'.
Proof. exact c20_progress_lemma. Qed.
Print Assumptions c20_no_deadlock.

Example c20_example :
  d_threads (dsn_run (dsn_init ["a"; "b"; "a"])
    [(0, true); (2, true); (0, true); (0, true); (1, true); (0, true); (0, true); (0, true);
     (1, true); (1, true); (1, true); (1, true); (1, true); (1, true); (2, true); (2, true); (2, true)]%nat) =
  [PDone "a" (Some (1, 2)); PDone "b" (Some (3, 4)); PDone "a" (Some (1, 2))]%nat.
Proof. reflexivity. Qed.

(** Two connections opened with ":memory:" share the catalog but not the tables. *)
Theorem c20_memory_refuted : exists name d k1 k2, storage_of name d k1 <> storage_of name d k2.
Proof. exists ":memory:", 1%nat, 0%nat, 1%nat. vm_compute. discriminate. Qed.
Print Assumptions c20_memory_refuted.
