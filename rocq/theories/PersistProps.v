(** Property theorems C09 and C10 (the persisted catalog). *)
From Coq Require Import Ascii String List ZArith Lia Bool Permutation.
From Verif Require Import GoBase NameModel TreeModel CatalogModel CatalogSpec CatalogProofs PersistModel PersistSpec PersistProofs.
Import ListNotations.
Local Open Scope string_scope.

(** C09: after any history of DDL and restarts on one database file, a new process sees, for
    any order in which the stored rows are returned, exactly the non-temporary objects that
    were created and not dropped, each with its latest definition.  Missing: histories that
    use one name for a table and for a function, see the refutation. *)
Theorem c09_reopen_sees_all_partial : forall h rows,
  Forall ev_named h -> kinds_disjoint h -> Permutation (snd (p_run h)) rows ->
  let c := fold_left load_row rows cat_new in
  (forall n, aget (c_tmap c) n = saved_t h n) /\ (forall n, aget (c_fmap c) n = saved_f h n) /\
  (forall s, In s (c_tables c) <-> saved_t h (ts_name s) = Some s) /\
  (forall f, In f (c_functions c) <-> saved_f h (fs_name f) = Some f).
Proof. exact c09_lemma. Qed.
Print Assumptions c09_reopen_sees_all_partial.

Definition c09_history : list p_event :=
  [PDdl 1 (AddT (TS ["p"; "a"] "x INT64" false false)); PDdl 2 (AddF (FS ["p"; "f"] "1" false));
   PRestart;
   PDdl 3 (AddT (TS ["p"; "b"] "y STRING" true false)); PDdl 4 (AddT (TS ["p"; "a"] "z BOOL" false false));
   PDdl 5 (AddT (TS ["p"; "v"] "SELECT 1" false true)); PDdl 6 (DelF "p_f")].

Example c09_example : Forall ev_named c09_history /\ kinds_disjoint c09_history /\
  map r_name (snd (p_run c09_history)) = ["p_a"; "p_v"] /\
  saved_t c09_history "p_a" = Some (TS ["p"; "a"] "z BOOL" false false) /\
  saved_t c09_history "p_b" = None /\ saved_f c09_history "p_f" = None.
Proof.
  split; [repeat constructor; discriminate|]. split; [|repeat split].
  intros t1 s t2 f H1 H2. simpl in H1, H2.
  repeat (destruct H1 as [H1|H1]; [inversion H1; subst|]); try contradiction;
  repeat (destruct H2 as [H2|H2]; [inversion H2; subst|]); try contradiction; discriminate.
Qed.

(** C09 is false when a table and a function share a name: the function replaces the stored
    definition of the table, the row keeps kind "table", and the next process finds a table
    without columns and no function. *)
Theorem c09_reopen_sees_all_refuted : exists h,
  Forall ev_named h /\
  saved_t h "x" = Some (TS ["x"] "a INT64" false false) /\ saved_f h "x" = Some (FS ["x"] "a + 1" false) /\
  let c := fold_left load_row (snd (p_run h)) cat_new in
  aget (c_tmap c) "x" = Some (TS ["x"] "" false false) /\ aget (c_fmap c) "x" = None.
Proof.
  exists [PDdl 1 (AddT (TS ["x"] "a INT64" false false)); PDdl 2 (AddF (FS ["x"] "a + 1" false))].
  split; [repeat constructor; discriminate|]. repeat split.
Qed.
Print Assumptions c09_reopen_sees_all_refuted.

(** C10: for every interleaving of a writer and a reader in which no sync query runs between
    the writer's stamping of a row and its commit, the reader's next sync makes every
    committed table visible with its latest definition. *)
Theorem c10_committed_tables_visible_partial : forall t0 h, (0 <= t0)%Z ->
  Forall ev2_named h -> calm (two_init t0) h ->
  forall r s, In r (w_rows (two_run h (two_init t0))) -> r_spec r = PT s ->
  let c := rd_cat (two_run [RBegin; RQuery] (two_run h (two_init t0))) in
  aget (c_tmap c) (r_name r) = Some s /\ In (r_name r) (map ts_name (c_tables c)).
Proof. exact c10_lemma. Qed.
Print Assumptions c10_committed_tables_visible_partial.

Definition c10_t : tspec := TS ["t"] "a INT64" false false.
Definition c10_calm : list two_event :=
  [RBegin; Tick; WStamp c10_t; Tick; WCommit; RQuery; Tick; RBegin; WStamp (TS ["u"] "b" false false);
   WCommit; Tick; RQuery; WStamp (TS ["t"] "a STRING" false false); RBegin; WCommit].
Example c10_example : Forall ev2_named c10_calm /\ calm (two_init 7) c10_calm /\
  In (Row "t" KTable (PT (TS ["t"] "a STRING" false false)) 11) (w_rows (two_run c10_calm (two_init 7))).
Proof.
  split; [repeat constructor; discriminate|]. split; [simpl; repeat split|]. simpl. left. reflexivity.
Qed.

(** C10 is false in general: a sync between stamp and commit moves the reader's watermark
    past the stamp, and no number of later syncs ever shows the committed table. *)
Lemma syncs_stay_blind : forall k st, rd_now st = None -> w_pending st = [] ->
  w_rows st = [Row "t" KTable (PT c10_t) 1] -> (2 <= rd_last st <= w_clock st)%Z -> aget (c_tmap (rd_cat st)) "t" = None ->
  aget (c_tmap (rd_cat (two_run (concat (repeat [Tick; RBegin; RQuery] k)) st))) "t" = None.
Proof.
  induction k as [|k IH]; intros st H1 H2 H3 H4 H5; [exact H5|].
  cbn [repeat concat app two_run fold_left]. apply IH; simpl; rewrite H1; simpl.
  - reflexivity.
  - exact H2.
  - exact H3.
  - lia.
  - rewrite H3. unfold sync_rows. simpl. destruct (Z.leb_spec (rd_last st) 1); [lia|]. exact H5.
Qed.

Theorem c10_committed_tables_visible_refuted : exists h,
  Forall ev2_named h /\ In (Row "t" KTable (PT c10_t) 1) (w_rows (two_run h (two_init 1))) /\
  forall k, aget (c_tmap (rd_cat (two_run (concat (repeat [Tick; RBegin; RQuery] k)) (two_run h (two_init 1))))) "t" = None.
Proof.
  exists [WStamp c10_t; Tick; RBegin; RQuery; WCommit].
  split; [repeat constructor; discriminate|]. split; [left; reflexivity|].
  intros k. apply syncs_stay_blind; try reflexivity. simpl. lia.
Qed.
Print Assumptions c10_committed_tables_visible_refuted.

(** C10: no sync ever removes a table, so a DROP in another process is never observed. *)
Theorem c10_drop_never_observed_refuted : forall h st n,
  aget (c_tmap (rd_cat st)) n <> None -> aget (c_tmap (rd_cat (two_run h st))) n <> None.
Proof.
  intros h. assert (K : forall rows n c, aget (c_tmap c) n <> None -> aget (c_tmap (fold_left load_row rows c)) n <> None).
  { induction rows as [|r rows IH]; simpl; intros n c H; [exact H|]. apply IH. unfold load_row.
    destruct (r_kind r); rewrite ?add_table_tmap, ?add_function_tmap; try exact H;
      destruct (String.eqb _ _); try discriminate; exact H. }
  induction h as [|e h IH]; intros st n H; [exact H|]. simpl. apply IH.
  destruct e; simpl; try exact H.
  - destruct (w_pending st) as [|[s t] rest]; exact H.
  - destruct (rd_now st); exact H.
  - destruct (rd_now st); [|exact H]. simpl. apply K. exact H.
Qed.
Print Assumptions c10_drop_never_observed_refuted.

Example c10_drop_example :
  let st := two_run [WStamp c10_t; WCommit; RBegin; RQuery; Tick; WDrop "t"; RBegin; RQuery] (two_init 1) in
  w_rows st = [] /\ find_table (rd_cat st) ["t"] = Some c10_t.
Proof. split; reflexivity. Qed.
