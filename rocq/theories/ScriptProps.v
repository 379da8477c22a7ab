(** C11-C16, C19, C85: scripts. *)
From Coq Require Import Ascii String List ZArith Lia Bool.
From Verif Require Import GoBase GoBaseFacts NameModel TreeModel CatalogModel CatalogSpec CatalogProofs PersistModel ScriptModel ScriptSpec ScriptProofs.
Import ListNotations.
Local Open Scope string_scope.

Lemma reachable_cinv w : reachable_cat w -> cinv (w_cat w).
Proof. intros [ops [Hn ->]]. apply cat_run_inv; [exact cinv_new|exact Hn]. Qed.

(** Worlds and statements for the examples. *)
Definition st (a : action) : afunc := fun _ _ => Some a.
Definition bad : afunc := fun _ _ => None.
Definition tbl (n : string) (temp : bool) : tspec := TS [n] "a INT64" temp false.
Definition vw (n : string) (temp : bool) : tspec := TS [n] "a INT64" temp true.
Definition fn (n : string) (temp : bool) : fspec := FS [n] "1" temp.
Definition world0 (d : db) (ops : list cat_op) (faults : list bool) : world :=
  W d (cat_run ops cat_new) [] [] cc_new 1 faults.
Lemma world0_reachable d ops fl : Forall named ops -> reachable_cat (world0 d ops fl).
Proof. intros H. exists ops. split; [exact H|reflexivity]. Qed.
Ltac no_names := repeat constructor; discriminate.

(** *** C11 *)
(** C11 for objects that exist.  Missing: objects that do not exist, for which it is false. *)
Theorem c11_drop_existing_partial : forall w np n ie,
  reachable_cat w -> no_faults w -> is_table (w_db w) n -> in_catalog_t w n ->
  let r := exec_context w np [st (ADrop false n ie)] in
  snd r = Ok 0%Z /\ absent (w_db (fst r)) n /\ ~ in_catalog_t (fst r) n /\
  (forall m, lower m <> lower n -> db_get (w_db (fst r)) m = db_get (w_db w) m).
Proof. intros w np n ie Hr. exact (c11_existing_lemma w np n ie (reachable_cinv w Hr)). Qed.
Print Assumptions c11_drop_existing_partial.

Definition c11_world := world0 [("t", OTable [1; 2]%Z); ("u", OTable [3]%Z)] [AddT (tbl "t" false); AddT (tbl "u" false)] [].
Example c11_example : reachable_cat c11_world /\ no_faults c11_world /\ is_table (w_db c11_world) "t" /\ in_catalog_t c11_world "t".
Proof.
  split; [apply world0_reachable; no_names|]. split; [intros b []|]. split; [eexists; reflexivity|]. left. reflexivity.
Qed.

(** In every state, DROP TABLE / VIEW / FUNCTION IF EXISTS of a name the catalog does not
    hold fails. *)
Theorem c11_drop_if_exists_refuted : forall w np n, reachable_cat w ->
  (~ in_catalog_t w n -> forall view k, snd (exec_context w np [st (ADrop view n true)]) <> Ok k) /\
  (~ in_catalog_f w n -> forall k, snd (exec_context w np [st (ADropFunction n true)]) <> Ok k).
Proof.
  intros w np n Hr. pose proof (reachable_cinv w Hr) as I. split.
  - intros Hn view k. exact (c11_missing_lemma w np view n I Hn k).
  - intros Hn k. exact (c11_missing_f_lemma w np n I Hn k).
Qed.
Print Assumptions c11_drop_if_exists_refuted.

Example c11_refuted_example : reachable_cat c11_world /\ ~ in_catalog_t c11_world "x" /\ ~ in_catalog_f c11_world "x".
Proof.
  split; [apply world0_reachable; no_names|]. split; intros H; simpl in H; [|exact H].
  destruct H as [H|[H|[]]]; discriminate.
Qed.

(** *** C12 *)
(** Exec: either every statement ran, in order, and the call returns the last outcome
    provided the clean-ups succeed; or the first k ran, the next failed, the call fails, and
    what follows the failing statement has no influence whatsoever.  Missing: the outcome when
    a clean-up fails, for which C12 is false (below). *)
Theorem c12_exec_order_partial : forall w np fs,
  (exists acts w1 k, runs (start_call w np) fs 0 acts w1 k /\
     fst (exec_context w np fs) = fst (cleanup_all w1 acts) /\
     snd (exec_context w np fs) = if snd (cleanup_all w1 acts) then Err else Ok k) \/
  (exists done f rest acts w1 k acts2 w2, fs = (done ++ f :: rest)%list /\
     runs (start_call w np) done 0 acts w1 k /\ fails w1 f acts2 w2 /\
     fst (exec_context w np fs) = fst (cleanup_all w2 (acts ++ acts2)) /\
     (forall k', snd (exec_context w np fs) <> Ok k') /\
     forall rest', exec_context w np (done ++ f :: rest') = exec_context w np fs).
Proof. exact c12_exec_lemma. Qed.
Print Assumptions c12_exec_order_partial.

(** Query: the same without clean-ups, in full. *)
Theorem c12_query_order : forall w np fs,
  (exists acts w1 k, runs (start_call w np) fs 0 acts w1 k /\ query_context w np fs = (w1, Ok acts)) \/
  (exists done f rest acts w1 k acts2 w2, fs = (done ++ f :: rest)%list /\
     runs (start_call w np) done 0 acts w1 k /\ fails w1 f acts2 w2 /\
     fst (query_context w np fs) = w2 /\
     (forall l, snd (query_context w np fs) <> Ok l) /\
     forall rest', query_context w np (done ++ f :: rest') = query_context w np fs).
Proof. exact c12_query_lemma. Qed.
Print Assumptions c12_query_order.

(** A script without temporary objects returns the outcome of its last statement. *)
Theorem c12_last_outcome : forall w np fs acts w1 k, runs (start_call w np) fs 0 acts w1 k ->
  (forall a, In a acts -> plain a) -> exec_context w np fs = (w1, Ok k).
Proof.
  intros w np fs acts w1 k Hr Hp. unfold exec_context. rewrite (run_script_ok _ _ _ _ _ _ Hr), (cleanup_plain acts Hp). reflexivity.
Qed.
Print Assumptions c12_last_outcome.

Definition c12_script : list afunc :=
  [st (ACreateTable (tbl "x" false) MDefault (Some [5]%Z) 0);
   st (ADml "x" (fun rows => Some (7%Z :: rows, 1%Z)));
   st (ADml "missing" (fun rows => Some (rows, 1%Z)));
   st (ADrop false "t" false)].
Example c12_example :
  (exists acts w1 k, runs (start_call c11_world []) (firstn 2 c12_script) 0 acts w1 k /\ k = 1%Z /\
     (forall a, In a acts -> plain a)) /\
  snd (exec_context c11_world [] c12_script) = Err /\
  db_get (w_db (fst (exec_context c11_world [] c12_script))) "x" = Some (OTable [7; 5]%Z) /\
  db_get (w_db (fst (exec_context c11_world [] c12_script))) "t" = Some (OTable [1; 2]%Z).
Proof.
  split.
  - eexists. eexists. eexists. split; [|split].
    + apply runs_of_run_script. vm_compute. reflexivity.
    + reflexivity.
    + intros a [<-|[<-|[]]]; simpl; auto.
  - split; [reflexivity|]. split; reflexivity.
Qed.

(** C12 is false for CREATE TEMP TABLE x; DROP TABLE x: both statements succeed, the call fails. *)
Theorem c12_last_outcome_refuted : exists w np fs acts w1 k,
  reachable_cat w /\ no_faults w /\ runs (start_call w np) fs 0 acts w1 k /\
  forall k', snd (exec_context w np fs) <> Ok k'.
Proof.
  exists c11_world, [], [st (ACreateTable (tbl "x" true) MDefault None 0); st (ADrop false "x" false)].
  eexists. eexists. eexists. split; [apply world0_reachable; no_names|]. split; [intros b []|]. split.
  - apply runs_of_run_script. vm_compute. reflexivity.
  - vm_compute. discriminate.
Qed.
Print Assumptions c12_last_outcome_refuted.

(** *** C13 *)
(** If SQLite does not fail during the clean-up (it may during the script) and no temporary
    table shares its name with a view, nothing temporary is left, whichever statement failed.
    Missing: SQLite failures during clean-up, for which C13 is false. *)
Theorem c13_temporary_objects_partial : forall w np fs, reachable_cat w -> script_named fs ->
  exists acts w1, started (start_call w np) fs acts w1 /\
  (no_faults w1 -> (forall a, In a acts -> kind_kept w1 a) ->
   forall a, In a acts -> ~ temp_left (fst (exec_context w np fs)) a).
Proof.
  intros w np fs Hr Hn. pose proof (c13_lemma w np fs (reachable_cinv w Hr) Hn) as H.
  destruct (run_script_cases fs (start_call w np) 0) as [(acts & w' & k & R)|(dn & f & rest & acts & w1 & k & acts2 & w2 & E & R & F)].
  - rewrite (run_script_ok _ _ _ _ _ _ R) in H. exists acts, w'. split; [left; eauto|exact H].
  - destruct (run_script_stop dn _ _ _ _ _ f rest acts2 w2 R F) as (out & Er & _ & _). rewrite E, Er in H. rewrite E.
    exists (acts ++ acts2)%list, w2. split; [right; exists dn, f, rest, acts, w1, k, acts2; auto|exact H].
Qed.
Print Assumptions c13_temporary_objects_partial.

Definition c13_script : list afunc :=
  [st (ACreateTable (tbl "x" true) MDefault (Some [5]%Z) 0); st (ACreateFunction (fn "f" true));
   st (ACreateView (vw "v" true) MDefault); bad].
Example c13_example : script_named c13_script /\
  (let '(w1, acts, _) := run_script (start_call c11_world []) c13_script 0 in
   no_faults w1 /\ List.length acts = 3%nat /\ (forall a, In a acts -> kind_kept w1 a) /\ forall a, In a acts -> temp_left w1 a).
Proof.
  split.
  - intros f c m a Hf. repeat destruct Hf as [<-|Hf]; try contradiction; intros H; try discriminate H; injection H as <-; discriminate.
  - destruct (run_script (start_call c11_world []) c13_script 0) as [[w1 acts] out] eqn:E. vm_compute in E.
    injection E as <- <- _. split; [intros b []|]. split; [reflexivity|]. split.
    + intros a Ha. repeat destruct Ha as [<-|Ha]; try contradiction; simpl; auto.
      * intros _. unfold is_view. discriminate.
      * intros _ [rows H]. discriminate H.
    + intros a Ha. repeat destruct Ha as [<-|Ha]; try contradiction; simpl; (split; [reflexivity|]);
        try (left; unfold absent; discriminate). left. reflexivity.
Qed.

(** C13 is false when the DROP of the clean-up itself fails. *)
Theorem c13_temporary_objects_refuted : exists w np fs a,
  reachable_cat w /\ In (st a) fs /\ temp_left (fst (exec_context w np fs)) a.
Proof.
  exists (world0 [] [] [false; true]), [], [st (ACreateTable (tbl "x" true) MDefault None 0)], (ACreateTable (tbl "x" true) MDefault None 0).
  split; [apply world0_reachable; constructor|]. split; [left; reflexivity|]. split; [reflexivity|].
  left. unfold absent. discriminate.
Qed.
Print Assumptions c13_temporary_objects_refuted.

(** *** C14 *)
(** Closing the rows of a successful Query, in whatever state the database is by then, removes
    the script's temporary objects.  Missing: the error paths, see below. *)
Theorem c14_close_partial : forall w np fs k acts w1, runs (start_call w np) fs 0 acts w1 k ->
  exists handle, query_context w np fs = (w1, Ok handle) /\
  forall w2, reachable_cat w2 -> no_faults w2 -> (forall a, In a acts -> kind_kept w2 a) ->
  forall a, In a acts -> ~ temp_left (fst (rows_close w2 handle)) a.
Proof.
  intros w np fs k acts w1 R. exists acts. split; [unfold query_context; now rewrite (run_script_ok _ _ _ _ _ _ R)|].
  intros w2 Hr. exact (c14_close_lemma w2 acts (reachable_cinv w2 Hr)).
Qed.
Print Assumptions c14_close_partial.

Example c14_example : exists w1 acts, query_context c11_world [] (firstn 3 c13_script) = (w1, Ok acts) /\
  List.length acts = 3%nat /\ no_faults w1 /\ forall a, In a acts -> temp_left w1 a.
Proof.
  eexists. eexists. split; [vm_compute; reflexivity|]. split; [reflexivity|]. split; [intros b []|].
  intros a Ha. repeat destruct Ha as [<-|Ha]; try contradiction; simpl; (split; [reflexivity|]);
    try (left; unfold absent; discriminate). left. reflexivity.
Qed.

(** C14 is false when Query fails: nothing is cleaned up: here a temporary
    table created before the failing statement stays. *)
Theorem c14_failed_query_refuted : exists w np fs a,
  reachable_cat w /\ no_faults w /\ In (st a) fs /\ snd (query_context w np fs) = Err /\
  temp_left (fst (query_context w np fs)) a.
Proof.
  exists c11_world, [], [st (ACreateTable (tbl "x" true) MDefault None 0); bad], (ACreateTable (tbl "x" true) MDefault None 0).
  split; [apply world0_reachable; no_names|]. split; [intros b []|]. split; [left; reflexivity|]. split; [reflexivity|].
  split; [reflexivity|]. left. unfold absent. discriminate.
Qed.
Print Assumptions c14_failed_query_refuted.

(** *** C15 *)
(** A script of CREATE statements whose temporary and OR REPLACE names are new leaves every
    prior object, with its rows, and every prior function, at every failure point.
    Missing: temporary objects named like existing ones, for which C15 is false. *)
Theorem c15_exec_keeps_objects_partial : forall w np fs, reachable_cat w -> script_named fs ->
  (forall f c m a, In f fs -> f c m = Some a -> creates_only w a) ->
  (forall n, db_get (w_db w) n <> None -> db_get (w_db (fst (exec_context w np fs))) n = db_get (w_db w) n) /\
  (forall n, in_catalog_f w n -> in_catalog_f (fst (exec_context w np fs)) n).
Proof. intros w np fs Hr. exact (c15_lemma w np fs (reachable_cinv w Hr)). Qed.
Print Assumptions c15_exec_keeps_objects_partial.

Definition c15_script : list afunc :=
  [st (ACreateTable (tbl "x" true) MOrReplace (Some [5]%Z) 2); st (ACreateFunction (fn "f" true));
   st (ACreateTable (tbl "t" false) MDefault None 0); bad].
Example c15_example : script_named c15_script /\
  (forall f c m a, In f c15_script -> f c m = Some a -> creates_only c11_world a) /\
  snd (exec_context c11_world [] c15_script) = Err.
Proof.
  split; [|split; [|reflexivity]].
  - intros f c m a Hf. repeat destruct Hf as [<-|Hf]; try contradiction; intros H; try discriminate H; injection H as <-; discriminate.
  - intros f c m a Hf. repeat destruct Hf as [<-|Hf]; try contradiction; intros H; try discriminate H; injection H as <-; simpl.
    + intros _. reflexivity.
    + intros _ H'. exact H'.
    + intros [H'|H']; discriminate H'.
Qed.

(** C15 is false: CREATE TEMP TABLE t, t existing, fails - and t is gone afterwards; CREATE
    TEMP FUNCTION f, f existing, removes f. *)
Theorem c15_exec_keeps_objects_refuted :
  (exists w np s, reachable_cat w /\ no_faults w /\ is_table (w_db w) (ts_name s) /\
     snd (exec_context w np [st (ACreateTable s MDefault None 0)]) = Err /\
     absent (w_db (fst (exec_context w np [st (ACreateTable s MDefault None 0)]))) (ts_name s)) /\
  (exists w np f, reachable_cat w /\ no_faults w /\ in_catalog_f w (fs_name f) /\
     ~ in_catalog_f (fst (exec_context w np [st (ACreateFunction f)])) (fs_name f)).
Proof.
  split.
  - exists c11_world, [], (tbl "t" true). split; [apply world0_reachable; no_names|]. split; [intros b []|].
    split; [eexists; reflexivity|]. split; reflexivity.
  - exists (world0 [] [AddF (fn "f" false)] []), [], (fn "f" true). split; [apply world0_reachable; no_names|].
    split; [intros b []|]. split; [left; reflexivity|]. vm_compute. intros [].
Qed.
Print Assumptions c15_exec_keeps_objects_refuted.

(** *** C16 *)
(** Scripts without views and temporary objects, with an empty name path, that succeed: the
    report says of every name what the last CREATE/DROP did (so Added and Deleted are
    disjoint).  Missing: views, and functions hidden by the name path: false, below. *)
Theorem c16_changed_catalog_partial : forall w fs k acts w1, reachable_cat w -> script_named fs ->
  runs (start_call w []) fs 0 acts w1 k -> (forall a, In a acts -> plain a) ->
  let rep := w_cc (fst (exec_context w [] fs)) in
  (forall n, In n (map ts_name (cc_tadd rep)) <-> last_word word_t (rev acts) n = Some true) /\
  (forall n, In n (map ts_name (cc_tdel rep)) <-> last_word word_t (rev acts) n = Some false) /\
  (forall n, In n (map fs_name (cc_fadd rep)) <-> last_word word_f (rev acts) n = Some true) /\
  (exists del, cc_fdel rep = map Some del /\
     forall n, In n (map fs_name del) <-> last_word word_f (rev acts) n = Some false).
Proof. intros w fs k acts w1 Hr. exact (c16_lemma w fs k acts w1 (reachable_cinv w Hr)). Qed.
Print Assumptions c16_changed_catalog_partial.

Definition c16_script : list afunc :=
  [st (ADrop false "t" false); st (ACreateTable (tbl "t" false) MDefault None 0); st (ACreateFunction (fn "f" false));
   st (ADropFunction "f" false); st (ADrop false "u" false)].
Example c16_example : exists k acts w1, script_named c16_script /\ runs (start_call c11_world []) c16_script 0 acts w1 k /\
  (forall a, In a acts -> plain a) /\
  last_word word_t (rev acts) "t" = Some true /\ last_word word_t (rev acts) "u" = Some false /\
  last_word word_f (rev acts) "f" = Some false.
Proof.
  eexists. eexists. eexists. split; [|split; [|split]].
  - intros f c m a Hf. repeat destruct Hf as [<-|Hf]; try contradiction; intros H; injection H as <-; try discriminate; exact I.
  - apply runs_of_run_script. vm_compute. reflexivity.
  - intros a Ha. repeat destruct Ha as [<-|Ha]; try contradiction; simpl; auto.
  - split; [reflexivity|]. split; reflexivity.
Qed.

(** C16 is false: CREATE VIEW v; DROP VIEW v reports v as both deleted and added; dropping a
    function outside the name path reports a nil function, or panics after a CREATE FUNCTION. *)
Theorem c16_changed_catalog_refuted :
  (exists w fs n k, reachable_cat w /\ snd (exec_context w [] fs) = Ok k /\
     ~ in_catalog_t (fst (exec_context w [] fs)) n /\
     In n (map ts_name (cc_tadd (w_cc (fst (exec_context w [] fs)))))) /\
  (exists w np f k, reachable_cat w /\ in_catalog_f w (fs_name f) /\
     snd (exec_context w np [st (ADropFunction (fs_name f) false)]) = Ok k /\
     In None (cc_fdel (w_cc (fst (exec_context w np [st (ADropFunction (fs_name f) false)]))))) /\
  (exists w np f g, reachable_cat w /\ in_catalog_f w (fs_name f) /\
     snd (exec_context w np [st (ACreateFunction g); st (ADropFunction (fs_name f) false)]) = GoPanic).
Proof.
  split; [|split].
  - exists (world0 [] [] []), [st (ACreateView (vw "v" false) MDefault); st (ADrop true "v" false)], "v", 0%Z.
    split; [apply world0_reachable; constructor|]. split; [reflexivity|]. split; [|left; reflexivity].
    vm_compute. intros [].
  - exists (world0 [] [AddF (FS ["d"; "f"] "1" false)] []), ["e"], (FS ["d"; "f"] "1" false), 0%Z.
    split; [apply world0_reachable; no_names|]. split; [left; reflexivity|]. split; [reflexivity|]. left. reflexivity.
  - exists (world0 [] [AddF (FS ["d"; "f"] "1" false)] []), ["e"], (FS ["d"; "f"] "1" false), (fn "g" false).
    split; [apply world0_reachable; no_names|]. split; [left; reflexivity|]. reflexivity.
Qed.
Print Assumptions c16_changed_catalog_refuted.

(** *** C19 *)
(** Preparing any script without OR REPLACE changes neither tables nor catalog nor the stored
    catalog.  Missing: OR REPLACE, for which C19 is false. *)
Theorem c19_prepare_partial : forall w np fs,
  (forall f c m a, In f fs -> f c m = Some a -> no_replace a) ->
  let w' := fst (prepare_context w np fs) in
  w_db w' = w_db w /\ w_cat w' = w_cat w /\ w_saved w' = w_saved w.
Proof. intros w np fs H. exact (c19_lemma fs H (start_call w np) false). Qed.
Print Assumptions c19_prepare_partial.

Example c19_example : forall f c m a, In f c13_script -> f c m = Some a -> no_replace a.
Proof.
  intros f c m a Hf. repeat destruct Hf as [<-|Hf]; try contradiction; intros H; try discriminate H; injection H as <-; simpl; try exact I; discriminate.
Qed.

Theorem c19_prepare_refuted : exists w np fs n, reachable_cat w /\ no_faults w /\ is_table (w_db w) n /\
  snd (prepare_context w np fs) = Ok true /\ absent (w_db (fst (prepare_context w np fs))) n.
Proof.
  exists c11_world, [], [st (ACreateTable (tbl "t" false) MOrReplace None 0)], "t".
  split; [apply world0_reachable; no_names|]. split; [intros b []|]. split; [eexists; reflexivity|]. split; reflexivity.
Qed.
Print Assumptions c19_prepare_refuted.

(** *** C85 *)
(** Undotted references under an empty name path.  Missing: all others, for which C85 is false. *)
Theorem c85_truncate_partial : forall w np x, np_path np = [] -> split1 "." x = [x] -> no_faults w ->
  is_table (w_db w) (np_format np [x]) ->
  let r := exec_context w (np_path np) [st (ATruncate (truncate_target [x]))] in
  db_get (w_db (fst r)) (np_format np [x]) = Some (OTable []) /\
  forall m, lower m <> lower (np_format np [x]) -> db_get (w_db (fst r)) m = db_get (w_db w) m.
Proof. exact c85_lemma. Qed.
Print Assumptions c85_truncate_partial.

Example c85_example : split1 "." "t" = ["t"] /\ no_faults c11_world /\ is_table (w_db c11_world) (np_format np_init ["t"]).
Proof. split; [reflexivity|]. split; [intros b []|]. eexists. reflexivity. Qed.

(** TRUNCATE TABLE d.t empties table t and leaves d.t as it was. *)
Theorem c85_truncate_refuted : exists w np ref other, reachable_cat w /\ no_faults w /\
  is_table (w_db w) (np_format np ref) /\ lower other <> lower (np_format np ref) /\
  let r := exec_context w (np_path np) [st (ATruncate (truncate_target ref))] in
  db_get (w_db (fst r)) (np_format np ref) = db_get (w_db w) (np_format np ref) /\
  db_get (w_db w) (np_format np ref) <> Some (OTable []) /\
  db_get (w_db (fst r)) other <> db_get (w_db w) other.
Proof.
  exists (world0 [("t", OTable [1]%Z); ("d_t", OTable [2]%Z)] [AddT (tbl "t" false); AddT (TS ["d"; "t"] "a INT64" false false)] []),
    np_init, ["d"; "t"], "t".
  split; [apply world0_reachable; no_names|]. split; [intros b []|]. split; [eexists; reflexivity|]. split; [discriminate|].
  vm_compute. split; [reflexivity|]. split; discriminate.
Qed.
Print Assumptions c85_truncate_refuted.
