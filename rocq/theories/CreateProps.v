(** C118, C119: the effect of CREATE TABLE, and of a statement that fails. *)
From Coq Require Import Ascii String List ZArith Lia Bool.
From Verif Require Import GoBase GoBaseFacts NameModel TreeModel CatalogModel CatalogSpec CatalogProofs PersistModel PersistSpec PersistProofs ScriptModel ScriptSpec ScriptProofs ScriptProps CreateProofs.
Import ListNotations.
Local Open Scope string_scope.
Open Scope Z_scope.

(** The rows a CREATE TABLE begins with *)
Definition first_rows (ctas : option (list Z)) : list Z := match ctas with Some rows => rows | None => [] end.

Lemma one_statement : forall w np a w1 k, action_exec (start_call w np) a = (w1, Ok k) -> plain a -> exec_context w np [st a] = (w1, Ok k).
Proof.
  intros w np a w1 k E P. unfold exec_context.
  rewrite (run_script_ok [st a] (start_call w np) 0 [a] w1 k); [|econstructor; [reflexivity|exact E|constructor]].
  rewrite cleanup_plain; [reflexivity|]. intros b [<-|[]]. exact P.
Qed.
Lemma one_failed : forall w np a w1, action_exec (start_call w np) a = (w1, Err) -> plain a -> exec_context w np [st a] = (w1, Err).
Proof.
  intros w np a w1 E P. unfold exec_context. cbn [run_script st]. rewrite E. rewrite cleanup_plain; [reflexivity|]. intros b [<-|[]]. exact P.
Qed.

(** *** C118 *)
(** A table of a new name, in every mode. *)
Theorem c118_create_new_partial : forall w np s m ctas k, reachable_cat w -> no_faults w -> ts_path s <> [] -> ts_temp s = false -> absent (w_db w) (ts_name s) ->
  let r := exec_context w np [st (ACreateTable s m ctas k)] in
  snd r = Ok 0 /\ db_get (w_db (fst r)) (ts_name s) = Some (OTable (first_rows ctas)) /\ in_catalog_t (fst r) (ts_name s) /\
  (forall n, lower n <> lower (ts_name s) -> db_get (w_db (fst r)) n = db_get (w_db w) n).
Proof.
  intros w np s m ctas k Hr F P T A.
  assert (H : exists w', action_exec (start_call w np) (ACreateTable s m ctas k) = (w', Ok 0) /\ w_db w' = db_set (w_db w) (ts_name s) (OTable (first_rows ctas)) /\ in_catalog_t w' (ts_name s)).
  { cbn [action_exec].
    assert (S : forall u, w_db u = w_db w -> w_cat u = w_cat w -> no_faults u -> exists w', andthen (sq u (schema_table s m ctas)) (fun w2 => andthen (create_indexes w2 (ts_name s) k) (fun w3 => andthen (add_new_table_spec w3 s) (fun w4 =>
      (if ts_temp s then w4 else set_cc w4 (cc_add_table (w_cc w4) s), Ok 0)))) = (w', Ok 0) /\ w_db w' = db_set (w_db w) (ts_name s) (OTable (first_rows ctas)) /\ in_catalog_t w' (ts_name s)).
    { intros u D C Fu. apply create_rest; auto; [rewrite C; now apply reachable_cinv| |left; exists (first_rows ctas); rewrite db_get_set, String.eqb_refl; reflexivity].
      unfold schema_table. destruct ctas; cbn [sq_apply]; rewrite D, A; reflexivity. }
    destruct (mode_eqb m MOrReplace).
    - destruct (sq_ok (start_call w np) (QDropTable (ts_name s) true) (w_db w) 0 F) as (u & E & D & C & _ & Fu); [cbn [sq_apply]; change (w_db (start_call w np)) with (w_db w); now rewrite A|].
      rewrite E. unfold andthen at 1. cbn [fst snd]. now apply S.
    - unfold andthen at 1. cbn [fst snd]. now apply S. }
  destruct H as (w' & E & D & M). cbv zeta. rewrite (one_statement w np _ w' 0 E T). cbn [fst snd].
  split; [reflexivity|]. rewrite D. split; [rewrite db_get_set, String.eqb_refl; reflexivity|]. split; [exact M|].
  intros n N. rewrite db_get_set. destruct (String.eqb_spec (lower (ts_name s)) (lower n)); congruence.
Qed.
Example c118_new_example : reachable_cat c11_world /\ no_faults c11_world /\ absent (w_db c11_world) "x".
Proof. split; [apply world0_reachable; no_names|]. split; [intros b []|reflexivity]. Qed.
(** OR REPLACE of a table: the old rows are gone. *)
Theorem c118_or_replace_partial : forall w np s ctas k, reachable_cat w -> no_faults w -> ts_path s <> [] -> ts_temp s = false -> is_table (w_db w) (ts_name s) ->
  let r := exec_context w np [st (ACreateTable s MOrReplace ctas k)] in
  snd r = Ok 0 /\ db_get (w_db (fst r)) (ts_name s) = Some (OTable (first_rows ctas)) /\ in_catalog_t (fst r) (ts_name s) /\
  (forall n, lower n <> lower (ts_name s) -> db_get (w_db (fst r)) n = db_get (w_db w) n).
Proof.
  intros w np s ctas k Hr F P T [rows A].
  assert (H : exists w', action_exec (start_call w np) (ACreateTable s MOrReplace ctas k) = (w', Ok 0) /\ w_db w' = db_set (db_del (w_db w) (ts_name s)) (ts_name s) (OTable (first_rows ctas)) /\ in_catalog_t w' (ts_name s)).
  { cbn [action_exec mode_eqb].
    destruct (sq_ok (start_call w np) (QDropTable (ts_name s) true) (db_del (w_db w) (ts_name s)) 0 F) as (u & E & D & C & _ & Fu); [cbn [sq_apply]; change (w_db (start_call w np)) with (w_db w); now rewrite A|].
    rewrite E. unfold andthen at 1. cbn [fst snd]. apply create_rest; auto; [rewrite C; now apply reachable_cinv| |left; exists (first_rows ctas); rewrite db_get_set, String.eqb_refl; reflexivity].
    unfold schema_table. destruct ctas; cbn [sq_apply]; rewrite D, db_get_del, String.eqb_refl; reflexivity. }
  destruct H as (w' & E & D & M). cbv zeta. rewrite (one_statement w np _ w' 0 E T). cbn [fst snd].
  split; [reflexivity|]. rewrite D. split; [rewrite db_get_set, String.eqb_refl; reflexivity|]. split; [exact M|].
  intros n N. rewrite db_get_set, db_get_del. destruct (String.eqb_spec (lower (ts_name s)) (lower n)); congruence.
Qed.
Example c118_or_replace_example : is_table (w_db c11_world) "t" /\ db_get (w_db (fst (exec_context c11_world [] [st (ACreateTable (tbl "t" false) MOrReplace (Some [9]) 1)]))) "t" = Some (OTable [9]).
Proof. split; [eexists; reflexivity|reflexivity]. Qed.
(** IF NOT EXISTS without a query leaves an existing table alone. *)
Theorem c118_if_not_exists_partial : forall w np s k, reachable_cat w -> no_faults w -> ts_path s <> [] -> ts_temp s = false -> is_table (w_db w) (ts_name s) ->
  let r := exec_context w np [st (ACreateTable s MIfNotExists None k)] in
  snd r = Ok 0 /\ w_db (fst r) = w_db w.
Proof.
  intros w np s k Hr F P T [rows A].
  destruct (create_rest (start_call w np) s MIfNotExists None k (w_db w)) as (w' & E & D & _); auto.
  - now apply reachable_cinv.
  - cbn [schema_table sq_apply mode_eqb]. change (w_db (start_call w np)) with (w_db w). now rewrite A.
  - left. now exists rows.
  - cbv zeta. rewrite (one_statement w np _ w' 0); [auto| |exact T]. cbn [action_exec mode_eqb]. unfold andthen at 1. cbn [fst snd]. exact E.
Qed.
Example c118_if_not_exists_example : w_db (fst (exec_context c11_world [] [st (ACreateTable (tbl "t" false) MIfNotExists None 1)])) = w_db c11_world.
Proof. reflexivity. Qed.
(** A plain CREATE TABLE of a name that is taken fails and changes nothing. *)
Theorem c118_exists_partial : forall w np s ctas k, ts_temp s = false -> ~ absent (w_db w) (ts_name s) ->
  let r := exec_context w np [st (ACreateTable s MDefault ctas k)] in
  snd r = Err /\ w_db (fst r) = w_db w /\ w_cat (fst r) = w_cat w /\ w_saved (fst r) = w_saved w.
Proof.
  intros w np s ctas k T A. destruct (sq_no (start_call w np) (schema_table s MDefault ctas)) as (w' & E & D & C & V).
  - unfold absent in A. unfold schema_table. destruct ctas; cbn [sq_apply mode_eqb]; change (w_db (start_call w np)) with (w_db w); destruct (db_get (w_db w) (ts_name s)); congruence.
  - cbv zeta. rewrite (one_failed w np _ w'); [auto| |exact T]. cbn [action_exec mode_eqb]. unfold andthen at 1. cbn [fst snd]. rewrite E. reflexivity.
Qed.
(** CREATE TABLE IF NOT EXISTS ... AS SELECT of a name that is taken fails. *)
Theorem c118_ctas_if_not_exists_refuted : forall w np s rows k, ts_temp s = false -> ~ absent (w_db w) (ts_name s) ->
  snd (exec_context w np [st (ACreateTable s MIfNotExists (Some rows) k)]) = Err.
Proof.
  intros w np s rows k T A. destruct (sq_no (start_call w np) (schema_table s MIfNotExists (Some rows))) as (w' & E & D & C & V).
  - unfold absent in A. cbn [schema_table sq_apply]. change (w_db (start_call w np)) with (w_db w). destruct (db_get (w_db w) (ts_name s)); congruence.
  - rewrite (one_failed w np _ w'); [auto| |exact T]. cbn [action_exec mode_eqb]. unfold andthen at 1. cbn [fst snd]. rewrite E. reflexivity.
Qed.
Example c118_exists_example : ~ absent (w_db c11_world) "T" /\ ts_name (tbl "T" false) = "T".
Proof. split; [discriminate|reflexivity]. Qed.

(** *** C119 *)
(** A failing DML statement, TRUNCATE or query changes nothing. *)
Theorem c119_dml_partial : forall w np a, (exists n f, a = ADml n f) \/ (exists n, a = ATruncate n) \/ (exists n, a = AQuery n) ->
  let r := exec_context w np [st a] in
  (forall k, snd r <> Ok k) -> w_db (fst r) = w_db w /\ w_cat (fst r) = w_cat w /\ w_saved (fst r) = w_saved w.
Proof.
  intros w np a H. cbv zeta. assert (Q : exists q, action_exec (start_call w np) a = sq (start_call w np) q /\ plain a).
  { destruct H as [(n & f & ->)|[(n & ->)|(n & ->)]]; eexists; (split; [reflexivity|exact I]). }
  destruct Q as (q & E & P). unfold sq in E. destruct (next_fault (start_call w np)).
  - rewrite (one_failed w np a _ E P). cbn. auto.
  - destruct (sq_apply (w_db (start_call w np)) q) as [[d k]|].
    + rewrite (one_statement w np a _ k E P). cbn. intros X. destruct (X k eq_refl).
    + rewrite (one_failed w np a _ E P). cbn. auto.
Qed.
Example c119_dml_example : snd (exec_context c11_world [] [st (ADml "missing" (fun rows => Some (rows, 1)))]) = Err.
Proof. reflexivity. Qed.
(** CREATE OR REPLACE TABLE: when the new table cannot be made the old one is gone. *)
Theorem c119_or_replace_refuted : forall w np s ctas k rest, ts_temp s = false -> is_table (w_db w) (ts_name s) -> w_faults w = false :: true :: rest ->
  let r := exec_context w np [st (ACreateTable s MOrReplace ctas k)] in
  snd r = Err /\ absent (w_db (fst r)) (ts_name s) /\ w_cat (fst r) = w_cat w.
Proof.
  intros w np s ctas k rest T [rows A] F. cbv zeta.
  assert (E : exists w', action_exec (start_call w np) (ACreateTable s MOrReplace ctas k) = (w', Err) /\ w_db w' = db_del (w_db w) (ts_name s) /\ w_cat w' = w_cat w).
  { cbn [action_exec mode_eqb]. unfold sq at 1. unfold next_fault. change (w_faults (start_call w np)) with (w_faults w). rewrite F.
    cbn [sq_apply]. change (w_db (start_call w np)) with (w_db w). rewrite A. unfold andthen at 1. cbn [fst snd].
    unfold sq at 1. match goal with |- context [next_fault ?x] => replace (next_fault x) with true by (unfold next_fault; cbn; now rewrite F) end. unfold andthen. cbn [fst snd].
    eexists. split; [reflexivity|]. split; reflexivity. }
  destruct E as (w' & E & D & C). rewrite (one_failed w np _ w' E T). cbn [fst snd]. split; [reflexivity|]. split; [unfold absent; rewrite D, db_get_del, String.eqb_refl; reflexivity|exact C].
Qed.
(** CREATE TABLE: when the catalog cannot be stored the table stays though the call fails. *)
Theorem c119_create_refuted : forall w np s ctas rest, ts_temp s = false -> absent (w_db w) (ts_name s) -> w_faults w = false :: true :: rest ->
  let r := exec_context w np [st (ACreateTable s MDefault ctas 0)] in
  snd r = Err /\ is_table (w_db (fst r)) (ts_name s).
Proof.
  intros w np s ctas rest T A F. cbv zeta.
  assert (E : exists w', action_exec (start_call w np) (ACreateTable s MDefault ctas 0) = (w', Err) /\ w_db w' = db_set (w_db w) (ts_name s) (OTable (first_rows ctas))).
  { cbn [action_exec mode_eqb]. unfold andthen at 1. cbn [fst snd].
    unfold sq at 1. unfold next_fault. change (w_faults (start_call w np)) with (w_faults w). rewrite F.
    replace (sq_apply (w_db (start_call w np)) (schema_table s MDefault ctas)) with (Some (db_set (w_db w) (ts_name s) (OTable (first_rows ctas)), 0))
      by (unfold schema_table; destruct ctas; cbn [sq_apply]; change (w_db (start_call w np)) with (w_db w); rewrite A; reflexivity).
    unfold andthen at 1. cbn [fst snd create_indexes]. unfold andthen at 1. cbn [fst snd].
    unfold add_new_table_spec. destruct (add_table_spec _ s) as [c [|]]; [eexists; split; reflexivity|]. rewrite T.
    unfold sq_saved. match goal with |- context [next_fault ?x] => replace (next_fault x) with true by (unfold next_fault; cbn; now rewrite F) end. eexists. split; reflexivity. }
  destruct E as (w' & E & D). rewrite (one_failed w np _ w' E T). cbn [fst snd]. split; [reflexivity|]. exists (first_rows ctas). rewrite D, db_get_set, String.eqb_refl. reflexivity.
Qed.
(** MERGE: what its first SQLite statement did stays when the second fails. *)
Theorem c119_merge_refuted : forall w np n f rows rows' j q rest, db_get (w_db w) n = Some (OTable rows) -> f rows = Some (rows', j) -> w_faults w = false :: true :: rest ->
  let r := exec_context w np [st (AMerge [QDml n f; q])] in
  snd r = Err /\ db_get (w_db (fst r)) n = Some (OTable rows').
Proof.
  intros w np n f rows rows' j q rest A Hf F. cbv zeta.
  assert (E : exists w', action_exec (start_call w np) (AMerge [QDml n f; q]) = (w', Err) /\ w_db w' = db_set (w_db w) n (OTable rows')).
  { cbn [action_exec exec_all]. unfold sq at 1. unfold next_fault. change (w_faults (start_call w np)) with (w_faults w). rewrite F.
    cbn [sq_apply]. change (w_db (start_call w np)) with (w_db w). rewrite A, Hf. unfold andthen at 1. cbn [fst snd].
    unfold sq at 1. match goal with |- context [next_fault ?x] => replace (next_fault x) with true by (unfold next_fault; cbn; now rewrite F) end. unfold andthen. cbn [fst snd]. eexists. split; reflexivity. }
  destruct E as (w' & E & D). rewrite (one_failed w np _ w' E I). cbn [fst snd]. split; [reflexivity|]. rewrite D, db_get_set, String.eqb_refl. reflexivity.
Qed.
Definition faulty := world0 [("t", OTable [1; 2])] [AddT (tbl "t" false)] [false; true].
Example c119_faulty_example : is_table (w_db faulty) "t" /\ absent (w_db (fst (exec_context faulty [] [st (ACreateTable (tbl "t" false) MOrReplace None 0)]))) "t" /\
  db_get (w_db (fst (exec_context faulty [] [st (AMerge [QDml "t" (fun l => Some (3 :: l, 1)); QSelect "t"])]))) "t" = Some (OTable [3; 1; 2]) /\
  is_table (w_db (fst (exec_context faulty [] [st (ACreateTable (tbl "u" false) MDefault None 0)]))) "u".
Proof. split; [eexists; reflexivity|]. split; [reflexivity|]. split; [reflexivity|eexists; reflexivity]. Qed.

Print Assumptions c118_create_new_partial.
Print Assumptions c118_or_replace_partial.
Print Assumptions c118_if_not_exists_partial.
Print Assumptions c118_exists_partial.
Print Assumptions c118_ctas_if_not_exists_refuted.
Print Assumptions c119_dml_partial.
Print Assumptions c119_or_replace_refuted.
Print Assumptions c119_create_refuted.
Print Assumptions c119_merge_refuted.
