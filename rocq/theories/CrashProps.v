(** C202 to C206: what a killed process leaves behind. *)
From Coq Require Import Ascii String List ZArith Lia Bool.
From Verif Require Import GoBase GoBaseFacts NameModel TreeModel CatalogModel CatalogSpec CatalogProofs PersistModel PersistProofs ScriptModel ScriptSpec ScriptProofs MergeModel MergeProofs CrashModel CrashSpec CrashProofs.
Import ListNotations.
Local Open Scope string_scope.

(** Processes that run one script each, the first on [w]; each is killed, after any number of
    calls to SQLite, or ends. *)
Definition life (w : world) (p : list string * list afunc * nat * nat) : world :=
  let '(np, fs, k, j) := p in reopened (fst (exec_context (killed w k j) np fs)).

(** CREATE TABLE of a name that is taken fails and changes nothing. *)
Lemma create_blocked w s ct i o : db_get (w_db w) (ts_name s) = Some o -> snd (action_exec w (ACreateTable s MDefault ct i)) = Err.
Proof.
  intros E. cbn [action_exec mode_eqb]. unfold andthen at 1. cbn [fst snd]. unfold andthen, sq. destruct (next_fault w); [reflexivity|].
  destruct ct; cbn [schema_table mode_eqb sq_apply]; rewrite E; reflexivity.
Qed.
(** C202: each crash puts at most one name out of step. *)
Theorem c202_one_name_partial : forall T h w, table_names T -> cinv (w_cat w) -> well_stored T (w_saved w) ->
  (forall np fs k j, In (np, fs, k, j) h -> tame_script T fs) ->
  exists ms, (List.length ms <= List.length h)%nat /\
    forall n, T n -> ~ In n ms -> in_step w n -> in_step (fold_left life h w) n.
Proof.
  intros T h w TL. revert w. induction h as [|[[[np fs] k] j] h IH]; intros w I W A; [exists []; cbn; auto|].
  destruct (exec_step T TL (killed w k j) np fs (conj I W) (A np fs k j ltac:(now left))) as ((_ & W1) & H).
  set (w1 := fst (exec_context (killed w k j) np fs)) in *.
  destruct (reopened_sound T w1 W1) as ((I2 & W2) & _).
  destruct (IH (reopened w1) I2 W2) as (ms & L & G); [intros; eapply A; right; eassumption|].
  assert (St : forall n, T n -> in_step w1 n -> in_step (reopened w1) n) by (intros n Tn S; apply (reopened_in_step T w1 n W1 Tn), S).
  destruct H as [(_ & H)|(m & H)].
  - exists ms. split; [cbn; lia|]. intros n Tn N S. cbn [fold_left life]. apply G; auto.
  - exists (m :: ms). split; [cbn; lia|]. intros n Tn N S. cbn [fold_left life]. apply G; auto; [intros Q; apply N; now right|]. apply St, H; auto. intros ->. apply N. now left.
Qed.
(** A process that is not killed and whose script succeeds puts none out of step. *)
Theorem c202_success_partial : forall T w np fs z, table_names T -> cinv (w_cat w) -> well_stored T (w_saved w) -> tame_script T fs ->
  snd (exec_context w np fs) = Ok z -> forall n, T n -> in_step w n -> in_step (reopened (fst (exec_context w np fs))) n.
Proof.
  intros T w np fs z TL I W Tf E n Tn S. unfold exec_context in *. pose proof (script_step T TL fs (start_call w np) 0 (conj I W) Tf) as H.
  destruct (run_script (start_call w np) fs 0) as [[w1 acts] out] eqn:R. destruct H as ((I1 & W1) & A & H). destruct (cleanup_tame T acts A w1) as (c & C). rewrite C in *. cbn [fst snd] in *.
  assert (O : exists z', out = Ok z') by (destruct out; try discriminate; eauto). clear E. destruct O as (z' & ->).
  assert (S1 : in_step w1 n).
  { clear -R S Tf Tn TL I W. assert (S' : in_step (start_call w np) n) by exact S. assert (I' : cinv (w_cat (start_call w np))) by exact I. assert (W' : well_stored T (w_saved (start_call w np))) by exact W.
    clear S I W. revert S' I' W' R. generalize (start_call w np) as v. generalize 0%Z as k0. revert w1 acts z'. clear w np.
    induction fs as [|f fs IH]; intros w1 acts z' k0 v S I W R; cbn [run_script] in R; [assert (v = w1) by congruence; now subst|].
    destruct (f (w_cat v) (w_fmap v)) as [a|] eqn:Ea; [|discriminate]. assert (Ta : tame T a) by (eapply Tf; [now left|exact Ea]).
    destruct (exec_only T TL v a (conj I W) Ta) as (((I1 & W1) & O) & K). destruct (action_exec v a) as [v1 [y| |]]; [|discriminate..]. cbn [fst snd] in *.
    destruct (run_script v1 fs y) as [[v2 acts'] out'] eqn:R'. assert (v2 = w1 /\ out' = Ok z') as (-> & ->) by (split; congruence).
    refine (IH _ w1 acts' z' y v1 _ I1 W1 R'); [intros g c m b Hg; apply (Tf g c m b); now right|].
    destruct (subject a) as [m|] eqn:Sb; [destruct (String.string_dec n m) as [-> |D]; [now apply (K y m)|]|]; apply same_in_step with v; try exact S; apply O; auto; congruence. }
  apply (reopened_in_step T (set_cc w1 c) n W1 Tn). exact (proj1 S1).
Qed.
Definition c202_create : afunc := fun _ _ => Some (ACreateTable (TS ["t"] "a INT64" false false) MDefault None 0).
Definition c202_empty : world := W [] cat_new [] [] cc_new 0 [].
Example c202_example : table_names (fun n => n = "t" \/ n = "u") /\ well_stored (fun n => n = "t" \/ n = "u") (w_saved c202_empty) /\
  tame_script (fun n => n = "t" \/ n = "u") [c202_create] /\ in_step c202_empty "t" /\
  in_step (life c202_empty ([], [c202_create], 2%nat, 5%nat)) "t" /\ ~ in_step (life c202_empty ([], [c202_create], 1%nat, 5%nat)) "t" /\
  exists_in (w_db (life c202_empty ([], [c202_create], 2%nat, 5%nat))) "t".
Proof.
  split; [intros n [-> | ->]; reflexivity|]. split; [constructor; [constructor|intros ? ? []..]|]. split; [intros f c m a [<-|[]] [= <-]; cbn; repeat split; auto; discriminate|].
  unfold in_step, listed, in_catalog_t, exists_in. cbn. repeat split; intros; try tauto; try discriminate; try (left; reflexivity).
  intros ((H & H') & _). apply H'. discriminate.
Qed.

(** It does put that one out of step: killed between its two calls a CREATE TABLE leaves a table
    that the catalog does not list, and no process can create it any more; *)
Theorem c202_create_refuted : forall w np s ct j, ~ exists_in (w_db w) (ts_name s) -> ~ listed (w_saved w) (ts_name s) -> ts_temp s = false -> ts_path s <> [] -> cinv (w_cat w) ->
  let w' := reopened (fst (exec_context (killed w 1 (S j)) np [fun _ _ => Some (ACreateTable s MDefault ct 0)])) in
  exists_in (w_db w') (ts_name s) /\ ~ listed (w_saved w') (ts_name s) /\
  forall s' ct' i, ts_name s' = ts_name s -> snd (action_exec w' (ACreateTable s' MDefault ct' i)) = Err.
Proof.
  intros w np s ct j X L Tmp P I. assert (E : db_get (w_db w) (ts_name s) = None) by (unfold exists_in in X; destruct (db_get _ _); [exfalso; apply X; discriminate|reflexivity]).
  cbv zeta. unfold exec_context. cbn [run_script]. cbn [action_exec mode_eqb andthen snd fst].
  assert (Q : exists rows, sq (start_call (killed w 1 (S j)) np) (schema_table s MDefault ct) =
    (set_db (used_fault (start_call (killed w 1 (S j)) np)) (db_set (w_db w) (ts_name s) (OTable rows)), Ok 0%Z)).
  { destruct ct as [rows|]; [exists rows|exists []]; unfold sq; cbn [next_fault start_call killed set_faults set_cc set_fmap w_faults repeat app schema_table mode_eqb sq_apply w_db]; rewrite E; reflexivity. }
  destruct Q as (rows & ->). cbn [andthen snd fst create_indexes]. unfold add_new_table_spec.
  set (w2 := set_db _ _). destruct (add_table_inv (w_cat w2) s I P) as (_ & F). destruct (add_table_spec (w_cat w2) s) as [c e]. cbn [snd] in F. subst e. rewrite Tmp.
  cbn [sq_saved next_fault set_cat w2 set_db used_fault start_call killed set_faults set_cc set_fmap w_faults repeat app tl andthen snd fst cleanup_all action_cleanup]. rewrite Tmp. cbn [fst snd].
  unfold sq_saved. cbn [next_fault set_cat w2 set_db used_fault start_call killed set_faults set_cc set_fmap w_faults repeat app tl andthen snd fst reopened w_db w_saved].
  assert (G : db_get (db_set (w_db w) (ts_name s) (OTable rows)) (ts_name s) = Some (OTable rows)) by now rewrite db_get_set, String.eqb_refl.
  split; [unfold exists_in; cbn; rewrite G; discriminate|]. split; [exact L|].
  intros s' ct' i N. apply create_blocked with (OTable rows). rewrite N. exact G.
Qed.

(** and a DROP TABLE leaves the name of a table that is not there: it cannot be read, and not be
    dropped again. *)
Theorem c202_drop_refuted : forall w np n rows j, cinv (w_cat w) -> db_get (w_db w) n = Some (OTable rows) -> listed (w_saved w) n -> in_catalog_t w n ->
  let w' := reopened (fst (exec_context (killed w 1 (S j)) np [fun _ _ => Some (ADrop false n false)])) in
  ~ exists_in (w_db w') n /\ listed (w_saved w') n /\
  snd (action_exec w' (AQuery n)) = Err /\ snd (action_exec w' (ADrop false n false)) = Err.
Proof.
  intros w np n rows j I E L K w'.
  assert (Q : sq (start_call (killed w 1 (S j)) np) (QDropTable n false) = (set_db (used_fault (start_call (killed w 1 (S j)) np)) (db_del (w_db w) n), Ok 0%Z)).
  { unfold sq. cbn [next_fault start_call killed set_faults set_cc set_fmap w_faults repeat app sq_apply w_db]. rewrite E. reflexivity. }
  assert (D : w_db w' = db_del (w_db w) n /\ w_saved w' = w_saved w).
  { set (P := fun r : world * res Z => w_db (reopened (fst r)) = db_del (w_db w) n /\ w_saved (reopened (fst r)) = w_saved w).
    change (P (exec_context (killed w 1 (S j)) np [fun _ _ => Some (ADrop false n false)])).
    unfold exec_context. cbn [run_script action_exec]. rewrite Q. unfold andthen at 1. cbn [snd fst]. set (w2 := set_db _ _). unfold delete_table_spec_sql.
    destruct (delete_table_spec (w_cat w2) n I) as (_ & H).
    assert (A : aget (c_tmap (w_cat w2)) n <> None) by (apply aget_mem_t; [exact I|exact K]).
    destruct (H A) as (c & -> & _). split; reflexivity. }
  destruct D as (D & V).
  assert (G : db_get (w_db w') n = None) by (rewrite D, ScriptProofs.db_get_del; rewrite String.eqb_refl; reflexivity).
  split; [unfold exists_in; rewrite G; auto|]. split; [rewrite V; exact L|].
  split; cbn [action_exec]; unfold sq; change (next_fault w') with false; cbn [sq_apply]; rewrite G; reflexivity.
Qed.
Example c202_refuted_example : let s := TS ["t"] "a INT64" false false in
  let w := fst (exec_context c202_empty [] [c202_create]) in
  ~ exists_in (w_db c202_empty) (ts_name s) /\ ~ listed (w_saved c202_empty) (ts_name s) /\
  db_get (w_db w) "t" = Some (OTable []) /\ listed (w_saved w) "t" /\ in_catalog_t w "t".
Proof. cbv zeta. unfold exists_in, listed, in_catalog_t. cbn. repeat split; auto. Qed.

(** C203: once a CREATE OR REPLACE or CREATE IF NOT EXISTS of the name is run, whatever was left of
    it, it is in step again.  A name that is now a view must be a view in the statement. *)
Theorem c203_replace : forall T w s ct, table_names T -> T (ts_name s) -> ts_path s <> [] -> ts_temp s = false -> cinv (w_cat w) -> well_stored T (w_saved w) -> no_faults w ->
  ~ is_view (w_db w) (ts_name s) ->
  let r := action_exec w (ACreateTable s MOrReplace ct 0) in snd r = Ok 0%Z /\ in_step (fst r) (ts_name s).
Proof.
  intros T w s ct TL Ts P Tmp I W F V r.
  assert (E : snd r = Ok 0%Z).
  { unfold r. cbn [action_exec mode_eqb]. unfold sq at 1. rewrite (no_faults_next w F). cbn [sq_apply].
    assert (H : exists d, match db_get (w_db w) (ts_name s) with Some (OTable _) => Some (db_del (w_db w) (ts_name s), 0%Z) | Some OView => None | None => Some (w_db w, 0%Z) end = Some (d, 0%Z) /\ db_get d (ts_name s) = None).
    { destruct (db_get (w_db w) (ts_name s)) as [[l|]|] eqn:Q; [|contradiction|eauto]. eexists. split; [reflexivity|]. now rewrite ScriptProofs.db_get_del, String.eqb_refl. }
    destruct H as (d & -> & Dn). unfold andthen at 1. cbn [fst snd]. set (w1 := set_db (used_fault w) d).
    assert (F1 : no_faults w1) by (apply (no_faults_tl w w1); auto).
    assert (H : exists w2, sq w1 (schema_table s MOrReplace ct) = (w2, Ok 0%Z) /\ w_cat w2 = w_cat w /\ no_faults w2).
    { unfold sq. rewrite (no_faults_next w1 F1). destruct ct; cbn [schema_table mode_eqb sq_apply]; change (w_db w1) with d; rewrite Dn; eexists; (split; [reflexivity|]); (split; [reflexivity|]); apply (no_faults_tl w1); auto. }
    destruct H as (w2 & -> & C & F2). unfold andthen at 1. cbn [fst snd create_indexes]. unfold andthen at 1. cbn [fst snd]. unfold add_new_table_spec. rewrite C.
    destruct (add_table_inv (w_cat w) s I P) as (_ & Q). destruct (add_table_spec (w_cat w) s) as [c e]. cbn in Q. subst e. rewrite Tmp. unfold sq_saved.
    assert (N : next_fault (set_cat w2 c) = false) by exact (no_faults_next w2 F2). rewrite N. reflexivity. }
  split; [exact E|]. now apply (proj2 (exec_only T TL w (ACreateTable s MOrReplace ct 0) (conj I W) (conj Ts (conj P Tmp))) 0%Z).
Qed.
Theorem c203_if_not_exists : forall T w s, table_names T -> T (ts_name s) -> ts_path s <> [] -> ts_temp s = false -> cinv (w_cat w) -> well_stored T (w_saved w) -> no_faults w ->
  let r := action_exec w (ACreateTable s MIfNotExists None 0) in snd r = Ok 0%Z /\ in_step (fst r) (ts_name s).
Proof.
  intros T w s TL Ts P Tmp I W F r.
  assert (E : snd r = Ok 0%Z).
  { unfold r. cbn [action_exec mode_eqb]. unfold andthen at 1. cbn [fst snd].
    assert (H : exists w2, sq w (schema_table s MIfNotExists None) = (w2, Ok 0%Z) /\ w_cat w2 = w_cat w /\ no_faults w2).
    { unfold sq. rewrite (no_faults_next w F). cbn [schema_table mode_eqb sq_apply]. destruct (db_get (w_db w) (ts_name s)); eexists; (split; [reflexivity|]); (split; [reflexivity|]); apply (no_faults_tl w); auto. }
    destruct H as (w2 & -> & C & F2). unfold andthen at 1. cbn [fst snd create_indexes]. unfold andthen at 1. cbn [fst snd]. unfold add_new_table_spec. rewrite C.
    destruct (add_table_inv (w_cat w) s I P) as (_ & Q). destruct (add_table_spec (w_cat w) s) as [c e]. cbn in Q. subst e. rewrite Tmp. unfold sq_saved.
    assert (N : next_fault (set_cat w2 c) = false) by exact (no_faults_next w2 F2). rewrite N. reflexivity. }
  split; [exact E|]. now apply (proj2 (exec_only T TL w (ACreateTable s MIfNotExists None 0) (conj I W) (conj Ts (conj P Tmp))) 0%Z).
Qed.
(** After the crash of c202_create_refuted, in the next process. *)
Example c203_example : let T := fun n => n = "t" in let w := life c202_empty ([], [c202_create], 1%nat, 5%nat) in
  table_names T /\ cinv (w_cat w) /\ well_stored T (w_saved w) /\ no_faults w /\ ~ is_view (w_db w) "t" /\ ~ in_step w "t".
Proof.
  cbv zeta. split; [intros n ->; reflexivity|]. split; [exact cinv_new|]. split; [constructor; [constructor|intros ? ? []..]|]. split; [intros b []|]. split; [discriminate|].
  unfold in_step, listed, in_catalog_t, exists_in. cbn. intros ((_ & H) & _). apply H. discriminate.
Qed.

(** C204: a DROP IF EXISTS, in the next process, of a name that the catalog lists succeeds,
    whether or not the table is still there, and the name is in step again. *)
Theorem c204_listed_partial : forall T w n, table_names T -> T n -> well_stored T (w_saved w) -> listed (w_saved w) n -> ~ is_view (w_db w) n ->
  let r := action_exec (reopened w) (ADrop false n true) in snd r = Ok 0%Z /\ in_step (fst r) n.
Proof.
  intros T w n TL Tn W L V r. destruct (reopened_sound T w W) as (S & K). pose proof (proj2 (K n Tn) L) as C.
  assert (E : snd r = Ok 0%Z).
  { unfold r. cbn [action_exec]. unfold sq at 1. cbn [next_fault w_faults reopened sq_apply w_db].
    assert (H : exists d, match db_get (w_db w) n with Some (OTable _) => Some (db_del (w_db w) n, 0%Z) | Some OView => None | None => Some (w_db w, 0%Z) end = Some (d, 0%Z)).
    { destruct (db_get (w_db w) n) as [[l|]|] eqn:Q; [eauto|contradiction|eauto]. }
    destruct H as (d & ->). unfold andthen at 1. cbn [fst snd]. unfold delete_table_spec_sql. set (w1 := set_db _ _).
    assert (A : aget (c_tmap (w_cat w1)) n <> None) by (apply aget_mem_t; [apply S|exact C]).
    destruct (delete_table_spec (w_cat w1) n (proj1 S)) as (_ & H). destruct (H A) as (c & -> & _).
    destruct (aget (c_tmap (w_cat w1)) n) as [s|]; [|now elim A]. reflexivity. }
  split; [exact E|]. exact (proj2 (exec_only T TL (reopened w) (ADrop false n true) S Tn) 0%Z n E eq_refl).
Qed.
(** Of a table that the catalog does not list it fails, and drops the table all the same. *)
Theorem c204_not_listed_refuted : forall (T : string -> Prop) w n rows, T n -> well_stored T (w_saved w) -> ~ listed (w_saved w) n -> db_get (w_db w) n = Some (OTable rows) ->
  let r := action_exec (reopened w) (ADrop false n true) in snd r = Err /\ ~ exists_in (w_db (fst r)) n.
Proof.
  intros T w n rows Tn W L E r. destruct (reopened_sound T w W) as (S & K).
  assert (C : ~ in_catalog_t (reopened w) n) by (intros Q; apply L, K; assumption).
  set (P := fun r : world * res Z => snd r = Err /\ ~ exists_in (w_db (fst r)) n). change (P r).
  unfold r. cbn [action_exec]. unfold sq at 1. change (next_fault (reopened w)) with false. cbn [sq_apply]. change (w_db (reopened w)) with (w_db w). rewrite E. unfold andthen at 1. cbn [fst snd]. unfold delete_table_spec_sql. set (w1 := set_db _ _).
  destruct (delete_table_spec (w_cat w1) n (proj1 S)) as (H & _). rewrite H.
  - split; [reflexivity|]. change (~ exists_in (db_del (w_db w) n) n). unfold exists_in. rewrite ScriptProofs.db_get_del, String.eqb_refl. auto.
  - apply (ci_tkeys _ (proj1 S)). exact C.
Qed.
Example c204_example : let w := fst (exec_context (killed (fst (exec_context c202_empty [] [c202_create])) 1 5) [] [fun _ _ => Some (ADrop false "t" false)]) in
  listed (w_saved w) "t" /\ ~ exists_in (w_db w) "t" /\ ~ is_view (w_db w) "t" /\
  db_get (w_db (life c202_empty ([], [c202_create], 1%nat, 5%nat))) "t" = Some (OTable []) /\ ~ listed (w_saved (life c202_empty ([], [c202_create], 1%nat, 5%nat))) "t".
Proof. cbv zeta. unfold listed, exists_in, is_view. vm_compute. split; [auto|]. split; [auto|]. split; [discriminate|]. split; [reflexivity|intros []]. Qed.

(** C205: a temporary table outlives a process that is killed before it removes it, under its
    plain name, and no script that creates it works in later processes. *)
Theorem c205_temporary_table_refuted : forall w np s ct j, ts_temp s = true -> ts_path s <> [] -> cinv (w_cat w) -> ~ exists_in (w_db w) (ts_name s) ->
  let script : list afunc := [fun _ _ => Some (ACreateTable s MDefault ct 0)] in
  let w' := reopened (fst (exec_context (killed w 1 (S j)) np script)) in
  exists_in (w_db w') (ts_name s) /\ forall more, snd (fst (run_script w' (script ++ more) 0)) = [ACreateTable s MDefault ct 0] /\ snd (run_script w' (script ++ more) 0) = Err.
Proof.
  intros w np s ct j Tmp P I X script w'. assert (E : db_get (w_db w) (ts_name s) = None) by (unfold exists_in in X; destruct (db_get _ _); [exfalso; apply X; discriminate|reflexivity]).
  assert (Q : exists rows, sq (start_call (killed w 1 (S j)) np) (schema_table s MDefault ct) =
    (set_db (used_fault (start_call (killed w 1 (S j)) np)) (db_set (w_db w) (ts_name s) (OTable rows)), Ok 0%Z)).
  { destruct ct as [rows|]; [exists rows|exists []]; unfold sq; cbn [next_fault start_call killed set_faults set_cc set_fmap w_faults repeat app schema_table mode_eqb sq_apply w_db]; rewrite E; reflexivity. }
  destruct Q as (rows & Q).
  assert (D : w_db w' = db_set (w_db w) (ts_name s) (OTable rows)).
  { unfold w', exec_context, script. cbn [run_script action_exec mode_eqb]. unfold andthen at 1. cbn [fst snd]. rewrite Q. unfold andthen at 1. cbn [fst snd create_indexes]. unfold andthen at 1. cbn [fst snd].
    unfold add_new_table_spec. set (w2 := set_db _ _). destruct (add_table_inv (w_cat w2) s I P) as (_ & F). destruct (add_table_spec (w_cat w2) s) as [c e]. cbn [snd] in F. subst e. rewrite Tmp.
    unfold andthen at 1. cbn [fst snd cleanup_all action_cleanup]. rewrite Tmp. reflexivity. }
  assert (G : db_get (w_db w') (ts_name s) = Some (OTable rows)) by (rewrite D, db_get_set, String.eqb_refl; reflexivity).
  split; [unfold exists_in; rewrite G; discriminate|]. intros more. unfold script. cbn [app run_script].
  pose proof (create_blocked w' s ct 0 _ G) as B. destruct (action_exec w' _) as [w3 r]. cbn [snd] in B. subst r. split; reflexivity.
Qed.
(** A temporary function leaves nothing, whenever the process is killed. *)
Theorem c205_temporary_function_partial : forall w np f k j, fs_temp f = true -> cinv (w_cat w) -> ~ listed (w_saved w) (fs_name f) ->
  let w' := reopened (fst (exec_context (killed w k j) np [fun _ _ => Some (ACreateFunction f)])) in
  w_db w' = w_db w /\ w_saved w' = w_saved w.
Proof.
  intros w np f k j Tmp I L. assert (Dr : forall rows, ~ listed rows (fs_name f) -> delete_row rows (fs_name f) = rows).
  { intros rows. unfold listed, delete_row. induction rows as [|r rows IH]; intros N; [reflexivity|]. cbn [filter map In] in *. destruct (String.eqb_spec (r_name r) (fs_name f)) as [e|e]; [exfalso; apply N; now left|].
    cbn [negb]. now rewrite IH by auto. }
  assert (Cl : forall v, w_db v = w_db w -> w_saved v = w_saved w -> w_db (fst (cleanup_all v [ACreateFunction f])) = w_db w /\ w_saved (fst (cleanup_all v [ACreateFunction f])) = w_saved w).
  { intros v D S. cbn [cleanup_all action_cleanup]. rewrite Tmp. unfold delete_function_spec_sql. destruct (delete_function (w_cat v) (fs_name f)) as [c [|]]; unfold andthen; [cbn; auto|].
    unfold sq_saved. destruct (next_fault (set_cat v c)); cbn -[delete_row]; [auto|]. rewrite S, Dr by exact L. auto. }
  cbv zeta. cbn [reopened w_db w_saved]. unfold exec_context. cbn [run_script action_exec]. unfold add_new_function_spec. destruct (add_function_spec (w_cat (start_call (killed w k j) np)) f) as [c [|]].
  - unfold andthen. cbn [fst snd]. destruct (Cl (set_cat (start_call (killed w k j) np) c) eq_refl eq_refl). destruct (cleanup_all _ _). auto.
  - rewrite Tmp. unfold andthen. cbn [fst snd]. set (v := set_fmap _ _). destruct (cc_add_function (w_cc v) f) as [x|].
    + destruct (Cl (set_cc v x) eq_refl eq_refl) as (A & B). destruct (cleanup_all (set_cc v x) [ACreateFunction f]). auto.
    + destruct (Cl v eq_refl eq_refl) as (A & B). destruct (cleanup_all v [ACreateFunction f]). auto.
Qed.
Example c205_example : let s := TS ["t"] "a INT64" true false in ts_temp s = true /\ ~ exists_in (w_db c202_empty) (ts_name s) /\
  exists_in (w_db (life c202_empty ([], [fun _ _ => Some (ACreateTable s MDefault None 0)], 1%nat, 5%nat))) "t" /\
  ~ exists_in (w_db (life c202_empty ([], [fun _ _ => Some (ACreateTable s MDefault None 0)], 5%nat, 5%nat))) "t".
Proof. cbv zeta. unfold exists_in. cbn. repeat split; auto; discriminate. Qed.

(** C206: INSERT, UPDATE, DELETE and TRUNCATE change their table at once: killed at any moment,
    they have not started or are complete, and nothing else has changed. *)
Theorem c206_rows_partial : forall w np a n f k j, (a = ADml n f \/ (a = ATruncate n /\ f = fun rows => Some ([], zlen rows))) ->
  let w' := fst (exec_context (killed w k j) np [fun _ _ => Some a]) in
  w_saved w' = w_saved w /\
  ((forall m, db_get (w_db w') m = db_get (w_db w) m) \/
   exists rows rows' z, db_get (w_db w) n = Some (OTable rows) /\ f rows = Some (rows', z) /\
     db_get (w_db w') n = Some (OTable rows') /\ forall m, lower m <> lower n -> db_get (w_db w') m = db_get (w_db w) m).
Proof.
  intros w np a n f k j A. assert (X : action_exec (start_call (killed w k j) np) a = sq (start_call (killed w k j) np) (QDml n f)) by (destruct A as [-> |(-> & ->)]; reflexivity).
  assert (Cl : forall v, cleanup_all v [a] = (v, false)) by (intros v; destruct A as [-> |(-> & _)]; reflexivity).
  cbv zeta. unfold exec_context. cbn [run_script]. rewrite X. unfold sq. set (v := start_call _ _).
  destruct (next_fault v); [rewrite Cl; cbn; auto|]. cbn [sq_apply]. change (w_db v) with (w_db w).
  destruct (db_get (w_db w) n) as [[rows|]|] eqn:E; [|rewrite Cl; cbn; auto..]. destruct (f rows) as [[rows' z]|] eqn:F; [|rewrite Cl; cbn; auto].
  rewrite Cl. cbn [fst snd w_db w_saved set_db]. split; [reflexivity|]. right. exists rows, rows', z. rewrite db_get_set, String.eqb_refl. repeat split; auto.
  intros m D. rewrite db_get_set. destruct (String.eqb_spec (lower n) (lower m)); congruence.
Qed.
(** A MERGE does not: killed between its first and its second change, it has made the first one,
    and no MERGE works in the processes after it. *)
Theorem c206_merge_refuted : forall w np rows n f g old new z j, db_get (w_db w) merged_name = None -> lower n <> lower merged_name ->
  db_get (w_db w) n = Some (OTable old) -> f old = Some (new, z) ->
  let w' := reopened (fst (exec_context (killed w 2 (S j)) np [fun _ _ => Some (merge_action rows [QDml n f; QDml n g])])) in
  db_get (w_db w') n = Some (OTable new) /\ forall rows' body', snd (action_exec w' (merge_action rows' body')) = Err.
Proof.
  intros w np rows n f g old new z j M D E F w'.
  assert (Q : w_db w' = db_set (db_set (w_db w) merged_name (OTable rows)) n (OTable new)).
  { unfold w', exec_context. cbn [run_script]. unfold merge_action. cbn [action_exec exec_all app]. unfold sq at 1. cbn [next_fault start_call killed set_faults set_cc set_fmap w_faults repeat app sq_apply w_db]. rewrite M.
    unfold andthen at 1. cbn [fst snd]. unfold sq at 1. cbn [next_fault set_db used_fault set_faults w_faults tl sq_apply w_db].
    rewrite db_get_set. destruct (String.eqb_spec (lower merged_name) (lower n)) as [e|_]; [congruence|]. rewrite E, F. reflexivity. }
  rewrite Q. split; [now rewrite db_get_set, String.eqb_refl|]. intros. apply merge_blocked. rewrite Q, db_get_set.
  destruct (String.eqb_spec (lower n) (lower merged_name)); [congruence|]. rewrite db_get_set, String.eqb_refl. discriminate.
Qed.
(** Nor does CREATE OR REPLACE TABLE: killed after its first call, the old table and its rows are
    gone and there is no new one. *)
Theorem c206_replace_refuted : forall w np s ct rows j, db_get (w_db w) (ts_name s) = Some (OTable rows) -> ts_temp s = false ->
  let w' := fst (exec_context (killed w 1 (S j)) np [fun _ _ => Some (ACreateTable s MOrReplace ct 0)]) in
  ~ exists_in (w_db w') (ts_name s) /\ w_saved w' = w_saved w.
Proof.
  intros w np s ct rows j E Tmp w'. assert (Q : w_db w' = db_del (w_db w) (ts_name s) /\ w_saved w' = w_saved w).
  { set (P := fun r : world * res Z => w_db (fst r) = db_del (w_db w) (ts_name s) /\ w_saved (fst r) = w_saved w).
    change (P (exec_context (killed w 1 (S j)) np [fun _ _ => Some (ACreateTable s MOrReplace ct 0)])).
    unfold exec_context. cbn [run_script action_exec mode_eqb]. unfold sq at 1. cbn [next_fault start_call killed set_faults set_cc set_fmap w_faults repeat app sq_apply w_db]. rewrite E.
    unfold andthen at 1. cbn [fst snd]. set (w1 := set_db _ _). unfold sq at 1. change (next_fault w1) with true. cbv iota. unfold andthen at 1. cbn [fst snd cleanup_all action_cleanup]. rewrite Tmp. split; reflexivity. }
  destruct Q as (Q & S). rewrite Q. split; [|exact S]. unfold exists_in. rewrite ScriptProofs.db_get_del, String.eqb_refl. auto.
Qed.
Example c206_example : let s := TS ["t"] "a INT64" false false in let w := fst (exec_context c202_empty [] [fun _ _ => Some (ACreateTable s MDefault (Some [1; 2]%Z) 0)]) in
  db_get (w_db w) "t" = Some (OTable [1; 2]%Z) /\ db_get (w_db w) merged_name = None /\ lower "t" <> lower merged_name /\
  db_get (w_db (fst (exec_context (killed w 1 9) [] [fun _ _ => Some (ADml "t" (fun l => Some ((l ++ [3%Z])%list, 1%Z)))]))) "t" = Some (OTable [1; 2; 3]%Z).
Proof. cbv zeta. repeat split; try reflexivity. discriminate. Qed.

Print Assumptions c202_one_name_partial.
Print Assumptions c202_success_partial.
Print Assumptions c202_create_refuted.
Print Assumptions c202_drop_refuted.
Print Assumptions c203_replace.
Print Assumptions c203_if_not_exists.
Print Assumptions c204_listed_partial.
Print Assumptions c204_not_listed_refuted.
Print Assumptions c205_temporary_table_refuted.
Print Assumptions c205_temporary_function_partial.
Print Assumptions c206_rows_partial.
Print Assumptions c206_merge_refuted.
Print Assumptions c206_replace_refuted.
