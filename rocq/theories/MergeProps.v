(** C24, C25: MERGE. *)
From Coq Require Import Ascii String List ZArith Lia Bool.
From Verif Require Import GoBase GoBaseFacts ScriptModel ScriptSpec ScriptProps MergeModel MergeSpec MergeProofs.
Import ListNotations.
Local Open Scope string_scope.
Local Open Scope list_scope.
Local Open Scope nat_scope.

(** Rows (key, value) on both sides, joined on the key. *)
Definition L2 : mlayout := mkml 2 2 0 0.
Definition any : crow -> crow -> bool := fun _ _ => true.
Definition kv (k v : Z) : crow := [Some k; Some v].

(** C24, WHEN MATCHED THEN DELETE, for source and target of equal layout:
    exactly the rows with a source row go. *)
Theorem c24_matched_delete_partial : forall L a Sr Tr Tr',
  same_layout L -> shaped (ml_p L) Sr -> shaped (ml_q L) Tr ->
  merge_runs L [mkcl Matched a MDelete] Sr Tr Tr' ->
  filtered (fun t => ~ has_source L Sr t) Tr Tr'.
Proof. exact delete_matched. Qed.
Print Assumptions c24_matched_delete_partial.

(** C24, WHEN NOT MATCHED [BY TARGET] THEN INSERT, same layout: exactly the source
    rows without target row are inserted, but those with a NULL key are left out. *)
Theorem c24_insert_partial : forall L a f Sr Tr Tr',
  same_layout L -> shaped (ml_p L) Sr -> shaped (ml_q L) Tr ->
  merge_runs L [mkcl NotByTarget a (MInsert f)] Sr Tr Tr' ->
  exists new, Tr' = Tr ++ map f new /\
    filtered (fun s => key (ml_i L) s <> None /\ ~ has_target L Tr s) Sr new.
Proof. exact insert_not_matched. Qed.
Print Assumptions c24_insert_partial.

(** The insert after another clause still goes by the original target. *)
Theorem c24_then_insert_partial : forall L c a f Sr Tr Tr',
  same_layout L -> shaped (ml_p L) Sr -> shaped (ml_q L) Tr ->
  merge_runs L [c; mkcl NotByTarget a (MInsert f)] Sr Tr Tr' ->
  exists T1 new, merge_runs L [c] Sr Tr T1 /\ Tr' = T1 ++ map f new /\
    filtered (fun s => key (ml_i L) s <> None /\ ~ has_target L Tr s) Sr new.
Proof. exact then_insert. Qed.
Print Assumptions c24_then_insert_partial.

(** C24, WHEN MATCHED THEN UPDATE, same layout: exactly what may happen.  A row
    without source row is unchanged; one with source row s may be computed from
    s joined with the target, or from the two with their columns exchanged. *)
Theorem c24_matched_update_partial : forall L a f Sr Tr Tr',
  same_layout L -> shaped (ml_p L) Sr -> shaped (ml_q L) Tr ->
  (merge_runs L [mkcl Matched a (MUpdate f)] Sr Tr Tr' <-> Forall2 (updated L f Sr Tr) Tr Tr').
Proof. exact update_matched. Qed.
Print Assumptions c24_matched_update_partial.

(** So it is right when target keys are unique and the update is symmetric, like
    SET quantity = source.quantity + target.quantity. *)
Theorem c24_symmetric_update_partial : forall L a f Sr Tr Tr',
  same_layout L -> shaped (ml_p L) Sr -> shaped (ml_q L) Tr ->
  (forall t t0, In t Tr -> In t0 Tr -> key (ml_j L) t = key (ml_j L) t0 -> key (ml_j L) t <> None -> t = t0) ->
  (forall s t, In s Sr -> In t Tr -> f t (t ++ s) = f t (s ++ t)) ->
  merge_runs L [mkcl Matched a (MUpdate f)] Sr Tr Tr' ->
  Forall2 (fun t t' => (~ has_source L Sr t /\ t' = t) \/
                       (exists s, In s Sr /\ rows_match L s t /\ t' = f t (s ++ t))) Tr Tr'.
Proof. exact update_matched_unique. Qed.
Print Assumptions c24_symmetric_update_partial.

Definition plus_cell (a b : cell) : cell :=
  match a, b with Some x, Some y => Some (x + y)%Z | _, _ => None end.
Definition add_up (t m : crow) : crow := [nth 0 t None; plus_cell (nth 1 m None) (nth 3 m None)].
Definition take_source (t m : crow) : crow := [nth 0 t None; nth 1 m None].

Example c24_example :
  same_layout L2 /\ shaped 2 [kv 1 10; kv 3 30] /\ shaped 2 [kv 1 5; kv 2 7] /\
  merge_runs L2 [mkcl Matched any (MUpdate add_up); mkcl NotByTarget any (MInsert (fun s => s))]
    [kv 1 10; kv 3 30] [kv 1 5; kv 2 7] [kv 1 15; kv 2 7; kv 3 30] /\
  (forall s t, In s [kv 1 10; kv 3 30] -> In t [kv 1 5; kv 2 7] -> add_up t (t ++ s) = add_up t (s ++ t)).
Proof.
  split; [repeat split; cbn; lia|].
  split; [intros r [<-|[<-|[]]]; reflexivity|].
  split; [intros r [<-|[<-|[]]]; reflexivity|].
  split.
  - eapply run_cons.
    + cbn [clause_runs cl_act cl_type]. constructor; [right|constructor; [left|constructor]].
      * exists (kv 1 10 ++ kv 1 5). split; [vm_compute; tauto|]. split; reflexivity.
      * split; reflexivity.
    + eapply run_cons; [|constructor]. reflexivity.
  - intros s t [<-|[<-|[]]] [<-|[<-|[]]]; reflexivity.
Qed.

(** Refuted: WHEN NOT MATCHED BY SOURCE never does anything. *)
Theorem c24_not_by_source_refuted : forall L a act Sr Tr Tr',
  same_layout L -> shaped (ml_p L) Sr -> shaped (ml_q L) Tr ->
  (forall f, act <> MInsert f) ->
  merge_runs L [mkcl NotBySource a act] Sr Tr Tr' -> Tr' = Tr.
Proof. exact not_by_source_unchanged. Qed.
Print Assumptions c24_not_by_source_refuted.

(** ... although rows without source row exist. *)
Example c24_not_by_source_witness :
  ~ has_source L2 [kv 1 10] (kv 2 7) /\
  merge_runs L2 [mkcl NotBySource any MDelete] [kv 1 10] [kv 1 5; kv 2 7] [kv 1 5; kv 2 7].
Proof.
  split.
  - intros [s [[<-|[]] [k [H1 H2]]]]. cbn in *. congruence.
  - apply merge_one. reflexivity.
Qed.

(** Refuted: the condition of WHEN ... AND condition is ignored. *)
Theorem c24_condition_refuted : forall L mt act a a' Sr Tr Tr',
  merge_runs L [mkcl mt a act] Sr Tr Tr' <-> merge_runs L [mkcl mt a' act] Sr Tr Tr'.
Proof. exact condition_ignored. Qed.
Print Assumptions c24_condition_refuted.
Example c24_condition_witness :
  merge_runs L2 [mkcl Matched (fun _ _ => false) MDelete] [kv 1 10] [kv 1 5] [].
Proof. apply merge_one. reflexivity. Qed.

(** Refuted: a source row whose key is NULL has no target row but is never inserted. *)
Theorem c24_null_key_refuted : forall L a f Sr Tr Tr',
  merge_runs L [mkcl NotByTarget a (MInsert f)] Sr Tr Tr' ->
  exists new, Tr' = Tr ++ map f new /\ (forall s, In s new -> In s Sr /\ key (ml_i L) s <> None).
Proof. exact null_keys_never_inserted. Qed.
Print Assumptions c24_null_key_refuted.
Example c24_null_key_witness :
  ~ has_target L2 [] [None; Some 4%Z] /\
  merge_runs L2 [mkcl NotByTarget any (MInsert (fun s => s))] [[None; Some 4%Z]] [] [].
Proof.
  split; [intros [t [[] _]]|]. apply merge_one. reflexivity.
Qed.

(** Refuted: an update from the source may leave the target's own value, because
    the auxiliary table also holds the row with the columns exchanged. *)
Theorem c24_update_value_refuted : forall k v w : Z, v <> w ->
  merge_runs L2 [mkcl Matched any (MUpdate take_source)] [kv k v] [kv k w] [kv k w].
Proof.
  intros k v w H. apply update_matched.
  - repeat split; cbn; lia.
  - intros r [<-|[]]. reflexivity.
  - intros r [<-|[]]. reflexivity.
  - constructor; [|constructor]. right. exists (kv k v), (kv k w).
    split; [now left|]. split; [now left|]. split; [exists k; split; reflexivity|].
    split; [exists k; split; reflexivity|]. right. reflexivity.
Qed.
Print Assumptions c24_update_value_refuted.

(** Refuted when source and target have different columns: with source (k) and
    target (k, v), a target row (5, 5) is deleted as MATCHED although the source is
    empty, and source row 1 is inserted again although target row (1, NULL) matches. *)
Theorem c24_columns_refuted :
  let L := mkml 1 2 0 0 in
  merge_runs L [mkcl Matched any MDelete] [] [kv 5 5] [] /\
  merge_runs L [mkcl NotByTarget any (MInsert (fun s => s))] [[Some 1%Z]] [[Some 1%Z; None]]
    [[Some 1%Z; None]; [Some 1%Z]] /\
  has_target L [[Some 1%Z; None]] [Some 1%Z].
Proof.
  cbn zeta. split; [apply merge_one; reflexivity|]. split; [apply merge_one; reflexivity|].
  exists [Some 1%Z; None]. split; [now left|]. exists 1%Z. split; reflexivity.
Qed.
Print Assumptions c24_columns_refuted.

(** Refuted: with ON target.c = source.d, if the target's name occurs anywhere in
    the text of the source scan, the statements change the source table. *)
Theorem c24_target_refuted : forall cols src tgt c d,
  contains (scan_sql cols src) tgt = true ->
  changed_table (scan_sql cols src) (tgt, c) (src, d) = src.
Proof. intros cols src tgt c d H. unfold changed_table, choose. cbn [fst]. now rewrite H. Qed.
Print Assumptions c24_target_refuted.
Example c24_target_witness :
  changed_table (scan_sql "`k` AS `k#3`" "tmp") ("t", "k") ("tmp", "k") = "tmp" /\
  changed_table (scan_sql "`k` AS `k#3`" "tmp") ("stock", "k") ("tmp", "k") = "stock" /\
  changed_table (scan_sql "`k` AS `k#3`" "tmp") ("tmp", "k") ("t", "k") = "t".
Proof. repeat split. Qed.

(** It is right whenever the target's name does not occur there, or the source
    column is written first. *)
Theorem c24_target_partial : forall cols src tgt c d,
  (contains (scan_sql cols src) tgt = false -> changed_table (scan_sql cols src) (tgt, c) (src, d) = tgt) /\
  changed_table (scan_sql cols src) (src, d) (tgt, c) = tgt.
Proof.
  intros cols src tgt c d. split.
  - intros H. unfold changed_table, choose. cbn [fst]. now rewrite H.
  - unfold changed_table, choose. cbn [fst].
    assert (contains (scan_sql cols src) src = true) as ->; [|reflexivity].
    apply contains_iff. unfold scan_sql.
    exists ("(SELECT " ++ cols ++ " FROM `")%string, "`)".
    now rewrite <- !string_app_assoc.
Qed.
Print Assumptions c24_target_partial.

(** C25 is refuted: if a MERGE fails after its auxiliary table was created, the
    table stays, and then every MERGE fails, whatever it is and whenever it runs. *)
Theorem c25_failed_merge_refuted : forall w rows body rows' body',
  Forall dml_elsewhere body ->
  next_fault w = false -> db_get (w_db w) merged_name = None ->
  snd (action_exec w (merge_action rows body)) = Err ->
  let w' := fst (action_exec w (merge_action rows body)) in
  db_get (w_db w') merged_name = Some (OTable rows) /\
  forall w2, db_get (w_db w2) merged_name = Some (OTable rows) ->
    snd (action_exec w2 (merge_action rows' body')) = Err.
Proof.
  intros w rows body rows' body' HF H1 H2 H3 w'. split.
  - now apply merge_fail_leaves.
  - intros w2 H. apply merge_blocked. congruence.
Qed.
Print Assumptions c25_failed_merge_refuted.

(** What holds: a MERGE whose first statement fails changes nothing, and one that
    succeeds leaves no auxiliary table behind. *)
Theorem c25_partial : forall w rows body,
  (snd (sq w (QCreateTable merged_name false rows)) <> Ok 0%Z ->
     snd (action_exec w (merge_action rows body)) = Err /\
     w_db (fst (action_exec w (merge_action rows body))) = w_db w) /\
  (forall z, snd (action_exec w (merge_action rows body)) = Ok z ->
     db_get (w_db (fst (action_exec w (merge_action rows body)))) merged_name = None).
Proof.
  intros w rows body. split.
  - apply merge_first_fails.
  - apply merge_ok_clean.
Qed.
Print Assumptions c25_partial.

(** A MERGE whose INSERT hits a constraint, and then a correct one. *)
Example c25_example :
  let w := world0 [("t", OTable [7%Z])] [] [] in
  let bad := merge_action [1%Z] [QDml "t" (fun _ => None)] in
  let good := merge_action [2%Z] [QDml "t" (fun r => Some (8%Z :: r, 1%Z))] in
  snd (action_exec w bad) = Err /\
  snd (action_exec w good) = Ok 0%Z /\
  db_get (w_db (fst (action_exec w good))) "t" = Some (OTable [8%Z; 7%Z]) /\
  snd (action_exec (fst (action_exec w bad)) good) = Err /\
  Forall dml_elsewhere [QDml "t" (fun _ => None)].
Proof.
  cbn zeta. repeat split; try (vm_compute; reflexivity).
  constructor; [|constructor]. eexists _, _. split; [reflexivity|]. discriminate.
Qed.
