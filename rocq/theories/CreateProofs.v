(** The effect of single statements: lemmas for C118 and C119. *)
From Coq Require Import Ascii String List ZArith Lia Bool.
From Verif Require Import GoBase GoBaseFacts NameModel TreeModel CatalogModel CatalogSpec CatalogProofs PersistModel PersistSpec PersistProofs ScriptModel ScriptSpec ScriptProofs.
Import ListNotations.
Local Open Scope string_scope.
Open Scope Z_scope.

Lemma sq_ok : forall w q d k, no_faults w -> sq_apply (w_db w) q = Some (d, k) ->
  exists w', sq w q = (w', Ok k) /\ w_db w' = d /\ w_cat w' = w_cat w /\ w_saved w' = w_saved w /\ no_faults w'.
Proof.
  intros w q d k F E. unfold sq. rewrite (no_faults_next w F), E. eexists. split; [reflexivity|]. repeat split. now apply (no_faults_tl w).
Qed.
Lemma sq_no : forall w q, sq_apply (w_db w) q = None -> exists w', sq w q = (w', Err) /\ w_db w' = w_db w /\ w_cat w' = w_cat w /\ w_saved w' = w_saved w.
Proof.
  intros w q E. unfold sq. rewrite E. destruct (next_fault w); eexists; (split; [reflexivity|]); repeat split.
Qed.
Lemma indexes_ok : forall n k w, no_faults w -> is_table (w_db w) n -> exists w', create_indexes w n k = (w', Ok 0) /\ w_db w' = w_db w /\ w_cat w' = w_cat w /\ no_faults w'.
Proof.
  intros n. induction k as [|k IH]; intros w F [rows T]; [exists w; auto|]. cbn [create_indexes].
  destruct (sq_ok w (QIndex n) (w_db w) 0 F) as (w1 & E & D & C & _ & F1); [cbn [sq_apply]; now rewrite T|].
  rewrite E. unfold andthen. cbn [fst snd]. destruct (IH w1 F1) as (w2 & E2 & D2 & C2 & F2); [exists rows; congruence|].
  exists w2. split; [exact E2|]. split; [congruence|]. split; [congruence|exact F2].
Qed.
Lemma add_ok : forall w s, no_faults w -> cinv (w_cat w) -> ts_path s <> [] -> exists w', add_new_table_spec w s = (w', Ok 0) /\ w_db w' = w_db w /\ in_catalog_t w' (ts_name s) /\ no_faults w'.
Proof.
  intros w s F I P. unfold add_new_table_spec, add_table_spec. destruct (aget (c_tmap (w_cat w)) (ts_name s)) eqn:A.
  - assert (M : in_catalog_t w (ts_name s)) by (apply (aget_mem_t _ _ I); congruence).
    destruct (ts_temp s); [eexists; split; [reflexivity|]; repeat split; auto|]. unfold sq_saved.
    match goal with |- context [next_fault ?x] => replace (next_fault x) with false by (symmetry; apply no_faults_next; exact F) end.
    eexists. split; [reflexivity|]. split; [reflexivity|]. split; [exact M|]. now apply (no_faults_tl w).
  - assert (N : is_nil (ts_path s) = false) by (destruct (ts_path s); [congruence|reflexivity]). rewrite N.
    assert (M : In (ts_name s) (map ts_name (c_tables (w_cat w) ++ [s]))) by (rewrite map_app; apply in_or_app; right; now left).
    destruct (ts_temp s); [eexists; split; [reflexivity|]; repeat split; auto|]. unfold sq_saved.
    match goal with |- context [next_fault ?x] => replace (next_fault x) with false by (symmetry; apply no_faults_next; exact F) end.
    eexists. split; [reflexivity|]. split; [reflexivity|]. split; [exact M|]. now apply (no_faults_tl w).
Qed.
(** After the optional DROP, the schema statement, the indexes and the catalog. *)
Lemma create_rest : forall w s m ctas k d, no_faults w -> cinv (w_cat w) -> ts_path s <> [] -> ts_temp s = false ->
  sq_apply (w_db w) (schema_table s m ctas) = Some (d, 0) -> is_table d (ts_name s) \/ k = 0%nat ->
  exists w', andthen (sq w (schema_table s m ctas)) (fun w2 => andthen (create_indexes w2 (ts_name s) k) (fun w3 => andthen (add_new_table_spec w3 s) (fun w4 =>
      (if ts_temp s then w4 else set_cc w4 (cc_add_table (w_cc w4) s), Ok 0)))) = (w', Ok 0) /\ w_db w' = d /\ in_catalog_t w' (ts_name s).
Proof.
  intros w s m ctas k d F I P T E K. destruct (sq_ok w _ d 0 F E) as (w1 & E1 & D1 & C1 & _ & F1). rewrite E1. unfold andthen at 1. cbn [fst snd].
  assert (H : exists w2, create_indexes w1 (ts_name s) k = (w2, Ok 0) /\ w_db w2 = d /\ w_cat w2 = w_cat w1 /\ no_faults w2).
  { destruct K as [K| ->]; [|exists w1; auto]. destruct (indexes_ok (ts_name s) k w1 F1) as (w2 & E2 & D2 & C2 & F2); [now rewrite D1|]. exists w2. repeat split; congruence || auto. }
  destruct H as (w2 & E2 & D2 & C2 & F2). rewrite E2. unfold andthen at 1. cbn [fst snd].
  destruct (add_ok w2 s F2) as (w3 & E3 & D3 & M & _); [congruence|exact P|]. rewrite E3. unfold andthen. cbn [fst snd]. rewrite T.
  eexists. split; [reflexivity|]. split; [cbn; congruence|exact M].
Qed.
