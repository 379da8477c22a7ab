(** Property theorems C06, C07 and C84 (the in-memory catalog). *)
From Coq Require Import Ascii String List ZArith Lia Bool.
From Verif Require Import GoBase GoBaseFacts NameModel NameSpec NameProofs TreeModel TreeSpec TreeProofs CatalogModel CatalogSpec CatalogProofs.
Import ListNotations.
Local Open Scope string_scope.

(** C06, the part that holds for every history (with replacements): the catalog holds exactly
    the live objects in order of creation, and a name is present exactly when its last CREATE
    is after its last DROP. *)
Theorem c06_live_objects : forall ops, Forall named ops ->
  c_tables (cat_run ops cat_new) = live ops /\ c_functions (cat_run ops cat_new) = livef ops /\
  (forall n, aget (c_tmap (cat_run ops cat_new)) n = None <-> last_t ops n = None) /\
  (forall n, aget (c_fmap (cat_run ops cat_new)) n = None <-> last_f ops n = None).
Proof. exact c06_live_lemma. Qed.
Print Assumptions c06_live_objects.

(** C06: DROP fails exactly for missing objects, and a failing DROP changes nothing. *)
Theorem c06_failed_drop_changes_nothing : forall ops n, Forall named ops ->
  let c := cat_run ops cat_new in
  (last_t ops n = None -> cat_step c (DelT n) = (c, true)) /\
  (last_t ops n <> None -> snd (cat_step c (DelT n)) = false) /\
  (last_f ops n = None -> cat_step c (DelF n) = (c, true)) /\
  (last_f ops n <> None -> snd (cat_step c (DelF n)) = false).
Proof. exact c06_failed_drop_lemma. Qed.
Print Assumptions c06_failed_drop_changes_nothing.

(** C06: the definition found is the one of the last CREATE, for histories that never
    re-create a live name.  Missing: CREATE OR REPLACE, see the refutation. *)
Theorem c06_lookup_last_definition_partial : forall ops, Forall named ops -> no_recreate [] ops -> forall n,
  aget (c_tmap (cat_run ops cat_new)) n = last_t ops n /\
  aget (c_fmap (cat_run ops cat_new)) n = last_f ops n.
Proof. exact c06_lookup_lemma. Qed.
Print Assumptions c06_lookup_last_definition_partial.

(** C06: what query analysis finds under a full path, for every history over equally long
    paths: the table's definition when it was first created since its last DROP. *)
Theorem c06_analysis_finds_first_definition : forall ops k path ref d, Forall named ops ->
  (forall s, In (AddT s) ops -> length (ts_path s) = k /\ forall x, In x (ts_path s) -> dot_free x) ->
  (0 < k)%nat -> length path = k -> (forall x, In x path -> dot_free x) -> spelling path ref ->
  (find_table (cat_run ops cat_new) ref = Some d <-> first_with path (tpairs (live ops)) d).
Proof. exact c06_find_lemma. Qed.
Print Assumptions c06_analysis_finds_first_definition.

Definition c06_ops : list cat_op :=
  [AddT (TS ["p"; "a"] "x INT64" false false); AddF (FS ["p"; "f"] "1" false);
   AddT (TS ["p"; "b"] "y STRING" false false); DelT "p_a"; AddT (TS ["p"; "a"] "z BOOL" false false); DelF "nosuch"].

Example c06_example :
  Forall named c06_ops /\ no_recreate [] c06_ops /\
  aget (c_tmap (cat_run c06_ops cat_new)) "p_a" = Some (TS ["p"; "a"] "z BOOL" false false) /\
  map ts_name (c_tables (cat_run c06_ops cat_new)) = ["p_b"; "p_a"] /\
  find_table (cat_run c06_ops cat_new) ["p"; "b"] = Some (TS ["p"; "b"] "y STRING" false false) /\
  last_t c06_ops "p_b" <> None.
Proof.
  split; [repeat constructor; discriminate|]. split; [repeat split|]. repeat split; discriminate.
Qed.

(** C06 is false for histories with replacement: after CREATE a; CREATE b; CREATE OR REPLACE a;
    DROP b the catalog answers with the replaced definition of a. *)
Theorem c06_lookup_last_definition_refuted : exists ops n, Forall named ops /\
  aget (c_tmap (cat_run ops cat_new)) n <> last_t ops n.
Proof.
  exists [AddT (TS ["a"] "old" false false); AddT (TS ["b"] "x" false false);
          AddT (TS ["a"] "new" false false); DelT "b"], "a".
  split; [repeat constructor; discriminate|]. discriminate.
Qed.
Print Assumptions c06_lookup_last_definition_refuted.

(** C07: a CREATE that follows a DROP of the same name is in force: it is the only table of
    that name.  Missing: CREATE OR REPLACE of a live object, refuted below. *)
Theorem c07_create_after_drop_partial : forall ops s, Forall named ops -> ts_path s <> [] ->
  let c := cat_run (ops ++ [DelT (ts_name s); AddT s]) cat_new in
  aget (c_tmap c) (ts_name s) = Some s /\ In s (c_tables c) /\
  (forall x, In x (c_tables c) -> ts_name x = ts_name s -> x = s).
Proof. exact c07_after_drop_lemma. Qed.
Print Assumptions c07_create_after_drop_partial.

Example c07_example :
  let s := TS ["a"] "new" false false in
  Forall named [AddT (TS ["a"] "old" false false)] /\ ts_path s <> [] /\
  find_table (cat_run ([AddT (TS ["a"] "old" false false)] ++ [DelT "a"; AddT s]) cat_new) ["a"] = Some s.
Proof. split; [repeat constructor; discriminate|]. split; [discriminate|reflexivity]. Qed.

(** C07 fails for every replacement of a live object: neither the schema analysis uses nor
    the set of function bodies statements are formatted with changes at all. *)
Theorem c07_replacement_never_seen_refuted : forall ops, Forall named ops ->
  (forall s ref, ts_path s <> [] -> last_t ops (ts_name s) <> None ->
     find_table (cat_run (ops ++ [AddT s]) cat_new) ref = find_table (cat_run ops cat_new) ref) /\
  (forall f n np, fs_path f <> [] -> last_f ops (fs_name f) <> None ->
     aget (stmt_func_map (cat_run (ops ++ [AddF f]) cat_new) np) n = aget (stmt_func_map (cat_run ops cat_new) np) n).
Proof.
  intros ops Hn. destruct (c06_live_lemma ops Hn) as [_ [_ [Ht Hf]]]. split.
  - intros s ref Hs Hl. rewrite cat_run_app. simpl. unfold add_table_spec, find_table.
    destruct (aget (c_tmap (cat_run ops cat_new)) (ts_name s)) eqn:E; [reflexivity|].
    apply Ht in E. congruence.
  - intros f n np Hs Hl. rewrite cat_run_app. simpl. unfold add_function_spec, stmt_func_map, get_functions.
    destruct (aget (c_fmap (cat_run ops cat_new)) (fs_name f)) eqn:E; [reflexivity|].
    apply Hf in E. congruence.
Qed.
Print Assumptions c07_replacement_never_seen_refuted.

Theorem c07_replacement_takes_effect_refuted : exists old new_ ops,
  Forall named (ops ++ [AddT new_]) /\ ts_name old = ts_name new_ /\ ts_def old <> ts_def new_ /\
  find_table (cat_run (ops ++ [AddT new_]) cat_new) (ts_path new_) = Some old.
Proof.
  exists (TS ["a"] "x INT64" false false), (TS ["a"] "y STRING" false false), [AddT (TS ["a"] "x INT64" false false)].
  repeat split; try discriminate. repeat constructor; discriminate.
Qed.
Print Assumptions c07_replacement_takes_effect_refuted.

(** C84: for a reference spelled with the full path (as many components as the maximum) the
    table analysed and the table read are the same one.  Missing: shorter references. *)
Theorem c84_schema_and_rows_agree_partial : forall ops k p path ref s,
  Forall named ops ->
  (forall s, In (AddT s) ops -> length (ts_path s) = k /\ forall x, In x (ts_path s) -> dot_free x) ->
  (0 < k)%nat -> np_max p = Z.of_nat k -> ~ below_info_schema path ->
  spelling path ref ->
  first_with path (tpairs (live ops)) s -> ts_path s = path ->
  find_table (cat_run ops cat_new) ref = Some s /\ np_format p ref = ts_name s.
Proof.
  intros ops k p path ref s Hn Hlen Hk Hmax Hinfo Hsp Hfw Hpath.
  assert (In (AddT s) ops) as Hin.
  { assert (In s (live ops)) as Hs.
    { clear -Hfw. remember (tpairs (live ops)) as l eqn:El. revert El. generalize (live ops) as m.
      induction Hfw as [q d rest Hq|q d0 d rest Hq Hf IH]; intros m El; destruct m as [|x m]; try discriminate;
        inversion El; subst; [left; reflexivity|right; apply (IH m); reflexivity]. }
    clear -Hs. revert Hs. induction ops as [|o ops IH] using rev_ind; simpl; [tauto|].
    unfold live. rewrite fold_left_app. simpl. intros H. apply in_or_app.
    destruct o as [x|x|m|m]; simpl in H; try (left; apply IH; exact H).
    - destruct (existsb _ _); [left; apply IH; exact H|]. apply in_app_or in H.
      destruct H as [H|[<-|[]]]; [left; apply IH; exact H|right; left; reflexivity].
    - apply filter_In in H. left. apply IH. tauto. }
  destruct (Hlen s Hin) as [Hl Hd]. rewrite Hpath in Hl, Hd.
  split.
  - apply (c06_find_lemma ops k path ref s); assumption.
  - unfold np_format, ts_name. f_equal. rewrite Hpath.
    assert (normalize_path ref = path) as Hnorm.
    { destruct Hsp as [front [back [-> [Hb ->]]]]. unfold normalize_path. rewrite flat_map_app. cbn [flat_map].
      rewrite app_nil_r, join_split1 by (try exact Hb; intros x Hx; apply dot_free_iff, Hd, in_or_app; right; exact Hx).
      f_equal. apply normalize_id. intros x Hx. apply dot_free_iff, Hd, in_or_app. left. exact Hx. }
    unfold merge_path. rewrite Hnorm.
    assert (0 < np_max p)%Z as Hpos by lia.
    rewrite (proj2 (get_max_num_info p path Hpos) Hinfo).
    destruct (Z.ltb_spec 0 (np_max p)); [|lia].
    destruct (Z.eqb_spec (zlen path) (np_max p)); [reflexivity|]. unfold zlen in n. lia.
Qed.
Print Assumptions c84_schema_and_rows_agree_partial.

Definition c84_ops : list cat_op :=
  [AddT (TS ["p"; "d1"; "t"] "a INT64" false false); AddT (TS ["p"; "d2"; "t"] "b STRING" false false)].

Example c84_example :
  Forall named c84_ops /\ np_max (np_run [SetMax 3; SetPath ["p"; "d2"]]) = 3%Z /\
  spelling ["p"; "d2"; "t"] ["p"; "d2.t"] /\
  find_table (cat_run c84_ops cat_new) ["p"; "d2.t"] = Some (TS ["p"; "d2"; "t"] "b STRING" false false) /\
  np_format (np_run [SetMax 3; SetPath ["p"; "d2"]]) ["p"; "d2.t"] = "p_d2_t".
Proof.
  split; [repeat constructor; discriminate|]. split; [reflexivity|]. split.
  - exists ["p"], ["d2"; "t"]. repeat split. discriminate.
  - split; reflexivity.
Qed.

(** C84 is false for unqualified references: with name path p.d2, "t" is analysed with the
    columns of p.d1.t and reads the rows of p.d2.t. *)
Theorem c84_schema_and_rows_agree_refuted : exists ops p ref s,
  Forall named ops /\ find_table (cat_run ops cat_new) ref = Some s /\
  (exists s', In s' (live ops) /\ ts_name s' = np_format p ref) /\ np_format p ref <> ts_name s.
Proof.
  exists c84_ops, (np_run [SetMax 3; SetPath ["p"; "d2"]]), ["t"], (TS ["p"; "d1"; "t"] "a INT64" false false).
  split; [repeat constructor; discriminate|]. split; [reflexivity|]. split.
  - exists (TS ["p"; "d2"; "t"] "b STRING" false false). split; [right; left; reflexivity|reflexivity].
  - discriminate.
Qed.
Print Assumptions c84_schema_and_rows_agree_refuted.
