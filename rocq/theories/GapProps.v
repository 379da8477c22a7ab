(** C328: FROM items that are not supported. *)
From Coq Require Import Ascii String List ZArith Lia Bool.
From Verif Require Import GoBase DecModel QueryModel GapModel GapSpec GapProofs.
Import ListNotations.
Local Open Scope string_scope.

(** SELECT v FROM t TABLESAMPLE SYSTEM (p PERCENT) gives one row whatever the table: that can be
    a sample unless the table is empty, and is the whole table only if it has one row. *)
Theorem c328_sample_refuted : forall names fn db t p c v,
  let r := run names fn db (Project (From (Sample t p)) (CCons c (ELit v) CNil) [c]) [c] in
  (one_each v (db t) r <-> db t <> []) /\ (one_for_all v (db t) r <-> List.length (db t) = 1%nat).
Proof.
  intros names fn db t p c v r.
  assert (E : r = Some [[v]]) by (unfold r; rewrite (one_item names fn db _ _ (ELit v) (XLit v) [] eq_refl); reflexivity). rewrite E. clear r E.
  split; split.
  - intros (k & P & E) N. rewrite N in P. apply part_nil_r in P. subst k. discriminate.
  - intros N. destruct (db t) as [|x l]; [congruence|]. exists [x]. split; [|reflexivity]. constructor. apply part_nothing.
  - unfold one_for_all. intros E. assert (L : List.length [[v]] = List.length (map (fun _ : frame => [v]) (db t))) by congruence. rewrite map_length in L. now symmetry.
  - unfold one_for_all. destruct (db t) as [|x [|y l]]; cbn [List.length map]; intros L; try discriminate. reflexivity.
Qed.
(** PIVOT and UNPIVOT lose their rows the same way; so does COUNT( * ) over any of the three. *)
Theorem c328_rows_refuted : forall names fn db db' s s' c v f,
  run names fn db (Project (From s) (CCons c (ELit v) CNil) [c]) [c] = Some [[v]] /\
  run names fn db (Aggregate (From s) CNil (ACons c f ENil ANil) [c]) [c] = Some [[fn f [Some 1%Z]]] /\
  run names fn db (Aggregate (From s) CNil (ACons c f ENil ANil) [c]) [c] = run names fn db' (Aggregate (From s') CNil (ACons c f ENil ANil) [c]) [c].
Proof.
  intros names fn db db' s s' c v f. split; [|split].
  - rewrite (one_item names fn db _ _ (ELit v) (XLit v) [] eq_refl). reflexivity.
  - apply one_aggregate.
  - now rewrite !one_aggregate.
Qed.
(** What is refused: a query that reads a column of the source, alone or in a call, and one with
    a condition. *)
Theorem c328_column_partial : forall names fn db s,
  (forall c e, reads e -> run names fn db (Project (From s) (CCons c e CNil) [c]) [c] = None) /\
  (forall c cols out, run names fn db (Project (From s) CNil (c :: cols)) out = None) /\
  (forall e cs cols out, run names fn db (Project (Where (From s) e) cs cols) out = None).
Proof.
  intros names fn db s. split; [|split].
  - intros c e R. destruct (format_expr (with_id names) names e []) as [[x m]|] eqn:F.
    + rewrite (one_item names fn db s c e x m F). assert (X := reads_fails fn db e R _ _ _ _ F). cbn [fst] in X. now rewrite X.
    + unfold run, query_sql, format_query.
      change (format_scan (with_id names) names (placed (Project (From s) (CCons c e CNil) [c])) []) with
        (obind (obind (format_expr (with_id names) names e []) (fun p => Some (set (snd p) (with_id names c) (fst p)))) (fun m1 => obind (format_scan (with_id names) names (source_scan s) m1) (fun p =>
          let (i, m2) := take_items (with_id names) [c] (snd p) in let (f, w) := input_from (fst p) in Some (RSelect (Select i f w None), m2)))).
      rewrite F. reflexivity.
  - intros c cols out. apply columns_fail.
  - intros e cs cols out. apply condition_fails.
Qed.
Example c328_example : let nm (c : Z) := "x" in let fn (f : string) (l : list val) := match l with n :: _ => n | [] => None end in
  run nm fn (fun _ => []) (Project (From (Sample "t" 10)) (CCons 3 (ELit (Some 7%Z)) CNil) [3%Z]) [3%Z] = Some [[Some 7%Z]] /\
  run nm fn (fun _ => []) (Aggregate (From (Pivot "t")) CNil (ACons 3 "count_star" ENil ANil) [3%Z]) [3%Z] = Some [[Some 1%Z]] /\
  run nm fn (fun _ => [[("x", Some 1%Z)]]) (Project (From (Sample "t" 100)) CNil [3%Z]) [3%Z] = None /\
  reads (ECall "add" (ECons (ELit (Some 1%Z)) (ECons (ECol 3) ENil))).
Proof. cbv zeta. split; [reflexivity|]. split; [reflexivity|]. split; [reflexivity|]. apply reads_call, reads_later, reads_here, reads_col. Qed.

Print Assumptions c328_sample_refuted.
Print Assumptions c328_rows_refuted.
Print Assumptions c328_column_partial.
