(** MERGE: the statements it is rewritten to and what they do to the tables. *)
From Coq Require Import Ascii String List ZArith Lia Bool.
From Verif Require Import GoBase ScriptModel.
Import ListNotations.
Local Open Scope string_scope.
Local Open Scope list_scope.
Local Open Scope nat_scope.

(** A cell is NULL or a value; integers stand for the values of one type. *)
Definition cell := option Z.
Definition crow := list cell.
Definition key (i : nat) (r : crow) : cell := nth i r None.

(** SQL [=] as a condition (NULL is not true). *)
Definition sql_eq (a b : cell) : bool :=
  match a, b with Some x, Some y => Z.eqb x y | _, _ => false end.
Definition is_null (a : cell) : bool := match a with None => true | _ => false end.

(** [A LEFT JOIN B ON on]; [nb] is the number of columns of B. *)
Definition left_join (on : crow -> crow -> bool) (nb : nat) (A B : list crow) : list crow :=
  concat (map (fun a => match filter (on a) B with
                        | [] => [a ++ repeat None nb]
                        | bs => map (app a) bs
                        end) A).

Definition crow_dec : forall a b : crow, {a = b} + {a <> b}.
Proof. apply list_eq_dec. intros [x|] [y|]; try (right; discriminate); [|left; reflexivity].
  destruct (Z.eq_dec x y) as [->|H]; [left; reflexivity|right; congruence]. Defined.

(** The source and target of one MERGE: number of columns of each scan and the
    position of the column each contributes to the ON condition. *)
Record mlayout := mkml { ml_p : nat; ml_q : nat; ml_i : nat; ml_j : nat }.

(** internal/analyzer.go:600-603: CREATE TABLE zetasqlite_merged_table AS SELECT
    DISTINCT * FROM (SELECT * FROM S LEFT JOIN T ON e UNION ALL SELECT * FROM T
    LEFT JOIN S ON e).  A UNION ALL takes its column names from the first part,
    so in the rows of the second part T's values stand under S's names. *)
Definition merged (L : mlayout) (Sr Tr : list crow) : list crow :=
  let on s t := sql_eq (key (ml_i L) s) (key (ml_j L) t) in
  nodup crow_dec
    (left_join on (ml_q L) Sr Tr ++ left_join (fun t s => on s t) (ml_p L) Tr Sr).

(** The columns called mergedTableSourceColumnName and mergedTableTargetColumnName. *)
Definition m_src (L : mlayout) (m : crow) : cell := nth (ml_i L) m None.
Definition m_tgt (L : mlayout) (m : crow) : cell := nth (ml_p L + ml_j L) m None.

(** internal/analyzer.go:605-628: the three conditions, [k] being the value of
    the named column in the table the statement ranges over. *)
Definition cond_matched L (k : cell) (m : crow) : bool := sql_eq (m_src L m) k && sql_eq (m_tgt L m) k.
Definition cond_not_by_source L (k : cell) (m : crow) : bool := sql_eq (m_tgt L m) k && is_null (m_src L m).
Definition cond_not_by_target L (k : cell) (m : crow) : bool := sql_eq (m_src L m) k && is_null (m_tgt L m).

Inductive mtype := Matched | NotBySource | NotByTarget.
Definition cond (mt : mtype) :=
  match mt with Matched => cond_matched | NotBySource => cond_not_by_source | NotByTarget => cond_not_by_target end.

(** A WHEN clause.  The third component of the Go node, the additional condition
    (WHEN ... AND <condition>), is [cl_and]; analyzer.go:629-683 never reads it.
    [MInsert f]: the inserted row computed from a source row.  [MUpdate f]: the new
    target row computed from the old one and a row of the merged table. *)
Inductive maction :=
| MInsert (f : crow -> crow)
| MUpdate (f : crow -> crow -> crow)
| MDelete.
Record mclause := mkcl { cl_type : mtype; cl_and : crow -> crow -> bool; cl_act : maction }.

(** internal/analyzer.go:629-683: the statement of one clause, as a relation
    between the target's rows before and after.  For UPDATE ... FROM with several
    matching rows of the merged table SQLite uses an arbitrary one. *)
Definition clause_runs (L : mlayout) (M Sr : list crow) (c : mclause) (Tr Tr' : list crow) : Prop :=
  let C := cond (cl_type c) L in
  match cl_act c with
  | MInsert f => Tr' = Tr ++ map f (filter (fun s => existsb (C (key (ml_i L) s)) M) Sr)
  | MDelete => Tr' = filter (fun t => negb (existsb (C (key (ml_j L) t)) M)) Tr
  | MUpdate f =>
      Forall2 (fun t t' =>
        (existsb (C (key (ml_j L) t)) M = false /\ t' = t) \/
        (exists m, In m M /\ C (key (ml_j L) t) m = true /\ t' = f t m)) Tr Tr'
  end.
Inductive clauses_run (L : mlayout) (M Sr : list crow) : list mclause -> list crow -> list crow -> Prop :=
| run_none Tr : clauses_run L M Sr [] Tr Tr
| run_cons c r T0 T1 T2 : clause_runs L M Sr c T0 T1 -> clauses_run L M Sr r T1 T2 -> clauses_run L M Sr (c :: r) T0 T2.
(** The whole MERGE when no statement fails; source and target are different tables. *)
Definition merge_runs (L : mlayout) (cs : list mclause) (Sr Tr Tr' : list crow) : Prop :=
  clauses_run L (merged L Sr Tr) Sr cs Tr Tr'.

(** internal/analyzer.go:577-588: which of the two columns of the ON condition
    belongs to the source.  A column is (table name, column name); [source_sql] is
    the formatted source scan. *)
Definition choose (source_sql : string) (colA colB : string * string) : (string * string) * (string * string) :=
  if contains source_sql (fst colA) then (colA, colB) else (colB, colA).

(** The table each clause's statement changes (analyzer.go:655-681,
    targetColumn.TableName()) for ON colA = colB. *)
Definition changed_table (source_sql : string) (colA colB : string * string) : string :=
  fst (snd (choose source_sql colA colB)).

(** internal/formatter.go:601-627 TableScan: (SELECT `c` AS `c#id`, ... FROM `table`). *)
Definition scan_sql (cols : string) (table : string) : string :=
  ("(SELECT " ++ cols ++ " FROM `" ++ table ++ "`)")%string.

(** The whole statement list in the world of ScriptModel.v (analyzer.go:599-685):
    CREATE TABLE, the clauses, DROP TABLE. *)
Definition merged_name : string := "zetasqlite_merged_table".
Definition merge_action (rows : list Z) (body : list sqstmt) : action :=
  AMerge (QCreateTable merged_name false rows :: body ++ [QDropTable merged_name false]).
