(** Views: internal/analyzer.go:360-372, internal/spec.go:159-170 (viewSQLiteSchema), 529-551
    (newTableAsViewSpec), internal/stmt_action.go:146-163 (CreateViewStmtAction.exec) and
    259-263 (DROP VIEW), around the queries of QueryModel, and what SQLite makes of the texts.

    The rows of a view are computed when it is read.  The catalogue is in CatalogModel, the names
    of tables and views are in ScriptModel, queries over parameters are left out. *)
From Coq Require Import Ascii String List ZArith Lia Bool.
From Verif Require Import GoBase QueryModel WithModel.
Import ListNotations.
Local Open Scope string_scope.

(** CREATE VIEW: the name, the names of the columns of the resolved query, the query, its output
    columns and the names of these in the view *)
Record view := View { v_name : string; v_names : Z -> string; v_scan : scan; v_ids : list Z; v_alias : list string }.
(** spec.go:530-539 *)
Fixpoint alias_items (u : Z -> string) (ids : list Z) (al : list string) : items :=
  match ids, al with
  | c :: r, a :: r' => IAs (XCol (u c)) a (alias_items u r r')
  | _, _ => INil
  end.
(** spec.go:547: SELECT columns FROM (query) *)
Definition view_sql (v : view) : option query :=
  obind (format_scan (with_id (v_names v)) (v_names v) (v_scan v) []) (fun p =>
  match fst p with
  | RSelect q => Some (Select (alias_items (with_id (v_names v)) (v_ids v) (v_alias v)) (FJoins (KItem q KNil)) WNone None)
  | RJoin t => Some (Select (alias_items (with_id (v_names v)) (v_ids v) (v_alias v)) (FJoins (KGroup t KNil)) WNone None)
  | _ => None
  end).

(** ** SQLite (outside /repo) *)
(** The views with their texts *)
Definition stored := list (string * query).
Definition has_view (st : stored) (n : string) : bool := existsb (fun e => same_name (fst e) n) st.
Definition drop_view (st : stored) (n : string) : stored := filter (fun e => negb (same_name (fst e) n)) st.
Inductive vmode := Default | Replace | IfNotExists.
Inductive vstmt := VCreate (m : vmode) (v : view) | VDrop (n : string).
(** stmt_action.go:146-157: OR REPLACE drops the view first; the text is that of spec.go:159-170.
    SQLite does not look at the query before the view is read. *)
Definition exec_view (st : stored) (s : vstmt) : option stored :=
  match s with
  | VCreate m v =>
      obind (view_sql v) (fun q =>
      let st1 := match m with Replace => drop_view st (v_name v) | _ => st end in
      if has_view st1 (v_name v) then match m with IfNotExists => Some st1 | _ => None end
      else Some (st1 ++ [(v_name v, q)])%list)
  | VDrop n => if has_view st n then Some (drop_view st n) else None
  end.
Fixpoint exec_views (st : stored) (l : list vstmt) : option stored :=
  match l with [] => Some st | s :: r => obind (exec_view st s) (fun st' => exec_views st' r) end.
(** A query over tables and views: a view is looked up when it is read, as the entries of a WITH
    are; a circle is an error. *)
Definition read_views (fn : string -> list val -> val) (db : string -> list frame) (st : stored) (q : query) : option (list (list val)) :=
  if forallb (fun t => known (cte fn db st (length st) t)) (reads q)
  then eval_query fn (fun t => rows_or_none (cte fn db st (length st) t)) [] q
  else None.
