(** What views mean. *)
From Coq Require Import Ascii String List ZArith Lia Bool.
From Verif Require Import GoBase QueryModel QuerySpec AcceptSpec WithSpec ViewModel.
Import ListNotations.
Local Open Scope string_scope.

(** The rows behind each name, when the tables are [db]: each view is the rows its query means over
    the tables and the views before it. *)
Inductive shows (fn : string -> list val -> val) (db : string -> list frame) : list view -> (string -> list frame) -> Prop :=
| shows_none : shows fn db [] db
| shows_view : forall vs d v rows, shows fn db vs d ->
    mean_query fn d (v_names v) (v_scan v) (v_ids v) = Some rows ->
    shows fn db (vs ++ [v])%list (fun t => if same_name (v_name v) t then map (combine (v_alias v)) rows else d t).

(** The queries covered: those of C137. *)
Definition query_ok (stacked : bool) (names : Z -> string) (s : scan) (cols : list Z) : Prop :=
  wf_scan in64 True [] [] s /\ top s = true /\ shape stacked s = true /\
  (stacked = true -> clean s = true /\ forall c, tame (names c) = true) /\
  (forall c, In c cols -> In c (out s)) /\ cols <> [].
(** Views with names of their own, each over tables and earlier views. *)
Definition views_ok (stacked : bool) (vs : list view) : Prop :=
  forall a v b, vs = (a ++ v :: b)%list ->
    query_ok stacked (v_names v) (v_scan v) (v_ids v) /\ length (v_alias v) = length (v_ids v) /\
    (forall w, In w b -> same_name (v_name w) (v_name v) = false) /\
    (forall t cols w, In (t, cols) (tables (v_scan v)) -> In w (v :: b) -> same_name (v_name w) t = false).
