(** ARRAY(subquery): the array branch of SubqueryExprNode.FormatSQL (formatter.go:549-579), the
    aggregate it calls (function_aggregate.go:19-41, function_bind.go:3094-3106) and what SQLite makes of
    the text, with the queries of QueryModel and the aggregates of AggModel. *)
From Coq Require Import Ascii String List ZArith Bool.
From Verif Require Import GoBase QueryModel.
From Verif Require ValueModel AggModel.
Import ListNotations.
Local Open Scope string_scope.

(** ARRAY.Step and Done: every argument is kept, NULL as well; the options are kept by the code
    and never looked at. *)
Definition array_step (s : list (option ValueModel.val)) (args : list (option ValueModel.val)) (o : AggModel.aopt) : res (list (option ValueModel.val)) :=
  bind (AggModel.arg0 args) (fun v => Ok (s ++ [v])%list).
Definition array_done (s : list (option ValueModel.val)) : res (option ValueModel.val) := Ok (Some (ValueModel.VArray s)).
Definition agg_array : AggModel.agg :=
  {| AggModel.St := list (option ValueModel.val); AggModel.init := []; AggModel.step := array_step; AggModel.done := AggModel.exactly array_done |}.

(** (SELECT zetasqlite_array(`c`) FROM (q)), an expression of SQLite; the column has no alias,
    here an empty one, which nothing reads. *)
Definition array_text (n : string) (q : query) : sexpr :=
  XScalar (Grouped (IAs (XAgg "array" (XCons (XCol n) XNil)) "" INil) (FJoins (KItem q KNil)) WNone []).
(** The subquery with its list of columns; a subquery whose text is not a SELECT, which ZetaSQL
    does not make, is an error of SQLite. *)
Definition format_array (names : Z -> string) (s : scan) (cols : list Z) (m : cmap) : option (sexpr * cmap) :=
  obind (format_scan (with_id names) names s m) (fun p =>
  match cols with
  | [] => None
  | c :: _ => match fst p with RSelect q => Some (array_text (with_id names c) q, snd p) | _ => None end
  end).
(** SELECT cols with ARRAY(s) as the column c FROM o: ProjectScanNode.FormatSQL
    (formatter.go:1264-1298), computed columns first, as SProject of QueryModel. *)
Definition format_array_select (names : Z -> string) (o s : scan) (c : Z) (scols cols : list Z) : option query :=
  obind (format_array names s scols []) (fun x =>
  obind (format_scan (with_id names) names o (set (snd x) (with_id names c) (fst x))) (fun p =>
  let (i, _) := take_items (with_id names) cols (snd p) in
  let (f, w) := input_from (fst p) in
  Some (Select i f w None))).
