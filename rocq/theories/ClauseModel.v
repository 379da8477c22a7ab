(** Clauses that the analyzer accepts (the language features of analyzer.go:39-97) and the
    formatter does not look at: HAVING MAX and HAVING MIN of an aggregate function, NULLS FIRST
    and NULLS LAST in the ORDER BY of an aggregate or analytic function, the FORMAT and the type
    parameters of CAST, and COLLATE in ORDER BY.  What the functions do with what is passed on
    is in AggModel, WindowModel, ConvertModel and ScanModel. *)
From Coq Require Import Ascii String List ZArith Bool.
From Verif Require Import GoBase ValueModel AggModel WindowModel ScanModel JsonModel RowsModel.
Import ListNotations.
Local Open Scope string_scope.
Open Scope Z_scope.

(** A row of the input; a column is a position in it. *)
Definition cells := list (option val).
Definition col_of (r : cells) (c : nat) : option val := nth c r None.

(** An item of an ORDER BY, as ZetaSQL resolves it *)
Record key_item := { k_col : nat; k_desc : bool; k_nulls : null_order; k_collation : option string }.

(** ** Aggregate functions: AggregateFunctionCallNode.FormatSQL, formatter.go:309-351 *)
(** The resolved call; [n_having] is the column of HAVING MAX (true) or HAVING MIN. *)
Record agg_node := { n_arg : nat; n_order : list key_item; n_distinct : bool; n_limit : option Z; n_ignore : bool; n_having : option (bool * nat) }.
(** 321-329: only the column and the direction are used. *)
Definition order_option (r : cells) (i : key_item) : item := IOrder (col_of r (k_col i)) (negb (k_desc i)).
(** 320-350: the arguments for one row *)
Definition agg_args (n : agg_node) (r : cells) : list AggModel.arg :=
  AVal (col_of r (n_arg n)) ::
  map AOpt (map (order_option r) (n_order n)
            ++ (if n_distinct n then [IDistinct] else [])
            ++ match n_limit n with Some z => [ILimit z] | None => [] end
            ++ (if n_ignore n then [IIgnore] else []))%list.
Definition agg_result (text : val -> res string) (loose : string -> option item) (a : agg) (n : agg_node) (rows : list cells) (r : res (option val)) : Prop :=
  AggModel.call text loose a (map (agg_args n) rows) r.

(** ** Analytic functions: AnalyticScanNode and AnalyticFunctionCallNode.FormatSQL,
    formatter.go:1133-1143, 379-381.  [w_args] and [w_part] are columns. *)
Record win_node := { w_args : list nat; w_part : list nat; w_keys : list key_item }.
Definition win_row (n : win_node) (r : cells) : trow :=
  {| t_args := map (col_of r) (w_args n); t_part := map (col_of r) (w_part n);
     t_order := map (fun i => (col_of r (k_col i), negb (k_desc i))) (w_keys n) |}.

(** ** CAST: CastNode.FormatSQL, formatter.go:430-467 *)
(** [c_params] are the parameters of the target type, as in STRING(10) and NUMERIC(5, 2);
    newType (spec.go:577-600) does not keep them. *)
Record cast_node := { c_safe : bool; c_from : ty; c_to : ty; c_params : list Z; c_format : option string; c_zone : option string }.
(** 462-466; [cast] is zetasqlite_cast, that is ConvertModel.cast_seen. *)
Definition cast_call (cast : bool -> ty -> ty -> option val -> res (option val)) (n : cast_node) (o : option val) : res (option val) :=
  cast (c_safe n) (c_from n) (c_to n) o.

(** ** ORDER BY: OrderByScanNode.FormatSQL, formatter.go:991-1011: the collation of the item is
    zetasqlite_collate whatever its COLLATE says. *)
Definition scan_item (i : key_item) : order_item := Order (k_col i) (k_desc i) (k_nulls i).
Definition rows_cmp (l : list key_item) : cells -> cells -> Z := order_cmp (map scan_item l).
