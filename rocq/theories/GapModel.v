(** FROM items that the analyzer accepts and the formatter has nothing for: TABLESAMPLE, PIVOT
    and UNPIVOT.  analyzer.go:39-97 turns the language features on; SampleScanNode, PivotScanNode
    and UnpivotScanNode.FormatSQL (formatter.go:1195-1197, 1947-1949, 1959-1961) return the
    empty text and no error.  (So does TVFScanNode, but no table function can be made.)  The scans above them and SQLite are those of QueryModel. *)
From Coq Require Import Ascii String List ZArith Bool.
From Verif Require Import QueryModel.
Import ListNotations.
Local Open Scope string_scope.

(** The items, with as much of the resolved tree as the statements need: the table sampled and
    the percentage, the table turned round. *)
Inductive source :=
| Sample (table : string) (percent : nat)
| Pivot (table : string)
| Unpivot (table : string).
Inductive tree :=
| From (s : source)
| Project (i : tree) (cs : comps) (cols : list Z)
| Aggregate (i : tree) (groups : comps) (aggs : acomps) (cols : list Z)
| Ordered (i : tree) (keys : list (Z * bool * nulls_mode)) (cols : list Z)
| Limited (i : tree) (n : nat) (cols : list Z)
| Where (i : tree) (e : expr).
(** The text of a source: the empty one, which is that of SingleRowScanNode
    (formatter.go:597-599). *)
Definition source_text (s : source) : string :=
  match s with Sample _ _ | Pivot _ | Unpivot _ => "" end.
(** The tree of QueryModel with the same text: [frag_text RNone] is empty, and the text of a
    scan is made from the text of its input (formatter.go:103-134, 736-763, 769-891, 969-1073,
    1264-1298). *)
Definition source_scan (s : source) : scan :=
  match s with Sample _ _ | Pivot _ | Unpivot _ => SSingle end.
Fixpoint placed (t : tree) : scan :=
  match t with
  | From s => source_scan s
  | Project i cs cols => SProject (placed i) cs cols
  | Aggregate i groups aggs cols => SAgg (placed i) groups aggs cols
  | Ordered i keys cols => SOrder (placed i) keys cols
  | Limited i n cols => SLimit (placed i) n None cols
  | Where i e => SFilter (placed i) e
  end.
(** What the query gives: None is an error. *)
Definition run (names : Z -> string) (fn : string -> list val -> val) (db : string -> list frame) (t : tree) (cols : list Z) :
    option (list (list val)) :=
  obind (query_sql names (placed t) cols) (eval_query fn db []).
