(** What set operations, ORDER BY, LIMIT, grouping sets, UNNEST, IN and WITH should give,
    independent of the SQL text they become. *)
From Coq Require Import Ascii String List ZArith QArith Lia Bool SpecFloat.
From Verif Require Import GoBase CalendarModel InstantModel ValueModel CodecModel CodecSpec CompareSpec PartModel GroupSpec ScanModel.
Import ListNotations.
Open Scope Z_scope.

(** ** Rows of one type *)
(** A value of a column of type t that is not NaN. *)
Definition plain_value (t : ty) (v : val) : Prop :=
  match t, v with
  | TInt, VInt _ | TNum, VNum _ | TBool, VBool _ | TBytes, VBytes _ => True
  | TStr, VStr s => text_ok s
  | TFloat, VFloat f => real_float f
  | TDate, VDate x => x mod 86400000000000 = 0 /\ 0 <= year (x / 86400000000000) <= 9999
  | TDatetime, VDatetime x => x mod 1000 = 0 /\ 0 <= year (x / 86400000000000) <= 9999
  | TTime, VTime x => x mod 1000 = 0 /\ x / 86400000000000 = godate 0 1 1
  | TTimestamp, VTimestamp x => x mod 1000 = 0
  | _, _ => False
  end.
Definition plain (t : ty) (o : cell) : Prop := match o with Some v => plain_value t v | None => True end.
Definition plain_row (ts : list ty) (r : list cell) : Prop := Forall2 plain ts r.
Definition equal_rows (a b : list cell) : Prop := Forall2 equal_keys a b.
Definition holds (r : list cell) (l : list (list cell)) : Prop := exists r', In r' l /\ equal_rows r r'.

(** ** Set operations *)
(** The value of column n: that of the first column with the name. *)
Definition reads (f : frame) (n : string) (v : cell) : Prop :=
  exists pre m post, f = (pre ++ (m, v) :: post)%list /\ lower m = lower n /\ Forall (fun p => lower (fst p) <> lower n) pre.
Definition item_gives (i : set_item) (rs : list (list cell)) : Prop :=
  Forall2 (fun f r => Forall2 (reads f) (outs i) r) (input i) rs.
Definition distinct_names (ns : list string) : Prop := NoDup (map lower ns).
(** Which rows a set operation with DISTINCT has. *)
Definition belongs (op : setop) (r : list cell) (rss : list (list (list cell))) : Prop :=
  match op, rss with
  | UnionDistinct, _ => Exists (holds r) rss
  | IntersectDistinct, _ => Forall (holds r) rss
  | ExceptDistinct, a :: rest => holds r a /\ Forall (fun rs => ~ holds r rs) rest
  | _, _ => False
  end.

(** ** ORDER BY *)
Definition less (a b : val) : Prop :=
  match a, b with VBool x, VBool y => x = false /\ y = true | _, _ => before a b end.
Definition nulls_first (i : order_item) : bool :=
  match nulls i with NullsFirst => true | NullsLast => false | NullsDefault => negb (desc i) end.
Definition cell_before (i : order_item) (a b : cell) : Prop :=
  match a, b with
  | None, None => False
  | None, Some _ => nulls_first i = true
  | Some _, None => nulls_first i = false
  | Some x, Some y => if desc i then less y x else less x y
  end.
Inductive row_before : list order_item -> list cell -> list cell -> Prop :=
| rb_here : forall i l r s, cell_before i (nth (col i) r None) (nth (col i) s None) -> row_before (i :: l) r s
| rb_next : forall i l r s, equal_keys (nth (col i) r None) (nth (col i) s None) -> row_before l r s -> row_before (i :: l) r s.

(** ** Grouping *)
(** The groups of the rows by the columns s: each the rows, in order, with the keys of its
    first; every row in one of them; no two with the same keys. *)
Definition same_keys (s : list nat) (a b : list cell) : Prop := Forall (fun k => equal_keys (nth k a None) (nth k b None)) s.
Definition group_of (s : list nat) (rows g : list (list cell)) : Prop :=
  exists h t f, g = h :: t /\ g = filter f rows /\ forall r, In r rows -> (f r = true <-> same_keys s r h).
Definition grouped (s : list nat) (rows : list (list cell)) (gs : list (list (list cell))) : Prop :=
  Forall (group_of s rows) gs /\
  (forall r, In r rows -> exists g, In g gs /\ In r g) /\
  ForallOrdPairs (fun g g' => forall r r', In r g -> In r' g' -> ~ same_keys s r r') gs.
(** The row of a group: its keys, NULL for the other keys, and the aggregates. *)
Definition shows (agg : nat -> list (list cell) -> cell) (s : list nat) (g : list (list cell)) (c : out_col) (v : cell) : Prop :=
  match c with
  | OKey k => (In k s -> exists r, In r g /\ v = nth k r None) /\ (~ In k s -> v = None)
  | OAgg a => v = agg a g
  end.
(** The rows of one grouping set: one per group; for the empty set one in any case. *)
Definition set_rows (agg : nat -> list (list cell) -> cell) (cols : list out_col) (rows : list (list cell)) (s : list nat) (out : list (list cell)) : Prop :=
  exists gs, Forall2 (fun g r => Forall2 (shows agg s g) cols r) gs out /\
  match s with [] => gs = [rows] | _ => grouped s rows gs end.
Definition key_type (t : ty) : Prop :=
  match t with TInt | TStr | TBool | TNum | TDate | TDatetime | TTime => True | _ => False end.

(** ** UNNEST *)
(** An element and what UNNEST gives for it: a BOOL is 0 or 1 and a whole FLOAT64 the same
    INT64, as everywhere a value comes out of SQLite. *)
Definition unnested (a b : cell) : Prop :=
  match a, b with
  | None, None => True
  | Some (VBool x), Some (VInt z) => z = (if x then 1 else 0)
  | Some (VFloat f), Some (VInt z) => float_is f z
  | Some (VFloat f), Some (VFloat g) => f = g
  | Some (VInt x), Some (VInt y) => x = y
  | Some (VTime x), Some (VTime y) => clock x = clock y /\ nanosecond x = nanosecond y
  | Some x, Some y => alike x y
  | _, _ => False
  end.
Definition small_float (f : float) : Prop := forall z, float_is f z -> Z.abs z < 2 ^ 53.
Definition element (o : cell) : Prop :=
  match o with
  | None | Some (VBool _) | Some (VBytes _) | Some (VNum _) => True
  | Some (VInt z) => Z.abs z < 2 ^ 53
  | Some (VFloat f) => finite f = true /\ small_float f
  | Some (VStr s) => text_ok s
  | Some (VDate t) => t mod 86400000000000 = 0 /\ 0 <= year (t / 86400000000000) <= 9999
  | Some (VDatetime t) => t mod 1000 = 0 /\ 0 <= year (t / 86400000000000) <= 9999
  | Some (VTime t) => t mod 1000 = 0
  | Some (VTimestamp t) => t mod 1000 = 0 /\ - 2 ^ 63 <= t / 1000 < 2 ^ 63
  | _ => False
  end.

(** ** WITH *)
(** The entries one after the other, each over the database and the entries before it. *)
Definition set_table (db : string -> rows) (n : string) (r : rows) : string -> rows :=
  fun m => if String.eqb (lower m) (lower n) then r else db m.
Fixpoint with_means (db : string -> rows) (l : list with_entry) (main : with_entry) : rows :=
  match l with
  | [] => body main (map db (uses main))
  | e :: r => with_means (set_table db (wname e) (body e (map db (uses e)))) r main
  end.
(** No entry reads a table called as itself or a later entry is. *)
Fixpoint reads_back (l : list with_entry) : Prop :=
  match l with
  | [] => True
  | e :: r => Forall (fun u => ~ In (lower u) (map (fun e => lower (wname e)) (e :: r))) (uses e) /\ reads_back r
  end.
