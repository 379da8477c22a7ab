(** A query with WITH: internal/formatter.go:1075-1097 (WithRefScan) and 1472-1507 (WithScan,
    WithEntry), around the queries of QueryModel, and what SQLite makes of the text.

    The WITH is that of the whole statement; a WITH inside a subquery is not modelled.  In the
    tree a reference to an entry is written as a table scan, as the text of both is the same
    but for the names of the columns read; [refs] are the references of the statement, with
    their columns. *)
From Coq Require Import Ascii String List ZArith Lia Bool.
From Verif Require Import GoBase QueryModel.
From Verif Require ScanModel.
Import ListNotations.
Local Open Scope string_scope.

(** An entry: its name, its subquery and the columns of it *)
Record wentry := WEntry { ename : string; esub : scan; edefs : list Z }.
Definition entry_named (l : list wentry) (n : string) : option wentry := find (fun e => String.eqb (ename e) n) l.
(** 1083-1095: the columns of a reference by position, with those of the entry *)
Definition ref_pairs (l : list wentry) (refs : list (string * list Z)) : list (Z * Z) :=
  flat_map (fun r => match entry_named l (fst r) with Some e => combine (snd r) (edefs e) | None => [] end) refs.
Definition source (pairs : list (Z * Z)) (c : Z) : option Z :=
  match find (fun p => (fst p =? c)%Z) pairs with Some p => Some (snd p) | None => None end.
(** The name a column is read by: 1092 in a reference, 611 in a table *)
Definition read_name (names : Z -> string) (pairs : list (Z * Z)) (c : Z) : string :=
  match source pairs c with Some d => with_id names d | None => names c end.
(** 1083-1088: the numbers of columns agree *)
Definition counts_ok (l : list wentry) (refs : list (string * list Z)) : bool :=
  forallb (fun r => Nat.eqb (length (snd r)) (match entry_named l (fst r) with Some e => length (edefs e) | None => 0 end)) refs.

(** The text: the entries and the query behind them, which is inside the FROM of 1320-1345. *)
Record wtext := WText { ctes : list (string * query); inner : query }.
Section Format.
  Variable names : Z -> string.
  Variable l : list wentry.
  Variable refs : list (string * list Z).
  Definition with_scan (s : scan) (m : cmap) : option (frag * cmap) :=
    format_scan (with_id names) (read_name names (ref_pairs l refs)) s m.
  (** 1481-1485: one entry after the other; a parenthesis in place of a SELECT is a syntax
      error. *)
  Fixpoint format_entries (es : list wentry) (m : cmap) : option (list (string * query) * cmap) :=
    match es with
    | [] => Some ([], m)
    | e :: r =>
        obind (with_scan (esub e) m) (fun p =>
        match fst p with
        | RSelect q => obind (format_entries r (snd p)) (fun t => Some ((ename e, q) :: fst t, snd t))
        | _ => None
        end)
    end.
  Definition with_sql (main : scan) (cols : list Z) : option wtext :=
    if counts_ok l refs then
      obind (format_entries l []) (fun t => obind (with_scan main (snd t)) (fun p =>
      match fst p with
      | RSelect q => Some (WText (fst t) (Select (out_items (with_id names) names cols) (FJoins (KItem q KNil)) WNone None))
      | _ => None
      end))
    else None.
End Format.

(** ** SQLite (outside /repo) *)
(** The tables a text reads *)
Fixpoint reads_expr (e : sexpr) : list string :=
  match e with
  | XCol _ | XLit _ => []
  | XCall _ a | XAgg _ a => reads_exprs a
  | XExists q | XScalar q => reads q
  end
with reads_exprs (a : sexprs) : list string :=
  match a with XNil => [] | XCons e r => (reads_expr e ++ reads_exprs r)%list end
with reads (q : query) : list string :=
  match q with
  | Select i f w _ | Sorted i f w _ | Grouped i f w _ => (reads_items i ++ reads_from f ++ reads_cond w)%list
  | Compound _ l => reads_queries l
  end
with reads_queries (l : queries) : list string := match l with QNil => [] | QCons q r => (reads q ++ reads_queries r)%list end
with reads_items (i : items) : list string :=
  match i with INil => [] | ICol _ r => reads_items r | IAs e _ r => (reads_expr e ++ reads_items r)%list end
with reads_cond (w : cond) : list string := match w with WNone => [] | WSome e => reads_expr e end
with reads_from (f : from) : list string :=
  match f with FNone => [] | FTable t => [t] | FJoins t => reads_toks t end
with reads_toks (t : jtoks) : list string :=
  match t with
  | KNil => []
  | KItem q r => (reads q ++ reads_toks r)%list
  | KGroup t r => (reads_toks t ++ reads_toks r)%list
  | KCross r | KJoin _ r => reads_toks r
  | KOn e r => (reads_expr e ++ reads_toks r)%list
  | KArr s r => (reads_arr s ++ reads_toks r)%list
  end
with reads_arr (s : arr) : list string :=
  match s with
  | Arr f a _ _ on w => (reads_from f ++ reads_expr a ++ reads_acond on ++ reads_cond w)%list
  end
with reads_acond (o : acond) : list string := match o with OComma => [] | OOn _ e => reads_expr e end.

Definition known {A} (o : option A) : bool := match o with Some _ => true | None => false end.
Definition rows_or_none (o : option (list frame)) : list frame := match o with Some l => l | None => [] end.
Section Run.
  Variable fn : string -> list val -> val.
  Variable db : string -> list frame.
  Variable l : list (string * query).
  (** A table is looked up among all the entries, without regard to case and the entry itself
      and those behind it included, and then in the database; a circle, here running out of
      [fuel], is an error. *)
  Fixpoint cte (fuel : nat) (t : string) : option (list frame) :=
    match find (fun e => same_name (fst e) t) l with
    | None => Some (db t)
    | Some (_, q) =>
        match fuel with
        | O => None
        | S k =>
            if forallb (fun t' => known (cte k t')) (reads q)
            then option_map (map (combine (query_names q))) (eval_query fn (fun t' => rows_or_none (cte k t')) [] q)
            else None
        end
    end.
  Fixpoint no_twice (ns : list string) : bool :=
    match ns with [] => true | n :: r => negb (existsb (same_name n) r) && no_twice r end.
  (** The names of the entries are written without quotes (1506). *)
  Definition run_with (q : query) : option (list (list val)) :=
    if forallb (fun e => ScanModel.plain_name (fst e)) l && no_twice (map fst l) && forallb (fun t => known (cte (length l) t)) (reads q)
    then eval_query fn (fun t => rows_or_none (cte (length l) t)) [] q
    else None.
End Run.
Definition eval_with (fn : string -> list val -> val) (db : string -> list frame) (w : wtext) : option (list (list val)) :=
  run_with fn db (ctes w) (inner w).
