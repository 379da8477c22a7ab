(** Values in tables made by CREATE TABLE ... AS SELECT: internal/spec.go:130-157 (SQLiteSchema),
    553-575 (newTableAsSelectSpec), 277-329 (column types), internal/stmt_action.go:63-90 (exec),
    internal/rows.go:68-118 (Next, assignValue), internal/encoder.go:68-91 and 356-378.

    A table made from a query has no declared types of its own in SQLite: SQLite (outside /repo)
    gives each column the affinity of its expression, so the conversions made for it differ from
    those of a table with a list of columns.  The queries are those that read one table: columns,
    expressions over the row, and a condition; an expression is a function of the cells of the
    row, or fails.  The text of queries is in QueryModel.v, the other parts of statements in
    DmlModel.v, the catalog in Catalog models; texts are not decoded here (CodecModel.v). *)
From Coq Require Import Ascii String List ZArith Lia Bool.
From Verif Require Import GoBase DecModel QueryModel DmlModel.
Import ListNotations.
Local Open Scope string_scope.

(** SQLite: the declared type of a column of CREATE TABLE AS *)
Definition created (a : affinity) : string :=
  match a with AInteger => "INT" | AText => "TEXT" | ABlob => "" | AReal => "REAL" | ANumeric => "NUM" end.

(** All or nothing: an error in one row ends the statement, and SQLite takes it back. *)
Fixpoint each {A B} (f : A -> option B) (l : list A) : option (list B) :=
  match l with [] => Some [] | x :: r => obind (f x) (fun y => obind (each f r) (fun ys => Some (y :: ys))) end.
(** The rows a condition keeps; it may fail. *)
Fixpoint which {A} (w : A -> option bool) (l : list A) : option (list A) :=
  match l with [] => Some [] | x :: r => obind (w x) (fun b => obind (which w r) (fun ys => Some (if b then x :: ys else ys))) end.
Fixpoint put {A} (i : nat) (x : A) (l : list A) : list A :=
  match l, i with [], _ => [] | _ :: r, O => x :: r | y :: r, S j => y :: put j x r end.

Section Ctas.
  Variable float : Type.
  Variable whole : float -> option Z.
  Variable trunc : float -> Z.
  Variable of_int : Z -> float.
  Variable number_text : (Z + float) -> string.
  Variable text_number : string -> option (Z + float).
  Notation cell := (cell float).
  Notation go := (go float).
  Notation store := (store float whole of_int number_text text_number).

  (** The type the analyzer knows (spec.go:568) and the type SQLite has, for each column *)
  Record tab := Tab { t_types : list (kind * string); t_rows : list (list cell) }.
  Definition base := list (string * tab).
  Definition find_tab (b : base) (n : string) : option tab := option_map snd (find (fun e => same_name (fst e) n) b).
  Definition without (b : base) (n : string) : base := filter (fun e => negb (same_name (fst e) n)) b.
  Fixpoint change (b : base) (n : string) (t : tab) : base :=
    match b with [] => [] | e :: r => if same_name (fst e) n then (fst e, t) :: r else e :: change r n t end.

  (** go-sqlite3 (outside /repo): a cell as a registered function receives it.  There is no
      declared type here: a BOOL is an integer. *)
  Definition seen (c : cell) : go :=
    match c with CNull _ => GNil _ | CInt _ z => GInt _ z | CReal _ f => GFloat _ f | CText _ s => GText _ s end.
  (** A column of the query: a column of the table, or an expression with its type *)
  Inductive item := ICol (i : nat) | IExpr (k : kind) (f : list go -> option go).
  Definition item_type (l : list (kind * string)) (i : item) : option (kind * string) :=
    match i with ICol i => option_map (fun p => (fst p, created (affinity_of (snd p)))) (nth_error l i) | IExpr k _ => Some (k, created ABlob) end.
  Definition item_cell (r : list cell) (i : item) : option cell :=
    match i with ICol i => nth_error r i | IExpr _ f => option_map (given float) (f (map seen r)) end.
  (** SQLite converts each cell for the declared type of its column. *)
  Fixpoint store_row (l : list (kind * string)) (r : list cell) : list cell :=
    match l, r with p :: l', c :: r' => store (affinity_of (snd p)) c :: store_row l' r' | _, _ => [] end.
  Definition select (t : tab) (items : list item) (w : list go -> option bool) : option (list (list cell)) :=
    obind (which (fun r => w (map seen r)) (t_rows t)) (fun rs => each (fun r => each (item_cell r) items) rs).

  Inductive stmt :=
  | SCreate (n : string) (l : list kind)                                     (* CREATE TABLE n (...) *)
  | SAs (n src : string) (items : list item) (w : list go -> option bool)     (* CREATE TABLE n AS SELECT ... FROM src WHERE w *)
  | SInsert (n : string) (rows : list (list go))                              (* INSERT ... VALUES *)
  | SFrom (n src : string) (items : list item) (w : list go -> option bool)   (* INSERT ... SELECT *)
  | SUpdate (n : string) (i : nat) (f : list go -> option go) (w : list go -> option bool)
  | SDelete (n : string) (w : list go -> option bool)
  | SDrop (n : string).
  (** spec.go:130-157 for the tables; the statements of DmlModel.v for the rest.  [None]: the
      statement fails and nothing is changed. *)
  Definition exec (b : base) (s : stmt) : option base :=
    match s with
    | SCreate n l =>
        match find_tab b n with Some _ => None | None => Some (b ++ [(n, Tab (map (fun k => (k, decl k)) l) [])])%list end
    | SAs n src items w =>
        match find_tab b n with Some _ => None | None =>
          obind (find_tab b src) (fun t =>
          obind (each (item_type (t_types t)) items) (fun ty =>
          obind (select t items w) (fun rows => Some (b ++ [(n, Tab ty (map (store_row ty) rows))])%list)))
        end
    | SInsert n rows =>
        obind (find_tab b n) (fun t =>
        Some (change b n (Tab (t_types t) (t_rows t ++ map (fun r => store_row (t_types t) (map (given float) r)) rows)%list)))
    | SFrom n src items w =>
        obind (find_tab b n) (fun t =>
        obind (find_tab b src) (fun t' =>
        obind (select t' items w) (fun rows =>
        Some (change b n (Tab (t_types t) (t_rows t ++ map (store_row (t_types t)) rows)%list)))))
    | SUpdate n i f w =>
        obind (find_tab b n) (fun t =>
        obind (each (fun r => obind (w (map seen r)) (fun y =>
                 if y then obind (f (map seen r)) (fun g => Some (store_row (t_types t) (put i (given float g) r))) else Some r)) (t_rows t))
          (fun rows => Some (change b n (Tab (t_types t) rows))))
    | SDelete n w =>
        obind (find_tab b n) (fun t =>
        obind (which (fun r => option_map negb (w (map seen r))) (t_rows t)) (fun rows => Some (change b n (Tab (t_types t) rows))))
    | SDrop n => match find_tab b n with Some _ => Some (without b n) | None => None end
    end.
  Definition exec_all (b : base) (l : list stmt) : base :=
    fold_left (fun b s => match exec b s with Some b' => b' | None => b end) l b.
  (** stmt_action.go:63-74: CREATE OR REPLACE TABLE n AS SELECT drops the table in a statement of
      its own, then runs the query.  No transaction is around the two (internal/conn.go:64-69).
      The flag says whether there is no error. *)
  Definition replace_as (b : base) (n src : string) (items : list item) (w : list go -> option bool) : base * bool :=
    let b1 := without b n in
    match exec b1 (SAs n src items w) with Some b2 => (b2, true) | None => (b1, false) end.

  (** encoder.go:356-378 with value.go:132-145, 574-576, 590-598 and 840-864, after go-sqlite3 has
      looked at the declared type.  Texts are left as they are; a number in a column of a type
      that is written as text is not modelled. *)
  Definition cast (k : kind) (g : go) : option go :=
    match k, g with
    | _, GNil _ => Some (GNil _)
    | (KInt32 | KInt64 | KUint32 | KUint64), GInt _ z => Some g
    | (KInt32 | KInt64 | KUint32 | KUint64), GFloat _ f => Some (GInt _ (trunc f))
    | (KInt32 | KInt64 | KUint32 | KUint64), GBool _ y => Some (GInt _ (if y then 1 else 0)%Z)
    | KBool, GBool _ _ => Some g
    | KBool, GInt _ z => if (z =? 0)%Z then Some (GBool _ false) else if (z =? 1)%Z then Some (GBool _ true) else None
    | (KFloat | KDouble), GFloat _ _ => Some g
    | (KFloat | KDouble), GInt _ z => Some (GFloat _ (of_int z))
    | (KFloat | KDouble), GBool _ y => Some (GFloat _ (of_int (if y then 1 else 0)%Z))
    | (KInt32 | KInt64 | KUint32 | KUint64 | KEnum | KBool | KFloat | KDouble), _ => None
    | _, GText _ _ => Some g
    | _, _ => None
    end.
  Fixpoint show_row (l : list (kind * string)) (r : list cell) : list (option go) :=
    match l, r with p :: l', c :: r' => cast (fst p) (fetch float (snd p) c) :: show_row l' r' | _, _ => [] end.
  (** rows.go:68-118: SELECT * FROM n *)
  Definition show (b : base) (n : string) : option (list (list (option go))) :=
    option_map (fun t => map (show_row (t_types t)) (t_rows t)) (find_tab b n).
End Ctas.
