(** Scans of internal/formatter.go beyond QueryModel: set operations (904-967), ORDER BY
    (969-1022), LIMIT and OFFSET (1024-1073), GROUP BY with grouping sets (769-891), UNNEST
    (667-726), IN over a subquery (549-579), WITH (1075-1097, 1472-1507).

    Each is taken by itself: the rows of the scans below it are given, their columns having the
    names the formatter gives them.  What SQLite (outside /repo) does with the text is written
    out beside it. *)
From Coq Require Import Ascii String List ZArith QArith Lia Bool SpecFloat.
From Verif Require Import GoBase CalendarModel InstantModel DecModel ValueModel CodecModel PartModel GroupModel.
Import ListNotations.
Local Open Scope string_scope.
Open Scope Z_scope.

Definition cell := option val.
Definition frame := list (string * cell).
(** A name is looked up without regard to the case of ASCII letters, the first column that has
    it being taken within one subquery. *)
Definition same_name (a b : string) : bool := String.eqb (lower a) (lower b).
Definition read_col (f : frame) (n : string) : option cell :=
  match find (fun p => same_name (fst p) n) f with Some p => Some (snd p) | None => None end.
Fixpoint read_cols (f : frame) (ns : list string) : option (list cell) :=
  match ns with
  | [] => Some []
  | n :: r => match read_col f n, read_cols f r with Some v, Some vs => Some (v :: vs) | _, _ => None end
  end.
Fixpoint all_some {A B} (g : A -> option B) (l : list A) : option (list B) :=
  match l with [] => Some [] | x :: r => match g x, all_some g r with Some y, Some ys => Some (y :: ys) | _, _ => None end end.

(** ** Values as the engine compares them, without the collation *)
(** EncodeValue and what the driver hands over.  Integers and floats do not meet, as a column
    has one type; layouts are texts and compared as such. *)
Definition stored (o : cell) : res enc := bind (encode_opt o) (fun e => Ok (through_engine e)).
Definition header_eqb (a b : header) : bool :=
  match a, b with
  | HString, HString | HBytes, HBytes | HNumeric, HNumeric | HDate, HDate | HDatetime, HDatetime
  | HTime, HTime | HTimestamp, HTimestamp | HJson, HJson => true
  | _, _ => false
  end.
Definition same_stored (a b : enc) : bool :=
  match a, b with
  | ENull, ENull => true
  | EInt x, EInt y => x =? y
  | EFloat x, EFloat y => match SFcompare x y with Some Eq => true | _ => false end
  | EText h x, EText k y => header_eqb h k && String.eqb x y
  | _, _ => false
  end.
(** Arrays and structs are not compared: ZetaSQL refuses them here. *)
Definition same_cell (a b : cell) : bool :=
  match stored a, stored b with Ok x, Ok y => same_stored x y | _, _ => false end.
Fixpoint same_row (a b : list cell) : bool :=
  match a, b with [], [] => true | x :: a', y :: b' => same_cell x y && same_row a' b' | _, _ => false end.
Definition in_rows (r : list cell) (l : list (list cell)) : bool := existsb (same_row r) l.
Fixpoint distinct_rows (l : list (list cell)) : list (list cell) :=
  match l with [] => [] | r :: l' => r :: filter (fun x => negb (same_row r x)) (distinct_rows l') end.

(** ** Set operations: formatter.go:904-967 *)
Inductive setop := UnionAll | UnionDistinct | IntersectAll | IntersectDistinct | ExceptAll | ExceptDistinct.
Record set_item := Item { outs : list string; input : list frame }.
(** 926-948: SELECT `out`, ... FROM (input) *)
Definition item_rows (i : set_item) : option (list (list cell)) := all_some (fun f => read_cols f (outs i)) (input i).
(** SQLite's compound SELECT; it knows neither INTERSECT ALL nor EXCEPT ALL. *)
Definition compound (op : setop) (a b : list (list cell)) : option (list (list cell)) :=
  match op with
  | UnionAll => Some (a ++ b)%list
  | UnionDistinct => Some (distinct_rows (a ++ b)%list)
  | IntersectDistinct => Some (distinct_rows (filter (fun r => in_rows r b) a))
  | ExceptDistinct => Some (distinct_rows (filter (fun r => negb (in_rows r b)) a))
  | IntersectAll | ExceptAll => None
  end.
Fixpoint compounds (op : setop) (acc : list (list cell)) (l : list set_item) : option (list (list cell)) :=
  match l with
  | [] => Some acc
  | i :: r => match item_rows i with Some b => match compound op acc b with Some c => compounds op c r | None => None end | None => None end
  end.
(** 949-966: SELECT `first out` AS `column`, ... FROM (compound): the columns of a compound
    have the names of its first SELECT. *)
Definition set_scan (op : setop) (items : list set_item) : option (list (list cell)) :=
  match items with
  | [] => None
  | i :: r =>
      match item_rows i with
      | Some a => match compounds op a r with Some rows => all_some (fun row => read_cols (combine (outs i) row) (outs i)) rows | None => None end
      | None => None
      end
  end.

(** ** ORDER BY: formatter.go:991-1011 *)
Inductive null_order := NullsDefault | NullsFirst | NullsLast.
Record order_item := Order { col : nat; desc : bool; nulls : null_order }.
(** 994-1010: (`c` IS NOT NULL), (`c` IS NULL), `c` COLLATE zetasqlite_collate [DESC] *)
Inductive term := IsNotNull (c : nat) | IsNull (c : nat) | Value (c : nat) (d : bool).
Definition terms_of (i : order_item) : list term :=
  (match nulls i with NullsDefault => [] | NullsFirst => [IsNotNull (col i)] | NullsLast => [IsNull (col i)] end ++
   [Value (col i) (desc i)])%list.
(** How SQLite orders two values: NULL first, then numbers by value, then texts by the
    collation, whose arguments decode to the values stored (C26); NaN is stored as NULL. *)
Definition sign (c : comparison) : Z := match c with Lt => -1 | Eq => 0 | Gt => 1 end.
Definition engine_null (o : cell) : bool := match o with None => true | Some (VFloat f) => is_nan f | _ => false end.
Definition engine_cmp (a b : cell) : Z :=
  match engine_null a, engine_null b with
  | true, true => 0
  | true, false => -1
  | false, true => 1
  | false, false =>
      match a, b with
      | Some (VInt x), Some (VInt y) => sign (x ?= y)
      | Some (VBool x), Some (VBool y) => sign ((if x then 1 else 0) ?= (if y then 1 else 0))
      | Some (VFloat x), Some (VFloat y) => match SFcompare x y with Some c => sign c | None => 0 end
      | Some x, Some y => collate x y
      | _, _ => 0
      end
  end.
Definition at_col (r : list cell) (c : nat) : cell := nth c r None.
Definition bool_cmp (a b : bool) : Z := sign ((if a then 1 else 0) ?= (if b then 1 else 0)).
Definition term_cmp (t : term) (r s : list cell) : Z :=
  match t with
  | IsNotNull c => bool_cmp (negb (engine_null (at_col r c))) (negb (engine_null (at_col s c)))
  | IsNull c => bool_cmp (engine_null (at_col r c)) (engine_null (at_col s c))
  | Value c d => let z := engine_cmp (at_col r c) (at_col s c) in if d then - z else z
  end.
Fixpoint terms_cmp (l : list term) (r s : list cell) : Z :=
  match l with [] => 0 | t :: l' => let z := term_cmp t r s in if z =? 0 then terms_cmp l' r s else z end.
(** The engine may put the rows in this order *)
Definition order_cmp (l : list order_item) : list cell -> list cell -> Z := terms_cmp (flat_map terms_of l).

(** ** LIMIT and OFFSET: formatter.go:1050-1072.  SQLite takes a negative LIMIT as none and a negative OFFSET
    as 0; a NULL is an error. *)
Definition limit_scan {A} (n : cell) (m : cell) (rows : list A) : option (list A) :=
  match n, m with
  | Some (VInt n), Some (VInt m) =>
      let rest := skipn (Z.to_nat m) rows in Some (if n <? 0 then rest else firstn (Z.to_nat n) rest)
  | _, _ => None
  end.

(** ** GROUP BY: formatter.go:769-891.  The output columns are keys or aggregates.  The ORDER BY
    of 857-868 over the grouping sets is left out: no order is claimed. *)
Inductive out_col := OKey (k : nat) | OAgg (a : nat).
Section Group.
  Variable l : loc.
  (** The keys of a row, and the aggregates of a group *)
  Variable agg : nat -> list (list cell) -> cell.
  (** SELECT ... GROUP BY zetasqlite_group_by(`k`), ...: the groups in the order of their first
      rows; the value of a bare column is that of some row of the group, here the first. *)
  Definition keys_at (s : list nat) (r : list cell) : list cell := map (at_col r) s.
  Fixpoint put (s : list nat) (r : list cell) (gs : list (list (list cell))) : res (list (list (list cell))) :=
    match gs with
    | [] => Ok [[r]]
    | [] :: _ => Err
    | (h :: t) :: gs' =>
        bind (together l (keys_at s r) (keys_at s h)) (fun b =>
        if b : bool then Ok ((h :: t ++ [r])%list :: gs') else bind (put s r gs') (fun g => Ok ((h :: t) :: g)))
    end.
  Fixpoint groups (s : list nat) (acc : list (list (list cell))) (rows : list (list cell)) : res (list (list (list cell))) :=
    match rows with [] => Ok acc | r :: rows' => bind (put s r acc) (fun g => groups s g rows') end.
  (** 817-830: a key column outside the grouping set becomes NULL *)
  Definition out_cell (s : list nat) (g : list (list cell)) (c : out_col) : cell :=
    match c with
    | OKey k => if existsb (Nat.eqb k) s then at_col (hd [] g) k else None
    | OAgg a => agg a g
    end.
  Definition one_set (cols : list out_col) (rows : list (list cell)) (s : list nat) : res (list (list cell)) :=
    match s with
    | [] => Ok [map (out_cell [] rows) cols]          (* no GROUP BY: one row, always *)
    | _ => bind (groups s [] rows) (fun gs => Ok (map (fun g => map (out_cell s g) cols) gs))
    end.
  (** 841-868: UNION ALL over the sets; without grouping sets (870-889) the keys are the one set *)
  Fixpoint group_scan (cols : list out_col) (rows : list (list cell)) (sets : list (list nat)) : res (list (list cell)) :=
    match sets with
    | [] => Ok []
    | s :: r => bind (one_set cols rows s) (fun a => bind (group_scan cols rows r) (fun b => Ok (a ++ b)%list))
    end.
End Group.

(** ** UNNEST: formatter.go:667-726 with function_register.go:416-443 zetasqlite_decode_array;
    without an input scan. *)
(** The integer a float is *)
Definition integral (f : float) : option Z :=
  match f with
  | S754_zero _ => Some 0
  | S754_finite s m e =>
      let n := if 0 <=? e then Some (Zpos m * 2 ^ e) else if Zpos m mod 2 ^ (- e) =? 0 then Some (Zpos m / 2 ^ (- e)) else None in
      match n with Some n => Some (if s then - n else n) | None => None end
  | _ => None
  end.
Section Unnest.
  (** What becomes of an integral float of 2^53 or more: the shortest digits that read back as
      it are written, and json_each reads an integer if there is no exponent and it fits. *)
  Variable big : float -> enc.
  (** json.Marshal of the elements (436), and json_each.value (SQLite): a number without point
      or exponent is an integer, true and false are 1 and 0, a string is the text. *)
  Definition json_value (e : enc) : res enc :=
    match e with
    | EFloat f => if finite f then Ok (match integral f with Some z => if Z.abs z <? 2 ^ 53 then EInt z else big f | None => EFloat f end) else Err
    | EBool b => Ok (EInt (if b then 1 else 0))
    | _ => Ok e
    end.
  (** 428-435 *)
  Fixpoint each (l : list cell) : res (list enc) :=
    match l with
    | [] => Ok []
    | o :: r => bind (encode_opt o) (fun e => bind (json_value e) (fun e => bind (each r) (fun es => Ok (e :: es))))
    end.
  (** 417-427: the argument has been stored and read back; NULL gives [] *)
  Definition decode_array (a : cell) : res (list enc) :=
    bind (round_trip a) (fun o => match o with None => Ok [] | Some (VArray l) => each l | Some _ => Err end).
  Fixpoint decode_all (l : list enc) : res (list cell) :=
    match l with [] => Ok [] | e :: r => bind (decode_value e) (fun v => bind (decode_all r) (fun vs => Ok (v :: vs))) end.
  (** The element and the offset (json_each.key), as functions on the rows see them *)
  Definition unnest (a : cell) : res (list (cell * cell)) :=
    bind (decode_array a) (fun es => bind (decode_all es) (fun vs =>
    Ok (combine vs (map (fun i => Some (VInt (Z.of_nat i))) (seq 0 (List.length vs)))))).
End Unnest.

(** ** x IN (subquery): formatter.go:570-575, SQLite's own IN *)
Definition in_subquery (x : cell) (rows : list cell) : cell :=
  match rows with
  | [] => Some (VInt 0)
  | _ => if engine_null x then None
         else if existsb (fun y => negb (engine_null y) && same_cell x y) rows then Some (VInt 1)
         else if existsb engine_null rows then None else Some (VInt 0)
  end.
(** ** WITH name AS ( ... ): formatter.go:1472-1507.  The name is written without quotes (1506). *)
Definition letter_or_underscore (c : ascii) : bool :=
  let n := nat_of_ascii c in
  ((65 <=? n) && (n <=? 90) || (97 <=? n) && (n <=? 122) || (n =? 95) || (128 <=? n))%nat%bool.
Definition id_char (c : ascii) : bool :=
  let n := nat_of_ascii c in letter_or_underscore c || ((48 <=? n) && (n <=? 57) || (n =? 36))%nat%bool.
Fixpoint all_chars (f : ascii -> bool) (s : string) : bool := match s with EmptyString => true | String c r => f c && all_chars f r end.
(** SQLite's words that are never names (those without a fallback in its grammar) *)
Definition reserved_words : list string :=
  ["add"; "all"; "alter"; "and"; "as"; "autoincrement"; "between"; "case"; "check"; "collate"; "commit";
   "constraint"; "create"; "default"; "deferrable"; "delete"; "distinct"; "drop"; "else"; "escape"; "exists";
   "foreign"; "from"; "group"; "having"; "in"; "index"; "insert"; "intersect"; "into"; "is"; "isnull";
   "join"; "limit"; "not"; "nothing"; "notnull"; "null"; "on"; "or"; "order"; "primary"; "references";
   "returning"; "select"; "set"; "table"; "then"; "to"; "transaction"; "union"; "unique"; "update";
   "using"; "values"; "when"; "where"].
Definition plain_name (s : string) : bool :=
  match s with
  | EmptyString => false
  | String c r => letter_or_underscore c && all_chars id_char r && negb (existsb (String.eqb (lower s)) reserved_words)
  end.
(** An entry: its name, the tables its text reads, and its rows from theirs.  SQLite looks a
    table up among all the entries of the WITH, those after it and the entry itself included,
    and then in the database (1096 and the table scans write the name only).  A circle is an
    error; that a compound SELECT may refer to itself is left out. *)
Definition rows := list (list cell).
Record with_entry := Entry { wname : string; uses : list string; body : list rows -> rows }.
Definition entry_of (n : string) (l : list with_entry) : option with_entry := find (fun e => same_name (wname e) n) l.
Fixpoint table_rows (fuel : nat) (db : string -> rows) (l : list with_entry) (n : string) : option rows :=
  match entry_of n l with
  | None => Some (db n)
  | Some e => match fuel with O => None | S k => option_map (body e) (all_some (table_rows k db l) (uses e)) end
  end.
Definition with_scan (db : string -> rows) (l : list with_entry) (main : with_entry) : option rows :=
  if forallb (fun e => plain_name (wname e)) l
  then option_map (body main) (all_some (table_rows (List.length l) db l) (uses main)) else None.
