(** Tables and what changes their rows: CREATE TABLE as SQLite sees it (internal/spec.go:130-157
    TableSpec.SQLiteSchema, 270-327 ColumnSpec.SQLiteSchema, 486-514 newColumnsFromDef and
    newPrimaryKey), INSERT, UPDATE and DELETE (internal/formatter.go:1545-1682), over the
    expressions and queries of QueryModel.

    Not modelled: names with a backquote in them; nested updates of arrays; MERGE (MergeModel). *)
From Coq Require Import Ascii String List ZArith Lia Bool.
From Verif Require Import GoBase DecModel QueryModel.
Import ListNotations.
Local Open Scope string_scope.

(** ** Definitions of tables *)
Inductive kind := KInt32 | KInt64 | KUint32 | KUint64 | KEnum | KBool | KFloat | KDouble | KBytes | KJson | KString | KDate | KTimestamp
  | KArray | KStruct | KProto | KTime | KDatetime | KGeography | KNumeric | KBigNumeric | KExtended | KInterval.
(** A column of CREATE TABLE; [c_param] is L of STRING(L), which spec.go:490-495 leaves aside. *)
Record column := Column { c_name : string; c_kind : kind; c_notnull : bool; c_param : option Z }.
Record tdef := Tdef { d_cols : list column; d_key : list string; d_query : option query }.

(** spec.go:270-322 *)
Definition decl (k : kind) : string :=
  match k with
  | KInt32 | KInt64 | KUint32 | KUint64 => "INT"
  | KEnum => "INT"
  | KBool => "BOOLEAN"
  | KFloat => "FLOAT"
  | KBytes => "BLOB"
  | KDouble => "DOUBLE"
  | KJson => "JSON"
  | KString | KDate | KTimestamp | KArray | KStruct | KProto | KTime | KDatetime | KGeography | KNumeric | KBigNumeric | KExtended | KInterval => "TEXT"
  end.
(** The text of CREATE TABLE: columns with their names in backquotes, types and NOT NULL; the
    columns of the key without quotes. *)
Inductive ddl :=
| DCols (cols : list (string * string * bool)) (key : list string)
| DAs (q : query).
(** spec.go:130-157; with a query, columns and key are not looked at. *)
Definition create_sql (d : tdef) : ddl :=
  match d_query d with
  | Some q => DAs q
  | None => DCols (map (fun c => (c_name c, decl (c_kind c), c_notnull c)) (d_cols d)) (d_key d)
  end.

(** ** INSERT and UPDATE *)
Inductive dml_value := DExpr (e : expr) | DDefault.
(** formatter.go:1545-1554; the text of DEFAULT is empty: None *)
Definition format_value (names : Z -> string) (v : dml_value) (m : cmap) : option (option sexpr * cmap) :=
  match v with
  | DExpr e => obind (format_expr names names e m) (fun p => Some (Some (fst p), snd p))
  | DDefault => Some (None, m)
  end.
Fixpoint format_row (names : Z -> string) (l : list dml_value) (m : cmap) : option (list (option sexpr) * cmap) :=
  match l with                                      (* formatter.go:1564-1577 *)
  | [] => Some ([], m)
  | v :: r => obind (format_value names v m) (fun p => obind (format_row names r (snd p)) (fun q => Some (fst p :: fst q, snd q)))
  end.
Fixpoint format_rows (names : Z -> string) (l : list (list dml_value)) (m : cmap) : option (list (list (option sexpr)) * cmap) :=
  match l with                                      (* formatter.go:1602-1609 *)
  | [] => Some ([], m)
  | v :: r => obind (format_row names v m) (fun p => obind (format_rows names r (snd p)) (fun q => Some (fst p :: fst q, snd q)))
  end.
Inductive insert_mode := OrError | OrIgnore | OrReplace | OrUpdate.
(** The rows: VALUES, or a query, whose output columns are those of its scan *)
Inductive source := Values (l : list (list dml_value)) | From (s : scan).
(** The columns listed; [i_assert] is ASSERT_ROWS_MODIFIED. *)
Record insert := Insert { i_mode : insert_mode; i_cols : list Z; i_source : source; i_assert : option nat }.
Inductive insert_text := IValues (cols : list string) (rows : list (list (option sexpr))) | ISelect (cols : list string) (q : query).
(** formatter.go:1579-1616.  The mode and ASSERT_ROWS_MODIFIED are not looked at.  None: the
    text is no statement, for a query must begin with SELECT. *)
Definition insert_sql (names : Z -> string) (i : insert) : option insert_text :=
  let cols := map names (i_cols i) in
  match i_source i with
  | From s =>
      obind (format_scan (with_id names) names s []) (fun p =>
      match fst p with RSelect q => Some (ISelect cols q) | _ => None end)
  | Values l => obind (format_rows names l []) (fun p => Some (IValues cols (fst p)))
  end.

(** What UPDATE sets: a column or a field of one *)
Inductive target := ToCol (c : Z) | ToField (c : Z) (i : nat).
Record update := Update { u_items : list (target * dml_value); u_where : expr; u_assert : option nat }.
Inductive dml := MInsert (t : insert_text) | MUpdate (l : list (string * sexpr)) (w : sexpr) | MDelete (w : sexpr).
Definition plain_item (p : target * dml_value) : option (Z * expr) :=
  match p with (ToCol c, DExpr e) => Some (c, e) | _ => None end.
(** formatter.go:1637-1682: the item of a field begins with a call and that of DEFAULT ends with
    the equals sign; neither is a statement. *)
Definition update_stmt (names : Z -> string) (u : update) : option dml :=
  obind (omap plain_item (u_items u)) (fun l =>
  obind (update_sql names l None (u_where u)) (fun p => Some (MUpdate (fst p) (snd p)))).
(** formatter.go:1618-1635 *)
Definition delete_stmt (names : Z -> string) (w : expr) : option dml :=
  obind (delete_sql names w) (fun x => Some (MDelete x)).
Definition insert_stmt (names : Z -> string) (i : insert) : option dml :=
  obind (insert_sql names i) (fun x => Some (MInsert x)).

(** ** SQLite (outside /repo): a name without quotes is an identifier that is not one of its
    reserved words.  What is no identifier is taken as refused here. *)
Definition reserved : list string :=
  ["add"; "all"; "alter"; "and"; "as"; "autoincrement"; "between"; "case"; "check"; "collate"; "commit"; "constraint"; "create";
   "default"; "deferrable"; "delete"; "distinct"; "drop"; "else"; "escape"; "except"; "exists"; "foreign"; "from"; "group"; "having";
   "in"; "index"; "insert"; "intersect"; "into"; "is"; "isnull"; "join"; "limit"; "not"; "notnull"; "null"; "on"; "or"; "order";
   "primary"; "references"; "returning"; "select"; "set"; "table"; "then"; "to"; "transaction"; "union"; "unique"; "update"; "using";
   "values"; "when"; "where"].
Definition letter (c : ascii) : bool :=
  let n := nat_of_ascii c in ((65 <=? n) && (n <=? 90) || (97 <=? n) && (n <=? 122) || (n =? 95) || (128 <=? n))%nat.
Definition digit (c : ascii) : bool := let n := nat_of_ascii c in ((48 <=? n) && (n <=? 57))%nat.
Fixpoint all_chars (f : ascii -> bool) (s : string) : bool := match s with EmptyString => true | String c r => f c && all_chars f r end.
Definition identifier (s : string) : bool :=
  match s with EmptyString => false | String c r => letter c && all_chars (fun c => letter c || digit c || Ascii.eqb c "$") r end.
Definition bare (n : string) : bool := identifier n && negb (existsb (String.eqb (lower n)) reserved).

(** A table: its columns with NOT NULL, its key and its rows *)
Record table := Table { s_cols : list (string * bool); s_key : list string; s_rows : list frame }.
Fixpoint distinct (l : list string) : bool := match l with [] => true | n :: r => negb (existsb (same_name n) r) && distinct r end.

(** Whether a row may be in the table beside the others: a key with a NULL in it is like no other. *)
Definition key_of (t : table) (r : frame) : option (list Z) :=
  omap (fun n => match in_frame n r with Some v => v | None => None end) (s_key t).
Fixpoint same_key (a b : list Z) : bool :=
  match a, b with [], [] => true | x :: a', y :: b' => (x =? y)%Z && same_key a' b' | _, _ => false end.
Definition clashes (t : table) (r : frame) (others : list frame) : bool :=
  match s_key t, key_of t r with
  | [], _ | _, None => false
  | _, Some k => existsb (fun o => match key_of t o with Some k' => same_key k k' | None => false end) others
  end.
Definition nulls_ok (t : table) (r : frame) : bool :=
  forallb (fun c => negb (snd c) || match in_frame (fst c) r with Some (Some _) => true | _ => false end) (s_cols t).
Definition may_add (t : table) (r : frame) (others : list frame) : bool := nulls_ok t r && negb (clashes t r others).
Definition set_rows (t : table) (l : list frame) : table := Table (s_cols t) (s_key t) l.
Definition add_row (t : table) (r : frame) : option table :=
  if may_add t r (s_rows t) then Some (set_rows t (s_rows t ++ [r])%list) else None.
Fixpoint add_rows (t : table) (l : list frame) : option table :=
  match l with [] => Some t | r :: l' => obind (add_row t r) (fun t' => add_rows t' l') end.
(** The row INSERT makes: every listed column exists and gets its value, the others NULL. *)
Definition new_row (t : table) (cols : list string) (vs : list val) : option frame :=
  if (length cols =? length vs)%nat && forallb (fun n => existsb (fun c => same_name (fst c) n) (s_cols t)) cols
  then Some (map (fun c => (fst c, match find (fun p => same_name (fst p) (fst c)) (combine cols vs) with Some p => snd p | None => None end)) (s_cols t))
  else None.
(** UPDATE changes the rows one by one; each is checked against the others as they are then. *)
Fixpoint change_rows (t : table) (done : list frame) (todo : list (frame * frame)) : option (list frame) :=
  match todo with
  | [] => Some done
  | (_, n) :: r =>
      if may_add t n (done ++ map fst r)%list then change_rows t (done ++ [n])%list r else None
  end.

Section Run.
  Variable fn : string -> list val -> val.
  Definition exec_create (db : string -> list frame) (d : ddl) : option table :=
    match d with
    | DCols cols key =>
        let ns := map (fun c => fst (fst c)) cols in
        if distinct ns && forallb bare key && forallb (fun k => existsb (fun n => same_name n k) ns) key
        then Some (Table (map (fun c => (fst (fst c), snd c)) cols) key []) else None
    | DAs q =>
        obind (eval_query fn db [] q) (fun rows =>
        Some (Table (map (fun n => (n, false)) (query_names q)) [] (map (combine (query_names q)) rows)))
    end.
  (** All rows are computed before the first is added: SQLite does so when the statement reads
      the table it adds to. *)
  Definition new_rows (db : string -> list frame) (t : table) (i : insert_text) : option (list frame) :=
    match i with
    | IValues cols rows =>
        obind (omap (fun r => obind (omap (fun o : option sexpr => o) r) (omap (eval_expr fn db []))) rows) (fun vs => omap (new_row t cols) vs)
    | ISelect cols q => obind (eval_query fn db [] q) (omap (new_row t cols))
    end.
  (** A statement on table [name]; a failing one changes nothing. *)
  Definition exec_dml (other : string -> list frame) (name : string) (t : table) (m : dml) : option table :=
    let db n := if String.eqb n name then s_rows t else other n in
    match m with
    | MInsert i => obind (new_rows db t i) (add_rows t)
    | MUpdate l w =>
        obind (update_rows fn db name l w) (fun rows =>
        obind (change_rows t [] (combine (s_rows t) rows)) (fun rows' => Some (set_rows t rows')))
    | MDelete w => obind (delete_rows fn db name w) (fun rows => Some (set_rows t rows))
    end.
End Run.
(** Statements one after another, each with the functions and the other tables as they are then *)
Definition moment := ((string -> list val -> val) * (string -> list frame) * dml)%type.
Definition exec_all (name : string) (t : table) (l : list moment) : table :=
  fold_left (fun t m => match exec_dml (fst (fst m)) (snd (fst m)) name t (snd m) with Some t' => t' | None => t end) l t.

(** ** Column types: what SQLite stores and go-sqlite3 reads (both outside /repo) *)
Inductive affinity := AInteger | AText | ABlob | AReal | ANumeric.
Fixpoint prefix_of (p s : string) : bool :=
  match p, s with
  | EmptyString, _ => true
  | String a p', String b s' => Ascii.eqb a b && prefix_of p' s'
  | _, EmptyString => false
  end.
Fixpoint contains (p s : string) : bool := prefix_of p s || match s with EmptyString => false | String _ r => contains p r end.
Definition affinity_of (d : string) : affinity :=
  if contains "INT" d then AInteger
  else if contains "CHAR" d || contains "CLOB" d || contains "TEXT" d then AText
  else if contains "BLOB" d || String.eqb d "" then ABlob
  else if contains "REAL" d || contains "FLOA" d || contains "DOUB" d then AReal
  else ANumeric.
Section Store.
  (** Floating point numbers with their conversions, and the number a text stands for *)
  Variable float : Type.
  Variable whole : float -> option Z.
  Variable of_int : Z -> float.
  Variable number_text : (Z + float) -> string.
  Variable text_number : string -> option (Z + float).
  Inductive cell := CNull | CInt (z : Z) | CReal (f : float) | CText (s : string).
  Fixpoint first_char (s : string) : option ascii :=
    match s with EmptyString => None | String c r => if existsb (Ascii.eqb c) [" "; "009"; "010"; "011"; "012"; "013"]%char then first_char r else Some c end.
  Definition number_like (s : string) : bool :=
    match first_char s with Some c => digit c || existsb (Ascii.eqb c) ["+"; "-"; "."]%char | None => false end.
  Definition read_number (s : string) : option (Z + float) := if number_like s then text_number s else None.
  Definition store (a : affinity) (c : cell) : cell :=
    match a, c with
    | _, CNull => CNull
    | AText, CInt z => CText (number_text (inl z))
    | AText, CReal f => CText (number_text (inr f))
    | (AInteger | ANumeric), CReal f => match whole f with Some z => CInt z | None => CReal f end
    | (AInteger | ANumeric), CText s =>
        match read_number s with
        | Some (inl z) => CInt z
        | Some (inr f) => match whole f with Some z => CInt z | None => CReal f end
        | None => c
        end
    | AReal, CInt z => CReal (of_int z)
    | AReal, CText s => match read_number s with Some (inl z) => CReal (of_int z) | Some (inr f) => CReal f | None => c end
    | _, _ => c
    end.
  (** What EncodeValue (internal/encoder.go:68-91) hands to SQLite *)
  Inductive go := GNil | GInt (z : Z) | GFloat (f : float) | GBool (b : bool) | GText (s : string) | GTime.
  Definition given (g : go) : cell :=
    match g with GNil | GTime => CNull | GInt z => CInt z | GFloat f => CReal f | GBool b => CInt (if b then 1 else 0)%Z | GText s => CText s end.
  (** go-sqlite3 looks at the declared type of the column. *)
  Definition fetch (d : string) (c : cell) : go :=
    let time := existsb (String.eqb (lower d)) ["timestamp"; "datetime"; "date"] in
    match c with
    | CNull => GNil
    | CInt z => if String.eqb (lower d) "boolean" then GBool (0 <? z)%Z else if time then GTime else GInt z
    | CReal f => GFloat f
    | CText s => if time then GTime else GText s
    end.
  Definition through_column (k : kind) (g : go) : go := fetch (decl k) (store (affinity_of (decl k)) (given g)).
End Store.
