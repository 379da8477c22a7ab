(** How a resolved query becomes SQL text: internal/formatter.go for column references, function
    calls, subqueries, table, join, array, filter, project, limit, order by, aggregate and set
    operation scans, QueryStmt, DELETE and UPDATE, and internal/analyzer.go:264-295 (which
    statements write column ids).

    The resolved tree comes from ZetaSQL (outside /repo): a column is an id, [names] gives the
    name the user wrote.  Values are NULL or an integer and the functions called are left
    abstract, as only the references matter here.  The generated text is kept as the parts that
    SQLite's parser sees; [scan_text] is the text itself, as far as the formatter looks at it.
    WITH is in WithModel.  Not modelled: analytic functions; grouping sets, and the DISTINCT,
    ORDER BY and LIMIT of an aggregate function. *)
From Coq Require Import Ascii String List ZArith Lia Bool.
From Verif Require Import GoBase DecModel.
Import ListNotations.
Local Open Scope string_scope.

Definition val := option Z.
Inductive jkind := JInner | JLeft | JRight | JFull.
Inductive setop := UnionAll | UnionDistinct | IntersectAll | IntersectDistinct | ExceptAll | ExceptDistinct.
(** The NULLS FIRST or NULLS LAST of an ORDER BY item *)
Inductive nulls_mode := NDefault | NFirst | NLast.

(** ** The resolved tree *)
Inductive expr :=
| ECol (c : Z)
| ELit (v : val)
| ECall (f : string) (a : exprs)
| EExists (s : scan)
| EScalar (s : scan)
with exprs := ENil | ECons (e : expr) (r : exprs)
with scan :=
| SSingle                                           (* no FROM *)
| STable (t : string) (cols : list Z)
| SCross (l r : scan)
| SJoin (k : jkind) (l r : scan) (on : expr)
| SFilter (s : scan) (e : expr)
| SProject (s : scan) (cs : comps) (cols : list Z)
| SLimit (s : scan) (n : nat) (off : option nat) (cols : list Z)
| SOrder (s : scan) (keys : list (Z * bool * nulls_mode)) (cols : list Z)   (* true: DESC *)
| SSet (op : setop) (l : inputs) (cols : list Z)
| SAgg (s : scan) (groups : comps) (aggs : acomps) (cols : list Z)
| SArray (s : scan) (a : expr) (elem : Z) (off : option Z) (j : ajoin)
    (* s joined with UNNEST(a) AS elem WITH OFFSET AS off; UNNEST alone has SSingle as s *)
with inputs := NNil | NCons (s : scan) (cols : list Z) (r : inputs)
with acomps := ANil | ACons (c : Z) (f : string) (a : exprs) (r : acomps)
with comps := CNil | CCons (c : Z) (e : expr) (r : comps)
(** How an array is joined: without or with ON; [outer] for LEFT JOIN *)
with ajoin := JComma (outer : bool) | JOn (outer : bool) (e : expr).

(** ** The parts of the generated text *)
Inductive sort_key :=
| IsNotNull (n : string)                            (* (`n` IS NOT NULL) *)
| IsNull (n : string)                               (* (`n` IS NULL) *)
| ByValue (n : string) (desc : bool).               (* `n` COLLATE zetasqlite_collate DESC *)
Inductive sexpr :=
| XCol (n : string)                                 (* `n` *)
| XLit (v : val)
| XCall (f : string) (a : sexprs)                   (* zetasqlite_f(a, ...) *)
| XExists (q : query)                               (* EXISTS (q) *)
| XScalar (q : query)                               (* (q) *)
| XAgg (f : string) (a : sexprs)                    (* zetasqlite_f(a, ...), an aggregate *)
with sexprs := XNil | XCons (e : sexpr) (r : sexprs)
with query :=
| Select (i : items) (f : from) (w : cond) (lim : option (nat * option nat))
| Sorted (i : items) (f : from) (w : cond) (keys : list sort_key)
| Grouped (i : items) (f : from) (w : cond) (keys : list string)
| Compound (op : setop) (l : queries)               (* q UNION ALL q ... *)
with queries := QNil | QCons (q : query) (r : queries)
with items :=
| INil
| ICol (n : string) (r : items)                     (* `n` *)
| IAs (e : sexpr) (n : string) (r : items)          (* e AS `n` *)
with cond := WNone | WSome (e : sexpr)              (* WHERE e *)
with from :=
| FNone
| FTable (t : string)                               (* FROM `t` *)
| FJoins (t : jtoks)                                (* FROM followed by: *)
with jtoks :=
| KNil
| KItem (q : query) (r : jtoks)                     (* (q) *)
| KGroup (t : jtoks) (r : jtoks)                    (* ( ... ) *)
| KCross (r : jtoks)                                (* CROSS JOIN *)
| KJoin (k : jkind) (r : jtoks)                     (* JOIN or LEFT JOIN *)
| KOn (e : sexpr) (r : jtoks)                       (* ON e *)
| KArr (s : arr) (r : jtoks)                        (* (s) *)
(** SELECT *, json_each.value AS `elem`,json_each.key AS `off` f , json_each(...) WHERE w, or
    without FROM: SELECT json_each.value AS `elem` FROM json_each(...) *)
with arr := Arr (f : from) (a : sexpr) (elem : string) (off : option string) (on : acond) (w : cond)
with acond := OComma | OOn (outer : bool) (e : sexpr).

Fixpoint kapp (a b : jtoks) : jtoks :=
  match a with
  | KNil => b
  | KItem q r => KItem q (kapp r b)
  | KGroup t r => KGroup t (kapp r b)
  | KCross r => KCross (kapp r b)
  | KJoin k r => KJoin k (kapp r b)
  | KOn e r => KOn e (kapp r b)
  | KArr s r => KArr s (kapp r b)
  end.

(** The text FormatSQL returns for a scan: empty, parts that go behind FROM, such parts with a
    WHERE, a SELECT, or the SELECT of an array scan. *)
Inductive frag :=
| RNone
| RJoin (t : jtoks)
| RWhere (t : jtoks) (e : sexpr)
| RSelect (q : query)
| RArr (s : arr).

(** ** The text *)
Definition quoted (n : string) : string := "`" ++ n ++ "`".
(** formatter.go:908-923 *)
Definition setop_text (op : setop) : string :=
  match op with
  | UnionAll => "UNION ALL" | UnionDistinct => "UNION" | IntersectAll => "INTERSECT ALL"
  | IntersectDistinct => "INTERSECT" | ExceptAll => "EXCEPT ALL" | ExceptDistinct => "EXCEPT"
  end.
(** formatter.go:991-1010 *)
Definition key_text (k : sort_key) : string :=
  match k with
  | IsNotNull n => "(" ++ quoted n ++ " IS NOT NULL)"
  | IsNull n => "(" ++ quoted n ++ " IS NULL)"
  | ByValue n desc => quoted n ++ " COLLATE zetasqlite_collate" ++ (if desc then " DESC" else "")
  end.
Fixpoint joined (sep : string) (l : list string) : string :=
  match l with [] => "" | [x] => x | x :: r => x ++ sep ++ joined sep r end.
Definition lit_text (v : val) : string := match v with None => "NULL" | Some z => dec z end.
Fixpoint sexpr_text (e : sexpr) : string :=
  match e with
  | XCol n => quoted n
  | XLit v => lit_text v
  | XCall f a => "zetasqlite_" ++ f ++ "(" ++ sexprs_text a ++ ")"
  | XExists q => "EXISTS (" ++ query_text q ++ ")"
  | XScalar q => "(" ++ query_text q ++ ")"
  | XAgg f a => "zetasqlite_" ++ f ++ "(" ++ sexprs_text a ++ ")"
  end
with sexprs_text (a : sexprs) : string :=
  match a with
  | XNil => ""
  | XCons e XNil => sexpr_text e
  | XCons e r => sexpr_text e ++ "," ++ sexprs_text r
  end
with query_text (q : query) : string :=
  match q with
  | Select i f w lim =>
      "SELECT " ++ items_text i ++ " " ++ from_text f ++
      match w with WNone => "" | WSome e => " WHERE " ++ sexpr_text e end ++
      match lim with
      | None => ""
      | Some (n, off) => " LIMIT " ++ dec (Z.of_nat n) ++ " " ++ match off with Some k => "OFFSET " ++ dec (Z.of_nat k) | None => "" end
      end
  | Sorted i f w keys =>
      "SELECT " ++ items_text i ++ " " ++ from_text f ++
      match w with WNone => "" | WSome e => " WHERE " ++ sexpr_text e end ++
      " ORDER BY " ++ joined "," (map key_text keys)
  | Grouped i f w keys =>
      "SELECT " ++ items_text i ++ " " ++ from_text f ++
      match w with WNone => "" | WSome e => " WHERE " ++ sexpr_text e end ++
      " " ++ match keys with [] => "" | _ => "GROUP BY " ++ joined "," (map (fun n => "zetasqlite_group_by(" ++ quoted n ++ ")") keys) end
  | Compound op l => queries_text op l
  end
with queries_text (op : setop) (l : queries) : string :=
  match l with
  | QNil => ""
  | QCons q QNil => query_text q
  | QCons q r => query_text q ++ " " ++ setop_text op ++ " " ++ queries_text op r
  end
with items_text (i : items) : string :=
  match i with
  | INil => ""
  | ICol n INil => quoted n
  | ICol n r => quoted n ++ "," ++ items_text r
  | IAs e n INil => sexpr_text e ++ " AS " ++ quoted n
  | IAs e n r => sexpr_text e ++ " AS " ++ quoted n ++ "," ++ items_text r
  end
with from_text (f : from) : string :=
  match f with
  | FNone => ""
  | FTable t => "FROM " ++ quoted t
  | FJoins t => "FROM " ++ jtoks_text t
  end
with jtoks_text (t : jtoks) : string :=
  match t with
  | KNil => ""
  | KItem q r => "(" ++ query_text q ++ ")" ++ jtoks_text r
  | KGroup t r => "( " ++ jtoks_text t ++ " )" ++ jtoks_text r
  | KCross r => " CROSS JOIN " ++ jtoks_text r
  | KJoin JInner r => " JOIN " ++ jtoks_text r
  | KJoin JLeft r => " LEFT JOIN " ++ jtoks_text r
  | KJoin JRight r => " RIGHT JOIN " ++ jtoks_text r
  | KJoin JFull r => " FULL OUTER JOIN " ++ jtoks_text r
  | KOn e r => " ON " ++ sexpr_text e ++ jtoks_text r
  | KArr s r => "(" ++ arr_text s ++ ")" ++ jtoks_text r
  end
with arr_text (s : arr) : string :=                  (* formatter.go:675-726 *)
  match s with
  | Arr f a elem off on w =>
      "SELECT " ++ match f with FNone => "" | _ => "*, " end ++
      "json_each.value AS " ++ quoted elem ++ match off with Some o => ",json_each.key AS " ++ quoted o | None => "" end ++ " " ++
      match f with
      | FNone => "FROM "
      | _ => from_text f ++ " " ++ match on with OComma => ", " | OOn true _ => "LEFT OUTER JOIN " | OOn false _ => "INNER JOIN " end
      end ++
      "json_each(zetasqlite_decode_array(" ++ sexpr_text a ++ "))" ++
      match on with OComma => "" | OOn _ e => " ON " ++ sexpr_text e end ++
      match w with WNone => "" | WSome e => " WHERE " ++ sexpr_text e end
  end.
Definition frag_text (r : frag) : string :=
  match r with
  | RNone => ""
  | RJoin t => jtoks_text t
  | RWhere t e => jtoks_text t ++ " WHERE " ++ sexpr_text e
  | RSelect q => query_text q
  | RArr s => arr_text s
  end.

(** formatter.go:734 removeExpressions, the regular expression [\(.+?\)]: from an opening
    parenthesis to the first closing one that is not right behind it. *)
Definition newline : ascii := "010"%char.
Fixpoint to_close (s : string) : option string :=
  match s with
  | EmptyString => None
  | String c r => if Ascii.eqb c ")" then Some r else if Ascii.eqb c newline then None else to_close r
  end.
Definition after_group (s : string) : option string :=
  match s with
  | EmptyString => None
  | String c r => if Ascii.eqb c newline then None else to_close r
  end.
Fixpoint remove_exprs (fuel : nat) (s : string) : string :=
  match fuel, s with
  | S k, String c r =>
      if Ascii.eqb c "(" then
        match after_group r with
        | Some r' => remove_exprs k r'
        | None => String c (remove_exprs k r)
        end
      else String c (remove_exprs k r)
  | _, _ => ""
  end.
(** formatter.go:733, 747-757 *)
Definition tokens : list string := ["WHERE"; "GROUP BY"; "HAVING"; "QUALIFY"; "WINDOW"; "ORDER BY"; "COLLATE"].
Definition wraps (s : string) : bool :=
  let q := remove_exprs (S (String.length s)) s in
  negb (String.eqb q "") && existsb (contains q) tokens.

(** ** Formatting.  None is a text that SQLite refuses. *)
Definition cmap := list (string * sexpr).
Definition get (m : cmap) (n : string) : option sexpr :=
  match find (fun p => String.eqb (fst p) n) m with Some p => Some (snd p) | None => None end.
Definition del (m : cmap) (n : string) : cmap := filter (fun p => negb (String.eqb (fst p) n)) m.
Definition set (m : cmap) (n : string) (e : sexpr) : cmap := (n, e) :: del m n.
Definition obind {A B} (o : option A) (f : A -> option B) : option B := match o with Some a => f a | None => None end.

(** formatter.go:1279-1292, and the same loop in the other scans *)
Fixpoint take_items (u : Z -> string) (cols : list Z) (m : cmap) : items * cmap :=
  match cols with
  | [] => (INil, m)
  | c :: r =>
      match get m (u c) with
      | Some e => let (i, m') := take_items u r (del m (u c)) in (IAs e (u c) i, m')
      | None => let (i, m') := take_items u r m in (ICol (u c) i, m')
      end
  end.
(** formatter.go:103-134 getInputPattern and formatInput.  The text of RJoin and RWhere begins
    with a parenthesis, that of RSelect and RArr with SELECT. *)
Definition input_from (r : frag) : from * cond :=
  match r with
  | RNone => (FNone, WNone)
  | RJoin t => (FJoins t, WNone)
  | RWhere t e => (FJoins t, WSome e)
  | RSelect q => (FJoins (KItem q KNil), WNone)
  | RArr s => (FJoins (KArr s KNil), WNone)
  end.
(** formatter.go:641-646 *)
Definition join_side (r : frag) : option jtoks :=
  match r with
  | RNone | RWhere _ _ => None
  | RJoin t => Some t
  | RSelect q => Some (KItem q KNil)
  | RArr s => Some (KArr s KNil)
  end.
(** formatter.go:736-763 FilterScan *)
Definition add_filter (r : frag) (e : sexpr) : option frag :=
  let w := wraps (frag_text r) in
  match r with
  | RNone | RWhere _ _ => None
  | RJoin t => Some (RWhere (if w then KGroup t KNil else t) e)
  | RSelect q =>
      if w then Some (RWhere (KItem q KNil) e)
      else match q with
           | Select i f WNone None => Some (RSelect (Select i f (WSome e) None))
           | Grouped i f WNone [] => Some (RSelect (Grouped i f (WSome e) []))
           | _ => None
           end
  | RArr s =>
      if w then Some (RWhere (KArr s KNil) e)
      else match s with
           | Arr f a elem off on WNone => Some (RArr (Arr f a elem off on (WSome e)))
           | _ => None
           end
  end.
(** formatter.go:681-690: the input of an array scan, to which json_each is joined; None as in
    join_side *)
Definition array_from (r : frag) : option from :=
  match r with RNone => Some FNone | _ => obind (join_side r) (fun t => Some (FJoins t)) end.

Section Format.
  (** uniqueColumnName, formatter.go:85-95, and the names in the tables *)
  Variable u : Z -> string.
  Variable names : Z -> string.

  Fixpoint table_items (cols : list Z) : items :=
    match cols with [] => INil | c :: r => IAs (XCol (names c)) (u c) (table_items r) end.

  (** formatter.go:925-928: the columns of one input of a set operation *)
  Fixpoint plain_items (cols : list Z) : items :=
    match cols with [] => INil | c :: r => ICol (u c) (plain_items r) end.
  (** formatter.go:947-961: the columns of the first input, by position *)
  Fixpoint set_items (from to : list Z) : items :=
    match from, to with c :: r, d :: r' => IAs (XCol (u c)) (u d) (set_items r r') | _, _ => INil end.
  Definition first_cols (l : inputs) : list Z := match l with NNil => [] | NCons _ cols _ => cols end.
  Fixpoint group_ids (cs : comps) : list Z := match cs with CNil => [] | CCons c _ r => c :: group_ids r end.
  (** formatter.go:991-1010 *)
  Definition sort_keys (k : Z * bool * nulls_mode) : list sort_key :=
    let '(c, desc, nulls) := k in
    (match nulls with NDefault => [] | NFirst => [IsNotNull (u c)] | NLast => [IsNull (u c)] end ++ [ByValue (u c) desc])%list.

  Fixpoint format_expr (e : expr) (m : cmap) : option (sexpr * cmap) :=
    match e with
    | ECol c =>                                     (* formatter.go:211-223 *)
        match get m (u c) with
        | Some _ => None                            (* `... AS n` inside an expression *)
        | None => Some (XCol (u c), m)
        end
    | ELit v => Some (XLit v, m)
    | ECall f a => obind (format_exprs a m) (fun p => Some (XCall f (fst p), snd p))
    | EExists s =>                                  (* formatter.go:550-583; ZetaSQL puts a project scan on an array scan *)
        obind (format_scan s m) (fun p => match fst p with RSelect q => Some (XExists q, snd p) | _ => None end)
    | EScalar s =>
        obind (format_scan s m) (fun p => match fst p with RSelect q => Some (XScalar q, snd p) | _ => None end)
    end
  with format_exprs (a : exprs) (m : cmap) : option (sexprs * cmap) :=
    match a with
    | ENil => Some (XNil, m)
    | ECons e r =>
        obind (format_expr e m) (fun p => obind (format_exprs r (snd p)) (fun q => Some (XCons (fst p) (fst q), snd q)))
    end
  with format_scan (s : scan) (m : cmap) : option (frag * cmap) :=
    match s with
    | SSingle => Some (RNone, m)                    (* formatter.go:597-599 *)
    | STable t cols =>                              (* formatter.go:601-627 *)
        Some (RJoin (KItem (Select (table_items cols) (FTable t) WNone None) KNil), m)
    | SCross l r =>                                 (* formatter.go:629-650 *)
        obind (format_scan l m) (fun p => obind (format_scan r (snd p)) (fun q =>
        obind (join_side (fst p)) (fun a => obind (join_side (fst q)) (fun b =>
        Some (RJoin (kapp a (KCross b)), snd q)))))
    | SJoin k l r on =>                             (* formatter.go:651-666 *)
        obind (format_scan l m) (fun p => obind (format_scan r (snd p)) (fun q =>
        obind (join_side (fst p)) (fun a => obind (join_side (fst q)) (fun b =>
        obind (format_expr on (snd q)) (fun o =>
        Some (RJoin (kapp a (KJoin k (kapp b (KOn (fst o) KNil)))), snd o))))))
    | SFilter s e =>
        obind (format_scan s m) (fun p => obind (format_expr e (snd p)) (fun q =>
        obind (add_filter (fst p) (fst q)) (fun r => Some (r, snd q))))
    | SProject s cs cols =>                         (* formatter.go:1264-1300 *)
        obind (format_comps cs m) (fun m1 => obind (format_scan s m1) (fun p =>
        let (i, m2) := take_items u cols (snd p) in
        let (f, w) := input_from (fst p) in
        Some (RSelect (Select i f w None), m2)))
    | SLimit s n off cols =>                        (* formatter.go:1024-1073 *)
        obind (format_scan s m) (fun p =>
        let (i, m2) := take_items u cols (snd p) in
        let (f, w) := input_from (fst p) in
        Some (RSelect (Select i f w (Some (n, off))), m2))
    | SOrder s keys cols =>                         (* formatter.go:969-1022 *)
        obind (format_scan s m) (fun p =>
        let (i, m2) := take_items u cols (snd p) in
        let (f, w) := input_from (fst p) in
        Some (RSelect (Sorted i f w (flat_map sort_keys keys)), m2))
    | SSet op l cols =>                             (* formatter.go:904-967 *)
        obind (format_inputs l m) (fun p =>
        Some (RSelect (Select (set_items (first_cols l) cols) (FJoins (KItem (Compound op (fst p)) KNil)) WNone None), snd p))
    | SAgg s groups aggs cols =>                    (* formatter.go:769-803, 868-890 *)
        obind (format_aggs aggs m) (fun m1 => obind (format_scan s m1) (fun p =>
        obind (format_comps groups (snd p)) (fun m2 =>
        let (i, m3) := take_items u cols m2 in
        let (f, w) := input_from (fst p) in
        Some (RSelect (Grouped i f w (map u (group_ids groups))), m3))))
    | SArray s a elem off j =>                      (* formatter.go:667-728 *)
        obind (format_expr a m) (fun x => obind (format_scan s (snd x)) (fun p =>
        obind (array_from (fst p)) (fun f =>
        match j with
        | JComma _ => Some (RArr (Arr f (fst x) (u elem) (option_map u off) OComma WNone), snd p)
        | JOn outer e => obind (format_expr e (snd p)) (fun y => Some (RArr (Arr f (fst x) (u elem) (option_map u off) (OOn outer (fst y)) WNone), snd y))
        end)))
    end
  with format_inputs (l : inputs) (m : cmap) : option (queries * cmap) :=
    match l with
    | NNil => Some (QNil, m)
    | NCons s cols r =>                             (* formatter.go:924-946 *)
        obind (format_scan s m) (fun p => obind (format_inputs r (snd p)) (fun q =>
        let (f, w) := input_from (fst p) in
        Some (QCons (Select (plain_items cols) f w None) (fst q), snd q)))
    end
  with format_aggs (l : acomps) (m : cmap) : option cmap :=
    match l with                                    (* formatter.go:311-346, 1198-1217 *)
    | ANil => Some m
    | ACons c f a r => obind (format_exprs a m) (fun p => format_aggs r (set (snd p) (u c) (XAgg f (fst p))))
    end
  with format_comps (cs : comps) (m : cmap) : option cmap :=
    match cs with                                   (* formatter.go:1198-1217 *)
    | CNil => Some m
    | CCons c e r => obind (format_expr e m) (fun p => format_comps r (set (snd p) (u c) (fst p)))
    end.

  (** formatter.go:1320-1345 QueryStmt: the output columns by position *)
  Fixpoint out_items (cols : list Z) : items :=
    match cols with [] => INil | c :: r => IAs (XCol (u c)) (names c) (out_items r) end.
  Definition format_query (s : scan) (cols : list Z) : option query :=
    obind (format_scan s []) (fun p =>
    match fst p with
    | RSelect q => Some (Select (out_items cols) (FJoins (KItem q KNil)) WNone None)
    | RJoin t => Some (Select (out_items cols) (FJoins (KGroup t KNil)) WNone None)
    | _ => None
    end).
End Format.

(** Queries, CREATE TABLE AS, CREATE VIEW and MERGE write ids, DELETE and UPDATE do not
    (analyzer.go:264-295). *)
Definition with_id (names : Z -> string) (c : Z) : string := names c ++ "#" ++ dec c.
Definition query_sql (names : Z -> string) (s : scan) (cols : list Z) : option query :=
  format_query (with_id names) names s cols.
(** formatter.go:1617-1635 DeleteStmt: the condition *)
Definition delete_sql (names : Z -> string) (w : expr) : option sexpr :=
  obind (format_expr names names w []) (fun p => Some (fst p)).
(** formatter.go:1637-1687 UpdateItem and UpdateStmt: the columns set, their values and the
    condition; the FROM clause of the statement is not looked at. *)
Fixpoint update_items (names : Z -> string) (l : list (Z * expr)) (m : cmap) : option (list (string * sexpr) * cmap) :=
  match l with
  | [] => Some ([], m)
  | (c, e) :: r =>
      obind (format_expr names names e m) (fun p => obind (update_items names r (snd p)) (fun q =>
      Some ((names c, fst p) :: fst q, snd q)))
  end.
Definition update_sql (names : Z -> string) (l : list (Z * expr)) (from : option scan) (w : expr) :
    option (list (string * sexpr) * sexpr) :=
  obind (update_items names l []) (fun p => obind (format_expr names names w (snd p)) (fun q => Some (fst p, fst q))).

(** ** What SQLite makes of the text (outside /repo).

    A name is looked up without regard to the case of ASCII letters, from the innermost SELECT
    outwards: in the items of its FROM clause, of which at most one may have it, then, in a
    WHERE or GROUP BY clause, among the names given in its select list; in an ORDER BY clause
    a name that stands alone is looked for in the select list first.  Joins associate to the
    left and ON belongs to the join before it.  A scalar subquery gives its first row.

    SQLite may choose the order of the rows of a set operation, of groups and of rows with
    equal keys; here it is that of the first occurrence.  Values are integers and NULL, so that
    zetasqlite_collate and zetasqlite_group_by compare them as they are (ScanModel and
    GroupModel have the other types). *)
Definition frame := list (string * val).
Definition scope := (list frame * list (string * option val))%type.
Definition same_name (a b : string) : bool := String.eqb (lower a) (lower b).
Definition in_frame (n : string) (f : frame) : option val :=
  match find (fun p => same_name (fst p) n) f with Some p => Some (snd p) | None => None end.
Fixpoint in_frames (n : string) (l : list frame) : list val :=
  match l with
  | [] => []
  | f :: r => match in_frame n f with Some v => v :: in_frames n r | None => in_frames n r end
  end.
(** The value of a name given in the select list; it is computed when needed. *)
Definition in_alias (n : string) (l : list (string * option val)) : option (option val) :=
  match find (fun p => same_name (fst p) n) l with Some p => Some (snd p) | None => None end.
Fixpoint lookup (n : string) (l : list scope) : option val :=
  match l with
  | [] => None
  | (srcs, als) :: r =>
      match in_frames n srcs with
      | [v] => Some v
      | [] => match in_alias n als with Some o => o | None => lookup n r end
      | _ => None
      end
  end.
Definition truth (v : val) : bool := match v with Some z => negb (z =? 0)%Z | None => false end.
Fixpoint omap {A B} (f : A -> option B) (l : list A) : option (list B) :=
  match l with [] => Some [] | x :: r => obind (f x) (fun y => obind (omap f r) (fun s => Some (y :: s))) end.
(** The rows for which a condition is true *)
Fixpoint ofilter {A} (f : A -> option val) (l : list A) : option (list A) :=
  match l with
  | [] => Some []
  | x :: r => obind (f x) (fun v => obind (ofilter f r) (fun s => Some (if truth v then x :: s else s)))
  end.
Fixpoint item_names (i : items) : list string :=
  match i with INil => [] | ICol n r => n :: item_names r | IAs _ n r => n :: item_names r end.
Fixpoint query_names (q : query) : list string :=
  match q with
  | Select i _ _ _ | Sorted i _ _ _ | Grouped i _ _ _ => item_names i
  | Compound _ l => queries_names l
  end
with queries_names (l : queries) : list string := match l with QNil => [] | QCons q _ => query_names q end.
Definition row := list frame.
(** Joining the rows so far with those of an item; [nulls] for a LEFT JOIN without a match *)
Definition pairs_on (on : row -> option val) (a : row) (r : list row) : option (list row) :=
  ofilter on (map (fun b => (a ++ b)%list) r).
Fixpoint join_rows (k : jkind) (on : row -> option val) (nulls : row) (l r : list row) : option (list row) :=
  match l with
  | [] => Some []
  | a :: l' =>
      obind (pairs_on on a r) (fun x => obind (join_rows k on nulls l' r) (fun y =>
      Some ((match k, x with (JLeft | JFull), [] => [(a ++ nulls)%list] | _, _ => x end) ++ y)%list))
  end.
(** The rows of the right side that no row of the left side matches, for RIGHT and FULL joins *)
Fixpoint right_rows (k : jkind) (on : row -> option val) (nulls : row) (l r : list row) : option (list row) :=
  match k, r with
  | (JRight | JFull), b :: r' =>
      obind (omap (fun a => on (a ++ b)%list) l) (fun vs => obind (right_rows k on nulls l r') (fun y =>
      Some ((if existsb truth vs then [] else [(nulls ++ b)%list]) ++ y)%list))
  | _, _ => Some []
  end.
Definition joined_rows (k : jkind) (on : row -> option val) (lnulls rnulls : row) (l r : list row) : option (list row) :=
  obind (join_rows k on rnulls l r) (fun x => obind (right_rows k on lnulls l r) (fun y => Some (x ++ y)%list)).

(** The value of an ORDER BY term for a row whose select list has these names *)
Definition sort_value (r : row) (env : list scope) (als : list (string * option val)) (k : sort_key) : option val :=
  match k with
  | ByValue n _ => match in_alias n als with Some o => o | None => lookup n ((r, als) :: env) end
  | IsNotNull n => obind (lookup n ((r, als) :: env)) (fun v => Some (Some (match v with Some _ => 1%Z | None => 0%Z end)))
  | IsNull n => obind (lookup n ((r, als) :: env)) (fun v => Some (Some (match v with Some _ => 0%Z | None => 1%Z end)))
  end.
(** *** Set operations on rows of values *)
Definition val_eqb (a b : val) : bool := match a, b with None, None => true | Some x, Some y => (x =? y)%Z | _, _ => false end.
Fixpoint row_eqb (a b : list val) : bool :=
  match a, b with [], [] => true | x :: r, y :: r' => val_eqb x y && row_eqb r r' | _, _ => false end.
Fixpoint distinct (l : list (list val)) : list (list val) :=
  match l with [] => [] | x :: r => x :: filter (fun y => negb (row_eqb x y)) (distinct r) end.
(** INTERSECT ALL and EXCEPT ALL are syntax errors. *)
Definition set_step (op : setop) (a b : list (list val)) : option (list (list val)) :=
  match op with
  | UnionAll => Some (a ++ b)%list
  | UnionDistinct => Some (distinct (a ++ b))
  | IntersectDistinct => Some (distinct (filter (fun x => existsb (row_eqb x) b) a))
  | ExceptDistinct => Some (distinct (filter (fun x => negb (existsb (row_eqb x) b)) a))
  | IntersectAll | ExceptAll => None
  end.
(** *** Sorting: a row goes behind those that are not greater. *)
Fixpoint insert {A} (le : A -> A -> bool) (x : A) (l : list A) : list A :=
  match l with [] => [x] | y :: r => if le x y then x :: l else y :: insert le x r end.
Fixpoint isort {A} (le : A -> A -> bool) (l : list A) : list A := match l with [] => [] | x :: r => insert le x (isort le r) end.
(** NULL is less than every number. *)
Definition val_cmp (a b : val) : comparison :=
  match a, b with None, None => Eq | None, Some _ => Lt | Some _, None => Gt | Some x, Some y => (x ?= y)%Z end.
Definition key_cmp (k : sort_key) (a b : val) : comparison := match k with ByValue _ true => val_cmp b a | _ => val_cmp a b end.
Fixpoint keys_le (ks : list sort_key) (a b : list val) : bool :=
  match ks, a, b with
  | k :: ks', x :: a', y :: b' => match key_cmp k x y with Lt => true | Gt => false | Eq => keys_le ks' a' b' end
  | _, _, _ => true
  end.
(** *** Groups: the rows with equal keys, in the order in which the keys first occur *)
Fixpoint groups_of {A} (l : list (list val * A)) (fuel : nat) : list (list A) :=
  match fuel, l with
  | S n, (k, x) :: r =>
      (x :: map snd (filter (fun p => row_eqb k (fst p)) r)) :: groups_of (filter (fun p => negb (row_eqb k (fst p))) r) n
  | _, _ => []
  end.

(** *** json_each.  Arrays are values too, and [fn] tells their lengths and elements; what
    zetasqlite_decode_array and json_each make of an element is in ScanModel (C164, C165). *)
Definition json_names : list string := ["key"; "value"; "type"; "atom"; "id"; "parent"; "fullkey"; "path"].
Definition each (fn : string -> list val -> val) (v : val) : list (val * val) :=
  match fn "array.length" [v] with
  | Some n => map (fun i => (Some (Z.of_nat i), fn "array.at" [v; Some (Z.of_nat i)])) (seq 0 (Z.to_nat n))
  | None => []
  end.
(** The row of json_each; the columns that no reference is to are left NULL. *)
Definition json_frame (p : val * val) : frame := combine json_names [fst p; snd p; None; None; None; None; None; None].
(** The columns named in the select list *)
Definition each_cols (elem : string) (off : option string) (p : val * val) : frame :=
  (elem, snd p) :: match off with Some o => [(o, fst p)] | None => [] end.
Definition each_scope (elem : string) (off : option string) (x : row * (val * val)) : scope :=
  ((fst x ++ [json_frame (snd x)])%list, map (fun q => (fst q, Some (snd q))) (each_cols elem off (snd x))).
Definition each_row (f : from) (elem : string) (off : option string) (x : row * (val * val)) : row :=
  [(match f with FNone => [] | _ => concat (fst x) ++ json_frame (snd x) end ++ each_cols elem off (snd x))%list].

(** The columns of what stands behind FROM, for the NULLs of a LEFT JOIN *)
Fixpoint jtoks_names (t : jtoks) : list string :=
  match t with
  | KNil => []
  | KItem q r => (query_names q ++ jtoks_names r)%list
  | KGroup t r => (jtoks_names t ++ jtoks_names r)%list
  | KCross r | KJoin _ r | KOn _ r => jtoks_names r
  | KArr s r => (arr_names s ++ jtoks_names r)%list
  end
with arr_names (s : arr) : list string :=
  match s with
  | Arr f _ elem off _ _ =>
      (match f with FNone => [] | FTable _ => json_names | FJoins t => jtoks_names t ++ json_names end ++
       elem :: match off with Some o => [o] | None => [] end)%list
  end.
Definition item_rows (ns : list string) (l : list (list val)) : list row := map (fun vs => [combine ns vs]) l.
Definition group_rows (l : list row) : list row := map (fun x => [concat x]) l.
Definition always (_ : row) : option val := Some (Some 1%Z).
Definition page {A} (lim : option (nat * option nat)) (l : list A) : list A :=
  match lim with
  | None => l
  | Some (n, off) => firstn n (skipn (match off with Some k => k | None => 0%nat end) l)
  end.
Definition null_frame (l : list string) : frame := map (fun n => (n, None)) l.

(** The row that stands for a missing match of everything behind FROM *)
Fixpoint nulls_of (t : jtoks) : row :=
  match t with
  | KNil => []
  | KItem q r => null_frame (query_names q) :: nulls_of r
  | KGroup t r => null_frame (jtoks_names t) :: nulls_of r
  | KCross r | KJoin _ r | KOn _ r => nulls_of r
  | KArr s r => null_frame (arr_names s) :: nulls_of r
  end.

Section Run.
  Variable fn : string -> list val -> val.
  Variable db : string -> list frame.

  Fixpoint eval_expr (env : list scope) (e : sexpr) : option val :=
    match e with
    | XCol n => lookup n env
    | XLit v => Some v
    | XCall f a => obind (eval_exprs env a) (fun l => Some (fn f l))
    | XExists q => obind (eval_query env q) (fun l => Some (Some (match l with [] => 0%Z | _ => 1%Z end)))
    | XScalar q => obind (eval_query env q) (fun l => Some (match l with (v :: _) :: _ => v | _ => None end))
    | XAgg _ _ => None                               (* misuse of an aggregate *)
    end
  with eval_exprs (env : list scope) (a : sexprs) : option (list val) :=
    match a with
    | XNil => Some []
    | XCons e r => obind (eval_expr env e) (fun v => obind (eval_exprs env r) (fun l => Some (v :: l)))
    end
  with eval_query (env : list scope) (q : query) : option (list (list val)) :=
    match q with
    | Select INil _ _ _ => None                      (* a syntax error *)
    | Select i f w lim =>
        obind (eval_from env f) (fun rows =>
        obind (ofilter (fun r =>
                 match w with
                 | WNone => Some (Some 1%Z)
                 | WSome e => eval_expr ((r, aliases ((r, []) :: env) i) :: env) e
                 end) rows) (fun kept =>
        obind (omap (fun r => eval_items ((r, []) :: env) i) kept) (fun out =>
        Some (page lim out))))
    | Sorted INil _ _ _ => None
    | Sorted i f w keys =>
        obind (eval_from env f) (fun rows =>
        obind (ofilter (fun r =>
                 match w with
                 | WNone => Some (Some 1%Z)
                 | WSome e => eval_expr ((r, aliases ((r, []) :: env) i) :: env) e
                 end) rows) (fun kept =>
        obind (omap (fun r => obind (eval_items ((r, []) :: env) i) (fun vs =>
                              obind (omap (sort_value r env (aliases ((r, []) :: env) i)) keys) (fun ks => Some (ks, vs)))) kept) (fun out =>
        Some (map snd (isort (fun a b => keys_le keys (fst a) (fst b)) out)))))
    | Grouped INil _ _ _ => None
    | Grouped i f w keys =>
        obind (eval_from env f) (fun rows =>
        obind (ofilter (fun r =>
                 match w with
                 | WNone => Some (Some 1%Z)
                 | WSome e => eval_expr ((r, aliases ((r, []) :: env) i) :: env) e
                 end) rows) (fun kept =>
        obind (omap (fun r => obind (omap (fun n => lookup n ((r, aliases ((r, []) :: env) i) :: env)) keys) (fun k => Some (k, r))) kept) (fun keyed =>
        omap (fun g => eval_group_items env g i) (match keys with [] => [kept] | _ => groups_of keyed (length keyed) end))))
    | Compound op QNil => None
    | Compound op (QCons q r) => obind (eval_query env q) (fun l => eval_compound env op l r)
    end
  with eval_compound (env : list scope) (op : setop) (acc : list (list val)) (l : queries) : option (list (list val)) :=
    match l with
    | QNil => Some acc
    | QCons q r => obind (eval_query env q) (fun l => obind (set_step op acc l) (fun acc' => eval_compound env op acc' r))
    end
  (** The select list for a group: an aggregate takes the number of rows and the arguments of
      each, anything else is computed from one of them. *)
  with eval_group_items (env : list scope) (g : list row) (i : items) : option (list val) :=
    match i with
    | INil => Some []
    | ICol n r => obind (match g with x :: _ => lookup n ((x, []) :: env) | [] => Some None end) (fun v => obind (eval_group_items env g r) (fun l => Some (v :: l)))
    | IAs (XAgg f a) _ r =>
        obind (omap (fun x => eval_exprs ((x, []) :: env) a) g) (fun vs => obind (eval_group_items env g r) (fun l => Some (fn f (Some (Z.of_nat (length g)) :: concat vs) :: l)))
    | IAs e _ r => obind (match g with x :: _ => eval_expr ((x, []) :: env) e | [] => Some None end) (fun v => obind (eval_group_items env g r) (fun l => Some (v :: l)))
    end
  with eval_items (env : list scope) (i : items) : option (list val) :=
    match i with
    | INil => Some []
    | ICol n r => obind (lookup n env) (fun v => obind (eval_items env r) (fun l => Some (v :: l)))
    | IAs e _ r => obind (eval_expr env e) (fun v => obind (eval_items env r) (fun l => Some (v :: l)))
    end
  with aliases (env : list scope) (i : items) : list (string * option val) :=
    match i with
    | INil => []
    | ICol n r => (n, lookup n env) :: aliases env r
    | IAs e n r => (n, eval_expr env e) :: aliases env r
    end
  with eval_from (env : list scope) (f : from) : option (list row) :=
    match f with
    | FNone => Some [[]]
    | FTable t => Some (map (fun r => [r]) (db t))
    | FJoins t => eval_group env t
    end
  with eval_group (env : list scope) (t : jtoks) : option (list row) :=
    match t with
    | KItem q r => obind (eval_query env q) (fun l => eval_joins env [null_frame (query_names q)] (item_rows (query_names q) l) r)
    | KGroup g r => obind (eval_group env g) (fun l => eval_joins env [null_frame (jtoks_names g)] (group_rows l) r)
    | KArr s r => obind (eval_arr env s) (fun l => eval_joins env [null_frame (arr_names s)] l r)
    | _ => None
    end
  (** The argument of json_each sees the row it is joined to; ON and WHERE also see the names
      in the select list. *)
  with eval_arr (env : list scope) (s : arr) : option (list row) :=
    match s with
    | Arr f a elem off on w =>
        obind (eval_from env f) (fun rows =>
        obind (omap (fun r => obind (eval_expr ((r, []) :: env) a) (fun v =>
                 match on with
                 | OComma => Some (map (pair r) (each fn v))
                 | OOn outer e =>
                     obind (ofilter (fun x => eval_expr (each_scope elem off x :: env) e) (map (pair r) (each fn v))) (fun k =>
                     Some (match k with [] => if outer then [(r, (None, None))] else [] | _ => k end))
                 end)) rows) (fun ll =>
        obind (ofilter (fun x =>
                 match w with
                 | WNone => Some (Some 1%Z)
                 | WSome e => eval_expr (each_scope elem off x :: env) e
                 end) (concat ll)) (fun k =>
        Some (map (each_row f elem off) k))))
    end
  (** [an]: the row that stands for a missing match of what is joined so far *)
  with eval_joins (env : list scope) (an : row) (acc : list row) (t : jtoks) : option (list row) :=
    match t with
    | KNil => Some acc
    | KCross t' => eval_right env JInner an acc t'
    | KJoin k t' => eval_right env k an acc t'
    | _ => None
    end
  with eval_right (env : list scope) (k : jkind) (an : row) (acc : list row) (t : jtoks) : option (list row) :=
    match t with
    | KItem q r =>
        obind (eval_query env q) (fun l =>
        let b := item_rows (query_names q) l in
        let nulls := [null_frame (query_names q)] in
        match r with
        | KOn e r' => obind (joined_rows k (fun x => eval_expr ((x, []) :: env) e) an nulls acc b) (fun y => eval_joins env (an ++ nulls)%list y r')
        | _ => obind (joined_rows k always an nulls acc b) (fun y => eval_joins env (an ++ nulls)%list y r)
        end)
    | KGroup g r =>
        obind (eval_group env g) (fun l =>
        let b := group_rows l in
        let nulls := [null_frame (jtoks_names g)] in
        match r with
        | KOn e r' => obind (joined_rows k (fun x => eval_expr ((x, []) :: env) e) an nulls acc b) (fun y => eval_joins env (an ++ nulls)%list y r')
        | _ => obind (joined_rows k always an nulls acc b) (fun y => eval_joins env (an ++ nulls)%list y r)
        end)
    | KArr s r =>
        obind (eval_arr env s) (fun b =>
        let nulls := [null_frame (arr_names s)] in
        match r with
        | KOn e r' => obind (joined_rows k (fun x => eval_expr ((x, []) :: env) e) an nulls acc b) (fun y => eval_joins env (an ++ nulls)%list y r')
        | _ => obind (joined_rows k always an nulls acc b) (fun y => eval_joins env (an ++ nulls)%list y r)
        end)
    | _ => None
    end.

  (** The rows DELETE leaves, and those UPDATE makes *)
  Definition delete_rows (t : string) (w : sexpr) : option (list frame) :=
    obind (omap (fun r => eval_expr [([r], [])] w) (db t)) (fun vs =>
    Some (map fst (filter (fun p => negb (truth (snd p))) (combine (db t) vs)))).
  Fixpoint assign (n : string) (v : val) (r : frame) : frame :=
    match r with
    | [] => []
    | (k, x) :: r' => if same_name k n then (k, v) :: r' else (k, x) :: assign n v r'
    end.
  Definition update_row (l : list (string * sexpr)) (w : sexpr) (r : frame) : option frame :=
    obind (eval_expr [([r], [])] w) (fun v =>
    if truth v then
      obind (omap (fun p => obind (eval_expr [([r], [])] (snd p)) (fun x => Some (fst p, x))) l) (fun vs =>
      Some (fold_left (fun acc p => assign (fst p) (snd p) acc) vs r))
    else Some r).
  Definition update_rows (t : string) (l : list (string * sexpr)) (w : sexpr) : option (list frame) :=
    omap (update_row l w) (db t).
End Run.
