(** Wildcard tables: internal/wildcard_table.go and internal/catalog.go:87-92.

    Names are ASCII, and the characters of the pattern have no special meaning in a regular
    expression other than the dot (see [plain_name] in WildSpec); regexp (outside /repo) is
    modelled for these.  The column types are not modelled. *)
From Coq Require Import Ascii String List ZArith Lia Bool.
From Verif Require Import GoBase.
Import ListNotations.
Local Open Scope string_scope.

(** The parts of a TableSpec that are used (internal/spec.go) *)
Record table := Table { path : list string; columns : list string; created : Z }.

(** spec.go:126-128 TableName, and the dotted name of wildcard_table.go:57 *)
Definition table_name (t : table) : string := join "_" (path t).
Definition full_name (t : table) : string := join "." (path t).

(** Regexp.MatchString: a dot stands for any character but a newline; the match may be
    anywhere. *)
Definition newline : ascii := "010"%char.
Fixpoint match_here (pat s : string) : bool :=
  match pat, s with
  | EmptyString, _ => true
  | String p pat', String c s' =>
      (if Ascii.eqb p "." then negb (Ascii.eqb c newline) else Ascii.eqb p c) && match_here pat' s'
  | _, _ => false
  end.
Fixpoint search (pat s : string) : bool :=
  match_here pat s || match s with String _ s' => search pat s' | EmptyString => false end.

(** wildcard_table.go:15-25 isWildcardTable *)
Fixpoint last_char (s : string) : option ascii :=
  match s with EmptyString => None | String c EmptyString => Some c | String _ r => last_char r end.
Definition is_wildcard (p : list string) : bool :=
  match last_char (last p "") with Some c => Ascii.eqb c "*" | None => false end.

(** strings.TrimRight(name, "*") *)
Fixpoint trim_stars (s : string) : string :=
  match s with
  | EmptyString => EmptyString
  | String c r => match trim_stars r with
                  | EmptyString => if Ascii.eqb c "*" then EmptyString else String c EmptyString
                  | r' => String c r'
                  end
  end.

(** sort.Slice by CreatedAt, newest first; the order of equal ones, and that of the map the
    tables come from, is left open by quantifying over all lists of tables. *)
Fixpoint insert (t : table) (l : list table) : list table :=
  match l with
  | [] => [t]
  | x :: r => if (created x <? created t)%Z then t :: l else x :: insert t r
  end.
Definition newest_first (l : list table) : list table := fold_right insert [] l.

(** s[:n] of a Go string panics when n is beyond its length. *)
Definition slice_to (n : nat) (s : string) : res string :=
  if Nat.leb n (String.length s) then Ok (substring 0 n s) else GoPanic.

Record wildcard := Wildcard { w_columns : list string; w_tables : list table; w_prefix : string }.

(** wildcard_table.go:145-191 createWildcardTable; w_columns is without _TABLE_SUFFIX, which
    FormatSQL skips. *)
Definition create_wildcard (p : list string) (tables : list table) : res wildcard :=
  let name := trim_stars (join "_" p) in
  match newest_first (filter (fun t => search name (table_name t)) tables) with
  | [] => Err
  | spec :: rest =>
      bind (slice_to (Nat.pred (length p)) (last (path spec) "")) (fun _ =>
      let first := match path spec with x :: _ => x | [] => "" end in
      let prefix := if has_prefix (first ++ ".") name then name else first ++ "." ++ name in
      Ok (Wildcard (columns spec) (spec :: rest) prefix))
  end.

(** wildcard_table.go:43-76 FormatSQL: for each table its name, the columns read from it
    (None is NULL) and the suffix. *)
Definition branch := (string * list (option string) * string)%type.
Definition format_one (w : wildcard) (t : table) : res branch :=
  let full := full_name t in
  if Nat.leb (String.length full) (String.length (w_prefix w)) then Err
  else
    let n := String.length (w_prefix w) in
    Ok (table_name t,
        map (fun c => if existsb (String.eqb c) (columns t) then Some c else None) (w_columns w),
        substring n (String.length full - n) full).
Fixpoint format_all (w : wildcard) (l : list table) : res (list branch) :=
  match l with
  | [] => Ok []
  | t :: r => bind (format_one w t) (fun b => bind (format_all w r) (fun bs => Ok (b :: bs)))
  end.
Definition format_wildcard (w : wildcard) : res (list branch) := format_all w (w_tables w).
(** A query that reads a wildcard table *)
Definition read_wildcard (p : list string) (tables : list table) : res (list branch) :=
  bind (create_wildcard p tables) format_wildcard.
