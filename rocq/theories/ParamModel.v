(** Query parameters: collecting them, choosing their arguments, and the way
    SQLite binds what the driver hands over. *)
From Coq Require Import Ascii String List ZArith Lia Bool.
From Verif Require Import GoBase.
Import ListNotations.
Local Open Scope string_scope.

Section Param.
  (** [V]: the Go values a caller may pass; [T]: ZetaSQL types; [W]: encoded
      values.  [enc] stands for EncodeGoValue (encoder.go:508-601), [None] for
      its error; it is left abstract here, the codec is CodecModel.v. *)
  Context {V T W : Type} (enc : T -> V -> option W).

  (** driver.NamedValue: the name is "" for a positional argument. *)
  Record arg := mkarg { a_name : string; a_val : V }.

  (** ast.ParameterNode: its name (always lower case, "" for a question mark)
      and type. *)
  Record param := mkparam { p_name : string; p_ty : T }.

  (** internal/analyzer.go:688-709 getParamsFromNode, applied to the parameters
      in the order ast.Walk meets them. *)
  Fixpoint get_params_from (seen : list string) (ps : list param) : list param :=
    match ps with
    | [] => []
    | p :: r =>
        if String.eqb (p_name p) "" then p :: get_params_from seen r
        else if existsb (String.eqb (p_name p)) seen then get_params_from seen r
        else p :: get_params_from (p_name p :: seen) r
    end.
  Definition get_params (ps : list param) : list param := get_params_from [] ps.

  (** internal/analyzer.go:719-723: the map from lower-cased name to argument. *)
  Fixpoint named_map (m : amap arg) (values : list arg) : amap arg :=
    match values with
    | [] => m
    | v :: r => named_map (aset m (lower (a_name v)) v) r
    end.

  (** internal/analyzer.go:724-738: the argument chosen for parameter [idx].
      [values[idx]] out of range would be a panic; the length check excludes it. *)
  Definition pick (m : amap arg) (values : list arg) (idx : nat) (p : param) : res arg :=
    let positional := match nth_error values idx with Some v => Ok v | None => GoPanic end in
    if String.eqb (p_name p) "" then positional
    else match aget m (p_name p) with Some v => Ok v | None => positional end.

  (** internal/encoder.go:592-601 encodeNamedValue *)
  Definition encode_named (p : param) (v : arg) : res (string * W) :=
    match enc (p_ty p) (a_val v) with
    | Some w => Ok (lower (a_name v), w)
    | None => Err
    end.

  (** internal/analyzer.go:724-739 and internal/encoder.go:20-36
      EncodeNamedValues.  The Go code first picks all arguments and then encodes
      all; here both are done parameter by parameter (same result: picking has
      no effect and cannot fail after the length check). *)
  Fixpoint pick_all (m : amap arg) (values : list arg) (idx : nat) (ps : list param)
    : res (list (string * W)) :=
    match ps with
    | [] => Ok []
    | p :: r =>
        bind (pick m values idx p) (fun v =>
        bind (encode_named p v) (fun w =>
        bind (pick_all m values (S idx) r) (fun ws => Ok (w :: ws))))
    end.

  (** internal/analyzer.go:711-747 getArgsFromParams; [None] is a nil slice. *)
  Definition get_args (values : option (list arg)) (ps : list param) : res (list (string * W)) :=
    match values with
    | None => Ok []
    | Some vs =>
        if (length vs <? length ps)%nat then Err
        else pick_all (named_map [] vs) vs 0 ps
    end.

  (** ---- SQLite's side (go-sqlite3 v1.14.16, outside /repo) ----
      ParameterNode.FormatSQL (internal/formatter.go:200-205) writes "?" or
      "@name".  SQLite numbers parameters in text order, one number per "?"
      and one per distinct name. *)
  Fixpoint numbers_from (next : nat) (known : list (string * nat)) (refs : list string)
    : list (string * nat) :=
    match refs with
    | [] => []
    | r :: t =>
        if String.eqb r "" then ("", next) :: numbers_from (S next) known t
        else match find (fun kn => String.eqb (fst kn) r) known with
             | Some kn => (r, snd kn) :: numbers_from next known t
             | None => (r, next) :: numbers_from (S next) ((r, next) :: known) t
             end
    end.
  Definition numbers (refs : list string) : list (string * nat) := numbers_from 1 [] refs.

  (** An argument with a name is bound to the parameter of that name, one
      without to the parameter whose number is its position; a later binding
      overwrites an earlier one and an unbound parameter is NULL ([None]). *)
  Fixpoint bound_from (ord : nat) (args : list (string * W)) (r : string * nat) (acc : option W)
    : option W :=
    match args with
    | [] => acc
    | (n, w) :: t =>
        let hit := if String.eqb n "" then Nat.eqb ord (snd r) else String.eqb n (fst r) in
        bound_from (S ord) t r (if hit then Some w else acc)
    end.
  Definition bound (args : list (string * W)) (r : string * nat) : option W :=
    bound_from 1 args r None.

  (** One analyzed statement: its parameters in walk order, its parameter
      references in the order of the formatted SQL, and whether the Args()
      method of its action returns the arguments (only
      CreateTableStmtAction.Args, internal/stmt_action.go:103-105) or nil (all
      the other Args methods of that file). *)
  Record pstmt := mkpstmt { ps_params : list param; ps_refs : list string; ps_keeps : bool }.

  (** internal/analyzer.go:159-183 getParameterMode: [Some true] positional,
      [Some false] named, [None] the error for a mixture. *)
  Definition mode (s : pstmt) : option bool :=
    let positional := existsb (fun p => String.eqb (p_name p) "") (ps_params s) in
    let named := existsb (fun p => negb (String.eqb (p_name p) "")) (ps_params s) in
    if positional && named then None else Some positional.

  (** What one statement's parameter references receive. *)
  Definition run_stmt (values : list arg) (s : pstmt) : res (list (string * W) * list (option W)) :=
    match mode s with
    | None => Err
    | Some _ =>
        bind (get_args (Some values) (get_params (ps_params s))) (fun args =>
        Ok (args, map (bound args) (numbers (ps_refs s))))
    end.

  (** internal/analyzer.go:186-230 Analyze's closures called in order by
      ExecContext/QueryContext (driver.go:185-196): after a positional statement
      the arguments are cut by [len(action.Args())]. *)
  Fixpoint run_params (values : list arg) (ss : list pstmt) : res (list (list (option W))) :=
    match ss with
    | [] => Ok []
    | s :: r =>
        bind (run_stmt values s) (fun '(args, bs) =>
        let values' :=
          match mode s with
          | Some true => skipn (if ps_keeps s then length args else 0%nat) values
          | _ => values
          end in
        bind (run_params values' r) (fun rest => Ok (bs :: rest)))
    end.
End Param.
Arguments arg V : clear implicits.
Arguments param T : clear implicits.
Arguments pstmt T : clear implicits.
