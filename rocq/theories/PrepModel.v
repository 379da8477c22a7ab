(** What the calls Prepare, Exec and Query do, statement by statement: driver.go:140-232,
    internal/stmt_action.go, internal/stmt.go, internal/error.go, internal/result.go, and Close of
    internal/rows.go, together with what database/sql does with a driver.Stmt.

    The calls that reach SQLite and the catalog are kept as a history; what they do is left
    open: [fails] says whether a call fails (then it has no effect) and [count] how many rows it
    changed.  Only the calls that change something are recorded.  ScriptModel has their effects.
    The arguments of a script are given to each of its statements; ParamModel has the way they
    are used up. *)
From Coq Require Import Ascii String List ZArith Lia Bool.
From Verif Require Import GoBase ParamModel.
Import ListNotations.
Local Open Scope string_scope.

(** ** Errors: of SQLite or the analyzer, fmt.Errorf with %w, and error.go:5-30 ErrorGroup *)
Inductive error := Base (msg : string) | Wrap (msg : string) (e : error) | Group (l : list error).
Fixpoint join (sep : string) (l : list string) : string :=
  match l with [] => "" | [x] => x | x :: r => x ++ sep ++ join sep r end.
Fixpoint error_text (e : error) : string :=
  match e with
  | Base m => m
  | Wrap m e => m ++ ": " ++ error_text e
  | Group l => join "," (map error_text l)
  end.
(** errors.Unwrap: ErrorGroup has no Unwrap method. *)
Definition unwrap (e : error) : option error := match e with Wrap _ e => Some e | _ => None end.
(** What errors.Is and errors.As look at *)
Fixpoint chain (e : error) : list error := e :: match e with Wrap _ e' => chain e' | _ => [] end.

Inductive outcome (A : Type) := Done (a : A) | Fail (e : error) | Panic.
Arguments Done {A} a. Arguments Fail {A} e. Arguments Panic {A}.

Section Prep.
  Context {V T W : Type} (enc : T -> V -> option W).

  (** ** Calls *)
  Inductive call :=
  | CExec (text : string) (args : list (string * W))      (* conn.ExecContext *)
  | CAddTable (n : string) | CAddFunction (n : string)    (* catalog.AddNew...Spec *)
  | CDelTable (n : string) | CDelFunction (n : string).   (* catalog.Delete...Spec *)
  Definition history := list call.
  Variable fails : history -> call -> option error.
  Variable query_fails : history -> string -> list (string * W) -> option error.
  Variable prepare_fails : history -> string -> option error.
  Variable count : history -> call -> Z.

  Definition made (h : history) (c : call) : history * outcome Z :=
    match fails h c with Some e => (h, Fail e) | None => ((h ++ [c])%list, Done (count h c)) end.
  Definition then_ {A B} (x : history * outcome A) (f : history -> A -> history * outcome B) : history * outcome B :=
    match snd x with Done a => f (fst x) a | Fail e => (fst x, Fail e) | Panic => (fst x, Panic) end.
  Definition wrapped {A} (m : string) (x : history * outcome A) : history * outcome A :=
    match snd x with Fail e => (fst x, Fail (Wrap m e)) | _ => x end.

  (** ** Analyzed statements (analyzer.go:256-640).  [indexes] are the CREATE INDEX statements of
      auto index mode, empty without it; [ps]: the parameters in the order they are met. *)
  Inductive action :=
  | ATable (n schema : string) (ps : list (param T)) (replace temp : bool) (indexes : list string)
  | AView (n schema : string) (replace temp : bool)
  | AFunction (n : string) (temp : bool)
  | ADrop (fn : bool) (n text : string) (ps : list (param T))
  | ADml (text : string) (ps : list (param T))
  | AQuery (text : string) (ps : list (param T)) (explain : bool)
  | ABegin | ACommit
  | ATruncate (text : string)
  | AMerge (texts : list string).

  (** analyzer.go:711-747, when the action is made: the arguments of the statement; [None] is
      the nil of Prepare. *)
  Definition params_of (a : action) : list (param T) :=
    match a with ATable _ _ ps _ _ _ | ADrop _ _ _ ps | ADml _ ps | AQuery _ ps _ => get_params ps | _ => [] end.
  Definition takes_args (a : action) : bool :=
    match a with ATable _ _ _ _ _ _ | ADrop _ _ _ _ | ADml _ _ | AQuery _ _ _ => true | _ => false end.
  Definition args_of (values : option (list (arg V))) (a : action) : outcome (list (string * W)) :=
    if takes_args a then
      match get_args enc values (params_of a) with
      | Ok l => Done l
      | Err => Fail (Base "arguments")
      | GoPanic => Panic
      end
    else Done [].

  Definition drop_text (view : bool) (n : string) : string :=
    (if view then "DROP VIEW IF EXISTS `" else "DROP TABLE IF EXISTS `") ++ n ++ "`".
  Fixpoint each (h : history) (m : string) (l : list string) : history * outcome Z :=
    match l with
    | [] => (h, Done 0%Z)
    | t :: r => then_ (wrapped m (made h (CExec t []))) (fun h _ => each h m r)
    end.

  (** ** exec of the actions, stmt_action.go: 63-87, 145-165, 207-214, 258-280, 312-318, 361-366,
      434, 460, 482-487, 522-529.  The result is result.go:5-26's RowsAffected. *)
  Definition exec (h : history) (a : action) (args : list (string * W)) : history * outcome Z :=
    match a with
    | ATable n schema _ replace _ indexes =>
        then_ (if replace then made h (CExec (drop_text false n) []) else (h, Done 0%Z)) (fun h _ =>
        then_ (wrapped "exec" (made h (CExec schema args))) (fun h _ =>
        then_ (each h "index" indexes) (fun h _ =>
        then_ (wrapped "add" (made h (CAddTable n))) (fun h _ => (h, Done 0%Z)))))
    | AView n schema replace _ =>
        then_ (if replace then made h (CExec (drop_text true n) []) else (h, Done 0%Z)) (fun h _ =>
        then_ (wrapped "exec" (made h (CExec schema []))) (fun h _ =>
        then_ (wrapped "add" (made h (CAddTable n))) (fun h _ => (h, Done 0%Z))))
    | AFunction n _ => then_ (wrapped "add" (made h (CAddFunction n))) (fun h _ => (h, Done 0%Z))
    | ADrop false n text _ =>
        then_ (wrapped "exec" (made h (CExec text args))) (fun h _ =>
        then_ (wrapped "delete" (made h (CDelTable n))) (fun h _ => (h, Done 0%Z)))
    | ADrop true n _ _ => then_ (wrapped "delete" (made h (CDelFunction n))) (fun h _ => (h, Done 0%Z))
    | ADml text _ => wrapped "exec" (made h (CExec text args))
    | AQuery text _ _ => then_ (wrapped "query" (made h (CExec text args))) (fun h _ => (h, Done 0%Z))
    | ABegin | ACommit => (h, Done 0%Z)
    | ATruncate text => then_ (wrapped "truncate" (made h (CExec text []))) (fun h _ => (h, Done 0%Z))
    | AMerge texts => each h "merge" texts
    end.

  (** Cleanup: stmt_action.go:107-122, 179-195, 234-244 and the empty ones *)
  Definition cleanup (h : history) (a : action) : history * outcome Z :=
    match a with
    | ATable n _ _ _ true _ =>
        then_ (wrapped "cleanup" (made h (CExec (drop_text false n) []))) (fun h _ => wrapped "delete" (made h (CDelTable n)))
    | AView n _ _ true =>
        then_ (wrapped "cleanup" (made h (CExec (drop_text true n) []))) (fun h _ => wrapped "delete" (made h (CDelTable n)))
    | AFunction n true => wrapped "delete" (made h (CDelFunction n))
    | _ => (h, Done 0%Z)
    end.
  Fixpoint cleanups (h : history) (l : list action) : history * list error :=
    match l with
    | [] => (h, [])
    | a :: r =>
        let (h1, o) := cleanup h a in
        let (h2, es) := cleanups h1 r in
        (h2, match o with Fail e => e :: es | _ => es end)
    end.

  (** ** driver.go:166-198 ExecContext.  [last]: the result so far; [None] is a nil
      driver.Result, whose RowsAffected panics.  [sofar]: the actions made. *)
  Fixpoint exec_loop (h : history) (values : list (arg V)) (last : option Z) (sofar l : list action)
      : history * list action * outcome (option Z) :=
    match l with
    | [] => (h, sofar, Done last)
    | a :: r =>
        match args_of (Some values) a with
        | Fail e => (h, sofar, Fail e)
        | Panic => (h, sofar, Panic)
        | Done args =>
            let sofar := (sofar ++ [a])%list in
            match exec h a args with
            | (h', Done n) => exec_loop h' values (Some n) sofar r
            | (h', Fail e) => (h', sofar, Fail e)
            | (h', Panic) => (h', sofar, Panic)
            end
        end
    end.
  Definition exec_script (h : history) (values : list (arg V)) (l : list action) : history * outcome (option Z) :=
    match exec_loop h values None [] l with
    | (h, sofar, o) =>
        let (h', es) := cleanups h sofar in
        match o with
        | Panic => (h', Panic)
        | Fail e => (h', Fail (Group (e :: es)))
        | Done r => match es with [] => (h', Done r) | _ => (h', Fail (Group es)) end
        end
    end.

  (** ** Rows: which query they read and the actions Close cleans up; [r_conn]: is there a
      connection (rows.go:16-21).  stmt_action.go:409-425: explain mode makes Rows without one. *)
  Record rows := Rs { r_query : option (string * list (string * W)); r_conn : bool; r_actions : list action }.
  Definition explained (text : string) : string := "EXPLAIN QUERY PLAN " ++ text.
  Definition query (h : history) (a : action) (args : list (string * W)) : history * outcome rows :=
    match a with
    | AQuery text _ true =>
        match query_fails h (explained text) args with
        | Some e => (h, Fail (Wrap "explain" e))
        | None => (h, Done (Rs None false []))
        end
    | AQuery text _ false =>
        match query_fails h text args with
        | Some e => (h, Fail (Wrap "query" e))
        | None => (h, Done (Rs (Some (text, args)) true []))
        end
    | _ => then_ (exec h a args) (fun h _ => (h, Done (Rs None true [])))
    end.
  (** driver.go:200-232 QueryContext *)
  Fixpoint query_loop (h : history) (values : list (arg V)) (last : option rows) (sofar l : list action)
      : history * outcome (option rows) :=
    match l with
    | [] => (h, Done (match last with Some r => Some (Rs (r_query r) (r_conn r) sofar) | None => None end))
    | a :: r =>
        match args_of (Some values) a with
        | Fail e => (h, Fail e)
        | Panic => (h, Panic)
        | Done args =>
            let sofar := (sofar ++ [a])%list in
            match query h a args with
            | (h', Done x) => query_loop h' values (Some x) sofar r
            | (h', Fail e) => (h', Fail e)
            | (h', Panic) => (h', Panic)
            end
        end
    end.
  Definition query_script (h : history) (values : list (arg V)) (l : list action) : history * outcome (option rows) :=
    query_loop h values None [] l.
  (** rows.go:44-60 Close; a Cleanup that uses the nil connection panics.  (DeleteFunctionSpec
      also uses it: catalog.go:270.) *)
  Definition uses_conn (a : action) : bool :=
    match a with ATable _ _ _ _ temp _ | AView _ _ _ temp | AFunction _ temp => temp | _ => false end.
  Definition close (h : history) (r : rows) : history * outcome unit :=
    if negb (r_conn r) && existsb uses_conn (r_actions r) then (h, Panic)
    else match cleanups h (r_actions r) with
         | (h', []) => (h', Done tt)
         | (h', es) => (h', Fail (Group es))
         end.

  (** catalog.go:22-38 (root) ChangedCatalogFromRows with rows.go:23-25 *)
  Definition changed_from_rows (r : rows) : outcome unit := if r_conn r then Done tt else Panic.

  (** ** Prepare, stmt_action.go: 28-42, 130-143, 203-205, 282-284, 304-310, 353-359, 430-432,
      456-458, 478-480, 518-520 *)
  Inductive stmt :=
  | PNil                                   (* return nil, nil *)
  | PTable (n schema : string) | PView (n schema : string)
  | PFunction (n : string)
  | PDml (text : string) (ps : list (param T))
  | PQuery (text : string) (ps : list (param T)).
  Definition compiled (h : history) (text : string) (s : stmt) : history * outcome stmt :=
    match prepare_fails h text with Some e => (h, Fail (Wrap "prepare" e)) | None => (h, Done s) end.
  Definition prepare (h : history) (a : action) : history * outcome stmt :=
    match a with
    | ATable n schema _ replace _ _ =>
        then_ (if replace then made h (CExec (drop_text false n) []) else (h, Done 0%Z)) (fun h _ => compiled h schema (PTable n schema))
    | AView n schema replace _ =>
        then_ (if replace then made h (CExec (drop_text true n) []) else (h, Done 0%Z)) (fun h _ => compiled h schema (PView n schema))
    | AFunction n _ => (h, Done (PFunction n))
    | ADml text _ => compiled h text (PDml text (params_of a))
    | AQuery text _ _ => compiled h text (PQuery text (params_of a))
    | ADrop _ _ _ _ | ABegin | ACommit | ATruncate _ | AMerge _ => (h, Done PNil)
    end.
  (** driver.go:145-164 PrepareContext: the last statement is what is returned.  [cur]: PNil for a
      script without statements. *)
  Fixpoint prepare_script (h : history) (cur : stmt) (l : list action) : history * outcome stmt :=
    match l with
    | [] => (h, Done cur)
    | a :: r =>
        match args_of None a with
        | Done _ => then_ (prepare h a) (fun h s => prepare_script h s r)
        | Fail e => (h, Fail e)
        | Panic => (h, Panic)
        end
    end.

  (** *** database/sql (outside /repo): a nil driver.Stmt panics at NumInput; the number of
      arguments must be NumInput; the statements do not implement StmtExecContext or
      StmtQueryContext (their methods take a query text), so a named argument is an error. *)
  Definition num_input (s : stmt) : nat := match s with PDml _ ps | PQuery _ ps => length ps | _ => O end.
  Definition checked {A} (h : history) (s : stmt) (args : list (arg V)) (k : history * outcome A) : history * outcome A :=
    match s with
    | PNil => (h, Panic)
    | _ =>
        if negb (Nat.eqb (length args) (num_input s)) then (h, Fail (Base "number of arguments"))
        else if existsb (fun v => negb (String.eqb (a_name v) "")) args then (h, Fail (Base "named arguments"))
        else k
    end.
  (** encoder.go:38-54 EncodeGoValues *)
  Fixpoint encode_all (vs : list V) (ps : list (param T)) : option (list W) :=
    match vs, ps with
    | [], [] => Some []
    | v :: vs', p :: ps' =>
        match enc (p_ty p) v with
        | Some w => match encode_all vs' ps' with Some ws => Some (w :: ws) | None => None end
        | None => None
        end
    | _, _ => None
    end.
  Definition unnamed (l : list W) : list (string * W) := map (fun w => ("", w)) l.
  (** stmt.go: 41-49, 84-92, 112-117, 156-175, 212-214.  CreateTableStmt and CreateViewStmt hand the
      slice of arguments to database/sql as one argument, which it refuses. *)
  Definition stmt_exec (h : history) (s : stmt) (args : list (arg V)) : history * outcome (option Z) :=
    checked h s args
    match s with
    | PNil => (h, Panic)
    | PTable _ _ | PView _ _ => (h, Fail (Base "unsupported type []driver.Value"))
    | PFunction n => then_ (wrapped "add" (made h (CAddFunction n))) (fun h _ => (h, Done None))
    | PDml text ps =>
        match encode_all (map (@a_val V) args) ps with
        | None => (h, Fail (Base "arguments"))
        | Some ws => then_ (wrapped "exec" (made h (CExec text (unnamed ws)))) (fun h n => (h, Done (Some n)))
        end
    | PQuery _ _ => (h, Fail (Base "unsupported exec for QueryStmt"))
    end.
  (** stmt.go: 51-53, 94-96, 119-121, 181-183, 220-247 *)
  Definition stmt_query (h : history) (s : stmt) (args : list (arg V)) : history * outcome rows :=
    checked h s args
    match s with
    | PQuery text ps =>
        match encode_all (map (@a_val V) args) ps with
        | None => (h, Fail (Base "arguments"))
        | Some ws =>
            match query_fails h text (unnamed ws) with
            | Some e => (h, Fail (Wrap "query" e))
            | None => (h, Done (Rs (Some (text, unnamed ws)) false []))
            end
        end
    | PNil => (h, Panic)
    | _ => (h, Fail (Base "unsupported query"))
    end.
End Prep.

(** ** stmt_action.go:44-61 createIndexAutomatically *)
Definition index_name (path : list string) (col : string) : string :=
  "zetasqlite_autoindex_" ++ col ++ "_" ++ join "_" path.
Definition index_text (path : list string) (col : string) : string :=
  "CREATE INDEX IF NOT EXISTS " ++ index_name path col ++ " ON `" ++ join "_" path ++ "`(`" ++ col ++ "`)".
