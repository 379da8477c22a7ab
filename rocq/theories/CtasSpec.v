(** What tables hold: lists of rows of values.  No declared types, no conversions. *)
From Coq Require Import Ascii String List ZArith Lia Bool.
From Verif Require Import GoBase DecModel QueryModel DmlModel DmlSpec CtasModel.
Import ListNotations.
Local Open Scope string_scope.

Section Ctas.
  Variable float : Type.
  Notation go := (go float).
  Notation item := (item float).
  Notation stmt := (stmt float).
  (** The name, the types of the columns, the rows *)
  Definition world := list (string * (list kind * list (list go))).
  Definition table_of (b : world) (n : string) : option (list kind * list (list go)) := option_map snd (find (fun e => same_name (fst e) n) b).
  Fixpoint with_rows (b : world) (n : string) (rows : list (list go)) : world :=
    match b with [] => [] | e :: r => if same_name (fst e) n then (fst e, (fst (snd e), rows)) :: r else e :: with_rows r n rows end.
  (** Expressions and conditions take a BOOL as the integer 0 or 1 (C33, C357). *)
  Definition plain (g : go) : go := match g with GBool _ y => GInt _ (if y then 1 else 0)%Z | _ => g end.
  Definition kind_of (ks : list kind) (i : item) : option kind :=
    match i with ICol _ i => nth_error ks i | IExpr _ k _ => Some k end.
  Definition value_of (r : list go) (i : item) : option go :=
    match i with ICol _ i => nth_error r i | IExpr _ _ f => f (map plain r) end.
  Definition result (rows : list (list go)) (items : list item) (w : list go -> option bool) : option (list (list go)) :=
    obind (which (fun r => w (map plain r)) rows) (fun rs => each (fun r => each (value_of r) items) rs).
  Definition mean (b : world) (s : stmt) : option world :=
    match s with
    | SCreate _ n l => match table_of b n with Some _ => None | None => Some (b ++ [(n, (l, []))])%list end
    | SAs _ n src items w =>
        match table_of b n, table_of b src with
        | None, Some (ks, rows) =>
            obind (each (kind_of ks) items) (fun ks' => obind (result rows items w) (fun rows' => Some (b ++ [(n, (ks', rows'))])%list))
        | _, _ => None
        end
    | SInsert _ n l => match table_of b n with Some (_, rows) => Some (with_rows b n (rows ++ l)%list) | None => None end
    | SFrom _ n src items w =>
        match table_of b n, table_of b src with
        | Some (_, rows), Some (_, from) => obind (result from items w) (fun l => Some (with_rows b n (rows ++ l)%list))
        | _, _ => None
        end
    | SUpdate _ n i f w =>
        match table_of b n with
        | Some (_, rows) =>
            obind (each (fun r => obind (w (map plain r)) (fun y => if y then obind (f (map plain r)) (fun g => Some (put i g r)) else Some r)) rows)
              (fun rows' => Some (with_rows b n rows'))
        | None => None
        end
    | SDelete _ n w =>
        match table_of b n with
        | Some (_, rows) => obind (which (fun r => option_map negb (w (map plain r))) rows) (fun rows' => Some (with_rows b n rows'))
        | None => None
        end
    | SDrop _ n => match table_of b n with Some _ => Some (filter (fun e => negb (same_name (fst e) n)) b) | None => None end
    end.
  Definition mean_all (b : world) (l : list stmt) : world :=
    fold_left (fun b s => match mean b s with Some b' => b' | None => b end) l b.

  (** CREATE OR REPLACE TABLE n AS SELECT: the query reads the tables as they are; then its rows
      take the place of the old table. *)
  Definition replaced (b : world) (n src : string) (items : list item) (w : list go -> option bool) : option world :=
    match table_of b src with
    | Some (ks, rows) =>
        obind (each (kind_of ks) items) (fun ks' => obind (result rows items w) (fun rows' =>
        Some (filter (fun e => negb (same_name (fst e) n)) b ++ [(n, (ks', rows'))])%list))
    | None => None
    end.

  (** ** Statements the analyzer lets through: values have the type of their column. *)
  Definition gives (k : kind) (f : list go -> option go) : Prop := forall args g, f args = Some g -> for_kind k g.
  Definition item_ok (i : item) : Prop := match i with ICol _ _ => True | IExpr _ k f => k <> KEnum /\ gives k f end.
  Definition typed (b : world) (s : stmt) : Prop :=
    match s with
    | SCreate _ n l => Forall (fun k => k <> KEnum) l
    | SAs _ n src items w => Forall item_ok items
    | SInsert _ n l => forall ks rows, table_of b n = Some (ks, rows) -> Forall (Forall2 for_kind ks) l
    | SFrom _ n src items w =>
        Forall item_ok items /\
        (forall ks rows ks' rows', table_of b n = Some (ks, rows) -> table_of b src = Some (ks', rows') -> map (kind_of ks') items = map Some ks)
    | SUpdate _ n i f w => forall ks rows, table_of b n = Some (ks, rows) -> exists k, nth_error ks i = Some k /\ gives k f
    | SDelete _ n w => True
    | SDrop _ n => True
    end.
  Fixpoint all_typed (b : world) (l : list stmt) : Prop :=
    match l with [] => True | s :: r => typed b s /\ all_typed (match mean b s with Some b' => b' | None => b end) r end.
End Ctas.
