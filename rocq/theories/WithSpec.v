(** What a query with WITH means: the query with the subquery of the entry in place of each
    reference. *)
From Coq Require Import Ascii String List ZArith Lia Bool.
From Verif Require Import GoBase QueryModel QuerySpec AcceptSpec WithModel.
From Verif Require ScanModel.
Import ListNotations.
Local Open Scope string_scope.

(** Replacing table scans *)
Section Put.
  Variable sub : string -> list Z -> option scan.
  Fixpoint put_expr (e : expr) : expr :=
    match e with
    | ECol _ | ELit _ => e
    | ECall f a => ECall f (put_exprs a)
    | EExists s => EExists (put_scan s)
    | EScalar s => EScalar (put_scan s)
    end
  with put_exprs (a : exprs) : exprs := match a with ENil => ENil | ECons e r => ECons (put_expr e) (put_exprs r) end
  with put_scan (s : scan) : scan :=
    match s with
    | SSingle => SSingle
    | STable t cols => match sub t cols with Some s' => s' | None => s end
    | SCross l r => SCross (put_scan l) (put_scan r)
    | SJoin k l r on => SJoin k (put_scan l) (put_scan r) (put_expr on)
    | SFilter s e => SFilter (put_scan s) (put_expr e)
    | SProject s cs cols => SProject (put_scan s) (put_comps cs) cols
    | SLimit s n off cols => SLimit (put_scan s) n off cols
    | SOrder s keys cols => SOrder (put_scan s) keys cols
    | SSet op l cols => SSet op (put_inputs l) cols
    | SAgg s g a cols => SAgg (put_scan s) (put_comps g) (put_aggs a) cols
    | SArray s a elem off j => SArray (put_scan s) (put_expr a) elem off (put_join j)
    end
  with put_inputs (l : inputs) : inputs := match l with NNil => NNil | NCons s cols r => NCons (put_scan s) cols (put_inputs r) end
  with put_aggs (l : acomps) : acomps := match l with ANil => ANil | ACons c f a r => ACons c f (put_exprs a) (put_aggs r) end
  with put_comps (cs : comps) : comps := match cs with CNil => CNil | CCons c e r => CCons c (put_expr e) (put_comps r) end
  with put_join (j : ajoin) : ajoin := match j with JComma o => JComma o | JOn o e => JOn o (put_expr e) end.
End Put.

(** A reference: the subquery with its columns under new ids *)
Fixpoint same_cols (cols defs : list Z) : comps :=
  match cols, defs with c :: r, d :: r' => CCons c (ECol d) (same_cols r r') | _, _ => CNil end.
Definition is_ref (refs : list (string * list Z)) (t : string) (cols : list Z) : bool :=
  existsb (fun r => String.eqb (fst r) t && if list_eq_dec Z.eq_dec (snd r) cols then true else false) refs.
Definition unfold (refs : list (string * list Z)) (known : list (string * scan)) (s : scan) : scan :=
  put_scan (fun t cols =>
    if is_ref refs t cols then
      match find (fun e => String.eqb (fst e) t) known with
      | Some (_, s') => Some (SProject s' (same_cols cols (out s')) cols)
      | None => None
      end
    else None) s.
(** Each entry over those before it *)
Fixpoint unfold_all (refs : list (string * list Z)) (known : list (string * scan)) (l : list wentry) : list (string * scan) :=
  match l with
  | [] => known
  | e :: r => unfold_all refs (known ++ [(ename e, unfold refs known (esub e))])%list r
  end.
Definition meant (refs : list (string * list Z)) (l : list wentry) (main : scan) : scan :=
  unfold refs (unfold_all refs [] l) main.

(** The table scans of a tree *)
Fixpoint tables_expr (e : expr) : list (string * list Z) :=
  match e with ECol _ | ELit _ => [] | ECall _ a => tables_exprs a | EExists s | EScalar s => tables s end
with tables_exprs (a : exprs) : list (string * list Z) := match a with ENil => [] | ECons e r => (tables_expr e ++ tables_exprs r)%list end
with tables (s : scan) : list (string * list Z) :=
  match s with
  | SSingle => []
  | STable t cols => [(t, cols)]
  | SCross l r => (tables l ++ tables r)%list
  | SJoin _ l r e => (tables l ++ tables r ++ tables_expr e)%list
  | SFilter s e => (tables s ++ tables_expr e)%list
  | SProject s cs _ => (tables s ++ tables_comps cs)%list
  | SLimit s _ _ _ | SOrder s _ _ => tables s
  | SSet _ l _ => tables_inputs l
  | SAgg s g a _ => (tables s ++ tables_comps g ++ tables_aggs a)%list
  | SArray s a _ _ j => (tables s ++ tables_expr a ++ tables_join j)%list
  end
with tables_inputs (l : inputs) : list (string * list Z) := match l with NNil => [] | NCons s _ r => (tables s ++ tables_inputs r)%list end
with tables_aggs (l : acomps) : list (string * list Z) := match l with ANil => [] | ACons _ _ a r => (tables_exprs a ++ tables_aggs r)%list end
with tables_comps (cs : comps) : list (string * list Z) := match cs with CNil => [] | CCons _ e r => (tables_expr e ++ tables_comps r)%list end
with tables_join (j : ajoin) : list (string * list Z) := match j with JComma _ => [] | JOn _ e => tables_expr e end.

(** ** The statements covered *)
(** Each table scan is a reference to one of the entries [before], with as many columns as it
    has, or a table that no entry of the statement is named like, with columns of its own. *)
Definition scans_ok (refs : list (string * list Z)) (l before : list wentry) (s : scan) : Prop :=
  forall t cols, In (t, cols) (tables s) ->
    if is_ref refs t cols
    then exists e, In e before /\ ename e = t /\ length cols = length (edefs e)
    else (forall e, In e l -> same_name (ename e) t = false) /\ (forall c r, In c cols -> In r refs -> ~ In c (snd r)).
Definition scan_ok (stacked : bool) (s : scan) : Prop :=
  wf_scan in64 True [] [] s /\ selects s = true /\ shape stacked s = true /\ (stacked = true -> clean s = true).
Fixpoint entries_ok (stacked : bool) (refs : list (string * list Z)) (l before : list wentry) (es : list wentry) : Prop :=
  match es with
  | [] => True
  | e :: r =>
      scan_ok stacked (esub e) /\ edefs e = out (esub e) /\ scans_ok refs l before (esub e) /\
      entries_ok stacked refs l (before ++ [e])%list r
  end.
Record with_ok (stacked : bool) (names : Z -> string) (refs : list (string * list Z)) (l : list wentry) (main : scan) : Prop := {
  plain : forall e, In e l -> ScanModel.plain_name (ename e) = true;       (* see C167 *)
  apart_entries : no_twice (map ename l) = true;
  own_columns : NoDup (concat (map snd refs));
  all_refs : forall r, In r refs -> exists e, In e l /\ ename e = fst r /\ length (snd r) = length (edefs e);
  good_entries : entries_ok stacked refs l [] l;
  good_main : scan_ok stacked main;
  good_scans : scans_ok refs l l main;
  tame_names : stacked = true -> forall c, tame (names c) = true
}.
