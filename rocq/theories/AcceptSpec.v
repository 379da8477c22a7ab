(** Which resolved queries are covered by C137: the shapes ZetaSQL makes, without those that
    C139 and C140 are about. *)
From Coq Require Import Ascii String List ZArith Bool.
From Verif Require Import GoBase QueryModel.
Import ListNotations.
Local Open Scope string_scope.

(** A name without an opening parenthesis or a line feed *)
Fixpoint tame (s : string) : bool :=
  match s with EmptyString => true | String c r => negb (Ascii.eqb c "(") && negb (Ascii.eqb c "010") && tame r end.

(** [stacked]: a condition may be put on a subquery that has a condition, a GROUP BY (as HAVING
    does) or an ORDER BY.
    - EXISTS and scalar subqueries are SELECTs, perhaps with LIMIT;
    - what is joined, with another or with the elements of an array, is a table, a join, an
      array scan or a SELECT;
    - a condition is put on a table, a join, an array scan or a SELECT without LIMIT. *)
Section Shape.
  Variable stacked : bool.
  Definition selects (s : scan) : bool :=
    match s with SProject _ _ _ | SLimit _ _ _ _ | SOrder _ _ _ | SSet _ _ _ | SAgg _ _ _ _ => true | _ => false end.
  Definition side (s : scan) : bool := match s with SSingle | SFilter _ _ => false | _ => true end.
  (** ZetaSQL puts a projection on top of an array scan. *)
  Definition top (s : scan) : bool := match s with SArray _ _ _ _ _ => false | _ => side s end.
  Definition filterable (s : scan) : bool :=
    match s with
    | STable _ _ | SCross _ _ | SJoin _ _ _ _ | SSet _ _ _ | SArray _ _ _ _ _ => true
    | SProject (SFilter _ _) _ _ => stacked
    | SProject _ _ _ => true
    | SOrder _ _ _ => stacked
    | SAgg SSingle _ _ _ => false
    | SAgg _ (CCons _ _ _) _ _ => stacked
    | _ => false
    end.
  Fixpoint shape_expr (e : expr) : bool :=
    match e with
    | ECol _ | ELit _ => true
    | ECall _ a => shape_exprs a
    | EExists s | EScalar s => selects s && shape s
    end
  with shape_exprs (a : exprs) : bool := match a with ENil => true | ECons e r => shape_expr e && shape_exprs r end
  with shape (s : scan) : bool :=
    match s with
    | SSingle | STable _ _ => true
    | SCross l r => side l && side r && shape l && shape r
    | SJoin _ l r e => side l && side r && shape l && shape r && shape_expr e
    | SFilter s e => filterable s && shape s && shape_expr e
    | SProject s cs _ => shape s && shape_comps cs
    | SLimit s _ _ _ => shape s
    | SOrder s _ _ => shape s
    | SSet _ l _ => shape_inputs l
    | SAgg s g a _ => shape s && shape_comps g && shape_aggs a
    | SArray s a _ _ j =>
        match s with SSingle => true | _ => side s end && shape s && shape_expr a &&
        match j with JComma _ => true | JOn _ e => shape_expr e end
    end
  with shape_inputs (l : inputs) : bool := match l with NNil => true | NCons s _ r => shape s && shape_inputs r end
  with shape_aggs (l : acomps) : bool := match l with ANil => true | ACons _ _ a r => shape_exprs a && shape_aggs r end
  with shape_comps (cs : comps) : bool := match cs with CNil => true | CCons _ e r => shape_expr e && shape_comps r end.
End Shape.

(** Table and function names are tame, and no ON is a call without arguments. *)
Definition full (e : expr) : bool := match e with ECall _ ENil => false | _ => true end.
Fixpoint clean_expr (e : expr) : bool :=
  match e with
  | ECol _ | ELit _ => true
  | ECall f a => tame f && clean_exprs a
  | EExists s | EScalar s => clean s
  end
with clean_exprs (a : exprs) : bool := match a with ENil => true | ECons e r => clean_expr e && clean_exprs r end
with clean (s : scan) : bool :=
  match s with
  | SSingle => true
  | STable t _ => tame t
  | SCross l r => clean l && clean r
  | SJoin _ l r e => clean l && clean r && (full e && clean_expr e)
  | SFilter s e => clean s && clean_expr e
  | SProject s cs _ => clean s && clean_comps cs
  | SLimit s _ _ _ => clean s
  | SOrder s _ _ => clean s
  | SSet _ l _ => clean_inputs l
  | SAgg s g a _ => clean s && clean_comps g && clean_aggs a
  | SArray s a _ _ j => clean s && clean_expr a && match j with JComma _ => true | JOn _ e => clean_expr e end
  end
with clean_inputs (l : inputs) : bool := match l with NNil => true | NCons s _ r => clean s && clean_inputs r end
with clean_aggs (l : acomps) : bool := match l with ANil => true | ACons _ f a r => tame f && clean_exprs a && clean_aggs r end
with clean_comps (cs : comps) : bool := match cs with CNil => true | CCons _ e r => clean_expr e && clean_comps r end.
