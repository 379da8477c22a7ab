(** What TABLESAMPLE should give. *)
From Coq Require Import String List ZArith.
From Verif Require Import QueryModel GapModel.
Import ListNotations.

(** [part k l]: k are some of the rows of l, in their order. *)
Inductive part {A} : list A -> list A -> Prop :=
| part_nil : part [] []
| part_keep : forall x k l, part k l -> part (x :: k) (x :: l)
| part_skip : forall x k l, part k l -> part k (x :: l).
(** SELECT v FROM t TABLESAMPLE ...: once v for each row of a sample *)
Definition one_each {A} (v : val) (rows : list A) (r : option (list (list val))) : Prop :=
  exists kept, part kept rows /\ r = Some (map (fun _ => [v]) kept).
(** SELECT v FROM t TABLESAMPLE SYSTEM (100 PERCENT): once v for each row *)
Definition one_for_all {A} (v : val) (rows : list A) (r : option (list (list val))) : Prop :=
  r = Some (map (fun _ => [v]) rows).

(** The expression needs the value of a column whatever else it computes. *)
Inductive reads : expr -> Prop :=
| reads_col : forall c, reads (ECol c)
| reads_call : forall f a, reads_some a -> reads (ECall f a)
with reads_some : exprs -> Prop :=
| reads_here : forall e r, reads e -> reads_some (ECons e r)
| reads_later : forall e r, reads_some r -> reads_some (ECons e r).
