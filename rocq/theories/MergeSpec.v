(** What MERGE means (SQL standard, BigQuery documentation). *)
From Coq Require Import Ascii String List ZArith Lia Bool.
From Verif Require Import GoBase ScriptModel MergeModel.
Import ListNotations.

(** Two rows match when their keys are equal and not NULL. *)
Definition rows_match (L : mlayout) (s t : crow) : Prop :=
  exists k, key (ml_i L) s = Some k /\ key (ml_j L) t = Some k.
Definition has_source (L : mlayout) (Sr : list crow) (t : crow) : Prop := exists s, In s Sr /\ rows_match L s t.
Definition has_target (L : mlayout) (Tr : list crow) (s : crow) : Prop := exists t, In t Tr /\ rows_match L s t.

(** Rows have the columns of their table. *)
Definition shaped (n : nat) (R : list crow) : Prop := forall r, In r R -> length r = n.

(** [filtered P l l']: l' is the sub-list of the elements of l that satisfy P. *)
Inductive filtered {A} (P : A -> Prop) : list A -> list A -> Prop :=
| f_nil : filtered P [] []
| f_keep a l l' : P a -> filtered P l l' -> filtered P (a :: l) (a :: l')
| f_drop a l l' : ~ P a -> filtered P l l' -> filtered P (a :: l) l'.

(** The statements of the clauses change tables other than the auxiliary one. *)
Definition dml_elsewhere (q : sqstmt) : Prop :=
  exists n f, q = QDml n f /\ lower n <> merged_name.
