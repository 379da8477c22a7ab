(** What trimming means, on lists of characters. *)
From Coq Require Import List ZArith.
Import ListNotations.

(** r is w without its leading members of [cut], of which none is left in front. *)
Definition left_trimmed {A} (cut : A -> Prop) (w r : list A) : Prop :=
  exists p, w = p ++ r /\ Forall cut p /\ match r with c :: _ => ~ cut c | [] => True end.
Definition right_trimmed {A} (cut : A -> Prop) (w r : list A) : Prop :=
  exists p, w = r ++ p /\ Forall cut p /\ match rev r with c :: _ => ~ cut c | [] => True end.
