(** What host names, hashes and PARSE_NUMERIC are expected to be. *)
From Coq Require Import Ascii String List ZArith Bool.
From Verif Require Import GoBase.
Import ListNotations.
Local Open Scope string_scope.

(** A label of a host name: no point in it. *)
Definition label (s : string) : Prop := has_char "." s = false.
(** The labels of a host name, from left to right. *)
Definition labels (h : string) (l : list string) : Prop := l <> [] /\ Forall label l /\ h = join "." l.
(** d is the host h or what follows one of its points. *)
Definition ends_in (h d : string) : Prop := h = d \/ exists p, h = p ++ "." ++ d.
(** Two or more points in a row between other characters. *)
Fixpoint points (n : nat) : string := match n with O => "" | S k => String "." (points k) end.
Definition gap (h : string) : Prop :=
  exists a x n y b, x <> "."%char /\ y <> "."%char /\ (2 <= n)%nat /\ h = a ++ String x (points n ++ String y b).
