(** What aggregates over a window frame should return, independent of the Go code. *)
From Coq Require Import Ascii String List ZArith QArith Lia Bool SpecFloat.
From Verif Require Import GoBase ValueModel CompareSpec AggModel AggSpec WindowModel WindowSpec.
Import ListNotations.
Local Open Scope string_scope.
Open Scope Z_scope.

(** f(DISTINCT x) OVER (... ROWS BETWEEN s AND e) *)
Definition distinct_spec (s e : bound) : spec := {| p_distinct := true; p_respect := false; p_frame := Some (URows, s, e) |}.
(** The frame of the whole partition *)
Definition everything : spec := rows_spec (the_bound UnboundedPreceding 0) (the_bound UnboundedFollowing 0).
(** Every value has a text, and different values have different texts. *)
Definition told_apart (text : val -> res string) (vs : list val) : Prop :=
  (forall v, In v vs -> exists t, text v = Ok t) /\
  (forall v w, In v vs -> In w vs -> text v = text w -> v = w).
(** [ks] has each value of [vs] once. *)
Definition each_once (vs ks : list val) : Prop := NoDup ks /\ forall v, In v ks <-> In v vs.

(** The k-th smallest value: fewer than k are before it, and at least k are not after it. *)
Definition kth_smallest (k : Z) (vs : list val) (v : val) : Prop :=
  In v vs /\
  (forall lo, keeps (fun x => before x v) vs lo -> zlen lo < k) /\
  (forall hi, keeps (fun x => ~ before v x) vs hi -> k <= zlen hi).
(** A float between 0 and 1 *)
Definition a_percentile (f : float) : Prop := real_float f /\ 0 <= float_scaled f <= 2 ^ 1074.
(** k - 1 < q <= k *)
Definition rounds_up_to (q : float) (k : Z) : Prop := (k - 1) * 2 ^ 1074 < float_scaled q <= k * 2 ^ 1074.
(** The rows give the argument of the function and the percentile. *)
Definition asks (f : float) (r : srow) : Prop := exists x, r_args r = [x; Some (VFloat f)].
