(** Progressions. *)
From Coq Require Import String List ZArith Lia Bool.
From Verif Require Import DateSpec.
Import ListNotations.
Open Scope Z_scope.

(** [l] is a, a+s, a+2s, ... up to b: the k-th element is a + k*s, they stay on this
    side of b, and one more would not. *)
Definition progression (a b s : Z) (l : list Z) : Prop :=
  (forall k, (k < length l)%nat -> nth_error l k = Some (a + Z.of_nat k * s)) /\
  (0 < s -> (forall k, (k < length l)%nat -> a + Z.of_nat k * s <= b) /\ b < a + Z.of_nat (length l) * s) /\
  (s < 0 -> (forall k, (k < length l)%nat -> b <= a + Z.of_nat k * s) /\ a + Z.of_nat (length l) * s < b).

Local Open Scope string_scope.
(** r is the date k parts after a. *)
Definition later (part : string) (a k r : Z) : Prop :=
  if String.eqb part "DAY" then r = a + k
  else if String.eqb part "WEEK" then r = a + 7 * k
  else if String.eqb part "MONTH" then months_later a k r
  else if String.eqb part "QUARTER" then months_later a (3 * k) r
  else months_later a (12 * k) r.
Definition dates (part : string) (a b s : Z) (l : list Z) : Prop :=
  (forall k r, nth_error l k = Some r -> later part a (Z.of_nat k * s) r) /\
  (forall r, In r l -> (0 < s -> r <= b) /\ (s < 0 -> b <= r)) /\
  (forall r, later part a (Z.of_nat (length l) * s) r -> (0 < s -> b < r) /\ (s < 0 -> r < b)).
