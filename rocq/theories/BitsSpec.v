(** 64-bit words as 64 bits. *)
From Coq Require Import Ascii String List ZArith Lia Bool.
From Verif Require Import GoBase.
Import ListNotations.
Open Scope Z_scope.

(** Bit i of the two's complement representation of a 64-bit integer. *)
Definition bit (z i : Z) : bool := Z.testbit (z mod 2 ^ 64) i.
Definition word_index (i : Z) : Prop := 0 <= i < 64.

(** The number of one bits among the first n. *)
Fixpoint count_bits (f : Z -> bool) (n : nat) : Z :=
  match n with
  | O => 0
  | S k => count_bits f k + (if f (Z.of_nat k) then 1 else 0)
  end.
