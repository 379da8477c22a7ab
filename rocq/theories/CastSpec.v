(** What casts mean. *)
From Coq Require Import Ascii String List ZArith QArith Qabs Lia Bool.
From Verif Require Import GoBase ValueModel DecModel DecFacts.
Import ListNotations.
Local Open Scope string_scope.
Open Scope Z_scope.

(** z is q rounded to the nearest integer, halves away from zero. *)
Definition rounds (q : Q) (z : Z) : Prop :=
  (2 * Qabs (q - inject_Z z) <= 1)%Q /\
  (2 * Qabs (q - inject_Z z) == 1 -> Qabs q <= Qabs (inject_Z z))%Q.

(** The rational number a float stands for. *)
Definition float_val (f : float) : option Q :=
  match f with
  | SpecFloat.S754_zero _ => Some (0#1)
  | SpecFloat.S754_finite s m e =>
      let q := if 0 <=? e then inject_Z (Zpos m * 2 ^ e) else (Zpos m # Z.to_pos (2 ^ (- e))) in
      Some (if s then - q else q)%Q
  | _ => None
  end.

(** An optional sign and one or more decimal digits. *)
Definition decimal (s : string) (v : Z) : Prop :=
  exists sign ds n, s = (sign ++ ds)%string /\ ds <> "" /\ positional ds = Some n /\
    ((sign = "" \/ sign = "+") /\ v = n \/ sign = "-" /\ v = - n).

(** Multiples of 10^-9. *)
Definition nine_digits (q : Q) : Prop := exists k, (q == k # 1000000000)%Q.
