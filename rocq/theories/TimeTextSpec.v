From Coq Require Import Ascii String List ZArith Lia Bool.
From Verif Require Import DecFacts.
Import ListNotations.
Local Open Scope string_scope.
Open Scope Z_scope.

(** The packing ZetaSQL uses for DATETIME and TIME values. *)
Definition pack (y mo d h mi s us : Z) : Z :=
  ((((((y * 16 + mo) * 32 + d) * 32 + h) * 64 + mi) * 64 + s) * 1048576 + us).

(** [v] reads, as a decimal fraction, as u millionths. *)
Definition reads_as (v : string) (u : Z) : Prop :=
  exists sign a b n f, v = (sign ++ a ++ "." ++ b)%string /\ a <> "" /\
    positional a = Some n /\ positional b = Some f /\
    (sign = "" /\ u * 10 ^ Z.of_nat (String.length b) = 1000000 * (n * 10 ^ Z.of_nat (String.length b) + f) \/
     sign = "-" /\ - u * 10 ^ Z.of_nat (String.length b) = 1000000 * (n * 10 ^ Z.of_nat (String.length b) + f)).
