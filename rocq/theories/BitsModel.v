(** Bit operators: internal/function.go:75-142, internal/function_bit.go:7-26. *)
From Coq Require Import Ascii String List ZArith Lia Bool.
From Verif Require Import GoBase.
Import ListNotations.
Open Scope Z_scope.

(** function.go:75-82 *)
Definition fn_bit_not (a : Z) : res Z := Ok (Z.lnot a).
(** function.go:84-94.  Go: a negative count panics, a count of 64 or more gives 0. *)
Definition fn_shl (a n : Z) : res Z :=
  if n <? 0 then GoPanic else if 64 <=? n then Ok 0 else Ok (wrap64 (Z.shiftl a n)).
(** function.go:96-106.  Go's >> on a signed operand is arithmetic. *)
Definition fn_shr (a n : Z) : res Z :=
  if n <? 0 then GoPanic else if 64 <=? n then Ok (if a <? 0 then -1 else 0) else Ok (Z.shiftr a n).
(** function.go:108-142 *)
Definition fn_bit_and (a b : Z) : res Z := Ok (Z.land a b).
Definition fn_bit_or (a b : Z) : res Z := Ok (Z.lor a b).
Definition fn_bit_xor (a b : Z) : res Z := Ok (Z.lxor a b).

(** math/bits.OnesCount64 and OnesCount8 of a word given as a non-negative integer. *)
Fixpoint ones_pos (p : positive) : Z :=
  match p with
  | xH => 1
  | xO p => ones_pos p
  | xI p => 1 + ones_pos p
  end.
Definition ones (z : Z) : Z := match z with Zpos p => ones_pos p | _ => 0 end.
(** function_bit.go:19-24: the conversion uint64(v) *)
Definition fn_bit_count (a : Z) : Z := ones (a mod two64).
(** function_bit.go:9-18 *)
Fixpoint fn_bit_count_bytes (s : string) : Z :=
  match s with
  | EmptyString => 0
  | String c r => ones (Z.of_N (N_of_ascii c)) + fn_bit_count_bytes r
  end.
