(** The INT64 functions that go through float64: internal/function_math.go. *)
From Coq Require Import ZArith Lia Bool SpecFloat.
From Verif Require Import GoBase ValueModel.
Open Scope Z_scope.

(** float64(i) as the integer it is: the nearest integer of 53 significant bits.  A
    correctly rounded sum, difference or product of two such floats is again an
    integer, namely [rnd] of the exact result. *)
Definition rnd (z : Z) : Z := match trunc_float (float_of_int z) with Some r => r | None => 0 end.

(** A FloatValue read into an INT64 column: rows.go:143-149, value.go:575. *)
Definition as_int64 (r : Z) : Z := if in64b r then r else - two63.

(** function_math.go:233-244, 246-261, 219-230, 232-238.  The result is never NULL. *)
Definition fn_safe_add (x y : Z) : option Z := Some (as_int64 (rnd (rnd x + rnd y))).
Definition fn_safe_subtract (x y : Z) : option Z := Some (as_int64 (rnd (rnd x - rnd y))).
Definition fn_safe_multiply (x y : Z) : option Z := Some (as_int64 (rnd (rnd x * rnd y))).
Definition fn_safe_negate (x : Z) : option Z := Some (as_int64 (- rnd x)).

(** function_math.go:12-18 *)
Definition fn_abs (x : Z) : res Z := Ok (as_int64 (Z.abs (rnd x))).

(** function_math.go:263-276; math.Mod is exact and has the sign of the dividend. *)
Definition fn_mod (x y : Z) : res Z := if rnd y =? 0 then Err else Ok (as_int64 (Z.rem (rnd x) (rnd y))).
