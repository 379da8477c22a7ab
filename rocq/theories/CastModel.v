(** Casts between scalar types: CAST (internal/function.go:513-537), CastValue
    (internal/encoder.go:356-505) and the To... methods of internal/value.go. *)
From Coq Require Import Ascii String List ZArith QArith Lia Bool.
From Verif Require Import GoBase ValueModel DecModel.
Import ListNotations.
Local Open Scope string_scope.
Open Scope Z_scope.

(** A big.Rat is always in lowest terms, with a positive denominator. *)
Definition rat := Q.
Definition norm (q : Q) : rat := Qred q.

(** value.go:731-733: the numerator, through big.Int.Int64, which keeps the low 64 bits *)
Definition cast_numeric_int64 (q : Q) : Z := wrap64 (Qnum (norm q)).
(** value.go:136-145 *)
Definition cast_int64_bool (z : Z) : res bool :=
  if z =? 0 then Ok false else if z =? 1 then Ok true else Err.
(** value.go:574-576 *)
Definition cast_float64_int64 (f : float) : res Z := Ok (int_of_float f).

(** value.go:124-126, 847-849 *)
Definition cast_int64_string (z : Z) : string := dec z.
Definition cast_bool_string (b : bool) : string := if b then "true" else "false".

(** Hexadecimal digits after 0x in strconv.ParseInt with base 0.  An underscore may
    stand between digits and right after the prefix. *)
Definition hex_val (c : ascii) : option Z :=
  let n := Z.of_nat (nat_of_ascii c) in
  if (48 <=? n) && (n <=? 57) then Some (n - 48)
  else if (97 <=? n) && (n <=? 102) then Some (n - 87)
  else if (65 <=? n) && (n <=? 70) then Some (n - 55)
  else None.
Fixpoint read_hex (s : string) (under : bool) (acc : Z) : option Z :=
  match s with
  | EmptyString => if under then None else Some acc
  | String c r =>
      if Ascii.eqb c "_" then (if under then None else read_hex r true acc)
      else match hex_val c with Some d => read_hex r false (16 * acc + d) | None => None end
  end.
Definition is_x (c : ascii) : bool := Ascii.eqb c "x" || Ascii.eqb c "X".
(** ParseInt with base 0 of a string that contains 0x: only a number that starts with
    0x (after a sign) can be read; the letter x is a digit of no base. *)
Definition parse_hex (s : string) : option Z :=
  let '(neg, body) := match s with
    | String c r => if Ascii.eqb c "-" then (true, r) else if Ascii.eqb c "+" then (false, r) else (false, s)
    | EmptyString => (false, s)
    end in
  match body with
  | String c (String x ((String _ _) as r)) =>
      if Ascii.eqb c "0" && is_x x then
        match read_hex r false 0 with
        | Some n => let v := if neg then - n else n in if in64b v then Some v else None
        | None => None
        end
      else None
  | _ => None
  end.
(** value.go:240-250 *)
Definition cast_string_int64 (s : string) : res Z :=
  if String.eqb s "" then Ok 0
  else match (if contains (lower s) "0x" then parse_hex s else parse_int s) with
       | Some v => Ok v
       | None => Err
       end.
(** value.go:267-272 with strconv.ParseBool *)
Definition cast_string_bool (s : string) : res bool :=
  if String.eqb s "" then Ok false
  else if existsb (String.eqb s) ["1"; "t"; "T"; "true"; "TRUE"; "True"] then Ok true
  else if existsb (String.eqb s) ["0"; "f"; "F"; "false"; "FALSE"; "False"] then Ok false
  else Err.

(** NUMERIC arithmetic (value.go:635-684): exact rational operations; division by zero
    panics in big.Rat.Inv and the panic is turned into an error. *)
Definition num_add (x y : Q) : Q := norm (x + y).
Definition num_sub (x y : Q) : Q := norm (x - y).
Definition num_mul (x y : Q) : Q := norm (x * y).
Definition num_div (x y : Q) : res Q := if Qeq_bool y 0 then Err else Ok (norm (x / y)).
(** big.Rat.FloatString(9) (value.go:735-746): the number of billionths, the last digit
    rounded to nearest with halves away from zero. *)
Definition billionths (q : Q) : Z :=
  let n := Qnum q * 1000000000 in
  let d := Zpos (Qden q) in
  Z.sgn n * ((2 * Z.abs n + d) / (2 * d)).
