(** The FLOAT64 functions and operators: internal/function_math.go,
    internal/function_bind.go:1594-1874, internal/value.go:497-532.

    A function of Go's math package that is no elementary bit operation - Sqrt, Exp,
    Log, Sin and so on - is a variable, as are gonum's scalar.Round, the conversion of
    a value that is neither INT64 nor FLOAT64 to float64 or int64, and the sign bit of
    a NaN.  RAND (function_math.go:83-87) is not modelled; GREATEST, LEAST and
    RANGE_BUCKET are in ExtremeModel.v, DIV and MOD in ValueModel.v and IntModel.v. *)
From Coq Require Import String List ZArith Bool SpecFloat.
From Verif Require Import GoBase ValueModel.
Import ListNotations.
Open Scope Z_scope.

(** The functions of Go's math package with one and with two float64 arguments. *)
Inductive lib1 := MSqrt | MExp | MLog | MLog10 | MCos | MCosh | MAcos | MAcosh | MSin | MSinh | MAsin | MAsinh | MTan | MTanh | MAtan | MAtanh.
Inductive lib2 := MPow | MAtan2.

(** The SQL names: function_register.go:202-243. *)
Inductive mfn :=
| F_ABS | F_SIGN | F_IS_INF | F_IS_NAN | F_IEEE_DIVIDE
| F_SQRT | F_POW | F_POWER | F_EXP | F_LN | F_LOG | F_LOG10
| F_SAFE_DIVIDE | F_SAFE_MULTIPLY | F_SAFE_NEGATE | F_SAFE_ADD | F_SAFE_SUBTRACT
| F_ROUND | F_TRUNC | F_CEIL | F_CEILING | F_FLOOR
| F_COS | F_COSH | F_ACOS | F_ACOSH | F_SIN | F_SINH | F_ASIN | F_ASINH | F_TAN | F_TANH | F_ATAN | F_ATANH | F_ATAN2
| O_ADD | O_SUB | O_MUL | O_DIV.

(** Go's == 0, > 0 and < 0 on a float64; math.IsInf(f, 0). *)
Definition eq0 (f : float) : bool := match f with S754_zero _ => true | _ => false end.
Definition gt0 (f : float) : bool := match f with S754_finite s _ _ => negb s | S754_infinity s => negb s | _ => false end.
Definition lt0 (f : float) : bool := match f with S754_finite s _ _ => s | S754_infinity s => s | _ => false end.
Definition is_inf (f : float) : bool := match f with S754_infinity _ => true | _ => false end.

(** math.Floor: for a negative argument the negation of the ceiling of its absolute
    value; zeros, infinities and NaN are returned as they are. *)
Definition go_floor (f : float) : float :=
  match f with
  | S754_finite s m e =>
      if 0 <=? e then f
      else let d := 2 ^ (- e) in
           if s then SFopp (float_of_int ((Zpos m + d - 1) / d)) else float_of_int (Zpos m / d)
  | _ => f
  end.
(** math.Ceil is -Floor(-x). *)
Definition go_ceil (f : float) : float := SFopp (go_floor (SFopp f)).
(** math.Trunc: the integer part of the absolute value, with the sign of the argument. *)
Definition go_trunc (f : float) : float :=
  match f with
  | S754_finite s m e =>
      if 0 <=? e then f
      else let r := float_of_int (Zpos m / 2 ^ (- e)) in if s then SFopp r else r
  | _ => f
  end.
(** math.Ldexp(f, n): f times 2^n. *)
Definition go_ldexp (f : float) (n : Z) : float := SFldexp prec64 emax64 f n.

Section MathFns.
  Variable lib : lib1 -> float -> float.
  Variable libb : lib2 -> float -> float -> float.
  Variable scalar_round : float -> Z -> float.
  Variable nan_sign : bool.
  Variable other_float : val -> res float.
  Variable other_int : val -> res Z.

  (** Value.ToFloat64, Value.ToInt64: value.go:123, 575, 587 *)
  Definition to_f (v : val) : res float := match v with VInt i => Ok (float_of_int i) | VFloat f => Ok f | _ => other_float v end.
  Definition to_i (v : val) : res Z := match v with VInt i => Ok i | VFloat f => Ok (int_of_float f) | _ => other_int v end.

  (** math.Signbit *)
  Definition sign_bit (f : float) : bool :=
    match f with S754_zero s => s | S754_infinity s => s | S754_finite s _ _ => s | S754_nan => nan_sign end.

  (** A function that converts its one argument, or its two arguments from left to
      right, and answers with a FLOAT64. *)
  Definition one (g : float -> float) (x : val) : res (option val) := bind (to_f x) (fun f => Ok (Some (VFloat (g f)))).
  Definition two (g : float -> float -> float) (x y : val) : res (option val) :=
    bind (to_f x) (fun f => bind (to_f y) (fun h => Ok (Some (VFloat (g f h))))).

  (** SIGN: function_math.go:20-31 *)
  Definition sign_fn (x : val) : res (option val) :=
    bind (to_f x) (fun f => Ok (Some (VInt (if sign_bit f then -1 else if eq0 f then 0 else 1)))).
  (** IS_INF, IS_NAN: function_math.go:33-47 *)
  Definition is_inf_fn (x : val) : res (option val) := bind (to_f x) (fun f => Ok (Some (VBool (is_inf f)))).
  Definition is_nan_fn (x : val) : res (option val) := bind (to_f x) (fun f => Ok (Some (VBool (is_nan f)))).

  (** IEEE_DIVIDE: function_math.go:49-80 *)
  Definition ieee_divide (x y : float) : float :=
    if eq0 x then
      if eq0 y then S754_nan else if is_nan y then S754_nan else S754_zero false
    else if is_nan x then
      if eq0 y then S754_nan else fdiv x y
    else if is_inf x then
      if is_inf y then S754_nan else fdiv x y
    else if eq0 y then
      if gt0 x then S754_infinity false else if lt0 x then S754_infinity true else fdiv x y
    else fdiv x y.

  (** LOG of two arguments: function_math.go:126-136.  The second argument is not read. *)
  Definition log_fn (x y : val) : res (option val) :=
    bind (to_f x) (fun f => bind (to_i x) (fun n => Ok (Some (VFloat (go_ldexp f n))))).

  (** SAFE_DIVIDE: function_math.go:204-217 *)
  Definition safe_divide (x y : val) : res (option val) :=
    bind (to_f x) (fun f => bind (to_f y) (fun h => if eq0 h then Ok None else Ok (Some (VFloat (fdiv f h))))).
  (** FloatValue.Add, Sub, Mul: value.go:499-521; FloatValue.Div: 523-532.  An operator
      whose left operand is no FLOAT64 calls another type's method, which is not
      modelled here (ValueModel.v has INT64's). *)
  Definition op_fn (g : float -> float -> float) (x y : val) : res (option val) :=
    match x with VFloat f => bind (to_f y) (fun h => Ok (Some (VFloat (g f h)))) | _ => GoPanic end.
  Definition op_div (x y : val) : res (option val) :=
    match x with
    | VFloat f => bind (to_f y) (fun h => if eq0 h then Err else Ok (Some (VFloat (fdiv f h))))
    | _ => GoPanic
    end.

  (** existsNull: function_bind.go:31-38 *)
  Definition exists_null (args : list (option val)) : bool := existsb (fun a => match a with None => true | Some _ => false end) args.

  (** args[0] and args[1] of the binders, once no argument is NULL *)
  Definition arg1 (args : list (option val)) (k : val -> res (option val)) : res (option val) :=
    match args with Some x :: _ => k x | _ => GoPanic end.
  Definition arg2 (args : list (option val)) (k : val -> val -> res (option val)) : res (option val) :=
    match args with Some x :: Some y :: _ => k x y | _ => GoPanic end.
  (** The shape of every binder but ROUND's. *)
  Definition strict (k : list (option val) -> res (option val)) (args : list (option val)) : res (option val) :=
    if exists_null args then Ok None else k args.

  (** bindRound: function_bind.go:1744-1763.  The precision is converted before the
      test for NULL: a method call on a nil interface. *)
  Definition bind_round (args : list (option val)) : res (option val) :=
    match args with
    | [_] => strict (fun l => arg1 l (one (fun f => scalar_round f 0))) args
    | [_; None] => GoPanic
    | [_; Some p] => bind (to_i p) (fun n => strict (fun l => arg1 l (one (fun f => scalar_round f n))) args)
    | _ => Err
    end.

  (** bindLog: function_bind.go:1664-1672 *)
  Definition bind_log (args : list (option val)) : res (option val) :=
    strict (fun l => match l with [_] => arg1 l (one (lib MLog)) | _ => arg2 l log_fn end) args.

  Definition by_lib (f : lib1) : list (option val) -> res (option val) := strict (fun l => arg1 l (one (lib f))).
  Definition by_lib2 (f : lib2) : list (option val) -> res (option val) := strict (fun l => arg2 l (two (libb f))).

  (** The binders and the functions they call: function_bind.go:1594-1874 with
      function_math.go:12-408; bindAdd, bindSub, bindMul, bindOpDiv:
      function_bind.go:159-185 with function.go:12-26 and value.go:499-532. *)
  Definition call (fn : mfn) : list (option val) -> res (option val) :=
    match fn with
    | F_ABS => strict (fun l => arg1 l (one SFabs))
    | F_SIGN => strict (fun l => arg1 l sign_fn)
    | F_IS_INF => strict (fun l => arg1 l is_inf_fn)
    | F_IS_NAN => strict (fun l => arg1 l is_nan_fn)
    | F_IEEE_DIVIDE => strict (fun l => arg2 l (two ieee_divide))
    | F_SQRT => by_lib MSqrt
    | F_POW => by_lib2 MPow
    | F_POWER => by_lib2 MPow
    | F_EXP => by_lib MExp
    | F_LN => by_lib MLog
    | F_LOG => bind_log
    | F_LOG10 => by_lib MLog10
    | F_SAFE_DIVIDE => strict (fun l => arg2 l safe_divide)
    | F_SAFE_MULTIPLY => strict (fun l => arg2 l (two fmul))
    | F_SAFE_NEGATE => strict (fun l => arg1 l (one SFopp))
    | F_SAFE_ADD => strict (fun l => arg2 l (two fadd))
    | F_SAFE_SUBTRACT => strict (fun l => arg2 l (two fsub))
    | F_ROUND => bind_round
    | F_TRUNC => strict (fun l => arg1 l (one go_trunc))
    | F_CEIL => strict (fun l => arg1 l (one go_ceil))
    | F_CEILING => strict (fun l => arg1 l (one go_ceil))
    | F_FLOOR => strict (fun l => arg1 l (one go_floor))
    | F_COS => by_lib MCos
    | F_COSH => by_lib MCosh
    | F_ACOS => by_lib MAcos
    | F_ACOSH => by_lib MAcosh
    | F_SIN => by_lib MSin
    | F_SINH => by_lib MSinh
    | F_ASIN => by_lib MAsin
    | F_ASINH => by_lib MAsinh
    | F_TAN => by_lib MTan
    | F_TANH => by_lib MTanh
    | F_ATAN => by_lib MAtan
    | F_ATANH => by_lib MAtanh
    | F_ATAN2 => by_lib2 MAtan2
    | O_ADD => strict (fun l => arg2 l (op_fn fadd))
    | O_SUB => strict (fun l => arg2 l (op_fn fsub))
    | O_MUL => strict (fun l => arg2 l (op_fn fmul))
    | O_DIV => strict (fun l => arg2 l op_div)
    end.
End MathFns.
