(** What the FLOAT64 functions are expected to return. *)
From Coq Require Import List ZArith Bool SpecFloat.
From Verif Require Import GoBase ValueModel CompareSpec MathModel.
Import ListNotations.
Open Scope Z_scope.

(** A finite float64. *)
Definition finite (f : float) : Prop :=
  valid_binary prec64 emax64 f = true /\ match f with S754_zero _ => True | S754_finite _ _ _ => True | _ => False end.
(** 1.0 in the unit in which [float_scaled] counts *)
Definition unit1 : Z := 2 ^ 1074.
(** f is the integer z *)
Definition is_integer (f : float) (z : Z) : Prop := finite f /\ float_scaled f = z * unit1.

(** Two floats denote the same number, the two zeros being one number and all NaNs one
    more. *)
Definition same_number (a b : float) : Prop := is_nan a = is_nan b /\ float_scaled a = float_scaled b.

(** The number of arguments a function takes. *)
Definition takes (fn : mfn) (n : nat) : Prop :=
  match fn with
  | F_IEEE_DIVIDE | F_POW | F_POWER | F_SAFE_DIVIDE | F_SAFE_MULTIPLY | F_SAFE_ADD | F_SAFE_SUBTRACT | F_ATAN2
  | O_ADD | O_SUB | O_MUL | O_DIV => n = 2%nat
  | F_LOG | F_ROUND | F_TRUNC => n = 1%nat \/ n = 2%nat
  | _ => n = 1%nat
  end.
(** Arguments as the analyzer passes them: NULL or FLOAT64; the precision of ROUND and
    TRUNC is INT64. *)
Definition float_arg (a : option val) : Prop := match a with None => True | Some (VFloat _) => True | _ => False end.
Definition int_arg (a : option val) : Prop := match a with None => True | Some (VInt _) => True | _ => False end.
Definition well_typed (fn : mfn) (args : list (option val)) : Prop :=
  takes fn (length args) /\
  match fn, args with
  | F_ROUND, [x; n] | F_TRUNC, [x; n] => float_arg x /\ int_arg n
  | _, _ => Forall float_arg args
  end.

(** The functions of one argument that stand for a mathematical function, and which. *)
Definition named1 (fn : mfn) : option lib1 :=
  match fn with
  | F_SQRT => Some MSqrt | F_EXP => Some MExp | F_LN => Some MLog | F_LOG => Some MLog | F_LOG10 => Some MLog10
  | F_COS => Some MCos | F_COSH => Some MCosh | F_ACOS => Some MAcos | F_ACOSH => Some MAcosh
  | F_SIN => Some MSin | F_SINH => Some MSinh | F_ASIN => Some MAsin | F_ASINH => Some MAsinh
  | F_TAN => Some MTan | F_TANH => Some MTanh | F_ATAN => Some MAtan | F_ATANH => Some MAtanh
  | _ => None
  end.
Definition named2 (fn : mfn) : option lib2 :=
  match fn with F_POW => Some MPow | F_POWER => Some MPow | F_ATAN2 => Some MAtan2 | _ => None end.

(** An operator and its SAFE_ form. *)
Definition safe_form (op : mfn) : option mfn :=
  match op with O_ADD => Some F_SAFE_ADD | O_SUB => Some F_SAFE_SUBTRACT | O_MUL => Some F_SAFE_MULTIPLY | O_DIV => Some F_SAFE_DIVIDE | _ => None end.
