(** What comparison of SQL values should mean, independent of the Go code. *)
From Coq Require Import Ascii String List ZArith QArith Lia Bool SpecFloat.
From Verif Require Import GoBase ValueModel.
Import ListNotations.
Open Scope Z_scope.

(** ** Scalars *)

Fixpoint bytes_of (s : string) : list N :=
  match s with EmptyString => [] | String a r => N_of_ascii a :: bytes_of r end.

(** Lexicographic order of byte sequences. *)
Inductive bytes_before : list N -> list N -> Prop :=
| bb_nil : forall y l, bytes_before [] (y :: l)
| bb_head : forall x y l m, (x < y)%N -> bytes_before (x :: l) (y :: m)
| bb_tail : forall x l m, bytes_before l m -> bytes_before (x :: l) (x :: m).

(** The value of a float times 2^1074: an integer for every finite float.  The
    infinities are put beyond all of them. *)
Definition float_scaled (f : float) : Z :=
  match f with
  | S754_finite false m e => Zpos m * 2 ^ (e + 1074)
  | S754_finite true m e => - (Zpos m * 2 ^ (e + 1074))
  | S754_infinity false => 2 ^ 2098
  | S754_infinity true => - 2 ^ 2098
  | _ => 0
  end.

(** a sorts strictly before b *)
Definition before (a b : val) : Prop :=
  match a, b with
  | VInt x, VInt y => x < y
  | VStr x, VStr y => bytes_before (bytes_of x) (bytes_of y)
  | VBytes x, VBytes y => bytes_before (bytes_of x) (bytes_of y)
  | VFloat x, VFloat y => float_scaled x < float_scaled y
  | VNum x, VNum y => Qlt x y
  | VDate x, VDate y => x < y
  | VDatetime x, VDatetime y => x < y
  | VTime x, VTime y => x < y
  | VTimestamp x, VTimestamp y => x < y
  | _, _ => False
  end.

(** a and b are the same SQL value *)
Definition alike (a b : val) : Prop :=
  match a, b with
  | VInt x, VInt y => x = y
  | VStr x, VStr y => x = y
  | VBytes x, VBytes y => x = y
  | VFloat x, VFloat y => float_scaled x = float_scaled y
  | VNum x, VNum y => Qeq x y
  | VDate x, VDate y => x = y
  | VDatetime x, VDatetime y => x = y
  | VTime x, VTime y => x = y
  | VTimestamp x, VTimestamp y => x = y
  | _, _ => False
  end.

(** A float64 other than NaN. *)
Definition real_float (f : float) : Prop :=
  valid_binary prec64 emax64 f = true /\ is_nan f = false.

(** Two values of one orderable scalar type.  BOOL is among them as the IntValue 0
    or 1 it is when it reaches a function. *)
Definition comparable (a b : val) : Prop :=
  match a, b with
  | VInt _, VInt _ | VStr _, VStr _ | VBytes _, VBytes _ | VNum _, VNum _
  | VDate _, VDate _ | VDatetime _, VDatetime _ | VTime _, VTime _
  | VTimestamp _, VTimestamp _ => True
  | VFloat x, VFloat y => real_float x /\ real_float y
  | _, _ => False
  end.

Definition means (op : cmpop) (a b : val) : Prop :=
  match op with
  | EQ => alike a b
  | LT => before a b
  | GT => before b a
  | LTE => before a b \/ alike a b
  | GTE => before b a \/ alike a b
  end.

(** ** Arrays and structs *)

Inductive ty : Type :=
| TInt | TStr | TBytes | TFloat | TNum | TBool | TDate | TDatetime | TTime | TTimestamp
| TArray (t : ty)
| TStruct (fs : list (string * ty)).

(** A value of a type with no NULL inside. *)
Fixpoint full (t : ty) (v : val) : Prop :=
  match t, v with
  | TInt, VInt _ | TStr, VStr _ | TBytes, VBytes _ | TNum, VNum _ | TBool, VBool _
  | TDate, VDate _ | TDatetime, VDatetime _ | TTime, VTime _ | TTimestamp, VTimestamp _ => True
  | TFloat, VFloat f => real_float f
  | TArray t, VArray l => Forall (fun o => match o with Some x => full t x | None => False end) l
  | TStruct fs, VStruct l =>
      (fix go (fs : list (string * ty)) (l : list (string * option val)) : Prop :=
         match fs, l with
         | [], [] => True
         | (k, t) :: fs', (k', Some x) :: l' => k = k' /\ full t x /\ go fs' l'
         | _, _ => False
         end) fs l
  | _, _ => False
  end.

(** Equality of two such values, position by position. *)
Fixpoint same (t : ty) (a b : val) : Prop :=
  match t, a, b with
  | TBool, VBool x, VBool y => x = y
  | TArray t, VArray l, VArray l' =>
      Forall2 (fun o o' => match o, o' with Some x, Some y => same t x y | _, _ => False end) l l'
  | TStruct fs, VStruct l, VStruct l' =>
      (fix go (fs : list (string * ty)) (l l' : list (string * option val)) : Prop :=
         match fs, l, l' with
         | [], [], [] => True
         | (_, t) :: fs', (_, Some x) :: r, (_, Some y) :: r' => same t x y /\ go fs' r r'
         | _, _, _ => False
         end) fs l l'
  | _, _, _ => alike a b
  end.

(** No struct type inside has two fields of one name. *)
Fixpoint distinct_names (t : ty) : Prop :=
  match t with
  | TArray t => distinct_names t
  | TStruct fs =>
      NoDup (map fst fs) /\
      (fix go (fs : list (string * ty)) : Prop :=
         match fs with [] => True | (_, t) :: r => distinct_names t /\ go r end) fs
  | _ => True
  end.
