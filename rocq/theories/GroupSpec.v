(** Grouping: rows are in one group when their keys are equal, where NULL equals NULL and
    nothing else, and NaN equals NaN and nothing else. *)
From Coq Require Import Ascii String List ZArith QArith Lia Bool SpecFloat.
From Verif Require Import CalendarModel InstantModel ValueModel CompareSpec PartModel.
Import ListNotations.
Open Scope Z_scope.

Definition equal_keys (a b : option val) : Prop :=
  match a, b with
  | None, None => True
  | Some (VFloat x), Some (VFloat y) =>
      (is_nan x = true /\ is_nan y = true) \/ (is_nan x = false /\ is_nan y = false /\ float_scaled x = float_scaled y)
  | Some (VBool x), Some (VBool y) => x = y
  | Some x, Some y => alike x y
  | _, _ => False
  end.

(** Values a column of a type holds when they are read back (C29): dates at midnight, times
    on the day TIME values are on, whole microseconds, years 0 to 9999. *)
Definition column_value (t : ty) (v : val) : Prop :=
  match t, v with
  | TInt, VInt _ | TStr, VStr _ | TNum, VNum _ | TBool, VBool _ => True
  | TBytes, VBytes s => s <> EmptyString
  | TFloat, VFloat f => valid_binary prec64 emax64 f = true
  | TDate, VDate x => x mod 86400000000000 = 0 /\ 0 <= year (x / 86400000000000) <= 9999
  | TDatetime, VDatetime x => x mod 1000 = 0 /\ 0 <= year (x / 86400000000000) <= 9999
  | TTime, VTime x => x mod 1000 = 0 /\ x / 86400000000000 = godate 0 1 1
  | _, _ => False
  end.
Definition column (t : ty) (o : option val) : Prop := match o with Some v => column_value t v | None => True end.

(** Not NaN. *)
Definition not_nan (o : option val) : Prop := forall f, o = Some (VFloat f) -> is_nan f = false.

(** Zones whose offset is a whole number of minutes, under a day. *)
Definition minute_zone (l : loc) : Prop := forall s, l s mod 60 = 0 /\ -86400 < l s < 86400.
Definition year_in (l : loc) (t : Z) : Prop := 0 <= year (wall l t / 86400000000000) <= 9999.
