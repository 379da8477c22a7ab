(** GROUP BY and SELECT DISTINCT: each key column c becomes zetasqlite_group_by(c)
    (internal/formatter.go:836, 876), a function that decodes the value and returns what
    Value.Interface gives (internal/function_register.go:445-456).  The engine groups the
    rows whose keys are all equal. *)
From Coq Require Import Ascii String List ZArith QArith Lia Bool SpecFloat.
From Verif Require Import GoBase CalendarModel InstantModel DecModel ClockTextModel ValueModel PartModel.
Import ListNotations.
Local Open Scope string_scope.
Open Scope Z_scope.

(** A key as the engine (SQLite, outside /repo) sees it. *)
Inductive key := KNull | KInt (z : Z) | KReal (f : float) | KText (s : string) | KBlob (s : string).

(** big.Rat.String: always with the denominator *)
Definition num_text (q : Q) : string := let r := Qred q in dec (Qnum r) ++ String "/" (udec (Zpos (Qden r))).

(** The zone of time.RFC3339, "Z07:00": Z for UTC, otherwise hours and minutes *)
Definition zone_text (off : Z) : string :=
  if off =? 0 then "Z"
  else let z := Z.quot off 60 in
       let a := Z.abs z in
       (if z <? 0 then "-" else "+") ++ pad 2 (a / 60) ++ ":" ++ pad 2 (a mod 60).
(** internal/value.go:2058-2060 TimestampValue.Interface: RFC3339 has no fraction of a
    second.  The location is the local time of the process. *)
Definition rfc3339 (l : loc) (t : Z) : string :=
  let w := wall l t in
  date_text (day_no w) ++ "T" ++ (pad 2 (hour w) ++ ":" ++ pad 2 (minute w) ++ ":" ++ pad 2 (second w)) ++ zone_text (l (unix t)).

(** The Interface methods of internal/value.go: 177, 326, 493, 626, 794, 896, 1621, 1773,
    1890, 2058.  The driver (outside /repo) turns a bool into 0 or 1 and NaN into NULL, and
    refuses slices and maps, so that arrays and structs fail; an INTERVAL (its text) and a
    JSON value (whatever it decodes to) are not modelled, and fail here. *)
Definition group_key (l : loc) (o : option val) : res key :=
  match o with
  | None => Ok KNull
  | Some v =>
      match v with
      | VInt z => Ok (KInt z)
      | VStr s => Ok (KText s)
      | VBytes s => Ok (KBlob s)
      | VFloat f => Ok (if is_nan f then KNull else KReal f)
      | VNum q => Ok (KText (num_text q))
      | VBool b => Ok (KInt (if b then 1 else 0))
      | VDate t => Ok (KText (date_text (day_no t)))
      | VDatetime t => Ok (KText (datetime_text t))
      | VTime t => Ok (KText (clock_text t))
      | VTimestamp t => Ok (KText (rfc3339 l t))
      | VArray _ | VStruct _ | VJson _ | VInterval _ _ _ => Err
      end
  end.

(** Equality of two keys in the engine *)
Definition same_key (a b : key) : bool :=
  match a, b with
  | KNull, KNull => true
  | KInt x, KInt y => x =? y
  | KReal x, KReal y => match SFcompare x y with Some Eq => true | _ => false end
  | KText x, KText y => String.eqb x y
  | KBlob x, KBlob y => String.eqb x y
  | _, _ => false
  end.

(** Whether two rows, given by their key columns, fall in one group. *)
Fixpoint together (l : loc) (a b : list (option val)) : res bool :=
  match a, b with
  | [], [] => Ok true
  | x :: a', y :: b' =>
      bind (group_key l x) (fun kx => bind (group_key l y) (fun ky =>
      bind (together l a' b') (fun r => Ok (same_key kx ky && r))))
  | _, _ => Err
  end.
