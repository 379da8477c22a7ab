(** GENERATE_TIMESTAMP_ARRAY (internal/function_array.go) and EXTRACT from an INTERVAL
    (internal/function.go).  Instants are nanoseconds since 1970 (InstantModel); the seconds
    of a time.Time are taken to be unbounded. *)
From Coq Require Import Ascii String List ZArith Lia Bool.
From Verif Require Import GoBase InstantModel ArrayFnModel IntervalModel.
Import ListNotations.
Local Open Scope string_scope.
Open Scope Z_scope.

(** value.go:1896-1913 AddValueWithPart: time.Duration(v) * unit is a product of int64. *)
Definition add_part (t v : Z) (part : string) : res Z :=
  if String.eqb part "MICROSECOND" then Ok (t + wrap64 (v * 1000))
  else if String.eqb part "MILLISECOND" then Ok (t + wrap64 (v * 1000000))
  else if String.eqb part "SECOND" then Ok (t + wrap64 (v * 1000000000))
  else if String.eqb part "MINUTE" then Ok (t + wrap64 (v * 60000000000))
  else if String.eqb part "HOUR" then Ok (t + wrap64 (v * 3600000000000))
  else if String.eqb part "DAY" then Ok (t + wrap64 (wrap64 (v * 3600000000000) * 24))
  else Err.

(** The loop of function_array.go:96-121, which may not end: [None] is still running. *)
Fixpoint ts_loop (fuel : nat) (up : bool) (stop step : Z) (part : string) (cur : Z) : option (res (list Z)) :=
  match fuel with
  | O => None
  | S f =>
      match add_part cur step part with
      | Ok after =>
          if (if up then after <=? stop else stop <=? after)
          then option_map (fun r => bind r (fun l => Ok (cur :: l))) (ts_loop f up stop step part after)
          else Some (Ok [cur])
      | Err => Some Err
      | GoPanic => Some GoPanic
      end
  end.

(** function_array.go:79-123.  The NULL array is [Ok None]. *)
Definition ts_array (fuel : nat) (start stop : option Z) (step : Z) (part : string) : option (res (option (list Z))) :=
  match start, stop with
  | Some a, Some b =>
      if step =? 0 then Some (Ok None)
      else
        let up := a <=? b in
        if up && negb (0 <? step) then Some (Ok (Some []))
        else if negb up && (0 <? step) then Some (Ok (Some []))
        else option_map (fun r => bind r (fun l => Ok (Some l))) (ts_loop fuel up b step part a)
  | _, _ => Some (Ok None)
  end.
(** function_bind.go:2790-2803: ToInt64 is called on the step whatever it is; a NULL is a
    nil interface. *)
Definition bind_ts_array (fuel : nat) (start stop step : option Z) (part : string) : option (res (option (list Z))) :=
  match step with
  | Some s => ts_array fuel start stop s part
  | None => Some GoPanic
  end.

(** function.go:420-441: EXTRACT from an INTERVAL; Go's division truncates. *)
Definition extract_interval (v : interval) (part : string) : res Z :=
  if String.eqb part "YEAR" then Ok (years v)
  else if String.eqb part "MONTH" then Ok (months v)
  else if String.eqb part "DAY" then Ok (days v)
  else if String.eqb part "HOUR" then Ok (hours v)
  else if String.eqb part "MINUTE" then Ok (minutes v)
  else if String.eqb part "SECOND" then Ok (seconds v)
  else if String.eqb part "MILLISECOND" then Ok (Z.quot (nanos v) 1000000)
  else if String.eqb part "MICROSECOND" then Ok (Z.quot (nanos v) 1000)
  else Err.
