(** Array functions: internal/function_array.go, internal/function.go:164-206,
    internal/function_bind.go:301-348, 2730-2814. *)
From Coq Require Import Ascii String List ZArith Lia Bool.
From Verif Require Import GoBase ValueModel LogicModel CalendarModel.
Import ListNotations.
Local Open Scope string_scope.
Open Scope Z_scope.

(** ToArray of an argument: a nil Value panics. *)
Definition to_array (v : sval) : res (list sval) :=
  match v with
  | None => GoPanic
  | Some (VArray l) => Ok l
  | Some _ => Err
  end.

(** Subscripts.  function.go:164-206 with the NULL tests of function_bind.go:301-348. *)
Definition index {A} (l : list A) (i : Z) : option A :=
  if (i <? 0) || (zlen l <=? i) then None else nth_error l (Z.to_nat i).
Definition subscript (base : Z) (safe : bool) (a i : sval) : res sval :=
  match a, i with
  | Some (VArray l), Some (VInt z) =>
      match index l (z - base) with
      | Some v => Ok v
      | None => if safe then Ok None else Err
      end
  | None, _ | _, None => Ok None
  | _, _ => Err
  end.
Definition array_at_offset : sval -> sval -> res sval := subscript 0 false.
Definition safe_array_at_offset : sval -> sval -> res sval := subscript 0 true.
Definition array_at_ordinal : sval -> sval -> res sval := subscript 1 false.
Definition safe_array_at_ordinal : sval -> sval -> res sval := subscript 1 true.

(** function_array.go:8-18, function_bind.go:2730-2735 *)
Fixpoint concat_loop (args : list sval) (acc : list sval) : res (list sval) :=
  match args with
  | [] => Ok acc
  | a :: r => bind (to_array a) (fun l => concat_loop r (acc ++ l)%list)
  end.
Definition bind_array_concat (args : list sval) : res sval :=
  match args with [] => Err | _ => bind (concat_loop args []) (fun l => Ok (Some (VArray l))) end.
(** function_array.go:20-22, function_bind.go:2737-2746 *)
Definition bind_array_length (a : sval) : res sval :=
  bind (to_array a) (fun l => Ok (Some (VInt (zlen l)))).
(** function_array.go:220-226, function_bind.go:2805-2814: the loop counts down *)
Fixpoint reverse_loop (l : list sval) (i : nat) : list sval :=
  match i with
  | O => []
  | S j => match nth_error l j with Some v => v :: reverse_loop l j | None => [] end
  end.
Definition bind_array_reverse (a : sval) : res sval :=
  bind (to_array a) (fun l => Ok (Some (VArray (reverse_loop l (length l))))).

(** generateArray on INT64: function_array.go:125-172.  The loop may not end, so it
    runs on fuel; [None]: still running.  [up] is isLT. *)
Fixpoint gen_loop {A} (next : A -> A) (goes : A -> bool) (fuel : nat) (cur : A) : option (list A) :=
  match fuel with
  | O => None
  | S f =>
      let after := next cur in
      if goes after then option_map (cons cur) (gen_loop next goes f after)
      else Some [cur]
  end.
Definition gen_array {A} (le : A -> A -> bool) (next : A -> A) (pos : bool) (fuel : nat) (start stop : A) : option (list A) :=
  let up := le start stop in
  if up && negb pos then Some []
  else if negb up && pos then Some []
  else gen_loop next (fun x => if up then le x stop else le stop x) fuel start.
Definition generate_array (fuel : nat) (start stop step : Z) : option (list Z) :=
  gen_array Z.leb (fun x => wrap64 (x + step)) (0 <? step) fuel start stop.
(** The call returns the list / never returns. *)
Definition returns {A} (run : nat -> option A) (r : A) : Prop := exists fuel, run fuel = Some r.
Definition diverges {A} (run : nat -> option A) : Prop := forall fuel, run fuel = None.

(** value.go:1455-1466 AddDateWithInterval; time.AddDate without end-of-month
    correction *)
Definition add_date_with_interval (d v : Z) (interval : string) : Z :=
  if String.eqb interval "WEEK" then add_date d 0 0 (wrap64 (v * 7))
  else if String.eqb interval "MONTH" then add_date d 0 v 0
  else if String.eqb interval "YEAR" then add_date d v 0 0
  else add_date d 0 0 v.
(** function_array.go:174-218; the result NULL for step 0 is [Some None]. *)
Definition generate_date_array (fuel : nat) (start stop step : Z) (interval : string) : option (option (list Z)) :=
  if step =? 0 then Some None
  else option_map Some (gen_array Z.leb (fun d => add_date_with_interval d step interval) (0 <? step) fuel start stop).
