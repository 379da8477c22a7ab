(** CORR, COVAR, STDDEV and VAR as analytic functions: internal/function_window.go:1050-1318,
    bound at internal/function_bind.go:3775-3899.

    The functions of gonum.org/v1/gonum/stat are not in /repo: each analytic function takes the
    one it calls as a parameter.  ToFloat64 is modelled for INT64 and FLOAT64 arguments
    (AggModel.to_float).  The other analytic functions are in WindowModel.v and WinAggModel.v. *)
From Coq Require Import Ascii String List ZArith QArith Lia Bool SpecFloat.
From Verif Require Import GoBase ValueModel AggModel WindowModel.
Import ListNotations.
Local Open Scope string_scope.
Open Scope Z_scope.

(** The callback given to agg.Done, function_window.go:1203-1215 and alike: nothing is read from
    a partition of fewer than two rows; without any number the result is NULL. *)
Definition stat_done {A} (read : list (option val) -> res (list A)) (stat : list A -> float) (l : list ent) (fr : option (Z * Z)) : res (option val) :=
  bind (match fr with
        | None => Ok []
        | Some (s, e) => if zlen l <? 2 then Ok [] else bind (slice (vals l) s e) read
        end) (fun xs => match xs with [] => Ok None | _ => Ok (Some (VFloat (stat xs))) end).

(** ** One argument *)
(** value.ToFloat64() of each value, in a loop (1207-1213); of a NULL, which is a nil interface,
    it panics. *)
Fixpoint floats (l : list (option val)) : res (list float) :=
  match l with
  | [] => Ok []
  | None :: _ => GoPanic
  | Some v :: r => bind (to_float v) (fun f => bind (floats r) (fun fs => Ok (f :: fs)))
  end.
Definition w_one (stat : list float -> float) : wfn := simple store0 (fun _ l fr => stat_done floats stat l fr).
(** 1194-1223 *)
Definition w_stddev_pop (popMeanStdDev : list float -> float * float) : wfn := w_one (fun s => snd (popMeanStdDev s)).
(** 1225-1255; STDDEV is the same type *)
Definition w_stddev_samp (stdDev : list float -> float) : wfn := w_one stdDev.
(** 1257-1286 *)
Definition w_var_pop (popMeanVariance : list float -> float * float) : wfn := w_one (fun s => snd (popMeanVariance s)).
(** 1288-1318; VARIANCE is the same type *)
Definition w_var_samp (variance : list float -> float) : wfn := w_one variance.

(** ** Two arguments *)
(** Step, 1053-1058: nothing is stored for a row where one of them is NULL.  args[0] and args[1]
    panic if they are not there. *)
Definition store2 (s : unit) (args : list (option val)) : res (unit * option (option val)) :=
  match args with
  | x :: y :: _ =>
      match x, y with
      | Some a, Some b => Ok (tt, Some (Some (VArray [Some a; Some b])))
      | _, _ => Ok (tt, None)
      end
  | _ => GoPanic
  end.
(** 1069-1088; what is stored is always an array of two *)
Fixpoint pairs (l : list (option val)) : res (list (float * float)) :=
  match l with
  | [] => Ok []
  | Some (VArray [Some a; Some b]) :: r =>
      bind (to_float a) (fun fa => bind (to_float b) (fun fb => bind (pairs r) (fun fs => Ok ((fa, fb) :: fs))))
  | Some _ :: _ => Err
  | None :: _ => GoPanic
  end.
Definition w_pair (stat : list (float * float) -> float) : wfn := simple store2 (fun _ l fr => stat_done pairs stat l fr).
(** 1050-1096: stat.Correlation *)
Definition w_corr (correlation : list (float * float) -> float) : wfn := w_pair correlation.
(** 1098-1144: stat.Covariance *)
Definition w_covar_pop (covariance : list (float * float) -> float) : wfn := w_pair covariance.
(** 1146-1192: stat.Covariance too *)
Definition w_covar_samp (covariance : list (float * float) -> float) : wfn := w_pair covariance.
