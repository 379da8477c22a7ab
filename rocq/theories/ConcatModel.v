(** ARRAY_CONCAT_AGG: internal/function_aggregate.go:100-141, bound at
    internal/function_bind.go:3136-3155.  The values a row gives, the options and the sort are those
    of AggModel.v. *)
From Coq Require Import Ascii String List ZArith QArith Lia Bool SpecFloat.
From Verif Require Import GoBase ValueModel AggModel.
Import ListNotations.
Local Open Scope string_scope.
Open Scope Z_scope.

(** value.go: ToArray, for a value that is an array.  (The empty STRING, which gives a nil array
    and then an error of Step, is an error here as all other values.) *)
Definition elements (v : val) : res (list (option val)) := match v with VArray l => Ok l | _ => Err end.
(** function_bind.go:3140-3149 and Step, function_aggregate.go:106-116: a NULL is skipped. *)
Definition concat_step (s : collected) (args : list (option val)) (o : aopt) : res collected :=
  bind (arg0 args) (fun v => match v with None => Ok s | Some x => bind (elements x) (fun _ => Ok (collect s x o)) end).
(** function_aggregate.go:129-136 *)
Fixpoint concat_all (l : list ordered) : res (list (option val)) :=
  match l with
  | [] => Ok []
  | x :: r => bind (elements (o_val x)) (fun a => bind (concat_all r) (fun b => Ok (a ++ b)%list))
  end.
(** Done, function_aggregate.go:118-141; relational because of the sort *)
Definition concat_done (s : collected) (r : res (option val)) : Prop :=
  exists out, sort_agg (c_vals s) (c_opt s) out /\
    r = bind (take_limit (c_opt s) out) (fun l => bind (concat_all l) (fun vs => Ok (Some (VArray vs)))).
Definition agg_array_concat : agg := {| St := collected; init := {| c_vals := []; c_opt := None |}; step := concat_step; done := concat_done |}.
