(** GREATEST, LEAST and RANGE_BUCKET: internal/function_math.go:147-187, 417-436 and
    their binders, internal/function_bind.go:1681-1693, 1876-1885. *)
From Coq Require Import Ascii String List ZArith Lia Bool.
From Verif Require Import GoBase ValueModel LogicModel.
Import ListNotations.
Open Scope Z_scope.

(** function_math.go:147-187; [op] is GT for GREATEST and LT for LEAST, [best] the
    variable max or min *)
Fixpoint extreme_loop (op : cmpop) (best : option val) (args : list sval) : res sval :=
  match args with
  | [] => Ok best
  | None :: _ => Ok None
  | Some a :: r =>
      match best with
      | None => extreme_loop op (Some a) r
      | Some m =>
          match cmp op a m with
          | Ok true => extreme_loop op (Some a) r
          | Ok false => extreme_loop op best r
          | Err => Err
          | GoPanic => GoPanic
          end
      end
  end.
Definition bind_greatest (args : list sval) : res sval :=
  if exists_null args then Ok None else extreme_loop GT None args.
Definition bind_least (args : list sval) : res sval :=
  if exists_null args then Ok None else extreme_loop LT None args.

(** function_math.go:417-436 *)
Fixpoint bucket_loop (p : val) (l : list sval) (idx : Z) : res Z :=
  match l with
  | [] => Ok idx
  | None :: _ => Err
  | Some v :: r =>
      match cmp GTE p v with
      | Ok true => bucket_loop p r (idx + 1)
      | Ok false => Ok idx
      | Err => Err
      | GoPanic => GoPanic
      end
  end.
(** function_bind.go:1876-1885 *)
Definition bind_range_bucket (p a : sval) : res sval :=
  match p, a with
  | Some x, Some (VArray l) => bind (bucket_loop x l 0) (fun i => Ok (Some (VInt i)))
  | Some _, Some _ => Err
  | _, _ => Ok None
  end.
