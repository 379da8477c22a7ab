(** PERCENTILE_CONT and PERCENTILE_DISC as analytic functions: internal/function_window.go:558-749,
    bound at internal/function_bind.go:4014-4040.

    The percentile is a FLOAT64; a NUMERIC one is not modelled.  The other analytic functions
    are in WindowModel.v. *)
From Coq Require Import Ascii String List ZArith QArith Lia Bool SpecFloat.
From Verif Require Import GoBase ValueModel AggModel WindowModel.
Import ListNotations.
Local Open Scope string_scope.
Open Scope Z_scope.

(** The percentile of the first call is kept (function_window.go:563-568, 666-671), and is
    used with LT and GT before anything else (574-579, 677-682), where a NULL panics. *)
Definition pct_state := option (option val).
Definition pct_step (s : pct_state) (args : list (option val)) : res (pct_state * option (option val)) :=
  match args with
  | v :: p :: _ => Ok (Some (match s with Some p0 => p0 | None => p end), Some v)
  | _ => GoPanic
  end.
Definition percentile (s : pct_state) : res float :=
  match s with
  | Some (Some (VFloat f)) =>
      if holds (cmp LT (VFloat f) (VInt 0)) then Err else if holds (cmp GT (VFloat f) (VInt 1)) then Err else Ok f
  | Some (Some _) => Err
  | _ => GoPanic
  end.

Section Sorts.
  (** sort.Slice of the values *)
  Variable vsort : (option val -> option val -> bool) -> list (option val) -> list (option val).

  (** function_window.go:701-710 *)
  Definition vless (x y : option val) : bool :=
    match x, y with
    | None, _ => true
    | _, None => false
    | Some a, Some b => holds (cmp LT a b)
    end.
  (** function_window.go:726-748; int64(fIdx), and one is added if it was not whole *)
  Definition disc_index (q : float) : Z :=
    let i := int_of_float q in
    wrap64 (wrap64 (if SFltb (float_of_int i) q then i + 1 else i) - 1).
  Definition disc_pick (f : float) (sorted : list (option val)) : res (option val) :=
    let q := fmul f (float_of_int (zlen sorted)) in
    if holds (cmp EQ (VFloat q) (VInt 0)) then nth_row sorted 1
    else if 0 <? disc_index q then nth_row sorted (disc_index q + 1) else Ok None.
  (** function_window.go:673-749 *)
  Definition w_percentile_disc : wfn := {|
    Wst := pct_state; winit := None; wstep := pct_step;
    wdone := fun s a l fr =>
      bind (percentile s) (fun f =>
        disc_pick f (match fr with None => [] | Some _ => vsort vless (visible a (vals l)) end)) |}.
End Sorts.

(** The integers of a list in order: sort.Ints *)
Fixpoint insert_int (z : Z) (l : list Z) : list Z :=
  match l with [] => [z] | x :: r => if z <=? x then z :: l else x :: insert_int z r end.
Definition sort_ints (l : list Z) : list Z := fold_right insert_int [] l.

(** math.Floor and math.Ceil of what is neither negative nor too large *)
Definition ffloor (f : float) : float := float_of_int (int_of_float f).
Definition fceil (f : float) : float :=
  if SFltb (ffloor f) f then float_of_int (int_of_float f + 1) else ffloor f.
(** Value.ToInt64 of an INT64 and of a FLOAT64 (value.go:120, 574), as AggModel.to_int; others
    are not modelled *)
Definition as_int (v : val) : res Z :=
  match v with VInt z => Ok z | VFloat f => Ok (int_of_float f) | _ => Err end.
(** function_window.go:590-605: the values with their integers; a NULL that is not skipped
    panics *)
Fixpoint as_ints (l : list (option val)) : res (list (val * Z)) :=
  match l with
  | [] => Ok []
  | None :: _ => GoPanic
  | Some v :: r => bind (as_int v) (fun z => bind (as_ints r) (fun zs => Ok ((v, z) :: zs)))
  end.
(** function_window.go:618-641; only the greatest value is used afterwards *)
Definition greatest (m : val) (l : list val) : val :=
  fold_left (fun m v => if holds (cmp GT v m) then v else m) l m.
(** function_window.go:607-663: the row number, its neighbours, and the value between them *)
Definition fone : float := float_of_int 1.
Definition cont_row (f : float) (n : Z) : float := fadd fone (fmul f (float_of_int (n - 1))).
Definition cont_at (zs : list Z) (r : float) : res float :=
  bind (nth_row zs (int_of_float (fsub r fone) + 1)) (fun z => Ok (float_of_int z)).
Definition cont_value (f : float) (zs : list Z) : res (option val) :=
  let r := cont_row f (zlen zs) in
  bind (cont_at zs (ffloor r)) (fun lo =>
  bind (cont_at zs (fceil r)) (fun hi =>
    if SFeqb (fceil r) (ffloor r) && SFeqb (fceil r) r then Ok (Some (VFloat lo))
    else Ok (Some (VFloat (fadd (fmul hi (fsub r (ffloor r))) (fmul lo (fsub (fceil r) r))))))).
(** function_window.go:570-663 *)
Definition w_percentile_cont : wfn := {|
  Wst := pct_state; winit := None; wstep := pct_step;
  wdone := fun s a l fr =>
    bind (percentile s) (fun f =>
    match fr with
    | None => Ok None
    | Some _ =>
        bind (as_ints (visible a (vals l))) (fun vs =>
        match map fst vs with
        | [] => Ok None
        | v :: r =>
            bind (cont_value f (sort_ints (map snd vs))) (fun c =>
              if holds (cmp EQ (greatest v r) (VInt 0)) then Ok (Some (VFloat fzero)) else Ok c)
        end)
    end) |}.
