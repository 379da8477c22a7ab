(** Logical and conditional operators: internal/function.go:144-154, 226-392,
    internal/function_bind.go:278-283, 427-520, and their rendering,
    internal/formatter.go:245-306. *)
From Coq Require Import Ascii String List ZArith QArith Lia Bool SpecFloat.
From Verif Require Import GoBase ValueModel.
Import ListNotations.
Open Scope Z_scope.

(** A SQL value: [None] is NULL. *)
Definition sval := option val.
Definition sbool (b : bool) : sval := Some (VBool b).

(** ToBool: value.go:136-145 (INT64), 860 (BOOL); the conversions of other types to
    BOOL are not modelled (the analyzer only passes BOOL operands here). *)
Definition to_bool (v : val) : res bool :=
  match v with
  | VInt 0 => Ok false
  | VInt 1 => Ok true
  | VBool b => Ok b
  | _ => Err
  end.
(** ToInt64: value.go:120, 840-845 *)
Definition to_int (v : val) : res Z :=
  match v with
  | VInt z => Ok z
  | VBool b => Ok (if b then 1 else 0)
  | _ => Err
  end.

(** function_bind.go:31-38 *)
Definition exists_null (args : list sval) : bool :=
  existsb (fun a => match a with None => true | Some _ => false end) args.

(** function.go:286-304 *)
Fixpoint and_loop (args : list sval) : res (option bool) :=
  match args with
  | [] => Ok None
  | None :: r => and_loop r
  | Some v :: r =>
      match to_bool v with
      | Ok true => and_loop r
      | Ok false => Ok (Some false)
      | Err => Err
      | GoPanic => GoPanic
      end
  end.
Definition fn_and (args : list sval) : res sval :=
  bind (and_loop args) (fun o =>
    match o with
    | Some b => Ok (sbool b)
    | None => if exists_null args then Ok None else Ok (sbool true)
    end).
(** function.go:306-324 *)
Fixpoint or_loop (args : list sval) : res (option bool) :=
  match args with
  | [] => Ok None
  | None :: r => or_loop r
  | Some v :: r =>
      match to_bool v with
      | Ok false => or_loop r
      | Ok true => Ok (Some true)
      | Err => Err
      | GoPanic => GoPanic
      end
  end.
Definition fn_or (args : list sval) : res sval :=
  bind (or_loop args) (fun o =>
    match o with
    | Some b => Ok (sbool b)
    | None => if exists_null args then Ok None else Ok (sbool false)
    end).
(** function.go:278-284, function_bind.go:463-468 *)
Definition bind_not (a : sval) : res sval :=
  match a with
  | None => Ok None
  | Some v => bind (to_int v) (fun z => Ok (sbool (z =? 0)))
  end.

(** function.go:239-256 *)
Fixpoint in_loop (a : val) (l : list sval) : res bool :=
  match l with
  | [] => Ok false
  | None :: r => in_loop a r
  | Some v :: r =>
      match cmp EQ a v with
      | Ok true => Ok true
      | Ok false => in_loop a r
      | o => o
      end
  end.
Definition fn_in (a : sval) (l : list sval) : res sval :=
  match a with
  | None => Ok None
  | Some v => bind (in_loop v l) (fun b => Ok (sbool b))
  end.

(** ArrayValue.Has: value.go:1028-1039, the element is the receiver *)
Fixpoint has_loop (v : val) (l : list sval) : res bool :=
  match l with
  | [] => Ok false
  | None :: _ => GoPanic
  | Some x :: r =>
      match cmp EQ x v with
      | Ok true => Ok true
      | Ok false => has_loop v r
      | o => o
      end
  end.
(** function.go:144-154, function_bind.go:278-283 *)
Definition bind_in_array (a b : sval) : res sval :=
  if exists_null [a; b] then Ok (sbool false)
  else match a, b with
       | Some v, Some (VArray l) => bind (has_loop v l) (fun c => Ok (sbool c))
       | _, _ => Err
       end.
(** An array that went through SQLite: its INT64 elements have become float64
    (decoder.go:91-106; the JSON library decodes numbers to float64). *)
Definition decoded_elem (v : sval) : sval :=
  match v with Some (VInt z) => Some (VFloat (float_of_int z)) | o => o end.

(** The binders of operators that answer NULL for a NULL operand
    (function_bind.go:159-275): ADD, SUB, MUL, DIV, the six comparisons and the bit
    operators differ in the function they call on non-NULL arguments. *)
Definition null_guard2 (f : val -> val -> res sval) (a b : sval) : res sval :=
  if exists_null [a; b] then Ok None
  else match a, b with Some x, Some y => f x y | _, _ => GoPanic end.
(** function.go:28-73 *)
Definition fn_cmp (op : cmpop) (x y : val) : res sval := bind (cmp op x y) (fun b => Ok (sbool b)).
Definition fn_not_eq (x y : val) : res sval := bind (cmp EQ x y) (fun b => Ok (sbool (negb b))).
Definition bind_cmp (op : cmpop) : sval -> sval -> res sval := null_guard2 (fn_cmp op).
Definition bind_not_equal : sval -> sval -> res sval := null_guard2 fn_not_eq.
(** function.go:12-26 on INT64 and FLOAT64 operands *)
Inductive arith := Add | Sub | Mul | Div.
Definition fn_arith (op : arith) (x y : val) : res sval :=
  match x, y with
  | VInt a, VInt b =>
      bind (match op with Add => int_add | Sub => int_sub | Mul => int_mul | Div => int_div end a b)
           (fun z => Ok (Some (VInt z)))
  | VFloat a, VFloat b =>                               (* value.go:499-532 *)
      match op with
      | Add => Ok (Some (VFloat (fadd a b)))
      | Sub => Ok (Some (VFloat (fsub a b)))
      | Mul => Ok (Some (VFloat (fmul a b)))
      | Div => match b with S754_zero _ => Err | _ => Ok (Some (VFloat (fdiv a b))) end
      end
  | _, _ => Err
  end.
Definition bind_arith (op : arith) : sval -> sval -> res sval := null_guard2 (fn_arith op).

(** function.go:226-237, function_bind.go:434-439 *)
Definition fn_between (x lo hi : val) : res sval :=
  bind (cmp GTE x lo) (fun p => bind (cmp LTE x hi) (fun q => Ok (sbool (p && q)))).
Definition bind_between (x lo hi : sval) : res sval :=
  if exists_null [x; lo; hi] then Ok (sbool false)
  else match x, lo, hi with Some a, Some b, Some c => fn_between a b c | _, _, _ => GoPanic end.

(** function.go:258-276, 326-347, function_bind.go:445-461, 350-356 *)
Definition bind_is_null (a : sval) : res sval := Ok (sbool (match a with None => true | _ => false end)).
Definition bind_is_true (a : sval) : res sval :=
  match a with None => Ok None | Some v => bind (to_bool v) (fun b => Ok (sbool b)) end.
Definition bind_is_false (a : sval) : res sval :=
  match a with None => Ok None | Some v => bind (to_bool v) (fun b => Ok (sbool (negb b))) end.
Definition bind_is_distinct_from (a b : sval) : res sval :=
  match a, b with
  | Some x, Some y => bind (cmp EQ x y) (fun c => Ok (sbool (negb c)))
  | None, None => Ok (sbool false)
  | _, _ => Ok (sbool true)
  end.
Definition bind_is_not_distinct_from (a b : sval) : res sval :=
  match a, b with
  | Some x, Some y => bind (cmp EQ x y) (fun c => Ok (sbool c))
  | None, None => Ok (sbool true)
  | _, _ => Ok (sbool false)
  end.

(** function.go:349-357 *)
Fixpoint fn_coalesce (args : list sval) : res sval :=
  match args with
  | [] => Ok None
  | None :: r => fn_coalesce r
  | Some v :: _ => Ok (Some v)
  end.
(** function_bind.go:479-484 *)
Definition bind_coalesce (args : list sval) : res sval :=
  match args with [] => Err | _ => fn_coalesce args end.
(** function.go:380-392; the argument nil is converted by the receiver's method *)
Definition fn_nullif (a b : sval) : res sval :=
  match a with
  | None => Ok None
  | Some x =>
      match b with
      | None => if refuses EQ x then Err else GoPanic
      | Some y => bind (cmp EQ x y) (fun c => Ok (if c then None else Some x))
      end
  end.

(** ** Evaluation by SQLite

    An operand that is an expression is the result of evaluating it.  SQLite
    evaluates every argument of a function before the call, and the operands of
    CASE only as far as needed. *)
Definition ev := res sval.
Fixpoint eval_all (l : list ev) : res (list sval) :=
  match l with
  | [] => Ok []
  | e :: r => bind e (fun v => bind (eval_all r) (fun vs => Ok (v :: vs)))
  end.
Definition call (f : list sval -> res sval) (args : list ev) : ev := bind (eval_all args) f.

(** SQLite's test of a WHEN condition: not NULL and not zero. *)
Definition truthy (v : sval) : bool :=
  match v with
  | Some (VInt z) => negb (z =? 0)
  | Some (VBool b) => b
  | _ => false
  end.
(** SQLite's = on stored values: equal numbers, or equal text; the texts of two
    encoded values of one type are equal when the values are. *)
Definition stored_eq (a b : sval) : bool :=
  match a, b with
  | Some x, Some y => match cmp EQ x y with Ok c => c | _ => false end
  | _, _ => false
  end.

(** formatter.go:254-267 *)
Definition eval_ifnull (a b : ev) : ev := bind a (fun v => match v with None => b | Some _ => a end).
Definition eval_if (c t e : ev) : ev := bind c (fun v => if truthy v then t else e).
(** formatter.go:268-279 (CASE without a value) and 280-297 (with a value): the
    arguments in pairs, the odd one out is the ELSE.  [test] is the WHEN test. *)
Fixpoint eval_case_args (test : sval -> bool) (args : list ev) : ev :=
  match args with
  | [] => Ok None
  | [e] => e
  | w :: t :: r => bind w (fun v => if test v then t else eval_case_args test r)
  end.
Definition eval_case (args : list ev) : ev := eval_case_args truthy args.
Definition eval_case_value (args : list ev) : ev :=
  match args with
  | v :: (_ :: _) as r => bind v (fun x => eval_case_args (stored_eq x) (tl args))
  | _ => Err
  end.
