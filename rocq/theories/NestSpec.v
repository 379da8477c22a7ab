(** What nested ARRAY and STRUCT expressions mean. *)
From Coq Require Import Ascii String List ZArith QArith Lia Bool SpecFloat.
From Verif Require Import GoBase CalendarModel InstantModel ValueModel CodecSpec NestModel.
Import ListNotations.
Open Scope Z_scope.

(** The value; nothing if an index is out of range or the expression is not well typed. *)
Fixpoint mean (e : expr) : option (option val) :=
  match e with
  | EValue o => Some o
  | EArray l => option_map (fun vs => Some (VArray (map snd vs))) (mean_all l)
  | EStruct l => option_map (fun vs => Some (VStruct vs)) (mean_all l)
  | EField e i =>
      match mean e with
      | Some None => Some None
      | Some (Some (VStruct l)) => option_map snd (nth_error l i)
      | _ => None
      end
  | EAt base safe e i =>
      match mean e with
      | Some None => Some None
      | Some (Some (VArray l)) =>
          match (if base <=? i then nth_error l (Z.to_nat (i - base)) else None) with
          | Some o => Some o
          | None => if safe then Some None else None
          end
      | _ => None
      end
  end
with mean_all (l : exprs) : option (list (string * option val)) :=
  match l with
  | XNil => Some []
  | XCons n e r => match mean e, mean_all r with Some v, Some vs => Some ((n, v) :: vs) | _, _ => None end
  end.

(** The value [w] of the program stands for [v]: an INT64 may be held as the FLOAT64 that is
    exactly that integer, a BOOL as 0 or 1 in either form. *)
Fixpoint stands (v w : val) {struct v} : Prop :=
  let elems := fix elems (l l' : list (option val)) {struct l} : Prop :=
    match l, l' with
    | [], [] => True
    | o :: r, o' :: r' =>
        match o, o' with None, None => True | Some x, Some y => stands x y | _, _ => False end /\ elems r r'
    | _, _ => False
    end in
  let fields := fix fields (l l' : list (string * option val)) {struct l} : Prop :=
    match l, l' with
    | [], [] => True
    | (k, o) :: r, (k', o') :: r' =>
        k = k' /\ match o, o' with None, None => True | Some x, Some y => stands x y | _, _ => False end /\ fields r r'
    | _, _ => False
    end in
  match v, w with
  | VBool b, VFloat f => float_is f (if b then 1 else 0)
  | VArray l, VArray l' => elems l l'
  | VStruct l, VStruct l' => fields l l'
  | VArray _, _ | VStruct _, _ => False
  | _, _ => same v w
  end.
Definition stands_opt (o o' : option val) : Prop :=
  match o, o' with None, None => True | Some x, Some y => stands x y | _, _ => False end.

(** The values C26 covers inside an array or struct, and names that are UTF-8. *)
Fixpoint fine (e : expr) : Prop :=
  match e with
  | EValue o => match o with Some v => storable true v | None => True end
  | EArray l | EStruct l => fine_all l
  | EField e _ => fine e
  | EAt _ _ e _ => fine e
  end
with fine_all (l : exprs) : Prop :=
  match l with XNil => True | XCons n e r => text_ok n /\ fine e /\ fine_all r end.
