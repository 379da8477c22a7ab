(** SQL's three-valued logic and conditional expressions, independent of the code. *)
From Coq Require Import Ascii String List ZArith Lia Bool.
From Verif Require Import GoBase ValueModel LogicModel CompareSpec.
Import ListNotations.
Open Scope Z_scope.

Inductive tv := TT | FF | UU.

(** How a truth value is represented: NULL, BoolValue, or the integers 0 and 1. *)
Inductive is_tv : sval -> tv -> Prop :=
| tv_null : is_tv None UU
| tv_true : is_tv (Some (VBool true)) TT
| tv_false : is_tv (Some (VBool false)) FF
| tv_one : is_tv (Some (VInt 1)) TT
| tv_zero : is_tv (Some (VInt 0)) FF.

Definition conj3 (ts : list tv) (t : tv) : Prop :=
  match t with
  | FF => In FF ts
  | UU => ~ In FF ts /\ In UU ts
  | TT => forall x, In x ts -> x = TT
  end.
Definition disj3 (ts : list tv) (t : tv) : Prop :=
  match t with
  | TT => In TT ts
  | UU => ~ In TT ts /\ In UU ts
  | FF => forall x, In x ts -> x = FF
  end.
Definition neg3 (t : tv) : tv := match t with TT => FF | FF => TT | UU => UU end.

(** x IN (list) *)
Definition in3 (x : sval) (l : list sval) (t : tv) : Prop :=
  let found := exists a b, x = Some a /\ In (Some b) l /\ alike a b in
  let unknown := x = None \/ In None l in
  match t with
  | TT => found
  | UU => ~ found /\ unknown
  | FF => ~ found /\ ~ unknown
  end.

(** The outcome of CASE: the first pair whose condition is true, else the default;
    conditions are evaluated in order and nothing after the first true one is. *)
Inductive case_of (yes : sval -> Prop) : list (ev * ev) -> ev -> ev -> Prop :=
| case_else : forall e, case_of yes [] e e
| case_hit : forall w v t r e, w = Ok v -> yes v -> case_of yes ((w, t) :: r) e t
| case_miss : forall w v t r e o, w = Ok v -> ~ yes v -> case_of yes r e o -> case_of yes ((w, t) :: r) e o
| case_fail : forall w t r e, w = Err \/ w = GoPanic -> case_of yes ((w, t) :: r) e w.
(** A condition that is true (BOOL is kept as 0 and 1). *)
Definition is_true (v : sval) : Prop := v = Some (VBool true) \/ exists z, v = Some (VInt z) /\ z <> 0%Z.
Definition same_value (v w : sval) : Prop := exists x y, v = Some x /\ w = Some y /\ alike x y.

(** The first non-NULL of a list of operands evaluated from the left, as needed. *)
Inductive first_non_null : list ev -> ev -> Prop :=
| fnn_nil : first_non_null [] (Ok None)
| fnn_hit : forall v r, first_non_null (Ok (Some v) :: r) (Ok (Some v))
| fnn_miss : forall r o, first_non_null r o -> first_non_null (Ok None :: r) o
| fnn_fail : forall w r, w = Err \/ w = GoPanic -> first_non_null (w :: r) w.

(** The truth value of a decided proposition. *)
Definition if_ (P : Prop) (t : tv) : Prop := match t with TT => P | FF => ~ P | UU => False end.
(** The truth value of a comparison, UNKNOWN with a NULL operand. *)
Definition cmp3 (op : cmpop) (a b : sval) (t : tv) : Prop :=
  match a, b with
  | Some x, Some y => if_ (means op x y) t
  | _, _ => t = UU
  end.
(** The truth value BETWEEN should have. *)
Definition between3 (x lo hi : sval) (t : tv) : Prop :=
  exists p q, cmp3 GTE x lo p /\ cmp3 LTE x hi q /\ conj3 [p; q] t.
