(** What aggregates should return, independent of the Go code. *)
From Coq Require Import Ascii String List ZArith QArith Lia Bool.
From Verif Require Import GoBase ValueModel CompareSpec AggModel.
Import ListNotations.
Local Open Scope string_scope.
Open Scope Z_scope.

Fixpoint nonnull {A} (l : list (option A)) : list A :=
  match l with [] => [] | Some x :: r => x :: nonnull r | None :: r => nonnull r end.
Definition sum_z (l : list Z) : Z := fold_right Z.add 0 l.
Definition sum_q (l : list Q) : Q := fold_right Qplus 0%Q l.
Definition lor_all (l : list Z) : Z := fold_right Z.lor 0 l.
Definition lxor_all (l : list Z) : Z := fold_right Z.lxor 0 l.

(** The aggregate is called with one argument and no option. *)
Definition rows1 (vs : list (option val)) : list (list arg) := map (fun v => [AVal v]) vs.

(** The text of the value cannot be a JSON object. *)
Definition ordinary (text : val -> res string) (v : val) : Prop := forall t, text v = Ok t -> starts_brace t = false.

(** ** Rows with options *)
Definition rows_with (rs : list (option val * list item)) : list (list arg) :=
  map (fun r => AVal (fst r) :: map AOpt (snd r)) rs.
Definition asks_distinct (l : list item) : bool := existsb (fun i => match i with IDistinct => true | _ => false end) l.
Definition asks_ignore (l : list item) : bool := existsb (fun i => match i with IIgnore => true | _ => false end) l.
(** The rows the function is called for: with [ign] only rows with a value, with [dist] only
    the first of the rows with the same value. *)
Inductive feeds {B} (dist ign : bool) : list (option val) -> list (option val * B) -> list (option val * B) -> Prop :=
| f_nil : forall seen, feeds dist ign seen [] []
| f_null : forall seen i rs out, ign = true -> feeds dist ign seen rs out -> feeds dist ign seen ((None, i) :: rs) out
| f_dup : forall seen v i rs out, dist = true -> In v seen -> feeds dist ign seen rs out -> feeds dist ign seen ((v, i) :: rs) out
| f_take : forall seen v i rs out, (ign = true -> v <> None) -> (dist = true -> ~ In v seen) ->
    feeds dist ign (v :: seen) rs out -> feeds dist ign seen ((v, i) :: rs) ((v, i) :: out).

(** Calling the function itself for each of these rows. *)
Fixpoint steps_with (a : agg) (s : St a) (rs : list (option val * list item)) : res (St a) :=
  match rs with
  | [] => Ok s
  | (v, is) :: r => bind (step a s [v] (fold_left set_item (map reread is) no_opt)) (fun s' => steps_with a s' r)
  end.
Definition result_with (a : agg) (rs : list (option val * list item)) (r : res (option val)) : Prop :=
  match steps_with a (init a) rs with
  | Ok s => done a s r
  | Err => r = Err
  | GoPanic => r = GoPanic
  end.

(** ** ORDER BY *)
(** Ordering keys without NULL, each with its direction (true is ASC). *)
Definition keys := list (val * bool).
Inductive keys_before : keys -> keys -> Prop :=
| kb_here : forall a b asc asc' l m, (if asc : bool then before a b else before b a) -> keys_before ((a, asc) :: l) ((b, asc') :: m)
| kb_next : forall a b asc asc' l m, alike a b -> keys_before l m -> keys_before ((a, asc) :: l) ((b, asc') :: m).
(** Types of key for which the order is right: an INT64 of up to 53 bits (or a BOOL), a
    STRING, a FLOAT64 other than NaN. *)
Inductive kt := KInt | KStr | KFloat.
Definition of_kt (t : kt) (v : val) : Prop :=
  match t, v with
  | KInt, VInt z => Z.abs z < 2 ^ 53
  | KStr, VStr _ => True
  | KFloat, VFloat f => real_float f
  | _, _ => False
  end.
Definition shaped (sh : list (kt * bool)) (ks : keys) : Prop :=
  Forall2 (fun t k => of_kt (fst t) (fst k) /\ snd t = snd k) sh ks.
Definition order_items (ks : keys) : list item := map (fun k => IOrder (Some (fst k)) (snd k)) ks.
Definition limit_item (n : option Z) : list item := match n with Some n => [ILimit n] | None => [] end.
Definition first_n {A} (n : option Z) (l : list A) : list A := match n with Some n => firstn (Z.to_nat n) l | None => l end.
(** The rows of f(v ORDER BY keys LIMIT lim). *)
Definition order_rows (lim : option Z) (rs : list (val * keys)) : list (option val * list item) :=
  map (fun r => (Some (fst r), (order_items (snd r) ++ limit_item lim)%list)) rs.

(** A text that could be a JSON object: white space, then a brace. *)
Definition looks_object (s : string) : Prop :=
  exists w r, s = (w ++ String "{" r)%string /\ Forall (fun c => c = " "%char \/ c = "009"%char \/ c = "010"%char \/ c = "013"%char) (list_ascii_of_string w).
