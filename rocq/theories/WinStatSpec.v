(** What statistics over a window frame should return, independent of the Go code. *)
From Coq Require Import Ascii String List ZArith QArith Lia Bool SpecFloat.
From Verif Require Import GoBase ValueModel AggModel AggSpec ApproxSpec WindowModel WindowSpec.
Import ListNotations.
Local Open Scope string_scope.
Open Scope Z_scope.

(** The row gives one number, or NULL. *)
Definition gives (r : srow) (n : option num) : Prop := r_args r = [option_map num_val n].
(** The row gives two numbers, each of them possibly NULL. *)
Definition gives2 (r : srow) (p : option num * option num) : Prop := r_args r = pair_row p.
(** The numbers of a list that are not NULL *)
Fixpoint some_nums (l : list (option num)) : list num :=
  match l with [] => [] | Some n :: r => n :: some_nums r | None :: r => some_nums r end.
(** A statistic of what is not NULL; NULL if there is nothing *)
Definition statistic {A B} (stat : list B -> float) (f : A -> B) (l : list A) : option val :=
  match l with [] => None | _ => Some (VFloat (stat (map f l))) end.
(** The frame asks which row it is for: by PARTITION BY, by a bound other than UNBOUNDED, or by
    having no frame. *)
Definition unbounded (b : bound) : Prop := b_kind b = UnboundedPreceding \/ b_kind b = UnboundedFollowing.
Definition relative (shp : list kty) (p : spec) : Prop :=
  shp <> [] \/ match p_frame p with Some (u, s, e) => u = URows /\ b_kind s <> BUnknown /\ ~ (unbounded s) | None => True end.
