(** ARRAY_CONCAT_AGG and values over frames, said without the code. *)
From Coq Require Import Ascii String List ZArith QArith Lia Bool SpecFloat.
From Verif Require Import GoBase ValueModel AggModel AggSpec.
Import ListNotations.
Local Open Scope string_scope.
Open Scope Z_scope.

Definition an_array := list (option val).
(** The rows of f(a ORDER BY keys LIMIT lim), a NULL or an array. *)
Definition array_rows (lim : option Z) (rs : list (option an_array * keys)) : list (option val * list item) :=
  map (fun r => (option_map VArray (fst r), (order_items (snd r) ++ limit_item lim)%list)) rs.
(** The rows whose array is not NULL. *)
Fixpoint present {K} (rs : list (option an_array * K)) : list (an_array * K) :=
  match rs with [] => [] | (Some a, k) :: r => (a, k) :: present r | (None, _) :: r => present r end.
(** All arrays have a text that cannot be taken for an option. *)
Definition clear_text (text : val -> res string) (l : list an_array) : Prop :=
  forall a, In a l -> exists t, text (VArray a) = Ok t /\ starts_brace t = false.
