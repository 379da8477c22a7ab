(** What ARRAY(subquery) means: the values of its column, a row after the other. *)
From Coq Require Import Ascii String List ZArith Bool.
From Verif Require Import GoBase QueryModel QuerySpec.
From Verif Require ValueModel AggModel.
Import ListNotations.

(** The array of the values [conv] makes of the column *)
Inductive array_of (conv : val -> option ValueModel.val) (c : Z) : list binding -> list (option ValueModel.val) -> Prop :=
| ao_nil : array_of conv c [] []
| ao_row b v l a : col c b = Some v -> array_of conv c l a -> array_of conv c (b :: l) (conv v :: a).
(** What the JSON reader makes of the text of a value is no option of an aggregate. *)
Definition no_option (text : ValueModel.val -> res string) (loose : string -> option AggModel.item) (x : ValueModel.val) : Prop :=
  forall t, text x = Ok t -> AggModel.starts_brace t = true -> loose t = None.
(** The columns outside that the subquery may read have their values where the text stands. *)
Definition in_scope (names : Z -> string) (vis : list Z) (env : list scope) (b : binding) : Prop :=
  forall c v, In c vis -> col c b = Some v -> lookup (with_id names c) env = Some v.
(** [fn "array"] is the aggregate run over the values of its rows, [fin] what is stored of its
    result; QueryModel hands it the number of rows and their arguments. *)
Definition runs_aggregate (text : ValueModel.val -> res string) (loose : string -> option AggModel.item) (a : AggModel.agg)
    (conv : val -> option ValueModel.val) (fin : res (option ValueModel.val) -> val) (f : list val -> val) : Prop :=
  forall l r, AggModel.call text loose a (map (fun v => [AggModel.AVal (conv v)]) l) r -> f (Some (Z.of_nat (length l)) :: l) = fin r.
(** SELECT cols FROM o with ARRAY(s) as the column c: for each row of o the array of the rows s
    has there, k being the column of s. *)
Definition column_values (conv : val -> option ValueModel.val) (k : Z) : list binding -> option (list (option ValueModel.val)) :=
  every (fun b => option_map conv (col k b)).
Definition with_array (fn : string -> list val -> val) (db : string -> list frame) (names : Z -> string)
    (conv : val -> option ValueModel.val) (fin : res (option ValueModel.val) -> val) (s : scan) (c k : Z) (cols : list Z) (z : binding) : option binding :=
  match mean_scan fn db names z s with
  | Some rows => match column_values conv k rows with
                 | Some a => pick cols ((c, fin (Ok (Some (ValueModel.VArray a)))) :: z)
                 | None => None
                 end
  | None => None
  end.
