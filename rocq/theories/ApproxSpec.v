(** What statistical and approximate aggregates should return, independent of the Go code. *)
From Coq Require Import Ascii String List ZArith QArith Lia Bool Sorting.Sorted SpecFloat.
From Verif Require Import GoBase ValueModel AggModel AggSpec.
Import ListNotations.
Local Open Scope string_scope.
Open Scope Z_scope.

(** The rows of a call with several arguments and no option, and with DISTINCT. *)
Definition rows (l : list (list (option val))) : list (list arg) := map (map AVal) l.
Definition rows_distinct (l : list (list (option val))) : list (list arg) := map (fun r => (map AVal r ++ [AOpt IDistinct])%list) l.
(** No argument has the text of a JSON object. *)
Definition plain (text : val -> res string) (l : list (list (option val))) : Prop :=
  forall r v, In r l -> In (Some v) r -> ordinary text v.

(** Arguments of a numeric type, as float64. *)
Inductive num := NInt (z : Z) | NFloat (f : float).
Definition num_val (n : num) : val := match n with NInt z => VInt z | NFloat f => VFloat f end.
Definition num_float (n : num) : float := match n with NInt z => float_of_int z | NFloat f => f end.
Definition pair_row (p : option num * option num) : list (option val) := [option_map num_val (fst p); option_map num_val (snd p)].
(** The rows with both values. *)
Fixpoint both {A B} (l : list (option A * option B)) : list (A * B) :=
  match l with
  | [] => []
  | (Some a, Some b) :: r => (a, b) :: both r
  | _ :: r => both r
  end.
Definition pair_float (p : num * num) : float * float := (num_float (fst p), num_float (snd p)).

(** ** Covariance, over the rationals *)
Definition qsum (l : list Q) : Q := fold_right Qplus 0%Q l.
Definition qlen {A} (l : list A) : Q := inject_Z (zlen l).
Definition qmean (l : list Q) : Q := (qsum l / qlen l)%Q.
Definition codeviation (l : list (Q * Q)) : Q :=
  qsum (map (fun p => (fst p - qmean (map fst l)) * (snd p - qmean (map snd l)))%Q l).
Definition pop_covariance (l : list (Q * Q)) : Q := (codeviation l / qlen l)%Q.
Definition sample_covariance (l : list (Q * Q)) : Q := (codeviation l / (qlen l - 1))%Q.
(** The rational a finite float64 is. *)
Definition float_q (f : float) : option Q :=
  match f with
  | S754_zero _ => Some 0%Q
  | S754_finite s m e => Some (inject_Z (if s then Zneg m else Zpos m) * Qpower (2 # 1) e)%Q
  | _ => None
  end.
Definition is_q (r : res (option val)) (q : Q) : Prop := exists f x, r = Ok (Some (VFloat f)) /\ float_q f = Some x /\ (x == q)%Q.
Definition zpair (p : Z * Z) : option num * option num := (Some (NInt (fst p)), Some (NInt (snd p))).
Definition qpair (p : Z * Z) : Q * Q := (inject_Z (fst p), inject_Z (snd p)).

(** The first of each of the equal elements. *)
Inductive firsts {A} : list A -> list A -> list A -> Prop :=
| fs_nil : forall seen, firsts seen [] []
| fs_again : forall seen x l out, In x seen -> firsts seen l out -> firsts seen (x :: l) out
| fs_new : forall seen x l out, ~ In x seen -> firsts (x :: seen) l out -> firsts seen (x :: l) (x :: out).

(** ** Distinct values *)
Definition distinct {A} (l ds : list A) : Prop := NoDup ds /\ forall x, In x ds <-> In x l.

(** ** The most frequent, the heaviest *)
(** The weights of the rows with the value [v], in order. *)
Inductive weights {W} (v : option val) : list (option val * W) -> list W -> Prop :=
| w_nil : weights v [] []
| w_here : forall w l ws, weights v l ws -> weights v ((v, w) :: l) (w :: ws)
| w_other : forall x w l ws, x <> v -> weights v l ws -> weights v ((x, w) :: l) ws.
(** [out] are [n] of the values [ds] with their scores, best first, and no value left out
    has a better score than one of them. *)
Definition best {S} (ds : list (option val)) (score : option val -> S -> Prop) (ge : S -> S -> Prop) (n : Z) (out : list (option val * S)) : Prop :=
  zlen out = n /\ NoDup (map fst out) /\ (forall v s, In (v, s) out -> In v ds /\ score v s) /\
  StronglySorted (fun a b => ge (snd a) (snd b)) out /\
  (forall v s w t, In (v, s) out -> In w ds -> ~ In w (map fst out) -> score w t -> ge s t).
Definition frequency (vs : list (option val)) (v : option val) (n : Z) : Prop :=
  exists ws, weights v (map (fun x => (x, tt)) vs) ws /\ n = zlen ws.
(** NULL weights do not count; without another the sum is NULL. *)
Definition total (ws : list (option Z)) : option Z := match nonnull ws with [] => None | l => Some (sum_z l) end.
Definition weight (l : list (option val * option Z)) (v : option val) (s : option Z) : Prop :=
  exists ws, weights v l ws /\ s = total ws.
Definition sum_ge (a b : option Z) : Prop := match a, b with _, None => True | None, Some _ => False | Some x, Some y => x >= y end.
Definition top_result {S} (name : string) (enc : S -> option val) (out : list (option val * S)) : option val :=
  Some (VArray (map (fun e => Some (VStruct [("value", fst e); (name, enc (snd e))])) out)).
(** NULL, INT64, STRING, BOOL, DATE, DATETIME, TIME and TIMESTAMP values *)
Definition simple (v : option val) : Prop :=
  match v with
  | None | Some (VInt _ | VStr _ | VBool _ | VDate _ | VDatetime _ | VTime _ | VTimestamp _) => True
  | _ => False
  end.
Definition top_row (n : Z) (v : option val) : list (option val) := [v; Some (VInt n)].
Definition sum_row (n : Z) (p : option val * option Z) : list (option val) := [fst p; option_map VInt (snd p); Some (VInt n)].
