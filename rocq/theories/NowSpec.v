(** What the functions of the clock promise. *)
From Coq Require Import Ascii String List ZArith Lia Bool.
From Verif Require Import GoBase InstantModel PartModel NowModel.
Import ListNotations.
Open Scope Z_scope.

(** The face of a clock that is [off] seconds ahead of UTC at the instant [t] (nanoseconds
    since 1970): its date, counted in days from 1970, its date and time, its time of day *)
Definition face (f : cfn) (off t : Z) : shown :=
  let w := t + off * 1000000000 in
  match f with CDate => ADate (w / 86400000000000) | CDatetime => ADatetime w | CTime => ATime (w mod 86400000000000) | CTimestamp => ATimestamp t end.
Definition clock_in (l : loc) (f : cfn) (t : Z) : shown := face f (l (t / 1000000000)) t.

(** The value of a query when the current time is [t], the zone of a name is [zone] and the
    zone of a call that names none is [default]; a name that is no zone has no value. *)
Fixpoint at_time (default : loc) (zone : string -> option loc) (t : Z) (e : expr) : option value :=
  match e with
  | Current f None => Some (VShown (clock_in default f t))
  | Current f (Some z) => match zone z with Some l => Some (VShown (clock_in l f t)) | None => None end
  | Const n => Some (VConst n)
  | Both a b => match at_time default zone t a, at_time default zone t b with Some x, Some y => Some (VBoth x y) | _, _ => None end
  | Defined _ => None
  end.

(** An instant that an int64 of nanoseconds can hold: 1677-09-21 to 2262-04-11. *)
Definition representable (t : Z) : Prop := - 2 ^ 63 <= t < 2 ^ 63.

(** Queries without a time zone, and without views and defined functions *)
Fixpoint plain (e : expr) : Prop :=
  match e with Current _ None => True | Current _ (Some _) => False | Const _ => True | Both a b => plain a /\ plain b | Defined _ => False end.
Fixpoint own (e : expr) : Prop :=
  match e with Defined _ => False | Both a b => own a /\ own b | _ => True end.
Fixpoint timeless (e : expr) : Prop :=
  match e with Current _ _ => False | Const _ => True | Both a b => timeless a /\ timeless b | Defined _ => False end.

(** All instants in a value *)
Fixpoint instants (v : value) : list Z :=
  match v with VShown (ATimestamp t) => [t] | VShown _ => [] | VConst _ => [] | VBoth a b => (instants a ++ instants b)%list end.

(** A clock that does not run backwards *)
Definition forward (clock : nat -> Z) : Prop := forall i j, (i <= j)%nat -> clock i <= clock j.

(** The number of calls in a query *)
Fixpoint calls (e : expr) : nat :=
  match e with Current _ _ => 1 | Const _ => 0 | Both a b => calls a + calls b | Defined _ => 0 end.
(** Never decreasing from left to right *)
Definition ordered (ts : list Z) : Prop :=
  forall i j x y, (i <= j)%nat -> nth_error ts i = Some x -> nth_error ts j = Some y -> x <= y.
