(** What analytic functions should compute, independent of the Go code. *)
From Coq Require Import Ascii String List ZArith QArith Lia Bool SpecFloat Permutation Sorting.Sorted.
From Verif Require Import GoBase ValueModel CompareSpec CodecSpec AggModel AggSpec WindowModel.
Import ListNotations.
Local Open Scope string_scope.
Open Scope Z_scope.

(** ** Tables
    A row: the arguments of the function, the PARTITION BY keys and the ORDER BY keys. *)
Record srow := { r_args : list (option val); r_part : list val; r_order : keys }.
Definition row_of (r : srow) : trow :=
  {| t_args := r_args r; t_part := map Some (r_part r); t_order := map (fun k => (Some (fst k), snd k)) (r_order r) |}.

(** Types of ORDER BY key: an INT64 of up to 53 bits (or a BOOL), well-formed STRING,
    FLOAT64 other than NaN and the infinities, NUMERIC, BYTES, and DATE, DATETIME and
    TIMESTAMP in the years SQL has. *)
Inductive kty := YInt | YStr | YFloat | YNum | YBytes | YDate | YDatetime | YTimestamp.
Definition of_kty (t : kty) (v : val) : Prop :=
  match t, v with
  | YInt, VInt z => Z.abs z < 2 ^ 53
  | YStr, VStr s => text_ok s
  | YFloat, VFloat f => real_float f /\ (forall s, f <> S754_infinity s)
  | YNum, VNum _ | YBytes, VBytes _ => True
  | YDate, VDate _ | YDatetime, VDatetime _ | YTimestamp, VTimestamp _ => storable true v
  | _, _ => False
  end.
Definition well_ordered (sh : list (kty * bool)) (ks : keys) : Prop :=
  Forall2 (fun t k => of_kty (fst t) (fst k) /\ snd t = snd k) sh ks.
(** Types of PARTITION BY key: INT64 of up to 53 bits and STRING; where there are several
    keys, no string contains an underscore. *)
Definition of_pty (several : bool) (t : kty) (v : val) : Prop :=
  of_kty t v /\
  match v with
  | VInt _ => True
  | VStr s => several = true -> has_char "_" s = false
  | _ => False
  end.
Definition well_parted (sh : list kty) (ps : list val) : Prop :=
  Forall2 (of_pty (1 <? List.length sh)%nat) sh ps.

(** What the text of a value is relied on for: a string is itself; the integers that are
    exact in float64 have distinct texts without underscore (fmt.Sprint of a float64). *)
Definition prints (text : val -> res string) : Prop :=
  (forall s, text (VStr s) = Ok s) /\
  (forall z, Z.abs z < 2 ^ 53 -> exists t, text (VFloat (float_of_int z)) = Ok t /\ has_char "_" t = false) /\
  (forall a b, Z.abs a < 2 ^ 53 -> Z.abs b < 2 ^ 53 -> text (VFloat (float_of_int a)) = text (VFloat (float_of_int b)) -> a = b).
(** No argument has a text that is a JSON object. *)
Definition ordinary_args (text : val -> res string) (r : srow) : Prop :=
  forall v, In (Some v) (r_args r) -> ordinary text v.

(** A table for which the claims are made. *)
Definition sound (text : val -> res string) (shp : list kty) (sho : list (kty * bool)) (rows : list srow) : Prop :=
  prints text /\ forall r, In r rows -> well_parted shp (r_part r) /\ well_ordered sho (r_order r) /\ ordinary_args text r.

(** Go's sort.Slice: what [go_sort] says, and it sees the elements only through the
    comparison. *)
Definition sort_slice (sort : (ent -> ent -> bool) -> list ent -> list ent) : Prop :=
  (forall l, go_sort wless l (sort wless l)) /\
  (forall g l, (forall x y, In x l -> In y l -> wless (g x) (g y) = wless x y) -> sort wless (map g l) = map g (sort wless l)).

(** ** The ordered partition *)
Definition row0 : srow := {| r_args := []; r_part := []; r_order := [] |}.
Definition at_row (rows : list srow) (i : nat) : srow := nth i rows row0.
(** The rows of a partition, by number, in the order of the ORDER BY keys. *)
Definition arranged (rows : list srow) (part : list val) (order : list nat) : Prop :=
  NoDup order /\
  (forall i, In i order <-> (i < List.length rows)%nat /\ r_part (at_row rows i) = part) /\
  StronglySorted (fun i j => ~ keys_before (r_order (at_row rows j)) (r_order (at_row rows i))) order.

(** ** ROWS frames *)
(** Whether a row at the given distance after the current one is not before the start, and
    not after the end. *)
Definition from_start (b : bound) (d : Z) : Prop :=
  match b_kind b with
  | UnboundedPreceding => True
  | OffsetPreceding => - b_off b <= d
  | CurrentRow => 0 <= d
  | OffsetFollowing => b_off b <= d
  | _ => False
  end.
Definition to_end (b : bound) (d : Z) : Prop :=
  match b_kind b with
  | UnboundedFollowing => True
  | OffsetPreceding => d <= - b_off b
  | CurrentRow => d <= 0
  | OffsetFollowing => d <= b_off b
  | _ => False
  end.
(** Bounds the SQL analyzer accepts at the start and at the end. *)
Definition start_bound (b : bound) : Prop := b_kind b <> BUnknown /\ b_kind b <> UnboundedFollowing /\ 0 <= b_off b < two63.
Definition end_bound (b : bound) : Prop := b_kind b <> BUnknown /\ b_kind b <> UnboundedPreceding /\ 0 <= b_off b < two63.
(** [l] is what is left of [order] when the positions where P fails are removed. *)
Inductive picks {A} (P : nat -> Prop) : nat -> list A -> list A -> Prop :=
| pk_nil : forall i, picks P i [] []
| pk_take : forall i x l o, P i -> picks P (S i) l o -> picks P i (x :: l) (x :: o)
| pk_skip : forall i x l o, ~ P i -> picks P (S i) l o -> picks P i (x :: l) o.
(** The rows of the frame of the row at position p. *)
Definition rows_frame (s e : bound) (order : list nat) (p : nat) (l : list nat) : Prop :=
  picks (fun i => from_start s (Z.of_nat i - Z.of_nat p) /\ to_end e (Z.of_nat i - Z.of_nat p)) 0 order l.

Definition arg_of (rows : list srow) (i : nat) : option val := hd None (r_args (at_row rows i)).
Definition rows_spec (s e : bound) : spec := {| p_distinct := false; p_respect := false; p_frame := Some (URows, s, e) |}.
Definition range_spec (s e : bound) : spec := {| p_distinct := false; p_respect := false; p_frame := Some (URange, s, e) |}.
Definition no_frame : spec := {| p_distinct := false; p_respect := false; p_frame := None |}.
Definition the_bound (k : bkind) (n : Z) : bound := {| b_kind := k; b_off := n |}.

(** One order for each partition, the same for every row of it. *)
Definition arrangement (rows : list srow) (ord : nat -> list nat) : Prop :=
  forall i, (i < List.length rows)%nat ->
    arranged rows (r_part (at_row rows i)) (ord i) /\
    (forall j, (j < List.length rows)%nat -> r_part (at_row rows j) = r_part (at_row rows i) -> ord j = ord i).
(** The end of the frame is not more than one row before its start. *)
Definition proper (s e : bound) : Prop :=
  match b_kind s, b_kind e with
  | OffsetPreceding, OffsetPreceding => b_off e <= b_off s + 1
  | OffsetFollowing, OffsetFollowing => b_off s <= b_off e + 1
  | CurrentRow, OffsetPreceding => b_off e <= 1
  | OffsetFollowing, CurrentRow => b_off s <= 1
  | OffsetFollowing, OffsetPreceding => b_off s + b_off e <= 1
  | _, _ => True
  end.
(** Counting from any row of the table by the offset stays within int64. *)
Definition small (rows : list srow) (b : bound) : Prop := b_off b + zlen rows < two63.
(** A frame that contains the row it is for. *)
Definition around (s e : bound) : Prop :=
  (b_kind s = UnboundedPreceding \/ b_kind s = OffsetPreceding \/ b_kind s = CurrentRow) /\
  (b_kind e = UnboundedFollowing \/ b_kind e = OffsetFollowing \/ b_kind e = CurrentRow).
Definition has_arg (r : srow) : Prop := r_args r <> [].
Definition not_null (l : list (option val)) : list val := flat_map (fun v => match v with Some x => [x] | None => [] end) l.

(** [o] is what is left of [l] when the elements where P fails are removed. *)
Inductive keeps {A} (P : A -> Prop) : list A -> list A -> Prop :=
| ke_nil : keeps P [] []
| ke_take : forall x l o, P x -> keeps P l o -> keeps P (x :: l) (x :: o)
| ke_skip : forall x l o, ~ P x -> keeps P l o -> keeps P (x :: l) o.
(** Row i has its ORDER BY keys before those of row j. *)
Definition earlier (rows : list srow) (i j : nat) : Prop := keys_before (r_order (at_row rows i)) (r_order (at_row rows j)).
Definition peers (rows : list srow) (i j : nat) : Prop := ~ earlier rows i j /\ ~ earlier rows j i.
(** The frame when ORDER BY is given and no frame is: RANGE UNBOUNDED PRECEDING TO CURRENT ROW *)
Definition default_frame : spec := range_spec (the_bound UnboundedPreceding 0) (the_bound CurrentRow 0).
Definition from_here : spec := range_spec (the_bound CurrentRow 0) (the_bound UnboundedFollowing 0).
Definition framed (respect : bool) (s e : bound) : spec := {| p_distinct := false; p_respect := respect; p_frame := Some (URows, s, e) |}.

(** ** Rows by position *)
(** LEAD(x), LEAD(x, off) or LEAD(x, off, d) *)
Definition offset_args (args : list (option val)) (off : Z) (d : option val) : Prop :=
  exists x, (args = [x] /\ off = 1 /\ d = None) \/ (args = [x; Some (VInt off)] /\ d = None) \/ args = [x; Some (VInt off); d].
(** The argument of the row at position q of the ordered partition; [d] if there is no such row *)
Definition at_position (rows : list srow) (order : list nat) (q : Z) (d : option val) : option val :=
  if q <? 0 then d else match nth_error order (Z.to_nat q) with Some j => arg_of rows j | None => d end.
(** The number of the bucket, from 1, of the row at position p of len when they are split in n,
    the sizes differing by at most one and the larger first. *)
Definition bucket (len n p : Z) : Z :=
  let q := len / n in
  let r := len mod n in
  if p <? r * (q + 1) then p / (q + 1) + 1 else r + (p - r * (q + 1)) / q + 1.
