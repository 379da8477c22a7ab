(** Small integers are exact in float64. *)
From Coq Require Import ZArith Lia Bool SpecFloat Zpow_facts.
From Verif Require Import GoBase GoBaseFacts ValueModel ValueFacts CompareSpec CompareProofs.
Open Scope Z_scope.

Lemma digits2_pos_unique : forall m k, 0 < k -> 2 ^ (k - 1) <= Zpos m < 2 ^ k -> Zpos (digits2_pos m) = k.
Proof.
  intros m k K [L U]. pose proof (digits2_pos_spec m) as [L' U'].
  set (d := Zpos (digits2_pos m)) in *. assert (0 < d) by (unfold d; lia).
  destruct (Z.lt_trichotomy d k) as [H0|[H0|H0]]; auto; exfalso.
  - assert (2 ^ d <= 2 ^ (k - 1)) by (apply Z.pow_le_mono_r; lia). lia.
  - assert (2 ^ k <= 2 ^ (d - 1)) by (apply Z.pow_le_mono_r; lia). lia.
Qed.

Lemma shift_pos_val : forall n m, Zpos (shift_pos n m) = Zpos m * 2 ^ Zpos n.
Proof. intros. rewrite shift_pos_correct. unfold Z.pow. lia. Qed.

(** An integer of at most 53 digits. *)
Lemma binary_round_small : forall s m, Zpos m < 2 ^ 53 ->
  exists mz, Zpos mz = Zpos m * 2 ^ (53 - Zpos (digits2_pos m)) /\
    binary_round prec64 emax64 s m 0 = S754_finite s mz (Zpos (digits2_pos m) - 53) /\
    Zpos (digits2_pos m) <= 53.
Proof.
  intros s m B. pose proof (digits2_pos_spec m) as [L U].
  set (d := Zpos (digits2_pos m)) in *. assert (D0 : 0 < d) by (unfold d; lia).
  assert (D : d <= 53).
  { destruct (Z.le_gt_cases d 53); auto. exfalso.
    assert (2 ^ 53 <= 2 ^ (d - 1)) by (apply Z.pow_le_mono_r; lia). lia. }
  assert (F : fexp prec64 emax64 (d + 0) = d - 53).
  { unfold fexp, SpecFloat.emin, prec64, emax64. lia. }
  assert (A : exists mz, shl_align m 0 (d - 53) = (mz, d - 53) /\ Zpos mz = Zpos m * 2 ^ (53 - d)).
  { unfold shl_align. rewrite Z.sub_0_r. destruct (d - 53) as [|p|p] eqn:E; [|lia|].
    - exists m. split; auto. replace (53 - d) with 0 by lia. rewrite Z.pow_0_r. lia.
    - exists (shift_pos p m). split; auto. rewrite shift_pos_val. f_equal. f_equal. lia. }
  destruct A as (mz & A & V). exists mz. split; auto. split; auto.
  assert (Dz : Zpos (digits2_pos mz) = 53).
  { apply digits2_pos_unique; [lia|]. rewrite V.
    assert (P : 0 < 2 ^ (53 - d)) by (apply Z.pow_pos_nonneg; lia).
    assert (E1 : 2 ^ (53 - 1) = 2 ^ (d - 1) * 2 ^ (53 - d)) by (rewrite <- Z.pow_add_r by lia; f_equal; lia).
    assert (E2 : 2 ^ 53 = 2 ^ d * 2 ^ (53 - d)) by (rewrite <- Z.pow_add_r by lia; f_equal; lia).
    rewrite E1, E2. nia. }
  unfold binary_round. fold d. rewrite F, A.
  unfold binary_round_aux, shr_fexp. cbn [Zdigits2 shr_record_of_loc]. rewrite Dz.
  assert (F2 : fexp prec64 emax64 (53 + (d - 53)) - (d - 53) = 0).
  { unfold fexp, SpecFloat.emin, prec64, emax64. lia. }
  rewrite F2. cbn [shr shr_m loc_of_shr_record round_nearest_even Zdigits2]. rewrite Dz, F2.
  cbn [shr shr_m].
  assert ((d - 53 <=? emax64 - prec64) = true) as ->; auto.
  apply Z.leb_le. unfold emax64, prec64. lia.
Qed.

Lemma trunc_small_pos : forall s m mz, Zpos m < 2 ^ 53 ->
  Zpos mz = Zpos m * 2 ^ (53 - Zpos (digits2_pos m)) -> Zpos (digits2_pos m) <= 53 ->
  trunc_float (S754_finite s mz (Zpos (digits2_pos m) - 53)) = Some (if s then Zneg m else Zpos m).
Proof.
  intros s m mz B V D. unfold trunc_float. set (d := Zpos (digits2_pos m)) in *.
  assert (E : (if 0 <=? d - 53 then Zpos mz * 2 ^ (d - 53) else Zpos mz / 2 ^ (- (d - 53))) = Zpos m).
  { destruct (Z.leb_spec 0 (d - 53)).
    - replace (53 - d) with 0 in V by lia. replace (d - 53) with 0 by lia. rewrite Z.pow_0_r in *. lia.
    - rewrite V. replace (- (d - 53)) with (53 - d) by lia. apply Z.div_mul.
      apply Z.pow_nonzero; lia. }
  rewrite E. destruct s; reflexivity.
Qed.

Theorem float_of_int_trunc : forall z, Z.abs z < 2 ^ 53 -> trunc_float (float_of_int z) = Some z.
Proof.
  intros z B. unfold float_of_int, binary_normalize. destruct z as [|m|m]; auto.
  - destruct (binary_round_small false m) as (mz & V & -> & D); [exact B|]. now rewrite (trunc_small_pos false m mz).
  - destruct (binary_round_small true m) as (mz & V & -> & D); [exact B|]. now rewrite (trunc_small_pos true m mz).
Qed.

Theorem float_of_int_back : forall z, Z.abs z < 2 ^ 53 -> int_of_float (float_of_int z) = z.
Proof.
  intros z B. unfold int_of_float. rewrite float_of_int_trunc by assumption.
  assert (in64b z = true) as ->; auto. unfold in64b, two63. change (2 ^ 53) with 9007199254740992 in B.
  apply andb_true_intro. split; [apply Z.leb_le|apply Z.ltb_lt]; lia.
Qed.

(** The value of the float, scaled. *)
Lemma float_of_int_finite : forall z, Z.abs z < 2 ^ 53 -> is_nan (float_of_int z) = false.
Proof.
  intros z B. unfold float_of_int, binary_normalize. destruct z as [|m|m]; auto.
  - destruct (binary_round_small false m) as (mz & V & -> & D); auto.
  - destruct (binary_round_small true m) as (mz & V & -> & D); auto.
Qed.

Lemma binary_round_scaled : forall s m mz, Zpos m < 2 ^ 53 ->
  Zpos mz = Zpos m * 2 ^ (53 - Zpos (digits2_pos m)) -> Zpos (digits2_pos m) <= 53 ->
  let f := S754_finite s mz (Zpos (digits2_pos m) - 53) in
  real_float f /\ float_scaled f = (if s then Zneg m else Zpos m) * 2 ^ 1074.
Proof.
  intros s m mz B V D f. pose proof (digits2_pos_spec m) as [L U].
  assert (Dz : Zpos (digits2_pos mz) = 53).
  { set (d := Zpos (digits2_pos m)) in *.
    apply digits2_pos_unique; [lia|]. rewrite V.
    assert (P : 0 < 2 ^ (53 - d)) by (apply Z.pow_pos_nonneg; lia).
    assert (E1 : 2 ^ (53 - 1) = 2 ^ (d - 1) * 2 ^ (53 - d)) by (rewrite <- Z.pow_add_r by (unfold d; lia); f_equal; lia).
    assert (E2 : 2 ^ 53 = 2 ^ d * 2 ^ (53 - d)) by (rewrite <- Z.pow_add_r by (unfold d; lia); f_equal; lia).
    rewrite E1, E2. nia. }
  split.
  - split; [|reflexivity]. unfold f, valid_binary, bounded, canonical_mantissa. rewrite Dz.
    apply andb_true_intro. split.
    + apply Zeq_is_eq_bool. unfold fexp, SpecFloat.emin, prec64, emax64. lia.
    + apply Z.leb_le. unfold prec64, emax64. lia.
  - assert (E : Zpos mz * 2 ^ (Zpos (digits2_pos m) - 53 + 1074) = Zpos m * 2 ^ 1074).
    { rewrite V, <- Z.mul_assoc, <- Z.pow_add_r by lia. f_equal. f_equal. lia. }
    unfold f, float_scaled. rewrite E. destruct s; [|reflexivity].
    rewrite <- (Pos2Z.opp_pos m), Z.mul_opp_l. reflexivity.
Qed.

Theorem float_of_int_scaled : forall z, Z.abs z < 2 ^ 53 ->
  real_float (float_of_int z) /\ float_scaled (float_of_int z) = z * 2 ^ 1074.
Proof.
  intros z B. unfold float_of_int, binary_normalize. destruct z as [|m|m].
  - split; [split; reflexivity|reflexivity].
  - destruct (binary_round_small false m) as (mz & V & -> & D); [exact B|]. now apply (binary_round_scaled false m mz).
  - destruct (binary_round_small true m) as (mz & V & -> & D); [exact B|]. now apply (binary_round_scaled true m mz).
Qed.
