(** Proofs about the FLOAT64 functions. *)
From Coq Require Import List ZArith Lia Bool SpecFloat.
From Verif Require Import GoBase ValueModel ValueFacts CompareSpec FloatFacts MathModel MathSpec.
Import ListNotations.
Open Scope Z_scope.

Lemma opp_valid : forall f, valid_binary prec64 emax64 (SFopp f) = valid_binary prec64 emax64 f.
Proof. now intros [s|s| |s m e]. Qed.
Lemma opp_scaled : forall f, float_scaled (SFopp f) = - float_scaled f.
Proof. intros [s|s| |s m e]; try destruct s; cbn [SFopp negb float_scaled]; lia. Qed.
Lemma opp_finite : forall f, finite f -> finite (SFopp f).
Proof. intros f [V F]. split; [now rewrite opp_valid|]. now destruct f. Qed.
Lemma opp_opp : forall f, SFopp (SFopp f) = f.
Proof. intros [s|s| |s m e]; cbn; rewrite ?negb_involutive; reflexivity. Qed.
Lemma opp_nan : forall f, is_nan (SFopp f) = is_nan f.
Proof. now intros [s|s| |s m e]. Qed.
Lemma abs_scaled : forall f, float_scaled (SFabs f) = Z.abs (float_scaled f).
Proof.
  intros [s|s| |s m e]; cbn [SFabs float_scaled]; try reflexivity; destruct s; try reflexivity.
  - cbn [float_scaled]. rewrite Z.abs_opp. symmetry. apply Z.abs_eq. apply Z.mul_nonneg_nonneg; [lia|apply Z.pow_nonneg; lia].
  - symmetry. apply Z.abs_eq. apply Z.mul_nonneg_nonneg; [lia|apply Z.pow_nonneg; lia].
Qed.

Lemma float_of_int_finite : forall z, Z.abs z < 2 ^ 53 -> is_integer (float_of_int z) z.
Proof.
  intros z B. destruct (float_of_int_scaled z B) as [[V N] S1]. split; [|exact S1]. split; [exact V|].
  unfold float_of_int, binary_normalize in *. destruct z as [|m|m]; [exact I| |];
    [destruct (binary_round_small false m) as (mz & _ & E & _)|destruct (binary_round_small true m) as (mz & _ & E & _)]; try exact B; rewrite E; exact I.
Qed.
Lemma opp_integer : forall f z, is_integer f z -> is_integer (SFopp f) (- z).
Proof. intros f z [F E]. split; [now apply opp_finite|]. rewrite opp_scaled, E. lia. Qed.

Lemma canonical_of : forall s m e, valid_binary prec64 emax64 (S754_finite s m e) = true -> canonical m e.
Proof. intros. exact H. Qed.

(** A finite float with a negative exponent is a fraction m / 2^(-e). *)
Lemma frac_bounds : forall m e, canonical m e -> e < 0 ->
  let d := 2 ^ (- e) in 2 <= d /\ Zpos m < 2 ^ 53 /\ Zpos m * 2 ^ (e + 1074) * d = Zpos m * unit1.
Proof.
  intros m e C L d. apply canonical_bounds in C as (E & M & _). subst d. split.
  - change 2 with (2 ^ 1) at 1. apply Z.pow_le_mono_r; lia.
  - split; [exact M|]. unfold unit1. rewrite <- Z.mul_assoc, <- Z.pow_add_r by lia. f_equal. f_equal. lia.
Qed.
Lemma big_integer : forall s m e, canonical m e -> 0 <= e -> is_integer (S754_finite s m e) ((if s then -1 else 1) * (Zpos m * 2 ^ e)).
Proof.
  intros s m e C L. split; [split; [exact C|exact I]|]. unfold unit1. destruct s; cbn [float_scaled]; rewrite Z.pow_add_r by lia; ring.
Qed.

Lemma trunc_pos : forall m e, canonical m e -> e < 0 ->
  is_integer (float_of_int (Zpos m / 2 ^ (- e))) (Zpos m / 2 ^ (- e)).
Proof.
  intros m e C L. destruct (frac_bounds m e C L) as (D & M & _). cbn zeta in *. apply float_of_int_finite.
  pose proof (Z.div_pos (Zpos m) (2 ^ (- e))). pose proof (Z.div_le_upper_bound (Zpos m) (2 ^ (- e)) (Zpos m)). nia.
Qed.
Lemma ceil_pos : forall m e, canonical m e -> e < 0 ->
  is_integer (float_of_int ((Zpos m + 2 ^ (- e) - 1) / 2 ^ (- e))) ((Zpos m + 2 ^ (- e) - 1) / 2 ^ (- e)).
Proof.
  intros m e C L. destruct (frac_bounds m e C L) as (D & M & _). cbn zeta in *. apply float_of_int_finite.
  set (d := 2 ^ (- e)) in *.
  assert (0 <= (Zpos m + d - 1) / d) by (apply Z.div_pos; lia).
  assert ((Zpos m + d - 1) / d <= Zpos m) by (apply Z.div_le_upper_bound; nia). lia.
Qed.

(** math.Floor is the greatest integer that is not above the argument. *)
Lemma floor_spec : forall f, finite f -> exists z, is_integer (go_floor f) z /\ z * unit1 <= float_scaled f < (z + 1) * unit1.
Proof.
  assert (U : 0 < unit1) by (apply Z.pow_pos_nonneg; lia).
  intros [s|s| |s m e] [V F]; try destruct F.
  - exists 0. split; [split; [now split|]; destruct s; reflexivity|]. destruct s; cbn [float_scaled]; lia.
  - pose proof (canonical_of _ _ _ V) as C. cbn [go_floor]. destruct (Z.leb_spec 0 e) as [L|L].
    + pose proof (big_integer s m e C L) as I1. eexists. split; [exact I1|]. destruct I1 as [_ ->]. lia.
    + destruct (frac_bounds m e C L) as (D & M & X). cbn zeta in X. cbv zeta. set (d := 2 ^ (- e)) in *. set (x := Zpos m * 2 ^ (e + 1074)) in *.
      destruct s.
      * pose proof (ceil_pos m e C L) as I1. fold d in I1. eexists. split; [apply opp_integer; exact I1|].
        change (float_scaled (S754_finite true m e)) with (- x).
        pose proof (Z.div_mod (Zpos m + d - 1) d ltac:(lia)). pose proof (Z.mod_pos_bound (Zpos m + d - 1) d ltac:(lia)).
        set (q := (Zpos m + d - 1) / d) in *. set (r := (Zpos m + d - 1) mod d) in *. split; nia.
      * pose proof (trunc_pos m e C L) as I1. fold d in I1. eexists. split; [exact I1|].
        change (float_scaled (S754_finite false m e)) with x.
        pose proof (Z.div_mod (Zpos m) d ltac:(lia)). pose proof (Z.mod_pos_bound (Zpos m) d ltac:(lia)).
        set (q := Zpos m / d) in *. set (r := Zpos m mod d) in *. split; nia.
Qed.
Lemma ceil_spec : forall f, finite f -> exists z, is_integer (go_ceil f) z /\ (z - 1) * unit1 < float_scaled f <= z * unit1.
Proof.
  intros f F. destruct (floor_spec _ (opp_finite f F)) as (z & I1 & B). exists (- z). split; [now apply opp_integer|].
  rewrite opp_scaled in B. lia.
Qed.
Lemma trunc_spec : forall f, finite f -> exists z, is_integer (go_trunc f) z /\
  Z.abs z * unit1 <= Z.abs (float_scaled f) < (Z.abs z + 1) * unit1 /\ 0 <= z * float_scaled f.
Proof.
  assert (U : 0 < unit1) by (apply Z.pow_pos_nonneg; lia).
  intros [s|s| |s m e] [V F]; try destruct F.
  - exists 0. split; [split; [now split|]; destruct s; reflexivity|]. destruct s; cbn [float_scaled]; lia.
  - pose proof (canonical_of _ _ _ V) as C. cbn [go_trunc]. destruct (Z.leb_spec 0 e) as [L|L].
    + pose proof (big_integer s m e C L) as I1. eexists. split; [exact I1|]. destruct I1 as [_ ->].
      set (z := (if s then -1 else 1) * (Zpos m * 2 ^ e)). rewrite Z.abs_mul. rewrite (Z.abs_eq unit1) by lia. split; [nia|].
      replace (z * (z * unit1)) with ((z * z) * unit1) by ring. nia.
    + destruct (frac_bounds m e C L) as (D & M & X). cbn zeta in X. cbv zeta. set (d := 2 ^ (- e)) in *. set (x := Zpos m * 2 ^ (e + 1074)) in *.
      assert (P : 0 <= x) by (unfold x; apply Z.mul_nonneg_nonneg; [lia|apply Z.pow_nonneg; lia]).
      pose proof (trunc_pos m e C L) as I1. fold d in I1.
      pose proof (Z.div_mod (Zpos m) d ltac:(lia)). pose proof (Z.mod_pos_bound (Zpos m) d ltac:(lia)).
      set (q := Zpos m / d) in *. set (r := Zpos m mod d) in *. assert (Q : 0 <= q) by nia.
      assert (q * unit1 <= x < (q + 1) * unit1) by (split; nia).
      destruct s.
      * exists (- q). split; [apply opp_integer; exact I1|]. change (float_scaled (S754_finite true m e)) with (- x).
        rewrite !Z.abs_opp, (Z.abs_eq q), (Z.abs_eq x) by lia. split; [lia|nia].
      * exists q. split; [exact I1|]. change (float_scaled (S754_finite false m e)) with x.
        rewrite (Z.abs_eq q), (Z.abs_eq x) by lia. split; [lia|nia].
Qed.

(** The infinities lie beyond every finite float. *)
Lemma finite_below : forall f, finite f -> Z.abs (float_scaled f) < 2 ^ 2098.
Proof.
  intros [s|s| |s m e] [V F]; try destruct F.
  - change (float_scaled (S754_zero s)) with 0. change (Z.abs 0) with 0. apply Z.pow_pos_nonneg; lia.
  - apply canonical_of, canonical_bounds in V as (E & M & _).
    assert (B : Zpos m * 2 ^ (e + 1074) < 2 ^ 2098).
    { replace 2098 with (53 + 2045) by lia. rewrite (Z.pow_add_r 2 53 2045) by lia.
      apply Z.lt_le_trans with (2 ^ 53 * 2 ^ (e + 1074)); [apply Z.mul_lt_mono_pos_r; [apply Z.pow_pos_nonneg; lia|exact M]|].
      apply Z.mul_le_mono_nonneg_l; [apply Z.pow_nonneg; lia|]. apply Z.pow_le_mono_r; lia. }
    assert (P : 0 <= Zpos m * 2 ^ (e + 1074)) by (apply Z.mul_nonneg_nonneg; [lia|apply Z.pow_nonneg; lia]).
    destruct s; cbn [float_scaled]; rewrite ?Z.abs_opp; rewrite Z.abs_eq by exact P; exact B.
Qed.

Lemma finite_scaled_pos : forall m e, canonical m e -> 0 < Zpos m * 2 ^ (e + 1074).
Proof. intros m e C. apply canonical_bounds in C as (E & _). apply Z.mul_pos_pos; [lia|apply Z.pow_pos_nonneg; lia]. Qed.

(** An odd integer that is a FLOAT64 lies below 2^53. *)
Lemma odd_integer_small : forall f z, is_integer f z -> Z.odd z = true -> Z.abs z < 2 ^ 53.
Proof.
  intros f z [Fi E] O. destruct Fi as [V N]. destruct f as [s|s| |s m e]; try contradiction.
  - assert (P : 0 < unit1) by (apply Z.pow_pos_nonneg; lia). change (float_scaled (S754_zero s)) with 0 in E. assert (z = 0) by nia. subst. discriminate.
  - apply canonical_of, canonical_bounds in V as (B & M & _).
    assert (A : Zpos m * 2 ^ (e + 1074) = Z.abs z * unit1).
    { assert (P : 0 < unit1) by (apply Z.pow_pos_nonneg; lia). assert (Q : 0 < 2 ^ (e + 1074)) by (apply Z.pow_pos_nonneg; lia). destruct s; cbn [float_scaled] in E; nia. }
    unfold unit1 in A. destruct (Z.le_gt_cases e 0) as [L|L].
    + assert (R : 2 ^ 1074 = 2 ^ (e + 1074) * 2 ^ (- e)) by (rewrite <- Z.pow_add_r by lia; f_equal; lia).
      rewrite R in A. assert (Q : 0 < 2 ^ (e + 1074)) by (apply Z.pow_pos_nonneg; lia). assert (T : 0 < 2 ^ (- e)) by (apply Z.pow_pos_nonneg; lia).
      assert (A' : Zpos m = Z.abs z * 2 ^ (- e)) by nia. nia.
    + rewrite (Z.add_comm e 1074), Z.pow_add_r in A by lia. assert (P : 0 < 2 ^ 1074) by (apply Z.pow_pos_nonneg; lia).
      assert (A' : Z.abs z = Zpos m * 2 ^ e) by (clear -A P; set (u := 2 ^ 1074) in *; nia).
      exfalso. assert (X : Z.odd (Z.abs z) = true) by (destruct (Z.abs_spec z) as [[_ ->]|[_ ->]]; [exact O|now rewrite Z.odd_opp]).
      rewrite A', Z.odd_mul in X. apply andb_prop in X. destruct X as [_ X]. replace e with (Z.succ (e - 1)) in X by lia. rewrite Z.pow_succ_r, Z.odd_mul in X by lia. discriminate.
Qed.
