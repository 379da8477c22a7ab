(** Properties C31 and C90: INT64 arithmetic. *)
From Coq Require Import ZArith Lia Bool SpecFloat.
From Verif Require Import GoBase GoBaseFacts ValueModel ValueFacts FloatFacts IntModel IntProofs.
Open Scope Z_scope.

(** C31.  The result is right exactly when it fits; otherwise a wrong number comes
    back, never an error. *)
Theorem c31_exact_partial : forall a b,
  (int_add a b = Ok (a + b) <-> in64 (a + b)) /\
  (int_sub a b = Ok (a - b) <-> in64 (a - b)) /\
  (int_mul a b = Ok (a * b) <-> in64 (a * b)).
Proof.
  assert (K : forall z, Ok (wrap64 z) = Ok z <-> in64 z).
  { intros z. split; intros H.
    - assert (E : wrap64 z = z) by congruence. rewrite <- E. apply wrap64_range.
    - now rewrite wrap64_id. }
  intros a b. unfold int_add, int_sub, int_mul. auto.
Qed.
Print Assumptions c31_exact_partial.

Theorem c31_overflow_refuted : forall a b,
  (~ in64 (a + b) -> exists r, int_add a b = Ok r /\ in64 r /\ r <> a + b) /\
  (~ in64 (a - b) -> exists r, int_sub a b = Ok r /\ in64 r /\ r <> a - b) /\
  (~ in64 (a * b) -> exists r, int_mul a b = Ok r /\ in64 r /\ r <> a * b).
Proof.
  intros a b. unfold int_add, int_sub, int_mul.
  repeat split; intros H; eexists; split; try reflexivity; split;
    auto using wrap64_changes; apply wrap64_range.
Qed.
Print Assumptions c31_overflow_refuted.

(** DIV, and / when both sides are INT64 values: x = q*y + r with r of the sign of x and smaller than y; the one exception
    is -2^63 / -1. *)
Theorem c31_div_partial : forall f a b, f = fn_div \/ f = int_div -> in64 a -> in64 b ->
  (f a b = Err <-> b = 0) /\
  (b <> 0 -> (a <> - two63 \/ b <> -1) ->
   exists q r, f a b = Ok q /\ a = q * b + r /\ Z.abs r < Z.abs b /\ 0 <= r * a /\ in64 q).
Proof.
  assert (G : forall a b, in64 a -> in64 b ->
    (fn_div a b = Err <-> b = 0) /\
    (b <> 0 -> (a <> - two63 \/ b <> -1) ->
     exists q r, fn_div a b = Ok q /\ a = q * b + r /\ Z.abs r < Z.abs b /\ 0 <= r * a /\ in64 q));
    [|intros f a b [-> | ->]; [apply G|change (int_div a b) with (fn_div a b); apply G]].
  intros a b Ha Hb. unfold fn_div. split.
  - destruct (Z.eqb_spec b 0); split; auto; try discriminate; contradiction.
  - intros N E. destruct (Z.eqb_spec b 0); [contradiction|].
    pose proof (Z.quot_rem a b N) as D. pose proof (Z.rem_bound_abs a b N) as B.
    pose proof (Z.rem_sign_mul a b N) as S.
    assert (Q : in64 (Z.quot a b)).
    { unfold in64 in *. 
      assert (Z.abs (Z.quot a b) = Z.quot (Z.abs a) (Z.abs b)) by (symmetry; apply Z.quot_abs; lia).
      assert (Q1 : Z.quot (Z.abs a) (Z.abs b) <= Z.abs a).
      { rewrite Z.quot_div_nonneg by lia. apply Z.div_le_upper_bound; [lia|]. nia. }
      assert (0 <= Z.quot (Z.abs a) (Z.abs b)) by (apply Z.quot_pos; lia).
      destruct (Z.eq_dec (Z.quot a b) two63) as [F|]; [|unfold two63 in *; lia].
      exfalso. rewrite F in D. unfold two63 in *. nia. }
    exists (Z.quot a b), (Z.rem a b). rewrite wrap64_id by assumption.
    repeat split; try apply Q; auto; nia.
Qed.
Print Assumptions c31_div_partial.
Theorem c31_div_overflow_refuted : fn_div (- two63) (-1) = Ok (- two63) /\ int_div (- two63) (-1) = Ok (- two63).
Proof. split; reflexivity. Qed.
Print Assumptions c31_div_overflow_refuted.

Example c31_example :
  int_add (two63 - 1) 1 = Ok (- two63) /\ int_mul 4294967296 2147483647 = Ok 9223372032559808512 /\
  int_mul 4294967296 2147483648 = Ok (- two63) /\ in64 (4294967296 * 2147483647) /\ ~ in64 (two63 - 1 + 1) /\
  fn_div (-7) 2 = Ok (-3) /\ fn_div 7 0 = Err.
Proof. unfold in64, two63. repeat split; try reflexivity; lia. Qed.

(** C90.  Exact below 2^53. *)
Theorem c90_small_partial : forall x y, Z.abs x < 2 ^ 53 -> Z.abs y < 2 ^ 53 ->
  (Z.abs (x + y) < 2 ^ 53 -> fn_safe_add x y = Some (x + y)) /\
  (Z.abs (x - y) < 2 ^ 53 -> fn_safe_subtract x y = Some (x - y)) /\
  (Z.abs (x * y) < 2 ^ 53 -> fn_safe_multiply x y = Some (x * y)) /\
  fn_safe_negate x = Some (- x) /\
  fn_abs x = Ok (Z.abs x) /\
  (y = 0 -> fn_mod x y = Err) /\
  (y <> 0 -> exists q r, fn_mod x y = Ok r /\ x = q * y + r /\ Z.abs r < Z.abs y /\ 0 <= r * x).
Proof.
  intros x y Hx Hy. unfold fn_safe_add, fn_safe_subtract, fn_safe_multiply, fn_safe_negate, fn_abs, fn_mod.
  rewrite !(rnd_small x), !(rnd_small y) by assumption.
  split; [|split; [|split; [|split; [|split; [|split]]]]].
  - intros. f_equal. now apply as_int64_rnd.
  - intros. f_equal. now apply as_int64_rnd.
  - intros. f_equal. now apply as_int64_rnd.
  - f_equal. apply as_int64_id, small_in64. lia.
  - f_equal. apply as_int64_id, small_in64. lia.
  - intros ->. reflexivity.
  - intros N. destruct (Z.eqb_spec y 0); [contradiction|].
    pose proof (Z.quot_rem x y N) as D. pose proof (Z.rem_bound_abs x y N) as B.
    pose proof (Z.rem_sign_mul x y N) as S.
    exists (Z.quot x y), (Z.rem x y). rewrite as_int64_id by (apply small_in64; lia).
    repeat split; auto; nia.
Qed.
Print Assumptions c90_small_partial.

(** Above, answers are wrong, and overflow is never NULL. *)
Theorem c90_rounding_refuted :
  fn_safe_add 9007199254740992 1 = Some 9007199254740992 /\
  fn_abs 9007199254740993 = Ok 9007199254740992 /\
  fn_mod 9007199254740993 2 = Ok 0 /\
  fn_safe_negate 9007199254740993 = Some (-9007199254740992) /\
  fn_safe_multiply 3002399751580331 3 = Some 9007199254740992.
Proof. repeat split; vm_compute; reflexivity. Qed.
Print Assumptions c90_rounding_refuted.
Theorem c90_overflow_refuted :
  (forall x y, fn_safe_add x y <> None /\ fn_safe_subtract x y <> None /\ fn_safe_multiply x y <> None) /\
  fn_safe_add (two63 - 1) 1 = Some (- two63) /\ fn_safe_negate (- two63) = Some (- two63) /\
  fn_safe_add (two63 - 1) 0 = Some (- two63).
Proof. split; [intros; repeat split; discriminate|]. repeat split; vm_compute; reflexivity. Qed.
Print Assumptions c90_overflow_refuted.

Example c90_example : fn_safe_add (-9007199254740000) 9007199254740991 = Some 991 /\
  fn_mod (-7) 3 = Ok (-1) /\ fn_abs (-5) = Ok 5 /\ fn_safe_multiply (-94906265) 94906265 = Some (-9007199136250225).
Proof. repeat split; vm_compute; reflexivity. Qed.
