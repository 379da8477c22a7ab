(** Properties C35, C91 and C93-C95: casts between scalar types. *)
From Coq Require Import Ascii String List ZArith QArith Qabs Lia Bool.
From Coq Require Import Floats.SpecFloat.
From Verif Require Import GoBase GoBaseFacts ValueModel DecModel DecFacts CastModel CastSpec CastProofs.
Import ListNotations.
Local Open Scope string_scope.
Open Scope Z_scope.

(** C35: the cast takes the numerator.  That is the rounded value exactly for
    integers and for one half. *)
Theorem c35_numeric_partial : forall q, in64 (Qnum (norm q)) ->
  (rounds q (cast_numeric_int64 q) <->
   Zpos (Qden (norm q)) = 1 \/ Zpos (Qden (norm q)) = 2 /\ Z.abs (Qnum (norm q)) = 1).
Proof.
  intros q H. unfold cast_numeric_int64. rewrite wrap64_id by exact H.
  destruct (norm_parts q) as [G E]. rewrite <- (rounds_qeq _ _ _ E). clear E H.
  destruct (norm q) as [n d]. cbn [Qnum Qden] in *. rewrite rounds_iff.
  set (D := Zpos d) in *. assert (0 < D) by (unfold D; lia).
  replace (Z.abs (n - n * D)) with (Z.abs n * (D - 1)) by (replace (n - n * D) with (- (n * (D - 1))) by lia; rewrite Z.abs_opp, Z.abs_mul, (Z.abs_eq (D - 1)); lia).
  split.
  - intros [A B]. destruct (Z.eq_dec D 1) as [->|N1]; auto. right.
    assert (n <> 0). { intros ->. rewrite Z.gcd_0_l in G. lia. }
    assert (D = 2) by nia. split; auto. nia.
  - intros [->|[-> ->]]; split; lia.
Qed.
Print Assumptions c35_numeric_partial.
Theorem c35_overflow_refuted : forall z, ~ in64 z -> cast_numeric_int64 (inject_Z z) <> z.
Proof.
  intros z H E. apply H. rewrite <- E. unfold cast_numeric_int64. apply wrap64_range.
Qed.
Print Assumptions c35_overflow_refuted.
Theorem c35_bool_partial : forall z, cast_int64_bool z = Ok (negb (z =? 0)) <-> z = 0 \/ z = 1.
Proof.
  intros z. unfold cast_int64_bool. destruct (Z.eqb_spec z 0) as [->|N]; [split; auto|].
  destruct (Z.eqb_spec z 1) as [->|M]; [split; auto|]. split; [discriminate|]. intros []; contradiction.
Qed.
Print Assumptions c35_bool_partial.
Theorem c35_bool_refuted : forall z, z <> 0 -> z <> 1 -> cast_int64_bool z = Err.
Proof. intros z A B. unfold cast_int64_bool. apply Z.eqb_neq in A, B. now rewrite A, B. Qed.
Print Assumptions c35_bool_refuted.
Example c35_example :
  (* NUMERIC '2.5' to INT64 gives 5; '7' gives 7; '0.25' gives 1 *)
  cast_numeric_int64 (25 # 10) = 5 /\ ~ rounds (25 # 10) 5 /\ rounds (25 # 10) 3 /\
  cast_numeric_int64 (14 # 2) = 7 /\ in64 (Qnum (norm (14 # 2))) /\ cast_numeric_int64 (25 # 100) = 1.
Proof.
  split; [reflexivity|]. split; [rewrite rounds_iff; cbn; lia|]. split; [rewrite rounds_iff; cbn; lia|].
  split; [reflexivity|]. split; [|reflexivity]. cbn. unfold in64, two63. lia.
Qed.

(** C91: the cast truncates. *)
Theorem c91_truncates_partial : forall f q t, float_val f = Some q -> trunc_float f = Some t -> in64 t ->
  cast_float64_int64 f = Ok t /\
  (Qabs (inject_Z t) <= Qabs q)%Q /\ (Qabs (q - inject_Z t) < 1)%Q /\
  (rounds q t <-> (2 * Qabs (q - inject_Z t) < 1)%Q).
Proof.
  intros f q t F T I. split.
  { unfold cast_float64_int64, int_of_float. rewrite T, in64b_true by assumption. reflexivity. }
  assert (K : exists n d, (q == n # d)%Q /\ (t = Z.quot n (Zpos d))).
  { destruct f as [s|s| |s m e]; try discriminate.
    - cbn in F, T. injection F as <-. injection T as <-. exists 0, 1%positive. split; reflexivity.
    - unfold float_val in F. unfold trunc_float in T. cbv zeta in F, T. apply (f_equal (fun o => match o with Some x => x | None => 0 end)) in T. cbv beta iota in T. assert (F' : forall a b : Q, Some a = Some b -> a = b) by congruence. apply F' in F. subst q t.
      destruct (Z.leb_spec 0 e) as [L|L].
      + exists ((if s then -1 else 1) * (Zpos m * 2 ^ e)), 1%positive. rewrite Z.quot_1_r. split.
        * destruct s; [replace (-1 * (Zpos m * 2 ^ e)) with (- (Zpos m * 2 ^ e)) by lia|rewrite Z.mul_1_l]; reflexivity.
        * destruct s; lia.
      + exists ((if s then -1 else 1) * Zpos m), (Z.to_pos (2 ^ (- e))).
        assert (0 < 2 ^ (- e)) by (apply Z.pow_pos_nonneg; lia). split.
        * destruct s; [replace (-1 * Zpos m) with (- Zpos m) by lia|rewrite Z.mul_1_l]; reflexivity.
        * rewrite Z2Pos.id by lia. destruct s.
          -- replace (-1 * Zpos m) with (- Zpos m) by lia. rewrite Z.quot_opp_l by lia. f_equal. rewrite Z.quot_div_nonneg by lia. reflexivity.
          -- rewrite Z.mul_1_l, Z.quot_div_nonneg by lia. reflexivity. }
  destruct K as (n & d & Q & ->). clear F T I f. rewrite (rounds_qeq _ _ _ Q). rewrite !Q. rewrite rounds_iff.
  set (D := Zpos d). assert (HD : 0 < D) by (unfold D; lia).
  pose proof (Z.quot_rem' n D) as QR. set (t := Z.quot n D) in *. set (r := Z.rem n D) in *.
  assert (R1 : 0 <= n -> 0 <= r < D) by (intros; apply Z.rem_bound_pos; lia).
  assert (R2 : n <= 0 -> - D < r <= 0) by (intros; (pose proof (Z.rem_bound_pos (- n) D ltac:(lia) ltac:(lia)) as X; rewrite Z.rem_opp_l in X by lia; fold r in X; lia)).
  assert (T1 : 0 <= n -> 0 <= D * t) by (intros; assert (0 <= t) by (apply Z.quot_pos; lia); nia).
  assert (T2 : n <= 0 -> D * t <= 0).
  { intros Hn. assert (0 <= - t). { unfold t. rewrite <- Z.quot_opp_l by lia. apply Z.quot_pos; lia. } nia. }
  unfold Qle, Qlt, Qabs, Qminus, Qplus, Qopp, inject_Z, Qmult. cbn [Qnum Qden].
  rewrite ?Pos.mul_1_r, ?Z.mul_1_r, ?Z.mul_1_l. fold D.
  replace (n + - t * D) with r by lia. replace (n - t * D) with r by lia.
  assert (AT : Z.abs t * D = Z.abs (D * t)) by (rewrite Z.abs_mul, (Z.abs_eq D) by lia; lia). rewrite AT.
  split; [lia|]. split; [lia|]. change (2 * Z.abs r)%Z with (2 * Z.abs r). split; lia.
Qed.
Print Assumptions c91_truncates_partial.
(** NaN, infinities and numbers outside the range give -2^63 and no error. *)
Theorem c91_range_refuted : forall f, match trunc_float f with Some t => ~ in64 t | None => True end ->
  cast_float64_int64 f = Ok (- two63).
Proof.
  intros f H. unfold cast_float64_int64, int_of_float. destruct (trunc_float f) as [t|]; auto.
  destruct (in64b t) eqn:E; auto. apply in64b_iff in E. contradiction.
Qed.
Print Assumptions c91_range_refuted.
(** CAST(2.5 AS INT64) = 2 *)
Theorem c91_half_refuted : let f := S754_finite false 5 (-1) in
  float_val f = Some (5 # 2) /\ cast_float64_int64 f = Ok 2 /\ ~ rounds (5 # 2) 2 /\ rounds (5 # 2) 3.
Proof. split; [reflexivity|]. split; [reflexivity|]. rewrite !rounds_iff. cbn. split; lia. Qed.
Print Assumptions c91_half_refuted.
Example c91_example : cast_float64_int64 (S754_finite true 9 (-2)) = Ok (-2) /\ float_val (S754_finite true 9 (-2)) = Some (-9 # 4) /\ rounds (-9 # 4) (-2) /\
  cast_float64_int64 S754_nan = Ok (- two63).
Proof. repeat split; cbn; try discriminate; try (rewrite rounds_iff; cbn; lia). Qed.

(** C93 *)
Theorem c93_add_sub_partial : forall x y, nine_digits x -> nine_digits y ->
  nine_digits (num_add x y) /\ nine_digits (num_sub x y).
Proof.
  intros x y [a A] [b B]. unfold nine_digits, num_add, num_sub, norm. split.
  - exists (a + b). rewrite Qred_correct, A, B. unfold Qeq, Qplus. cbn. lia.
  - exists (a - b). rewrite Qred_correct, A, B. unfold Qeq, Qminus, Qplus, Qopp. cbn. lia.
Qed.
Print Assumptions c93_add_sub_partial.
(** On nine-digit values printing is faithful. *)
Theorem c93_print_partial : forall x y, nine_digits x -> nine_digits y -> (billionths x = billionths y <-> (x == y)%Q).
Proof.
  intros x y [a A] [b B]. rewrite (billionths_compat _ _ A), (billionths_compat _ _ B), !billionths_nine.
  rewrite A, B. unfold Qeq. cbn. lia.
Qed.
Print Assumptions c93_print_partial.
(** Quotients and products are not rounded.  Whenever the exact one has more digits,
    it differs from the value it prints as, so from every NUMERIC that can be written. *)
Theorem c93_exact_refuted : forall x y r, (num_div x y = Ok r -> (r == x / y)%Q) /\
  (~ nine_digits r -> (exists s, nine_digits s /\ billionths s = billionths r) /\ forall s, nine_digits s -> ~ (r == s)%Q).
Proof.
  intros x y r. split.
  - unfold num_div. destruct (Qeq_bool y 0); [discriminate|]. intros E.
    assert (E' : norm (x / y) = r) by congruence. rewrite <- E'. unfold norm. apply Qred_correct.
  - intros N. split.
    + exists (billionths r # 1000000000). split; [exists (billionths r); reflexivity|]. apply billionths_nine.
    + intros s [k K] E. apply N. exists k. now rewrite E.
Qed.
Print Assumptions c93_exact_refuted.
Example c93_example : num_div 1 3 = Ok (1 # 3) /\ ~ nine_digits (1 # 3) /\ billionths (1 # 3) = 333333333 /\
  num_mul (1 # 1000000000) (1 # 10) = (1 # 10000000000) /\ ~ nine_digits (1 # 10000000000) /\ billionths (-5 # 10000000000) = -1.
Proof.
  split; [reflexivity|]. split; [intros [k K]; unfold Qeq in K; cbn in K; lia|]. split; [reflexivity|].
  split; [reflexivity|]. split; [intros [k K]; unfold Qeq in K; cbn in K; lia|]. reflexivity.
Qed.

(** C94 *)
Theorem c94_round_trip_partial : forall i, in64 i -> cast_string_int64 (cast_int64_string i) = Ok i.
Proof.
  intros i H. unfold cast_string_int64, cast_int64_string.
  pose proof (parse_dec i H) as P.
  assert (X : contains (lower (dec i)) "0x" = false).
  { destruct (contains (lower (dec i)) "0x") eqn:C; auto. exfalso. exact (dec_no_0x i C). }
  rewrite X, P. destruct (String.eqb_spec (dec i) "") as [E|E]; auto. rewrite E in P. discriminate.
Qed.
Print Assumptions c94_round_trip_partial.
Theorem c94_decimal_partial : forall s v, s <> "" -> contains (lower s) "0x" = false ->
  (cast_string_int64 s = Ok v <-> decimal s v /\ in64 v) /\
  (cast_string_int64 s = Err <-> ~ exists w, decimal s w /\ in64 w).
Proof.
  intros s v N C. unfold cast_string_int64. apply String.eqb_neq in N. rewrite N, C.
  rewrite <- parse_int_decimal. destruct (parse_int s) as [w|] eqn:P.
  - split; split; intros H; try congruence. exfalso. apply H. exists w. now apply parse_int_decimal.
  - split; split; intros H; try congruence. intros [w W]. apply parse_int_decimal in W. congruence.
Qed.
Print Assumptions c94_decimal_partial.
Theorem c94_empty_refuted : cast_string_int64 "" = Ok 0.
Proof. reflexivity. Qed.
Print Assumptions c94_empty_refuted.
Theorem c94_underscore_refuted : cast_string_int64 "0x_1_0" = Ok 16.
Proof. reflexivity. Qed.
Print Assumptions c94_underscore_refuted.
Example c94_example : cast_string_int64 "-9223372036854775808" = Ok (-9223372036854775808) /\ cast_string_int64 "9223372036854775808" = Err /\
  cast_string_int64 "0x1F" = Ok 31 /\ cast_string_int64 "1.5" = Err /\ cast_int64_string (-42) = "-42" /\
  contains (lower "-42") "0x" = false /\ decimal "-42" (-42).
Proof. repeat split. exists "-", "42", 42. repeat split; auto. discriminate. Qed.

(** C95 *)
Theorem c95_round_trip_partial : forall b, cast_string_bool (cast_bool_string b) = Ok b.
Proof. intros []; reflexivity. Qed.
Print Assumptions c95_round_trip_partial.
Theorem c95_accepts_partial : forall s, cast_string_bool s <> Err <->
  In s [""; "1"; "t"; "T"; "true"; "TRUE"; "True"; "0"; "f"; "F"; "false"; "FALSE"; "False"].
Proof.
  intros s. unfold cast_string_bool. split.
  - intros H. destruct (String.eqb_spec s ""); [subst; now left|].
    destruct (existsb _ ["1"; _; _; _; _; _]) eqn:A; [|destruct (existsb _ ["0"; _; _; _; _; _]) eqn:B; [|contradiction]].
    + apply existsb_exists in A. destruct A as (x & I & E). apply String.eqb_eq in E. subst x. cbn in *. tauto.
    + apply existsb_exists in B. destruct B as (x & I & E). apply String.eqb_eq in E. subst x. cbn in *. tauto.
  - cbn [In]. intros H. repeat (destruct H as [<-|H]; [vm_compute; discriminate|]). contradiction.
Qed.
Print Assumptions c95_accepts_partial.
(** Accepted though not a spelling of true or false; refused though one. *)
Theorem c95_refuted : cast_string_bool "" = Ok false /\ cast_string_bool "t" = Ok true /\ lower "t" <> "true" /\
  cast_string_bool "tRue" = Err /\ lower "tRue" = "true".
Proof. repeat split. discriminate. Qed.
Print Assumptions c95_refuted.
Example c95_example : cast_bool_string true = "true" /\ cast_string_bool "FALSE" = Ok false /\ cast_string_bool "yes" = Err.
Proof. repeat split. Qed.
