(** Property C42: bit operators. *)
From Coq Require Import Ascii String List ZArith Lia Bool.
From Verif Require Import GoBase GoBaseFacts BitsModel BitsSpec BitsProofs.
Import ListNotations.
Local Open Scope string_scope.
Open Scope Z_scope.

Theorem c42_bitwise_partial : forall a b i, in64 a -> in64 b -> word_index i ->
  (exists r, fn_bit_and a b = Ok r /\ in64 r /\ bit r i = bit a i && bit b i) /\
  (exists r, fn_bit_or a b = Ok r /\ in64 r /\ bit r i = bit a i || bit b i) /\
  (exists r, fn_bit_xor a b = Ok r /\ in64 r /\ bit r i = xorb (bit a i) (bit b i)) /\
  (exists r, fn_bit_not a = Ok r /\ in64 r /\ bit r i = negb (bit a i)).
Proof.
  intros a b i Ha Hb Hi.
  repeat split; eexists; (split; [reflexivity|]);
    (split; [auto using land_in64, lor_in64, lxor_in64, lnot_in64|]); rewrite !bit_testbit by assumption.
  - apply Z.land_spec.
  - apply Z.lor_spec.
  - apply Z.lxor_spec.
  - apply Z.lnot_spec. apply Hi.
Qed.
Print Assumptions c42_bitwise_partial.

Theorem c42_shift_left_partial : forall a n i, 0 <= n -> word_index i ->
  exists r, fn_shl a n = Ok r /\ in64 r /\ bit r i = if i <? n then false else bit a (i - n).
Proof. exact shl_bits. Qed.
Print Assumptions c42_shift_left_partial.

(** >> of a non-negative number. *)
Theorem c42_shift_right_partial : forall a n i, 0 <= a -> in64 a -> 0 <= n -> word_index i ->
  exists r, fn_shr a n = Ok r /\ in64 r /\ bit r i = if i + n <? 64 then bit a (i + n) else false.
Proof. exact shr_bits. Qed.
Print Assumptions c42_shift_right_partial.

(** >> of a negative number copies the sign bit into all the vacated places. *)
Theorem c42_shift_right_negative_refuted : forall a n, in64 a -> a < 0 -> 0 < n < 64 ->
  exists r, fn_shr a n = Ok r /\ r < 0 /\ (forall i, word_index i -> 64 <= i + n -> bit r i = true).
Proof.
  intros a n Ha Na Hn. unfold fn_shr.
  assert (n <? 0 = false) as -> by (apply Z.ltb_ge; lia).
  assert (64 <=? n = false) as -> by (apply Z.leb_gt; lia).
  eexists. split; [reflexivity|]. split; [apply Z.shiftr_neg; assumption|].
  intros i Hi L. rewrite bit_testbit by assumption. rewrite Z.shiftr_spec by (unfold word_index in Hi; lia).
  rewrite (proj1 (in64_bits a) Ha) by lia.
  destruct Ha as [H1 _]. change two63 with (2 ^ 63) in H1.
  replace a with (- (- a)) by lia. rewrite Z.bits_opp by lia.
  apply negb_true_iff. rewrite <- (Z.mod_small (Z.pred (- a)) (2 ^ 63)) by lia.
  apply Z.mod_pow2_bits_high. lia.
Qed.
Print Assumptions c42_shift_right_negative_refuted.

(** A negative count stops the process. *)
Theorem c42_negative_count_refuted : forall a n, n < 0 -> fn_shl a n = GoPanic /\ fn_shr a n = GoPanic.
Proof. intros a n H. unfold fn_shl, fn_shr. apply Z.ltb_lt in H. now rewrite H. Qed.
Print Assumptions c42_negative_count_refuted.

Theorem c42_bit_count_partial : forall a s,
  fn_bit_count a = count_bits (bit a) 64 /\
  fn_bit_count_bytes s = fold_right Z.add 0 (map (fun b => count_bits (Z.testbit b) 8) (string_bytes s)).
Proof. intros. split; [apply bit_count_right|apply bit_count_bytes_right]. Qed.
Print Assumptions c42_bit_count_partial.

Example c42_example :
  fn_bit_and (-1) 12 = Ok 12 /\ fn_bit_xor (-1) 12 = Ok (-13) /\ fn_shl 1 63 = Ok (- two63) /\ fn_shl 3 63 = Ok (- two63) /\
  fn_shl 1 64 = Ok 0 /\ fn_shr 12 2 = Ok 3 /\ fn_shr (-8) 1 = Ok (-4) /\ fn_bit_count (-1) = 64 /\ fn_bit_count 12 = 2 /\
  fn_bit_count_bytes "abc" = 10 /\ in64 (-8) /\ word_index 63.
Proof. unfold in64, two63, word_index. repeat split; try lia; try (vm_compute; reflexivity). Qed.
