From Coq Require Import Ascii String List ZArith Lia Bool.
From Verif Require Import GoBase GoBaseFacts BitsModel BitsSpec.
Import ListNotations.
Open Scope Z_scope.

Lemma bit_testbit : forall z i, word_index i -> bit z i = Z.testbit z i.
Proof. intros z i H. unfold bit, word_index in *. apply Z.mod_pow2_bits_low. lia. Qed.

Lemma bit_cong : forall x y i, word_index i -> x mod 2 ^ 64 = y mod 2 ^ 64 -> bit x i = bit y i.
Proof. intros x y i H E. unfold bit. now rewrite E. Qed.

Lemma wrap64_mod : forall z, wrap64 z mod 2 ^ 64 = z mod 2 ^ 64.
Proof.
  intros z. unfold wrap64. change (2 ^ 64) with two64.
  rewrite <- Zminus_mod_idemp_l, Z.mod_mod by (unfold two64; lia).
  rewrite Zminus_mod_idemp_l. f_equal. lia.
Qed.

(** Two in-range integers with the same bits are equal. *)
Lemma same_bits : forall x y, in64 x -> in64 y -> (forall i, word_index i -> bit x i = bit y i) -> x = y.
Proof.
  intros x y Hx Hy H.
  assert (E : x mod 2 ^ 64 = y mod 2 ^ 64).
  { apply Z.bits_inj'. intros i Hi. destruct (Z.lt_ge_cases i 64).
    - apply H. split; assumption.
    - rewrite !Z.mod_pow2_bits_high by lia. reflexivity. }
  change (2 ^ 64) with two64 in E. rewrite <- (wrap64_id x Hx), <- (wrap64_id y Hy).
  unfold wrap64. rewrite <- (Zplus_mod_idemp_l x), <- (Zplus_mod_idemp_l y), E. reflexivity.
Qed.

Lemma in64_bits : forall z, in64 z <-> (forall i, 63 <= i -> Z.testbit z i = Z.testbit z 63).
Proof.
  intros z. split.
  - intros [H1 H2] i Hi. change two63 with (2 ^ 63) in *.
    destruct (Z.lt_ge_cases z 0).
    + rewrite !Z.bits_above_log2_neg; auto; try lia;
      destruct (Z.eq_dec z (-1)) as [->|]; try (cbn; lia);
      apply Z.log2_lt_pow2; try lia;
      try (apply Z.lt_le_trans with (2 ^ 63); [lia|apply Z.pow_le_mono_r; lia]).
    + destruct (Z.eq_dec z 0) as [->|]; [now rewrite !Z.bits_0|].
      rewrite !Z.bits_above_log2; auto; try lia;
      apply Z.log2_lt_pow2; try lia;
      apply Z.lt_le_trans with (2 ^ 63); [lia|apply Z.pow_le_mono_r; lia].
  - intros H. unfold in64. change two63 with (2 ^ 63).
    destruct (Z.lt_ge_cases z 0).
    + split; [|assert (0 < 2 ^ 63) by (apply Z.pow_pos_nonneg; lia); lia].
      assert (N : Z.testbit z 63 = true).
      { assert (T : Z.testbit z (Z.max 63 (Z.succ (Z.log2 (Z.pred (- z))))) = true) by (apply Z.bits_above_log2_neg; lia).
        rewrite H in T; [exact T|lia]. }
      apply Z.le_ngt. intros L.
      assert (P : 0 < Z.pred (- z)) by lia.
      assert (K : 63 <= Z.log2 (Z.pred (- z))) by (apply (proj1 (Z.log2_le_pow2 _ _ P)); lia).
      assert (B : Z.testbit (Z.pred (- z)) (Z.log2 (Z.pred (- z))) = true) by (apply Z.bit_log2; lia).
      assert (B2 : Z.testbit z (Z.log2 (Z.pred (- z))) = true) by (rewrite H by lia; exact N).
      set (k := Z.log2 (Z.pred (- z))) in *. clearbody k.
      rewrite <- (Z.opp_involutive z) in B2. rewrite Z.bits_opp in B2 by lia.
      rewrite B in B2. discriminate.
    + split; [lia|]. apply Z.nle_gt. intros L.
      assert (P : 0 < z) by (assert (0 < 2 ^ 63) by (apply Z.pow_pos_nonneg; lia); lia).
      assert (K : 63 <= Z.log2 z) by (apply (proj1 (Z.log2_le_pow2 _ _ P)); lia).
      assert (T : Z.testbit z (Z.succ (Z.log2 z)) = false) by (apply Z.bits_above_log2; lia).
      assert (B : Z.testbit z (Z.log2 z) = true) by (apply Z.bit_log2; lia).
      rewrite H in T by lia. rewrite H in B by lia. congruence.
Qed.

Lemma land_in64 : forall a b, in64 a -> in64 b -> in64 (Z.land a b).
Proof. intros a b Ha Hb. rewrite in64_bits in *. intros i Hi. rewrite !Z.land_spec, Ha, Hb by lia. reflexivity. Qed.
Lemma lor_in64 : forall a b, in64 a -> in64 b -> in64 (Z.lor a b).
Proof. intros a b Ha Hb. rewrite in64_bits in *. intros i Hi. rewrite !Z.lor_spec, Ha, Hb by lia. reflexivity. Qed.
Lemma lxor_in64 : forall a b, in64 a -> in64 b -> in64 (Z.lxor a b).
Proof. intros a b Ha Hb. rewrite in64_bits in *. intros i Hi. rewrite !Z.lxor_spec, Ha, Hb by lia. reflexivity. Qed.
Lemma lnot_in64 : forall a, in64 a -> in64 (Z.lnot a).
Proof. intros a [H1 H2]. unfold in64, Z.lnot. lia. Qed.
Lemma shiftr_in64 : forall a n, in64 a -> 0 <= n -> in64 (Z.shiftr a n).
Proof. intros a n Ha Hn. rewrite in64_bits in *. intros i Hi. rewrite !Z.shiftr_spec, Ha by lia. symmetry. apply Ha. lia. Qed.

Lemma shl_bits : forall a n i, 0 <= n -> word_index i ->
  exists r, fn_shl a n = Ok r /\ in64 r /\ bit r i = if i <? n then false else bit a (i - n).
Proof.
  intros a n i Hn Hi. unfold fn_shl. assert (n <? 0 = false) as -> by (apply Z.ltb_ge; lia).
  destruct (Z.leb_spec 64 n).
  - exists 0. split; auto. split; [unfold in64, two63; lia|].
    rewrite bit_testbit by assumption. rewrite Z.bits_0. unfold word_index in Hi.
    assert (i <? n = true) as -> by (apply Z.ltb_lt; lia). reflexivity.
  - eexists. split; [reflexivity|]. split; [apply wrap64_range|].
    rewrite (bit_cong _ (Z.shiftl a n)) by (auto using wrap64_mod).
    rewrite bit_testbit by assumption. unfold word_index in *. destruct (Z.ltb_spec i n).
    + apply Z.shiftl_spec_low. assumption.
    + rewrite bit_testbit by (unfold word_index; lia). rewrite Z.shiftl_spec_high by lia. reflexivity.
Qed.

Lemma shr_bits : forall a n i, 0 <= a -> in64 a -> 0 <= n -> word_index i ->
  exists r, fn_shr a n = Ok r /\ in64 r /\ bit r i = if i + n <? 64 then bit a (i + n) else false.
Proof.
  intros a n i Pa Ha Hn Hi. unfold fn_shr. assert (n <? 0 = false) as -> by (apply Z.ltb_ge; lia).
  assert (a <? 0 = false) as -> by (apply Z.ltb_ge; lia). unfold word_index in *.
  assert (High : forall j, 63 <= j -> Z.testbit a j = false).
  { intros j Hj. destruct Ha as [_ Ha]. change two63 with (2 ^ 63) in Ha.
    rewrite <- (Z.mod_small a (2 ^ 63)) by lia. apply Z.mod_pow2_bits_high. lia. }
  destruct (Z.leb_spec 64 n).
  - exists 0. split; auto. split; [unfold in64, two63; lia|].
    rewrite bit_testbit by (unfold word_index; lia). rewrite Z.bits_0.
    assert (i + n <? 64 = false) as -> by (apply Z.ltb_ge; lia). reflexivity.
  - eexists. split; [reflexivity|]. split; [apply shiftr_in64; auto|].
    rewrite bit_testbit by (unfold word_index; lia). rewrite Z.shiftr_spec by lia.
    destruct (Z.ltb_spec (i + n) 64).
    + rewrite bit_testbit by (unfold word_index; lia). reflexivity.
    + apply High. lia.
Qed.

(** ** Counting *)

Lemma count_bits_ext : forall f g n, (forall i, 0 <= i < Z.of_nat n -> f i = g i) -> count_bits f n = count_bits g n.
Proof.
  intros f g n. induction n as [|n IH]; intros H; cbn [count_bits]; auto.
  rewrite IH by (intros; apply H; lia). rewrite H by lia. reflexivity.
Qed.

Lemma count_bits_shift : forall f n, count_bits f (S n) = (if f 0 then 1 else 0) + count_bits (fun i => f (i + 1)) n.
Proof.
  intros f n. induction n as [|n IH].
  - cbn. lia.
  - cbn [count_bits] in *. rewrite IH. replace (Z.of_nat (S n)) with (Z.of_nat n + 1) by lia. lia.
Qed.

Lemma ones_count : forall n z, 0 <= z < 2 ^ Z.of_nat n -> ones z = count_bits (Z.testbit z) n.
Proof.
  induction n as [|n IH]; intros z H.
  - change (2 ^ Z.of_nat 0) with 1 in H. assert (z = 0) by lia. subst. reflexivity.
  - rewrite count_bits_shift.
    assert (E : count_bits (fun i => Z.testbit z (i + 1)) n = count_bits (Z.testbit (Z.div2 z)) n).
    { apply count_bits_ext. intros i Hi. rewrite Z.div2_spec, Z.shiftr_spec by lia. reflexivity. }
    rewrite E, <- IH.
    + destruct z as [|[p|p|]|p]; cbn; auto; lia.
    + rewrite Nat2Z.inj_succ, Z.pow_succ_r in H by lia. rewrite Z.div2_div.
      split; [apply Z.div_pos; lia|apply Z.div_lt_upper_bound; lia].
Qed.

Lemma bit_count_right : forall a, fn_bit_count a = count_bits (bit a) 64.
Proof.
  intros a. unfold fn_bit_count. rewrite (ones_count 64).
  - apply count_bits_ext. intros i Hi. reflexivity.
  - change (2 ^ Z.of_nat 64) with two64. apply Z.mod_pos_bound. reflexivity.
Qed.

Fixpoint string_bytes (s : string) : list Z :=
  match s with EmptyString => [] | String c r => Z.of_N (N_of_ascii c) :: string_bytes r end.

Lemma byte_range : forall c, 0 <= Z.of_N (N_of_ascii c) < 256.
Proof. intros c. split; [lia|]. change 256 with (Z.of_N 256). apply N2Z.inj_lt. apply N_ascii_bounded. Qed.

Lemma bit_count_bytes_right : forall s,
  fn_bit_count_bytes s = fold_right Z.add 0 (map (fun b => count_bits (Z.testbit b) 8) (string_bytes s)).
Proof.
  induction s as [|c s IH]; cbn [fn_bit_count_bytes string_bytes map fold_right]; auto.
  rewrite IH. f_equal. apply ones_count. change (2 ^ Z.of_nat 8) with 256. apply byte_range.
Qed.
