From Coq Require Import Ascii String List ZArith Lia Bool.
From Verif Require Import GoBase GoBaseFacts CalendarModel CalendarFacts InstantModel InstantFacts DecModel DecFacts TimeTextModel TimeTextSpec.
Import ListNotations.
Local Open Scope string_scope.
Open Scope Z_scope.

Lemma field_div : forall b k s, 0 <= k -> 0 <= s -> field b k s = (b / 2 ^ s) mod 2 ^ k.
Proof.
  intros b k s Hk Hs. unfold field.
  rewrite Z.shiftr_land, Z.shiftr_shiftl_l by lia. rewrite Z.sub_diag, Z.shiftl_0_r.
  rewrite Z.land_ones, Z.shiftr_div_pow2 by lia. reflexivity.
Qed.
Lemma unpack : forall y mo d h mi s us,
  0 <= y < 16384 -> 0 <= mo < 16 -> 0 <= d < 32 -> 0 <= h < 32 -> 0 <= mi < 64 -> 0 <= s < 64 -> 0 <= us < 1048576 ->
  let bit := pack y mo d h mi s us in let b := Z.shiftr bit 20 in
  field b 14 26 = y /\ field b 4 22 = mo /\ field b 5 17 = d /\ field b 5 12 = h /\ field b 6 6 = mi /\ field b 6 0 = s /\
  Z.shiftr (Z.land bit (Z.ones 20)) 0 = us.
Proof.
  intros y mo d h mi s us Hy Hmo Hd Hh Hmi Hs Hus bit b.
  assert (B : b = (((((y * 16 + mo) * 32 + d) * 32 + h) * 64 + mi) * 64 + s)).
  { unfold b, bit, pack. rewrite Z.shiftr_div_pow2 by lia. change (2 ^ 20) with 1048576.
    rewrite Z.div_add_l, Z.div_small by lia. lia. }
  rewrite !field_div by lia. rewrite B.
  change (2 ^ 0) with 1. change (2 ^ 6) with 64. change (2 ^ 12) with (64 * 64). change (2 ^ 17) with (64 * 64 * 32).
  change (2 ^ 22) with (64 * 64 * 32 * 32). change (2 ^ 26) with (64 * 64 * 32 * 32 * 16). change (2 ^ 14) with 16384. change (2 ^ 4) with 16. change (2 ^ 5) with 32.
  rewrite <- !Z.div_div by lia. rewrite Z.div_1_r.
  assert (D : forall a k r, 0 <= r < k -> (a * k + r) / k = a) by (intros a k r Hr; rewrite Z.div_add_l, Z.div_small by lia; lia).
  assert (M : forall a k r, 0 <= r < k -> (a * k + r) mod k = r) by (intros a k r Hr; rewrite Z.add_comm, Z.mod_add, Z.mod_small by lia; lia).
  rewrite !D by lia. rewrite !M by lia. rewrite (Z.mod_small y) by lia.
  do 6 (split; [reflexivity|]).
  rewrite Z.shiftr_0_r, Z.land_ones by lia. change (2 ^ 20) with 1048576. unfold bit, pack. apply M. lia.
Qed.

Lemma all_digits_no_dot : forall s, all_digits s = true -> has_char "." s = false.
Proof.
  induction s as [|c s IH]; intros H; auto. cbn [all_digits has_char] in *. apply andb_true_iff in H. destruct H as [H1 H2].
  rewrite IH by assumption. rewrite orb_false_r. apply Ascii.eqb_neq. intros ->. discriminate.
Qed.
Lemma dec_no_dot : forall z, has_char "." (dec z) = false.
Proof.
  intros z. unfold dec. destruct (Z.ltb_spec z 0).
  - cbn [has_char]. change (Ascii.eqb "-" ".") with false. apply all_digits_no_dot, udec_all_digits. lia.
  - apply all_digits_no_dot, udec_all_digits. lia.
Qed.
Lemma split_text : forall a b, split1 "." (dec a ++ "." ++ dec b)%string = [dec a; dec b].
Proof.
  intros a b. change ("." ++ dec b)%string with (String "." (dec b)). rewrite split1_app by apply dec_no_dot.
  rewrite split1_nochar by apply dec_no_dot. reflexivity.
Qed.
Lemma has_char_app : forall c a b, has_char c (a ++ b)%string = has_char c a || has_char c b.
Proof. intros c a b. induction a as [|x a IH]; auto. cbn. rewrite IH. now rewrite orb_assoc. Qed.

Lemma positional_digits : forall s v, positional s = Some v -> all_digits s = true.
Proof.
  intros s v H. apply (proj2 (read_digits_some s 0)). rewrite read_positional, H. cbn. eauto.
Qed.
Lemma positional_udec : forall n, 0 <= n -> positional (udec n) = Some n.
Proof.
  intros n H. pose proof (read_udec n H) as R. pose proof (udec_nonempty n) as N. unfold read_nat in R.
  destruct (udec n) as [|c r] eqn:E; [contradiction|]. rewrite read_positional in R.
  destruct (positional (String c r)); [|discriminate]. cbn in R. congruence.
Qed.
Lemma udec_length_iff : forall n k, 0 <= n -> (0 < k)%nat -> 10 ^ Z.of_nat (k - 1) <= n < 10 ^ Z.of_nat k -> String.length (udec n) = k.
Proof.
  intros n k H K B.
  assert (U : (String.length (udec n) <= k)%nat).
  { pose proof (digits_length (S (Z.to_nat (Z.log2 n))) n "" k ltac:(lia) K) as L. fold (udec n) in L. cbn [String.length] in L. lia. }
  pose proof (positional_nonneg _ _ (positional_udec n H)) as P.
  destruct (Nat.le_gt_cases k (String.length (udec n))) as [|L]; [lia|].
  assert (10 ^ Z.of_nat (String.length (udec n)) <= 10 ^ Z.of_nat (k - 1)) by (apply Z.pow_le_mono_r; lia). lia.
Qed.
Lemma udec_length_six : forall n, 0 <= n < 1000000 -> String.length (udec n) = 6%nat <-> 100000 <= n.
Proof.
  intros n H. split.
  - intros L. destruct (Z.le_gt_cases 100000 n) as [|C]; auto.
    pose proof (digits_length (S (Z.to_nat (Z.log2 n))) n "" 5 ltac:(change (10 ^ Z.of_nat 5) with 100000; lia) ltac:(lia)) as U.
    fold (udec n) in U. cbn [String.length] in U. lia.
  - intros L. apply udec_length_iff; try lia. change (10 ^ Z.of_nat (6 - 1)) with 100000. change (10 ^ Z.of_nat 6) with 1000000. lia.
Qed.
Lemma dec_positional : forall z n, positional (dec z) = Some n -> 0 <= z /\ n = z.
Proof.
  intros z n H. unfold dec in H. destruct (Z.ltb_spec z 0).
  - cbn in H. discriminate.
  - rewrite positional_udec in H by lia. injection H as <-. lia.
Qed.
