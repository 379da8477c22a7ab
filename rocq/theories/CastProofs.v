From Coq Require Import Ascii String List ZArith QArith Qabs Lia Bool.
From Verif Require Import GoBase GoBaseFacts ValueModel DecModel DecFacts CastModel CastSpec.
Import ListNotations.
Local Open Scope string_scope.
Open Scope Z_scope.

Lemma rounds_iff : forall n d z,
  rounds (n # d) z <-> 2 * Z.abs (n - z * Zpos d) <= Zpos d /\
    (2 * Z.abs (n - z * Zpos d) = Zpos d -> Z.abs n <= Z.abs z * Zpos d).
Proof.
  intros n d z. unfold rounds, Qle, Qeq, Qabs, Qminus, Qplus, Qopp, inject_Z, Qmult. cbn [Qnum Qden].
  rewrite ?Pos.mul_1_r, ?Z.mul_1_r, ?Z.mul_1_l. change (1 * d)%positive with d.
  replace (n + - z * Zpos d) with (n - z * Zpos d) by lia. reflexivity.
Qed.
Lemma rounds_qeq : forall q q' z, (q == q')%Q -> rounds q z <-> rounds q' z.
Proof. intros q q' z E. unfold rounds. rewrite E. reflexivity. Qed.

Lemma norm_parts : forall q, let r := norm q in Z.gcd (Qnum r) (Zpos (Qden r)) = 1 /\ (r == q)%Q.
Proof.
  intros q r. split; [|apply Qred_correct]. unfold r, norm. clear r. destruct q as [n d]. unfold Qred.
  pose proof (Z.ggcd_gcd n (Zpos d)) as G. pose proof (Z.ggcd_correct_divisors n (Zpos d)) as D.
  destruct (Z.ggcd n (Zpos d)) as [g [a b]] eqn:E. cbn [fst snd] in *. destruct D as [D1 D2].
  cbn [Qnum Qden].
  assert (0 <= g) by (rewrite G; apply Z.gcd_nonneg).
  assert (g <> 0) by (intros ->; lia).
  assert (0 < b) by nia.
  rewrite Z2Pos.id by lia.
  assert (g * Z.gcd a b = g * 1).
  { rewrite <- Z.gcd_mul_mono_l_nonneg by lia. rewrite <- D1, <- D2. lia. }
  nia.
Qed.

(** ** Reading decimals *)
Lemma read_nat_positional : forall s, read_nat s = if String.eqb s "" then None else positional s.
Proof.
  intros [|c s]; [reflexivity|]. unfold read_nat. rewrite read_positional.
  cbn [String.eqb]. destruct (positional (String c s)) as [v|]; [|reflexivity]. cbn. f_equal.
Qed.
Lemma positional_head : forall c s v, positional (String c s) = Some v -> is_digit c = true.
Proof. intros c s v H. cbn in H. unfold is_digit. destruct (digit_val c); [reflexivity|discriminate]. Qed.

Lemma parse_int_decimal : forall s v, parse_int s = Some v <-> decimal s v /\ in64 v.
Proof.
  intros s v. unfold parse_int. split.
  - intros H.
    destruct s as [|c r]; [discriminate|].
    destruct (Ascii.eqb_spec c "-") as [->|N1]; [|destruct (Ascii.eqb_spec c "+") as [->|N2]].
    + rewrite read_nat_positional in H. destruct (String.eqb_spec r "") as [->|Nr]; [discriminate|].
      destruct (positional r) as [n|] eqn:P; [|discriminate]. destruct (in64b (- n)) eqn:B; [|discriminate]. injection H as <-.
      split; [|now apply in64b_iff]. exists "-", r, n. repeat split; auto.
    + rewrite read_nat_positional in H. destruct (String.eqb_spec r "") as [->|Nr]; [discriminate|].
      destruct (positional r) as [n|] eqn:P; [|discriminate]. destruct (in64b n) eqn:B; [|discriminate]. injection H as <-.
      split; [|now apply in64b_iff]. exists "+", r, n. repeat split; auto.
    + rewrite read_nat_positional in H. cbn [String.eqb] in H.
      destruct (positional (String c r)) as [n|] eqn:P; [|discriminate]. destruct (in64b n) eqn:B; [|discriminate]. injection H as <-.
      split; [|now apply in64b_iff]. exists "", (String c r), n. repeat split; auto. discriminate.
  - intros [(sign & ds & n & -> & Ne & P & K) I]. apply in64b_iff in I.
    destruct K as [[[-> | ->] ->]|[-> ->]].
    + cbn [String.append]. destruct ds as [|c r]; [contradiction|].
      destruct (digit_not_sign c (positional_head _ _ _ P)) as [-> ->].
      rewrite read_nat_positional. cbn [String.eqb]. rewrite P, I. reflexivity.
    + cbn [String.append]. change (Ascii.eqb "+" "-") with false. change (Ascii.eqb "+" "+") with true. cbn iota.
      rewrite read_nat_positional. apply String.eqb_neq in Ne. rewrite Ne, P, I. reflexivity.
    + cbn [String.append]. change (Ascii.eqb "-" "-") with true. cbn iota.
      rewrite read_nat_positional. apply String.eqb_neq in Ne. rewrite Ne, P, I. reflexivity.
Qed.

(** ** Billionths *)
Lemma billionths_nine : forall k, billionths (k # 1000000000) = k.
Proof.
  intros k. unfold billionths. cbn [Qnum Qden].
  replace (2 * Z.abs (k * 1000000000) + Zpos 1000000000) with (1000000000 + Z.abs k * (2 * 1000000000)) by (rewrite Z.abs_mul; cbn [Z.abs]; lia).
  rewrite Z.div_add by lia. rewrite Z.div_small by lia.
  rewrite Z.sgn_mul. cbn [Z.sgn]. rewrite Z.add_0_l, Z.mul_1_r, Z.mul_comm. apply Z.abs_sgn.
Qed.
Lemma billionths_compat : forall p q, (p == q)%Q -> billionths p = billionths q.
Proof.
  intros [a b] [c d] E. unfold Qeq in E. cbn [Qnum Qden] in E. unfold billionths. cbn [Qnum Qden].
  assert (Z.sgn (a * 1000000000) = Z.sgn (c * 1000000000)) as ->.
  { rewrite !Z.sgn_mul. f_equal. pose proof (f_equal Z.sgn E) as S. rewrite !Z.sgn_mul in S. cbn [Z.sgn] in S. lia. }
  f_equal.
  assert (X : Z.abs (a * 1000000000) * Zpos d = Z.abs (c * 1000000000) * Zpos b).
  { pose proof (f_equal Z.abs E) as S. rewrite !Z.abs_mul in *. cbn [Z.abs] in *. nia. }
  set (A := Z.abs (a * 1000000000)) in *. set (C := Z.abs (c * 1000000000)) in *.
  rewrite <- (Z.div_mul_cancel_r (2 * A + Zpos b) (2 * Zpos b) (Zpos d)) by lia.
  rewrite <- (Z.div_mul_cancel_r (2 * C + Zpos d) (2 * Zpos d) (Zpos b)) by lia.
  f_equal; nia.
Qed.
Lemma billionths_rounds : forall q, rounds (q * (1000000000 # 1)) (billionths q).
Proof.
  intros [n d]. unfold Qmult. cbn [Qnum Qden]. rewrite Pos.mul_1_r. apply rounds_iff. unfold billionths. cbn [Qnum Qden].
  set (N := n * 1000000000). set (D := Zpos d). assert (0 < D) by (unfold D; lia).
  set (k := (2 * Z.abs N + D) / (2 * D)).
  assert (K1 : 2 * D * k <= 2 * Z.abs N + D) by (apply Z.mul_div_le; lia).
  assert (K2 : 2 * Z.abs N + D < 2 * D * (Z.succ k)) by (apply Z.mul_succ_div_gt; lia).
  assert (K0 : 0 <= k) by (apply Z.div_pos; lia).
  assert (P : exists p, p = k * D) by eauto. destruct P as [p P].
  replace (2 * D * k) with (2 * p) in K1 by lia. replace (2 * D * Z.succ k) with (2 * p + 2 * D) in K2 by lia.
  assert (P0 : 0 <= p) by nia.
  destruct (Z.sgn_spec N) as [[S1 S2]|[[S1 S2]|[S1 S2]]]; rewrite S2.
  - rewrite Z.mul_1_l, (Z.abs_eq k), <- P by lia. lia.
  - rewrite Z.mul_0_l. cbn [Z.abs]. rewrite !Z.mul_0_l. lia.
  - replace (-1 * k * D) with (- p) by lia. replace (Z.abs (-1 * k) * D) with p by (rewrite Z.abs_mul, (Z.abs_eq k) by lia; cbn [Z.abs]; lia). lia.
Qed.

(** A decimal number contains no x. *)
Fixpoint no_x (s : string) : bool :=
  match s with EmptyString => true | String c r => negb (Ascii.eqb c "x") && no_x r end.
Lemma no_x_contains : forall s, no_x s = true -> contains s "0x" = false.
Proof.
  intros s H. destruct (contains s "0x") eqn:E; auto. apply contains_iff in E. destruct E as (a & b & ->).
  exfalso. induction a as [|c a IH].
  - cbn in H. discriminate.
  - cbn in H. apply andb_true_iff in H. now apply IH.
Qed.
Lemma all_digits_lower_no_x : forall s, all_digits s = true -> no_x (lower s) = true.
Proof.
  induction s as [|c s IH]; intros H; auto. cbn [all_digits lower no_x] in *. apply andb_true_iff in H. destruct H as [H1 H2].
  rewrite IH by assumption. unfold is_digit in H1. destruct (digit_val c) as [d|] eqn:E; [|discriminate].
  pose proof (digit_val_range _ _ E) as R. apply digit_val_inj in E. subst c.
  assert (In d [0;1;2;3;4;5;6;7;8;9]) as I by (cbn; lia).
  cbn in I. repeat (destruct I as [<-|I]; [reflexivity|]). contradiction.
Qed.
Lemma dec_no_0x : forall i, contains (lower (dec i)) "0x" <> true.
Proof.
  intros i. rewrite no_x_contains; [discriminate|]. unfold dec. destruct (Z.ltb_spec i 0).
  - cbn [lower no_x]. rewrite all_digits_lower_no_x by (apply udec_all_digits; lia). reflexivity.
  - apply all_digits_lower_no_x, udec_all_digits. lia.
Qed.
