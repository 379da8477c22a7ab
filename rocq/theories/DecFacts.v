From Coq Require Import Ascii String List ZArith Lia Bool.
From Verif Require Import GoBase GoBaseFacts DecModel.
Import ListNotations.
Local Open Scope string_scope.
Open Scope Z_scope.

Lemma digit_val_digit : forall d, 0 <= d < 10 -> digit_val (digit d) = Some d.
Proof.
  intros d H. assert (In d [0;1;2;3;4;5;6;7;8;9]) as I by (cbn; lia).
  cbn in I. repeat (destruct I as [<-|I]; [reflexivity|]). contradiction.
Qed.
Lemma digit_val_range : forall c d, digit_val c = Some d -> 0 <= d < 10.
Proof.
  intros c d H. unfold digit_val in H. destruct (_ && _) eqn:E; [|discriminate]. injection H as <-.
  apply andb_true_iff in E. destruct E as [E1 E2]. apply Z.leb_le in E1, E2. lia.
Qed.
Lemma digit_val_inj : forall c d, digit_val c = Some d -> c = digit d.
Proof.
  intros c d H. unfold digit_val in H. destruct (_ && _) eqn:E; [|discriminate]. injection H as <-.
  apply andb_true_iff in E. destruct E as [E1 E2]. apply Z.leb_le in E1, E2.
  unfold digit. rewrite <- (ascii_nat_embedding c) at 1. f_equal. lia.
Qed.
Lemma digit_inj : forall d e, 0 <= d < 10 -> 0 <= e < 10 -> digit d = digit e -> d = e.
Proof. intros d e Hd He E. pose proof (digit_val_digit d Hd) as A. rewrite E, digit_val_digit in A by assumption. congruence. Qed.

Definition is_digit (c : ascii) : bool := match digit_val c with Some _ => true | None => false end.
Fixpoint all_digits (s : string) : bool :=
  match s with EmptyString => true | String c r => is_digit c && all_digits r end.

Lemma read_digits_some : forall s a, all_digits s = true <-> exists n, read_digits s a = Some n.
Proof.
  induction s as [|c s IH]; intros a; cbn.
  - split; eauto.
  - unfold is_digit. destruct (digit_val c) as [d|]; cbn.
    + apply IH.
    + split; [discriminate|intros [n E]; discriminate].
Qed.

Lemma read_digits_digits : forall f n acc, 0 <= n < 10 ^ Z.of_nat f -> read_digits (digits f n acc) 0 = read_digits acc n.
Proof.
  induction f as [|f IH]; intros n acc H.
  - cbn in H. assert (n = 0) as -> by lia. reflexivity.
  - cbn [digits]. pose proof (Z.mod_pos_bound n 10 ltac:(lia)) as M.
    destruct (Z.ltb_spec n 10) as [L|L].
    + cbn [read_digits]. rewrite digit_val_digit by lia. rewrite Z.mod_small by lia. reflexivity.
    + rewrite IH.
      * cbn [read_digits]. rewrite digit_val_digit by lia. f_equal. rewrite (Z.div_mod n 10) at 3 by lia. lia.
      * split; [apply Z.div_pos; lia|]. apply Z.div_lt_upper_bound; [lia|].
        replace (10 * 10 ^ Z.of_nat f) with (10 ^ Z.of_nat (S f)) by (rewrite Nat2Z.inj_succ, Z.pow_succ_r; lia). lia.
Qed.
Lemma log_fuel : forall n, 0 <= n -> n < 10 ^ Z.of_nat (S (Z.to_nat (Z.log2 n))).
Proof.
  intros n H. destruct (Z.eq_dec n 0) as [->|N]; [cbn; lia|].
  pose proof (Z.log2_spec n ltac:(lia)) as [_ U]. pose proof (Z.log2_nonneg n).
  rewrite Nat2Z.inj_succ, Z2Nat.id by lia.
  eapply Z.lt_le_trans; [exact U|]. apply Z.pow_le_mono_l. lia.
Qed.
Lemma digits_nonempty : forall f n acc, digits (S f) n acc <> "".
Proof.
  induction f as [|f IH]; intros n acc.
  - cbn. destruct (n <? 10); discriminate.
  - remember (S f) as g. cbn [digits]. destruct (n <? 10); [discriminate|]. subst g. apply IH.
Qed.
Lemma udec_nonempty : forall n, udec n <> "".
Proof. intros. apply digits_nonempty. Qed.

Lemma read_udec : forall n, 0 <= n -> read_nat (udec n) = Some n.
Proof.
  intros n H. unfold read_nat. pose proof (udec_nonempty n). destruct (udec n) eqn:E; [contradiction|].
  rewrite <- E. unfold udec. rewrite read_digits_digits; [reflexivity|]. split; auto. now apply log_fuel.
Qed.
Lemma udec_all_digits : forall n, 0 <= n -> all_digits (udec n) = true.
Proof.
  intros n H. apply (proj2 (read_digits_some _ 0)). exists n.
  pose proof (read_udec n H) as R. unfold read_nat in R. destruct (udec n); [discriminate|exact R].
Qed.
Lemma udec_inj : forall a b, 0 <= a -> 0 <= b -> udec a = udec b -> a = b.
Proof. intros a b Ha Hb E. pose proof (read_udec a Ha) as A. rewrite E, read_udec in A by assumption. congruence. Qed.

Lemma in64b_true : forall z, in64 z -> in64b z = true.
Proof. intros z H. unfold in64, in64b in *. apply andb_true_iff. split; [apply Z.leb_le|apply Z.ltb_lt]; lia. Qed.
Lemma in64b_iff : forall z, in64b z = true <-> in64 z.
Proof. intros z. split; [|apply in64b_true]. unfold in64, in64b. intros H. apply andb_true_iff in H. destruct H as [A B]. apply Z.leb_le in A. apply Z.ltb_lt in B. lia. Qed.

Lemma digit_not_sign : forall c, is_digit c = true -> Ascii.eqb c "-" = false /\ Ascii.eqb c "+" = false.
Proof.
  intros c H. split; apply Ascii.eqb_neq; intros ->; discriminate.
Qed.
Theorem parse_dec : forall z, in64 z -> parse_int (dec z) = Some z.
Proof.
  intros z H. unfold dec, parse_int. destruct (Z.ltb_spec z 0) as [L|L].
  - cbn [Ascii.eqb Bool.eqb]. change (Ascii.eqb "-" "-") with true. cbn iota. rewrite read_udec by lia.
    rewrite Z.opp_involutive, in64b_true by assumption. reflexivity.
  - pose proof (udec_all_digits z L) as A. pose proof (udec_nonempty z) as N. destruct (udec z) as [|c r] eqn:E; [contradiction|].
    cbn [all_digits] in A. apply andb_true_iff in A. destruct A as [A _].
    destruct (digit_not_sign c A) as [-> ->]. rewrite <- E, read_udec, in64b_true by assumption. reflexivity.
Qed.
Lemma dec_inj : forall a b, in64 a -> in64 b -> dec a = dec b -> a = b.
Proof. intros a b Ha Hb E. pose proof (parse_dec a Ha) as A. rewrite E, parse_dec in A by assumption. congruence. Qed.

(** ** Padding *)
Lemma read_zeros : forall k s, read_digits (zeros k s) 0 = read_digits s 0.
Proof. induction k as [|k IH]; intros s; cbn [zeros read_digits]; auto. change (digit_val "0") with (Some 0). cbn iota. exact (IH s). Qed.
Lemma length_zeros : forall k s, String.length (zeros k s) = (k + String.length s)%nat.
Proof. induction k; intros s; cbn; auto. Qed.
Lemma all_digits_zeros : forall k s, all_digits (zeros k s) = all_digits s.
Proof. induction k as [|k IH]; intros s; cbn [zeros all_digits]; auto. rewrite IH. reflexivity. Qed.
Lemma digits_length : forall f n acc w, 0 <= n < 10 ^ Z.of_nat w -> (0 < w)%nat ->
  (String.length (digits f n acc) <= w + String.length acc)%nat.
Proof.
  induction f as [|f IH]; intros n acc w H W; cbn [digits]; [lia|].
  destruct (Z.ltb_spec n 10) as [L|L]; [cbn; lia|].
  destruct w as [|w]; [lia|]. destruct w as [|w].
  - cbn in H. lia.
  - specialize (IH (n / 10) (String (digit (n mod 10)) acc) (S w)).
    cbn [String.length] in *. rewrite <- plus_n_Sm in IH. apply IH; [|lia].
    split; [apply Z.div_pos; lia|]. apply Z.div_lt_upper_bound; [lia|].
    replace (10 * 10 ^ Z.of_nat (S w)) with (10 ^ Z.of_nat (S (S w))) by (rewrite (Nat2Z.inj_succ (S w)), Z.pow_succ_r; lia). lia.
Qed.
Lemma pad_length : forall w n, (0 < w)%nat -> 0 <= n < 10 ^ Z.of_nat w -> String.length (pad w n) = w.
Proof.
  intros w n W H. unfold pad. rewrite length_zeros.
  pose proof (digits_length (S (Z.to_nat (Z.log2 n))) n "" w H W) as L. fold (udec n) in L. cbn [String.length] in L. lia.
Qed.
Lemma read_pad : forall w n, 0 <= n -> read_digits (pad w n) 0 = Some n.
Proof.
  intros w n H. unfold pad. rewrite read_zeros. pose proof (read_udec n H) as R. unfold read_nat in R.
  destruct (udec n); [discriminate|exact R].
Qed.
Lemma pad_digits : forall w n, 0 <= n -> all_digits (pad w n) = true.
Proof. intros. unfold pad. rewrite all_digits_zeros. now apply udec_all_digits. Qed.

(** ** Positional value *)
Fixpoint positional (s : string) : option Z :=
  match s with
  | EmptyString => Some 0
  | String c r =>
      match digit_val c, positional r with
      | Some d, Some v => Some (d * 10 ^ Z.of_nat (String.length r) + v)
      | _, _ => None
      end
  end.
Lemma read_positional : forall s a, read_digits s a = option_map (fun v => a * 10 ^ Z.of_nat (String.length s) + v) (positional s).
Proof.
  induction s as [|c s IH]; intros a; cbn [read_digits positional].
  - cbn. f_equal. lia.
  - destruct (digit_val c) as [d|]; [|reflexivity]. rewrite IH. destruct (positional s) as [v|]; [|reflexivity]. cbn [option_map String.length]. f_equal.
    rewrite Nat2Z.inj_succ, Z.pow_succ_r by lia. ring.
Qed.
Lemma positional_nonneg : forall s v, positional s = Some v -> 0 <= v < 10 ^ Z.of_nat (String.length s).
Proof.
  induction s as [|c s IH]; intros v H; cbn [positional] in H.
  - injection H as <-. cbn. lia.
  - destruct (digit_val c) as [d|] eqn:E; [|discriminate]. destruct (positional s) as [w|] eqn:P; [|discriminate].
    injection H as <-. specialize (IH w eq_refl). apply digit_val_range in E.
    cbn [String.length]. rewrite Nat2Z.inj_succ, Z.pow_succ_r by lia. nia.
Qed.
