(** Lemmas on the text of DATE, TIME and DATETIME values. *)
From Coq Require Import Ascii String List ZArith Lia Bool.
From Verif Require Import GoBase GoBaseFacts CalendarModel CalendarFacts InstantModel InstantFacts DecModel DecFacts TimeTextProofs
  ClockTextModel ClockTextSpec.
Import ListNotations.
Local Open Scope string_scope.
Open Scope Z_scope.

Lemma app_empty : forall s, s ++ "" = s.
Proof. induction s; cbn; congruence. Qed.
(** ** Digit strings of one length and one value are equal *)
Lemma positional_inj : forall s t v, String.length s = String.length t -> positional s = Some v -> positional t = Some v -> s = t.
Proof.
  induction s as [|c s IH]; intros [|e t] v L P Q; try discriminate; [reflexivity|].
  cbn [String.length] in L. injection L as L. cbn [positional] in P, Q. rewrite <- L in Q.
  destruct (digit_val c) as [x|] eqn:Ec; [|discriminate]. destruct (positional s) as [a|] eqn:Ea; [|discriminate].
  destruct (digit_val e) as [y|] eqn:Ee; [|discriminate]. destruct (positional t) as [b|] eqn:Eb; [|discriminate].
  pose proof (positional_nonneg _ _ Ea) as Ra. pose proof (positional_nonneg _ _ Eb) as Rb. rewrite <- L in Rb.
  assert (P' : x * 10 ^ Z.of_nat (String.length s) + a = v) by congruence.
  assert (Q' : y * 10 ^ Z.of_nat (String.length s) + b = v) by congruence.
  assert (x = y) by nia. subst y. assert (a = b) by lia. subst b.
  apply digit_val_inj in Ec. apply digit_val_inj in Ee. rewrite Ec, Ee. f_equal. eapply IH; eauto.
Qed.
Lemma positional_pad : forall w n, 0 <= n -> positional (pad w n) = Some n.
Proof.
  intros w n H. pose proof (read_pad w n H) as R. rewrite read_positional in R.
  destruct (positional (pad w n)); [|discriminate]. cbn in R. f_equal. congruence.
Qed.
Lemma two_length : forall n, String.length (two n) = 2%nat. Proof. reflexivity. Qed.
Lemma four_length : forall n, String.length (four n) = 4%nat. Proof. reflexivity. Qed.
Lemma positional_two : forall n, 0 <= n < 100 -> positional (two n) = Some n.
Proof.
  intros n H. unfold two. cbn [positional String.length].
  assert (0 <= n / 10 < 10) by (split; [apply Z.div_pos; lia|apply Z.div_lt_upper_bound; lia]).
  pose proof (Z.mod_pos_bound n 10 ltac:(lia)).
  rewrite !digit_val_digit by lia. f_equal. change (10 ^ Z.of_nat 1) with 10. change (10 ^ Z.of_nat 0) with 1.
  pose proof (Z.div_mod n 10 ltac:(lia)). lia.
Qed.
Lemma hundred : forall n, 0 <= n < 10000 -> 0 <= n / 100 < 100 /\ 0 <= n mod 100 < 100 /\ n = 100 * (n / 100) + n mod 100.
Proof.
  intros n H. split; [|split].
  - split; [apply Z.div_pos; lia|apply Z.div_lt_upper_bound; lia].
  - apply Z.mod_pos_bound. lia.
  - apply Z.div_mod. lia.
Qed.
Lemma ten : forall n, 0 <= n < 100 -> 0 <= n / 10 < 10 /\ 0 <= n mod 10 < 10 /\ n = 10 * (n / 10) + n mod 10.
Proof.
  intros n H. split; [|split].
  - split; [apply Z.div_pos; lia|apply Z.div_lt_upper_bound; lia].
  - apply Z.mod_pos_bound. lia.
  - apply Z.div_mod. lia.
Qed.
Lemma positional_four : forall n, 0 <= n < 10000 -> positional (four n) = Some n.
Proof.
  intros n H. destruct (hundred n H) as (A & B & C). destruct (ten _ A) as (A1 & A2 & A3). destruct (ten _ B) as (B1 & B2 & B3).
  unfold four, two. cbn [append positional String.length]. rewrite !digit_val_digit by lia. f_equal.
  change (10 ^ Z.of_nat 3) with 1000. change (10 ^ Z.of_nat 2) with 100. change (10 ^ Z.of_nat 1) with 10. change (10 ^ Z.of_nat 0) with 1. lia.
Qed.
Lemma pad_two : forall n, 0 <= n < 100 -> pad 2 n = two n.
Proof. intros n H. eapply positional_inj; [|apply positional_pad; lia|now apply positional_two]. rewrite pad_length; [reflexivity|lia|exact H]. Qed.
Lemma pad_four : forall n, 0 <= n < 10000 -> pad 4 n = four n.
Proof. intros n H. eapply positional_inj; [|apply positional_pad; lia|now apply positional_four]. rewrite pad_length; [reflexivity|lia|exact H]. Qed.

(** ** Reading the numbers *)
Lemma num2_two : forall n r, 0 <= n < 100 -> num2 (two n ++ r) = Some (n, r).
Proof.
  intros n r H. destruct (ten n H) as (A & B & C). unfold two. cbn [append num2]. rewrite !digit_val_digit by lia. do 2 f_equal. lia.
Qed.
Lemma num2_inv : forall s n r, num2 s = Some (n, r) -> 0 <= n < 100 /\ s = two n ++ r.
Proof.
  intros s n r H. destruct s as [|a [|b q]]; try discriminate. cbn [num2] in H.
  destruct (digit_val a) as [x|] eqn:Ea; [|discriminate]. destruct (digit_val b) as [y|] eqn:Eb; [|discriminate].
  assert (N : 10 * x + y = n) by congruence. assert (R : q = r) by congruence. subst r. clear H.
  pose proof (digit_val_range _ _ Ea). pose proof (digit_val_range _ _ Eb).
  apply digit_val_inj in Ea. apply digit_val_inj in Eb. split; [lia|].
  assert (D : n / 10 = x) by (rewrite <- N; symmetry; apply Z.div_unique with y; lia).
  assert (M : n mod 10 = y) by (rewrite <- N; symmetry; apply Z.mod_unique with x; lia).
  unfold two. rewrite D, M, Ea, Eb. reflexivity.
Qed.
Lemma num4_four : forall n r, 0 <= n < 10000 -> num4 (four n ++ r) = Some (n, r).
Proof.
  intros n r H. destruct (hundred n H) as (A & B & C). unfold num4, four. rewrite <- string_app_assoc.
  rewrite num2_two by lia. rewrite num2_two by lia. do 2 f_equal. lia.
Qed.
Lemma num4_inv : forall s n r, num4 s = Some (n, r) -> 0 <= n < 10000 /\ s = four n ++ r.
Proof.
  intros s n r H. unfold num4 in H. destruct (num2 s) as [[a q]|] eqn:A; [|discriminate]. destruct (num2 q) as [[b q']|] eqn:B; [|discriminate].
  assert (N : 100 * a + b = n) by congruence. assert (R : q' = r) by congruence. subst r. clear H.
  apply num2_inv in A. apply num2_inv in B. destruct A as [A A']. destruct B as [B B'].
  split; [lia|]. unfold four.
  assert (D : n / 100 = a) by (rewrite <- N; symmetry; apply Z.div_unique with b; lia).
  assert (M : n mod 100 = b) by (rewrite <- N; symmetry; apply Z.mod_unique with a; lia).
  rewrite D, M, A', B', <- string_app_assoc. reflexivity.
Qed.
Lemma lit_inv : forall c s r, lit c s = Some r -> s = String c r.
Proof.
  intros c [|x s] r H; [discriminate|]. cbn in H. destruct (Ascii.eqb_spec x c); [|discriminate]. congruence.
Qed.
Lemma lit_self : forall c r, lit c (String c r) = Some r.
Proof. intros. cbn. now rewrite Ascii.eqb_refl. Qed.
Lemma between_iff : forall a b z, between a b z = true <-> a <= z <= b.
Proof. intros. unfold between. rewrite andb_true_iff, !Z.leb_le. tauto. Qed.

Lemma read_ymd_of : forall y m d r, 0 <= y <= 9999 -> valid_date y m d -> read_ymd (ymd y m d ++ r) = Some (days_of y m d, r).
Proof.
  intros y m d r Hy [Hm Hd]. pose proof (dim_range y m). unfold read_ymd, ymd. rewrite <- !string_app_assoc.
  rewrite num4_four by lia. cbn [append]. rewrite lit_self. rewrite num2_two by lia. rewrite lit_self. rewrite num2_two by lia.
  rewrite (proj2 (between_iff 1 12 m)) by lia. rewrite (proj2 (between_iff 1 (days_in_month y m) d)) by lia. cbn [andb].
  rewrite godate_days_of by lia. reflexivity.
Qed.
Lemma read_ymd_inv : forall s n r, read_ymd s = Some (n, r) ->
  exists y m d, 0 <= y <= 9999 /\ valid_date y m d /\ s = ymd y m d ++ r /\ n = days_of y m d.
Proof.
  intros s n r H. unfold read_ymd in H.
  destruct (num4 s) as [[y s1]|] eqn:E1; [|discriminate]. destruct (lit "-" s1) as [s2|] eqn:E2; [|discriminate].
  destruct (num2 s2) as [[m s3]|] eqn:E3; [|discriminate]. destruct (lit "-" s3) as [s4|] eqn:E4; [|discriminate].
  destruct (num2 s4) as [[d s5]|] eqn:E5; [|discriminate].
  destruct (between 1 12 m) eqn:Bm; [|discriminate]. destruct (between 1 (days_in_month y m) d) eqn:Bd; [|discriminate]. cbn [andb] in H.
  apply between_iff in Bm. apply between_iff in Bd. apply num4_inv in E1. apply num2_inv in E3. apply num2_inv in E5.
  apply lit_inv in E2. apply lit_inv in E4. destruct E1 as [Y E1]. destruct E3 as [M E3]. destruct E5 as [D E5].
  exists y, m, d. split; [lia|]. split; [split; lia|]. split.
  - subst. assert (s5 = r) by congruence. subst. unfold ymd. rewrite <- !string_app_assoc. reflexivity.
  - rewrite <- godate_days_of by lia. congruence.
Qed.
Lemma parse_date_iff : forall s n, parse_date s = Some n <-> names_day s n.
Proof.
  intros s n. unfold parse_date, names_day. split.
  - intros H. destruct (read_ymd s) as [[k r]|] eqn:E; [|discriminate]. destruct r; [|discriminate]. cbn in H.
    apply read_ymd_inv in E. destruct E as (y & m & d & Y & V & S & N). rewrite app_empty in S. exists y, m, d.
    repeat split; try (apply V || lia || congruence).
  - intros (y & m & d & Y & V & -> & ->). rewrite <- (app_empty (ymd y m d)). rewrite read_ymd_of by auto. reflexivity.
Qed.

(** ** Fractions *)
Lemma span_all : forall s, all_digits s = true -> span_digits s = (s, "").
Proof.
  induction s as [|c s IH]; intros H; [reflexivity|]. cbn [all_digits] in H. apply andb_true_iff in H. destruct H as [Hc Hs].
  unfold is_digit in Hc. cbn [span_digits]. destruct (digit_val c); [|discriminate]. rewrite IH by auto. reflexivity.
Qed.
Lemma strip_positional : forall s v, positional s = Some v ->
  exists w k, positional (strip_zeros s) = Some w /\ String.length s = (k + String.length (strip_zeros s))%nat /\ v = w * 10 ^ Z.of_nat k.
Proof.
  induction s as [|c s IH]; intros v H.
  - exists 0, 0%nat. cbn in *. repeat split; auto. congruence.
  - cbn [positional] in H. destruct (digit_val c) as [d|] eqn:E; [|discriminate]. destruct (positional s) as [u|] eqn:P; [|discriminate].
    assert (V : v = d * 10 ^ Z.of_nat (String.length s) + u) by congruence. clear H.
    destruct (IH u eq_refl) as (w & k & W & L & U). cbn [strip_zeros].
    destruct (strip_zeros s) as [|c' s'] eqn:S.
    + cbn in W, L. assert (w = 0) by congruence. subst w. assert (u = 0) by lia. subst u.
      destruct (Ascii.eqb_spec c "0") as [->|Nc].
      * change (digit_val "0") with (Some 0) in E. assert (d = 0) by congruence. subst d. exists 0, (Datatypes.S (String.length s)). repeat split; [cbn; lia|]. lia.
      * exists d, (String.length s). cbn [positional String.length]. rewrite E. change (10 ^ Z.of_nat 0) with 1. repeat split; [f_equal; lia|lia|lia].
    + exists (d * 10 ^ Z.of_nat (String.length (String c' s')) + w), k. split; [|split].
      * cbn [positional]. rewrite E. cbn [positional] in W. rewrite W. reflexivity.
      * cbn [String.length] in *. lia.
      * rewrite V, U, L, Nat2Z.inj_add, Z.pow_add_r by lia. ring.
Qed.
Lemma substring_all : forall s n, (String.length s <= n)%nat -> substring 0 n s = s.
Proof. induction s as [|c s IH]; intros [|n] H; cbn in *; auto; try lia. f_equal. apply IH. lia. Qed.
Lemma nanos_of : forall ds v, positional ds = Some v -> (String.length ds <= 9)%nat ->
  nanos ds = v * 10 ^ (9 - Z.of_nat (String.length ds)).
Proof. intros ds v P L. unfold nanos. rewrite substring_all by auto. rewrite read_positional, P. cbn [option_map]. ring. Qed.
Lemma frac_of_text : forall ns, 0 <= ns < ns_per_sec -> frac (frac_text ns) = (ns / 1000 * 1000, "").
Proof.
  intros ns H. unfold ns_per_sec in H. unfold frac_text.
  assert (U : 0 <= ns / 1000 < 1000000) by (split; [apply Z.div_pos; lia|apply Z.div_lt_upper_bound; lia]).
  pose proof (positional_pad 6 (ns / 1000) ltac:(lia)) as P. pose proof (pad_length 6 (ns / 1000) ltac:(lia) U) as L.
  destruct (strip_positional _ _ P) as (w & k & W & K & V). rewrite L in K.
  destruct (strip_zeros (pad 6 (ns / 1000))) as [|c s] eqn:S.
  - cbn in W. assert (w = 0) by congruence. cbn. f_equal. lia.
  - set (x := String c s) in *. unfold frac. change (Ascii.eqb "." "." || Ascii.eqb "." ",") with true. cbn iota.
    rewrite span_all by (eapply positional_digits; eauto). unfold x at 1. cbn iota. rewrite (nanos_of x w) by (auto; lia).
    f_equal. rewrite V. rewrite <- Z.mul_assoc. f_equal.
    replace 1000 with (10 ^ 3) by reflexivity. rewrite <- Z.pow_add_r by lia. f_equal. lia.
Qed.
Lemma frac_not_digit : forall ns, match frac_text ns with String c _ => c = "."%char | "" => True end.
Proof. intros. unfold frac_text. destruct (strip_zeros _); auto. Qed.

Lemma num12_two : forall n r, 0 <= n < 100 -> num12 (two n ++ r) = Some (n, r).
Proof. intros. unfold num12. now rewrite num2_two. Qed.
Lemma read_hms_of : forall h mi s ns, valid_clock h mi s -> 0 <= ns < ns_per_sec ->
  read_hms (hms h mi s ++ frac_text ns) = Some (h * 3600 + mi * 60 + s, ns / 1000 * 1000, "").
Proof.
  intros h mi s ns (Hh & Hm & Hs) Hn. unfold read_hms, hms. rewrite <- !string_app_assoc.
  rewrite num12_two by lia. cbn [append]. rewrite lit_self, num2_two by lia. rewrite lit_self, num2_two by lia.
  rewrite frac_of_text by auto. rewrite !(proj2 (between_iff _ _ _)) by lia. reflexivity.
Qed.
Lemma clock_text_hms : forall t, clock_text t = hms (hour t) (minute t) (second t) ++ frac_text (nanosecond t).
Proof.
  intros t. destruct (time_of_fields t) as ((Hh & Hm & Hs) & _). unfold clock_text, hms.
  rewrite !pad_two by lia. rewrite <- !string_app_assoc. reflexivity.
Qed.
Lemma date_text_ymd : forall n, 0 <= year n <= 9999 -> date_text n = ymd (year n) (month n) (day n).
Proof.
  intros n H. pose proof (month_range n). pose proof (day_range n). pose proof (dim_range (year n) (month n)).
  unfold date_text, ymd. rewrite pad_four, !pad_two by lia. reflexivity.
Qed.
Lemma civil_is_valid : forall n, valid_date (year n) (month n) (day n).
Proof. intros n. split; [apply month_range|apply day_range]. Qed.

Definition to_micros (t : Z) : Z := t / 1000 * 1000.
Lemma to_micros_fields : forall t, to_micros t = (day_no t * 86400 + clock t) * ns_per_sec + nanosecond t / 1000 * 1000.
Proof.
  intros t. destruct (time_of_fields t) as (_ & _ & _ & E). unfold to_micros. rewrite E at 1. unfold ns_per_sec.
  replace ((day_no t * 86400 + clock t) * 1000000000 + nanosecond t) with ((day_no t * 86400 + clock t) * 1000000 * 1000 + nanosecond t) by lia.
  rewrite Z.div_add_l by lia. lia.
Qed.
Lemma parse_datetime_text : forall t, 0 <= year (day_no t) <= 9999 -> parse_datetime (datetime_text t) = Some (to_micros t).
Proof.
  intros t H. destruct (time_of_fields t) as (V & N & K & _). unfold parse_datetime, parse_both, datetime_text.
  rewrite date_text_ymd by auto. rewrite read_ymd_of by (auto using civil_is_valid). cbn [append]. rewrite lit_self.
  rewrite clock_text_hms, read_hms_of by auto. cbn [is_end]. rewrite to_micros_fields, days_of_civil, K. reflexivity.
Qed.
Lemma parse_datetime_space : forall t, 0 <= year (day_no t) <= 9999 ->
  parse_datetime (date_text (day_no t) ++ " " ++ clock_text t) = Some (to_micros t).
Proof.
  intros t H. destruct (time_of_fields t) as (V & N & K & _). unfold parse_datetime, parse_both.
  rewrite date_text_ymd by auto. rewrite read_ymd_of by (auto using civil_is_valid). cbn [append].
  change (lit "T" (String " " (clock_text t))) with (@None string).
  change (skip_space (String " " (clock_text t))) with (Some (cut_space (clock_text t))).
  assert (C : cut_space (clock_text t) = clock_text t).
  { rewrite clock_text_hms. unfold hms, two. cbn [append]. destruct V as (Vh & _).
    destruct (ten (hour t) ltac:(lia)) as (A & _). generalize dependent (hour t / 10). intros q A.
    assert (Q : q = 0 \/ q = 1 \/ q = 2 \/ q = 3 \/ q = 4 \/ q = 5 \/ q = 6 \/ q = 7 \/ q = 8 \/ q = 9) by lia.
    repeat (destruct Q as [->|Q]; [reflexivity|]). subst q. reflexivity. }
  rewrite C, clock_text_hms, read_hms_of by auto. cbn [is_end]. rewrite to_micros_fields, days_of_civil, K. reflexivity.
Qed.
Lemma parse_time_text : forall t, parse_time (clock_text t) = Some ((godate 0 1 1 * 86400 + clock t) * ns_per_sec + nanosecond t / 1000 * 1000).
Proof.
  intros t. destruct (time_of_fields t) as (V & N & K & _). unfold parse_time. rewrite clock_text_hms, read_hms_of by auto.
  cbn [is_end]. rewrite K. reflexivity.
Qed.

(** ** What is read, exactly *)
Lemma app_inv_length : forall a b c d : string, String.length a = String.length c -> a ++ b = c ++ d -> a = c /\ b = d.
Proof.
  induction a as [|x a IH]; intros b [|y c] d L E; try discriminate; [auto|]. cbn in *. injection L as L. injection E as -> E.
  destruct (IH _ _ _ L E) as [-> ->]. auto.
Qed.
Lemma length_app_s : forall a b : string, String.length (a ++ b) = (String.length a + String.length b)%nat.
Proof. induction a; intros; cbn; auto. Qed.
Lemma positional_app : forall a b x y, positional a = Some x -> positional b = Some y ->
  positional (a ++ b) = Some (x * 10 ^ Z.of_nat (String.length b) + y).
Proof.
  induction a as [|c a IH]; intros b x y A B; cbn [positional append] in *.
  - assert (x = 0) by congruence. subst x. rewrite B. reflexivity.
  - destruct (digit_val c) as [d|]; [|discriminate]. destruct (positional a) as [u|] eqn:P; [|discriminate].
    rewrite (IH b u y eq_refl B). rewrite length_app_s. assert (X : x = d * 10 ^ Z.of_nat (String.length a) + u) by congruence.
    rewrite X, Nat2Z.inj_add, Z.pow_add_r by lia. f_equal. ring.
Qed.
Lemma positional_app_inv : forall a b v, positional (a ++ b) = Some v ->
  exists x y, positional a = Some x /\ positional b = Some y /\ v = x * 10 ^ Z.of_nat (String.length b) + y.
Proof.
  induction a as [|c a IH]; intros b v H; cbn [append positional] in H.
  - exists 0, v. repeat split; auto; lia.
  - destruct (digit_val c) as [d|] eqn:E; [|discriminate]. destruct (positional (a ++ b)) as [u|] eqn:P; [|discriminate].
    destruct (IH b u P) as (x & y & X & Y & U). exists (d * 10 ^ Z.of_nat (String.length a) + x), y. cbn [positional]. rewrite E, X.
    repeat split; auto. assert (V : v = d * 10 ^ Z.of_nat (String.length (a ++ b)) + u) by congruence.
    rewrite V, U, length_app_s, Nat2Z.inj_add, Z.pow_add_r by lia. ring.
Qed.
Lemma digits_value_iff : forall s v, digits_value s v <-> positional s = Some v.
Proof.
  split.
  - induction 1 as [|s v d D H IH]; [reflexivity|]. erewrite positional_app; [|exact IH|].
    2:{ cbn [positional String.length]. rewrite digit_val_digit by auto. reflexivity. }
    cbn [String.length]. change (10 ^ Z.of_nat 1) with 10. change (10 ^ Z.of_nat 0) with 1. f_equal. lia.
  - remember (String.length s) as n. revert s v Heqn. induction n as [|n IH]; intros s v L P.
    + destruct s; [|discriminate]. assert (v = 0) by (cbn in P; congruence). subst. constructor.
    + assert (X : exists a c, s = a ++ String c "" /\ String.length a = n).
      { clear IH P. revert n L. induction s as [|c s IHs]; intros n L; [discriminate|]. destruct s as [|c' s].
        - exists "", c. cbn in *. split; auto. lia.
        - destruct n as [|n]; [discriminate|]. destruct (IHs n ltac:(cbn in *; lia)) as (a & e & E & La).
          exists (String c a), e. rewrite E. cbn. split; auto. }
      destruct X as (a & c & -> & La). destruct (positional_app_inv _ _ _ P) as (x & y & X & Y & V).
      cbn [positional String.length] in Y. destruct (digit_val c) as [d|] eqn:E; [|discriminate].
      assert (y = d) by (cbn in Y; assert (d * 1 + 0 = y) by congruence; lia). subst y.
      replace v with (10 * x + d) by (cbn in V; lia).
      rewrite (digit_val_inj _ _ E). constructor; [eapply digit_val_range; eauto|]. apply IH; auto.
Qed.
Lemma split_at : forall n s, exists t, s = substring 0 n s ++ t /\ (String.length (substring 0 n s) = Nat.min n (String.length s)).
Proof.
  induction n as [|n IH]; intros s.
  - exists s. destruct s; cbn; auto.
  - destruct s as [|c s]; [exists ""; auto|]. destruct (IH s) as (t & E & L). exists t. cbn. split; [congruence|]. now rewrite L.
Qed.
Lemma nanos_value : forall ds v, positional ds = Some v -> nanos ds = v * 1000000000 / 10 ^ Z.of_nat (String.length ds).
Proof.
  intros ds v P. destruct (Nat.le_gt_cases (String.length ds) 9) as [L|L].
  - rewrite (nanos_of ds v) by auto. change 1000000000 with (10 ^ 9).
    replace (10 ^ 9) with (10 ^ (9 - Z.of_nat (String.length ds)) * 10 ^ Z.of_nat (String.length ds)).
    + rewrite Z.mul_assoc, Z.div_mul; [reflexivity|]. apply Z.pow_nonzero; lia.
    + rewrite <- Z.pow_add_r by lia. f_equal. lia.
  - destruct (split_at 9 ds) as (t & E & Ln). set (d := substring 0 9 ds) in *.
    assert (L9 : String.length d = 9%nat) by lia. rewrite E in P. destruct (positional_app_inv _ _ _ P) as (x & y & X & Y & V).
    pose proof (positional_nonneg _ _ Y) as RY. unfold nanos. fold d. rewrite read_positional, X. cbn [option_map]. rewrite L9.
    change (9 - Z.of_nat 9) with 0. rewrite Z.pow_0_r.
    assert (T : Z.of_nat (String.length ds) = 9 + Z.of_nat (String.length t)) by (rewrite E, length_app_s; lia).
    rewrite T, Z.pow_add_r by lia. change (10 ^ 9) with 1000000000.
    rewrite (Z.mul_comm v). rewrite Z.div_mul_cancel_l; [|apply Z.pow_nonzero; lia|lia].
    rewrite V, Z.div_add_l by (apply Z.pow_nonzero; lia). rewrite Z.div_small by lia. lia.
Qed.
Lemma span_inv : forall s a b, span_digits s = (a, b) -> s = a ++ b /\ all_digits a = true.
Proof.
  induction s as [|c s IH]; intros a b H; cbn [span_digits] in H.
  - assert (a = "") by congruence. assert (b = "") by congruence. subst. auto.
  - destruct (digit_val c) as [d|] eqn:E.
    + destruct (span_digits s) as [p q] eqn:Q. destruct (IH p q eq_refl) as [-> A].
      assert (a = String c p) by congruence. assert (b = q) by congruence. subst. split; auto.
      cbn [all_digits]. unfold is_digit. rewrite E, A. reflexivity.
    + assert (a = "") by congruence. assert (b = String c s) by congruence. subst. auto.
Qed.
Lemma digits_positional : forall s, all_digits s = true -> exists v, positional s = Some v.
Proof.
  intros s H. apply (read_digits_some s 0) in H. destruct H as [n H]. rewrite read_positional in H.
  destruct (positional s) as [v|]; [eauto|discriminate].
Qed.
Lemma frac_iff : forall f ns, frac f = (ns, "") <-> names_fraction f ns.
Proof.
  intros f ns. unfold names_fraction. split.
  - intros H. destruct f as [|c r]; [left; cbn in H; split; congruence|]. right. cbn [frac] in H.
    destruct (Ascii.eqb c "." || Ascii.eqb c ",") eqn:C; [|discriminate].
    destruct (span_digits r) as [ds rest] eqn:S. apply span_inv in S. destruct S as [S A].
    destruct ds as [|x ds]; [discriminate|]. set (dd := String x ds) in *.
    assert (rest = "") by congruence. subst rest. rewrite app_empty in S. subst r.
    destruct (digits_positional dd A) as [v V]. exists c, dd, v. split.
    { apply orb_true_iff in C. rewrite !Ascii.eqb_eq in C. exact C. }
    split; [discriminate|]. split; [reflexivity|]. split; [now apply digits_value_iff|].
    rewrite <- nanos_value by auto. congruence.
  - intros [[-> ->]|(c & ds & v & C & N & -> & V & ->)]; [reflexivity|]. apply digits_value_iff in V. cbn [frac].
    assert (Q : Ascii.eqb c "." || Ascii.eqb c "," = true) by (destruct C as [->| ->]; reflexivity). rewrite Q.
    rewrite span_all by (eapply positional_digits; eauto). destruct ds as [|x ds]; [contradiction|].
    rewrite <- nanos_value by auto. reflexivity.
Qed.
Lemma num12_iff : forall s h r, num12 (s ++ String ":" r) = Some (h, String ":" r) /\ 0 <= h <= 23 <-> names_hour s h /\ 0 <= h <= 23.
Proof.
  intros s h r. unfold names_hour. split.
  - intros [H B]. split; [|exact B]. unfold num12 in H. destruct (num2 (s ++ String ":" r)) as [[n q]|] eqn:E.
    + left. assert (n = h) by congruence. assert (q = String ":" r) by congruence. subst. apply num2_inv in E. destruct E as [_ E].
      apply app_inv_length in E; [tauto|]. apply (f_equal String.length) in E. rewrite !length_app_s in E. cbn in *. lia.
    + right. destruct s as [|c s]; [cbn in H; discriminate|]. cbn [append] in H. destruct (digit_val c) as [x|] eqn:D; [|discriminate].
      assert (x = h) by congruence. subst x. assert (Q : s ++ String ":" r = "" ++ String ":" r) by (cbn; congruence).
      apply app_inv_length in Q; [|apply (f_equal String.length) in Q; rewrite !length_app_s in Q; cbn in *; lia].
      destruct Q as [-> _]. split; [pose proof (digit_val_range _ _ D); lia|]. now rewrite (digit_val_inj _ _ D).
  - intros [[->|[L ->]] B]; (split; [|exact B]).
    + apply num12_two. lia.
    + unfold num12. cbn [append num2]. rewrite digit_val_digit by lia. change (digit_val ":") with (@None Z). reflexivity.
Qed.
Lemma read_hms_iff : forall s c ns, read_hms s = Some (c, ns, "") <-> names_clock s c ns.
Proof.
  intros s c ns. unfold names_clock. split.
  - intros H. unfold read_hms in H.
    destruct (num12 s) as [[h s1]|] eqn:E1; [|discriminate]. destruct (lit ":" s1) as [s2|] eqn:E2; [|discriminate].
    destruct (num2 s2) as [[mi s3]|] eqn:E3; [|discriminate]. destruct (lit ":" s3) as [s4|] eqn:E4; [|discriminate].
    destruct (num2 s4) as [[sc s5]|] eqn:E5; [|discriminate]. destruct (frac s5) as [n s6] eqn:E6.
    destruct (between 0 23 h) eqn:B1; [|discriminate]. destruct (between 0 59 mi) eqn:B2; [|discriminate].
    destruct (between 0 59 sc) eqn:B3; [|discriminate]. cbn [andb] in H. apply between_iff in B1. apply between_iff in B2. apply between_iff in B3.
    assert (h * 3600 + mi * 60 + sc = c) by congruence. assert (n = ns) by congruence. assert (s6 = "") by congruence. subst n s6.
    apply frac_iff in E6. apply lit_inv in E2. apply lit_inv in E4. apply num2_inv in E3. apply num2_inv in E5. destruct E3 as [_ E3]. destruct E5 as [_ E5].
    subst s1.
    assert (X : exists a, s = a ++ String ":" s2).
    { unfold num12 in E1. destruct (num2 s) as [[n q]|] eqn:N.
      - apply num2_inv in N. exists (two n). destruct N as [_ ->]. f_equal. congruence.
      - destruct s as [|x s]; [discriminate|]. destruct (digit_val x); [|discriminate]. exists (String x ""). cbn. f_equal. congruence. }
    destruct X as [a ->]. pose proof (proj1 (num12_iff a h s2) (conj E1 B1)) as [NH _].
    exists h, mi, sc, a, s5. repeat split; try lia; auto. subst. reflexivity.
  - intros (h & mi & sc & a & f & Bh & Bm & Bs & NH & NF & -> & ->). unfold read_hms. cbn [append].
    pose proof (proj2 (num12_iff a h (two mi ++ String ":" (two sc ++ f))) (conj NH Bh)) as [N _]. rewrite N.
    rewrite lit_self, num2_two by lia. rewrite lit_self, num2_two by lia. rewrite (proj2 (frac_iff f ns) NF).
    rewrite !(proj2 (between_iff _ _ _)) by lia. reflexivity.
Qed.
Lemma is_end_iff : forall s, is_end s = true <-> s = "".
Proof. intros [|? ?]; cbn; split; congruence. Qed.
Lemma parse_time_iff : forall s t, parse_time s = Some t <->
  exists c ns, names_clock s c ns /\ t = (godate 0 1 1 * 86400 + c) * ns_per_sec + ns.
Proof.
  intros s t. unfold parse_time. split.
  - intros H. destruct (read_hms s) as [[[c ns] r]|] eqn:E; [|discriminate]. destruct (is_end r) eqn:I; [|discriminate].
    apply is_end_iff in I. subst r. apply read_hms_iff in E. exists c, ns. split; auto. congruence.
  - intros (c & ns & N & ->). apply read_hms_iff in N. rewrite N. reflexivity.
Qed.
Lemma parse_both_iff : forall sep s t, parse_both sep s = Some t <->
  exists a n r r' c ns, names_day a n /\ s = a ++ r /\ sep r = Some r' /\ names_clock r' c ns /\ t = (n * 86400 + c) * ns_per_sec + ns.
Proof.
  intros sep s t. unfold parse_both, names_day. split.
  - intros H. destruct (read_ymd s) as [[n r]|] eqn:E; [|discriminate]. destruct (sep r) as [r'|] eqn:S; [|discriminate].
    destruct (read_hms r') as [[[c ns] r'']|] eqn:E'; [|discriminate]. destruct (is_end r'') eqn:I; [|discriminate].
    apply is_end_iff in I. subst r''. apply read_hms_iff in E'. apply read_ymd_inv in E. destruct E as (y & m & d & Y & V & E & N).
    exists (ymd y m d), n, r, r', c, ns. split; [exists y, m, d; auto|]. repeat split; auto. congruence.
  - intros (a & n & r & r' & c & ns & (y & m & d & Y & V & -> & ->) & -> & S & C & ->).
    rewrite read_ymd_of by auto. rewrite S. apply read_hms_iff in C. rewrite C. reflexivity.
Qed.
Lemma digit_not_blank : forall d, 0 <= d < 10 -> digit d <> " "%char.
Proof. intros d H E. assert (X : digit_val (digit d) = Some d) by now apply digit_val_digit. rewrite E in X. discriminate. Qed.
Lemma names_clock_head : forall s c ns, names_clock s c ns -> exists d r, 0 <= d < 10 /\ s = String (digit d) r.
Proof.
  intros s c ns (h & mi & sc & a & f & Bh & _ & _ & [->|[L ->]] & _ & -> & _).
  - destruct (ten h ltac:(lia)) as (A & _). unfold two. cbn [append]. eauto.
  - exists h. eexists. cbn [append]. split; [lia|reflexivity].
Qed.
Lemma cut_space_spec : forall s, exists k, s = blanks k ++ cut_space s.
Proof.
  induction s as [|c s IH]; [exists 0%nat; reflexivity|]. destruct (ascii_dec c " ") as [->|N].
  - destruct IH as [k IH]. exists (S k). cbn [blanks append cut_space]. rewrite <- IH. reflexivity.
  - exists 0%nat. destruct c as [[] [] [] [] [] [] [] []]; try reflexivity. contradiction.
Qed.
Lemma cut_space_blanks : forall k d r, 0 <= d < 10 -> cut_space (blanks k ++ String (digit d) r) = String (digit d) r.
Proof.
  induction k as [|k IH]; intros d r D; [|exact (IH d r D)]. cbn [blanks append]. pose proof (digit_not_blank d D) as N.
  destruct (digit d) as [[] [] [] [] [] [] [] []]; try reflexivity. contradiction.
Qed.
Lemma skip_space_inv : forall s r, skip_space s = Some r -> (s = "" /\ r = "") \/ exists k, s = blanks (S k) ++ r.
Proof.
  intros s r H. destruct s as [|c s]; [left; cbn in H; split; congruence|]. right.
  destruct (ascii_dec c " ") as [->|N].
  - change (Some (cut_space s) = Some r) in H. assert (cut_space s = r) by congruence. subst r.
    destruct (cut_space_spec s) as [k K]. exists k. cbn [blanks append]. rewrite <- K. reflexivity.
  - exfalso. revert H N. clear. destruct c as [[] [] [] [] [] [] [] []]; cbn; try discriminate. intros _ N. now apply N.
Qed.
Lemma parse_datetime_iff : forall s t, parse_datetime s = Some t <->
  exists n c ns, names_datetime s n c ns /\ t = (n * 86400 + c) * ns_per_sec + ns.
Proof.
  intros s t. unfold parse_datetime, names_datetime. split.
  - intros H. destruct (parse_both (lit "T") s) as [t'|] eqn:E.
    + assert (t' = t) by congruence. subst t'. apply parse_both_iff in E. destruct E as (a & n & r & r' & c & ns & A & -> & S & C & ->).
      apply lit_inv in S. subst r. exists n, c, ns. split; [|reflexivity]. exists a, r', "T". repeat split; auto.
    + apply parse_both_iff in H. destruct H as (a & n & r & r' & c & ns & A & -> & S & C & ->).
      apply skip_space_inv in S. destruct S as [[-> ->]|[k ->]].
      * apply names_clock_head in C. destruct C as (? & ? & ? & ?). discriminate.
      * exists n, c, ns. split; [|reflexivity]. exists a, r', (blanks (S k)). repeat split; eauto.
  - intros (n & c & ns & (a & b & sep & A & B & S & ->) & ->).
    assert (Q : forall sp, sp (sep ++ b) = Some b -> parse_both sp (a ++ sep ++ b) = Some ((n * 86400 + c) * ns_per_sec + ns)).
    { intros sp E. apply parse_both_iff. exists a, n, (sep ++ b), b, c, ns. auto. }
    destruct S as [->|[k ->]].
    + rewrite (Q (lit "T")); reflexivity.
    + destruct (parse_both (lit "T") (a ++ blanks (S k) ++ b)) as [x|] eqn:E.
      * exfalso. apply parse_both_iff in E. destruct E as (a' & n' & r & r' & c' & ns' & A' & E & S & _).
        apply lit_inv in S. subst r. destruct A as (y & m & d & _ & _ & -> & _). destruct A' as (y' & m' & d' & _ & _ & -> & _).
        apply app_inv_length in E; [|reflexivity]. destruct E as [_ E]. discriminate.
      * apply Q. destruct (names_clock_head _ _ _ B) as (d & r & D & ->).
        change (Some (cut_space (blanks k ++ String (digit d) r)) = Some (String (digit d) r)). now rewrite cut_space_blanks.
Qed.
