From Coq Require Import Ascii String List ZArith QArith Lia Bool SpecFloat.
From Verif Require Import GoBase GoBaseFacts CalendarModel CalendarFacts InstantModel InstantFacts DecModel DecFacts ClockTextModel ClockTextSpec ClockTextProofs ClockTextProps ValueModel ValueFacts CompareSpec CompareProofs CodecModel CodecProofs PartModel PartProofs GroupModel GroupSpec.
Import ListNotations.
Local Open Scope string_scope.
Open Scope Z_scope.
Local Opaque civil year_start leap godate.

Lemma num_text_inj q r : num_text q = num_text r <-> Qeq q r.
Proof.
  assert (R : forall q, rat_read (num_text q) = Qred q).
  { intros x. unfold num_text, rat_read.
    rewrite split1_app by apply dec_no_slash. rewrite split1_nochar by (apply digits_no_slash, udec_all_digits; lia).
    rewrite read_int_dec, read_udec by lia. destruct (Qred x) as [n d] eqn:R. cbn [Qnum Qden].
    rewrite <- R. rewrite (Qred_complete (Qred x) x (Qred_correct x)). reflexivity. }
  split.
  - intros H. apply (f_equal rat_read) in H. rewrite !R in H. rewrite <- (Qred_correct q), <- (Qred_correct r), H. reflexivity.
  - intros H. apply Qred_complete in H. unfold num_text. now rewrite H.
Qed.

Lemma date_key a b : a mod 86400000000000 = 0 -> b mod 86400000000000 = 0 ->
  0 <= year (a / 86400000000000) <= 9999 -> 0 <= year (b / 86400000000000) <= 9999 ->
  (date_text (day_no a) = date_text (day_no b) <-> a = b).
Proof.
  intros A B Ya Yb. unfold day_no. rewrite nspd. split; [|now intros ->].
  intros H. apply (proj1 c100_text_is_unambiguous) in H; auto.
  pose proof (Z.div_mod a 86400000000000 ltac:(lia)). pose proof (Z.div_mod b 86400000000000 ltac:(lia)). lia.
Qed.
Lemma datetime_key a b : a mod 1000 = 0 -> b mod 1000 = 0 ->
  0 <= year (a / 86400000000000) <= 9999 -> 0 <= year (b / 86400000000000) <= 9999 ->
  (datetime_text a = datetime_text b <-> a = b).
Proof.
  intros A B Ya Yb. split; [|now intros ->]. apply c100_text_is_unambiguous; auto.
Qed.
Lemma time_key a b : a mod 1000 = 0 -> b mod 1000 = 0 ->
  a / 86400000000000 = godate 0 1 1 -> b / 86400000000000 = godate 0 1 1 ->
  (clock_text a = clock_text b <-> a = b).
Proof.
  intros A B Da Db. split; [|now intros ->]. intros H. apply (f_equal parse_time) in H. rewrite !parse_time_text in H.
  assert (E : (godate 0 1 1 * 86400 + clock a) * ns_per_sec + nanosecond a / 1000 * 1000 =
              (godate 0 1 1 * 86400 + clock b) * ns_per_sec + nanosecond b / 1000 * 1000) by congruence.
  assert (N : forall x, x mod 1000 = 0 -> nanosecond x / 1000 * 1000 = nanosecond x).
  { intros x X. unfold nanosecond, ns_per_sec. pose proof (Z.div_mod (x mod 1000000000) 1000 ltac:(lia)) as D.
    assert (x mod 1000000000 mod 1000 = 0); [|lia].
    rewrite <- X. replace 1000000000 with (1000 * 1000000) by lia. rewrite Z.rem_mul_r by lia.
    rewrite Z.add_comm, (Z.mul_comm 1000), Z.add_mod, Z.mod_mul by lia. rewrite Z.add_0_l, !Z.mod_mod; lia. }
  rewrite !N in E by assumption.
  pose proof (wall_fields a) as Wa. pose proof (wall_fields b) as Wb. rewrite <- clock_fields in Wa, Wb.
  unfold day_no in Wa, Wb. rewrite nspd in Wa, Wb. rewrite Da in Wa. rewrite Db in Wb. unfold ns_per_sec in E. lia.
Qed.

(** ** TIMESTAMP *)
Lemma zone_text_inj a b : a mod 60 = 0 -> b mod 60 = 0 -> -86400 < a < 86400 -> -86400 < b < 86400 ->
  zone_text a = zone_text b -> a = b.
Proof.
  intros A B Ra Rb. unfold zone_text.
  assert (Qa : a = 60 * Z.quot a 60) by (apply Z.mod_divide in A; [|lia]; destruct A as [k ->]; rewrite Z.quot_mul by lia; lia).
  assert (Qb : b = 60 * Z.quot b 60) by (apply Z.mod_divide in B; [|lia]; destruct B as [k ->]; rewrite Z.quot_mul by lia; lia).
  set (x := Z.quot a 60) in *. set (y := Z.quot b 60) in *.
  destruct (Z.eqb_spec a 0), (Z.eqb_spec b 0); try lia.
  - destruct (y <? 0); discriminate.
  - destruct (x <? 0); discriminate.
  - intros H.
    assert (Hx : 0 <= Z.abs x / 60 < 100 /\ 0 <= Z.abs x mod 60 < 100).
    { pose proof (Z.mod_pos_bound (Z.abs x) 60 ltac:(lia)). split; [|lia]. split; [apply Z.div_pos; lia|apply Z.div_lt_upper_bound; lia]. }
    assert (Hy : 0 <= Z.abs y / 60 < 100 /\ 0 <= Z.abs y mod 60 < 100).
    { pose proof (Z.mod_pos_bound (Z.abs y) 60 ltac:(lia)). split; [|lia]. split; [apply Z.div_pos; lia|apply Z.div_lt_upper_bound; lia]. }
    rewrite !pad_two in H by lia.
    assert (K : forall s t : string, forall p q p' q' : Z, 0 <= p < 100 -> 0 <= q < 100 -> 0 <= p' < 100 -> 0 <= q' < 100 ->
      String.length s = String.length t -> s ++ two p ++ ":" ++ two q = t ++ two p' ++ ":" ++ two q' -> s = t /\ p = p' /\ q = q').
    { intros s t p q p' q' P1 P2 P3 P4 L E. apply app_inv_length in E; [|assumption]. destruct E as [-> E]. split; [reflexivity|].
      apply app_inv_length in E; [|reflexivity]. destruct E as [E1 E2].
      apply app_inv_length in E2; [|reflexivity]. destruct E2 as [_ E2].
      apply (f_equal positional) in E1, E2. rewrite !positional_two in E1, E2 by lia. split; congruence. }
    apply K in H; try lia; [|destruct (x <? 0), (y <? 0); reflexivity].
    destruct H as (S1 & S2 & S3).
    pose proof (Z.div_mod (Z.abs x) 60 ltac:(lia)). pose proof (Z.div_mod (Z.abs y) 60 ltac:(lia)).
    destruct (Z.ltb_spec x 0), (Z.ltb_spec y 0); try discriminate S1; lia.
Qed.
Lemma two_eq p q : 0 <= p < 100 -> 0 <= q < 100 -> two p = two q -> p = q.
Proof. intros P Q E. apply (f_equal positional) in E. rewrite !positional_two in E by assumption. congruence. Qed.
Lemma hms_inj h m s h' m' s' z z' : 0 <= h < 100 -> 0 <= m < 100 -> 0 <= s < 100 -> 0 <= h' < 100 -> 0 <= m' < 100 -> 0 <= s' < 100 ->
  hms h m s ++ z = hms h' m' s' ++ z' -> h = h' /\ m = m' /\ s = s' /\ z = z'.
Proof.
  intros H1 H2 H3 H4 H5 H6 E. apply app_inv_length in E; [|reflexivity]. destruct E as [E Ez]. unfold hms in E.
  apply app_inv_length in E; [|reflexivity]. destruct E as [E1 E].
  apply app_inv_length in E; [|reflexivity]. destruct E as [_ E].
  apply app_inv_length in E; [|reflexivity]. destruct E as [E2 E].
  apply app_inv_length in E; [|reflexivity]. destruct E as [_ E3].
  apply two_eq in E1, E2, E3; auto.
Qed.
Lemma rfc3339_eq l t : year_in l t -> let w := wall l t in
  rfc3339 l t = ymd (year (day_no w)) (month (day_no w)) (day (day_no w)) ++ "T" ++ hms (hour w) (minute w) (second w) ++ zone_text (l (unix t)).
Proof.
  intros Y w. unfold rfc3339. fold w. rewrite date_text_ymd by exact Y. pose proof (field_ranges w) as R.
  rewrite !pad_two by lia. reflexivity.
Qed.
Lemma rfc3339_key l a b : minute_zone l -> year_in l a -> year_in l b ->
  (rfc3339 l a = rfc3339 l b <-> unix a = unix b).
Proof.
  intros Mz Ya Yb. split.
  - intros H. rewrite !rfc3339_eq in H by assumption.
    apply app_inv_length in H; [|reflexivity]. destruct H as [Hd H].
    apply app_inv_length in H; [|reflexivity]. destruct H as [_ H].
    pose proof (field_ranges (wall l a)) as Ra. pose proof (field_ranges (wall l b)) as Rb.
    apply hms_inj in H; try lia. destruct H as (H1 & H2 & H3 & H4).
    destruct (Mz (unix a)) as [Ma Ba]. destruct (Mz (unix b)) as [Mb Bb].
    apply zone_text_inj in H4; auto.
    rewrite <- !date_text_ymd in Hd by assumption. apply (proj1 c100_text_is_unambiguous) in Hd; auto.
    pose proof (wall_fields (wall l a)) as Wa. pose proof (wall_fields (wall l b)) as Wb.
    unfold unix, ns_per_sec in *.
    pose proof (Z.div_mod a 1000000000 ltac:(lia)). pose proof (Z.div_mod b 1000000000 ltac:(lia)).
    pose proof (Z.mod_pos_bound a 1000000000 ltac:(lia)). pose proof (Z.mod_pos_bound b 1000000000 ltac:(lia)).
    assert (Na : nanosecond (wall l a) = a mod 1000000000).
    { unfold nanosecond, wall, ns_per_sec. apply Z.mod_add. lia. }
    assert (Nb : nanosecond (wall l b) = b mod 1000000000).
    { unfold nanosecond, wall, ns_per_sec. apply Z.mod_add. lia. }
    assert (Xa : wall l a = a + l (a / 1000000000) * 1000000000) by reflexivity.
    assert (Xb : wall l b = b + l (b / 1000000000) * 1000000000) by reflexivity.
    pose proof (wall_fields (wall l a)). pose proof (wall_fields (wall l b)). lia.
  - intros U. unfold rfc3339.
    assert (W : day_no (wall l a) = day_no (wall l b) /\ clock (wall l a) = clock (wall l b)).
    { unfold day_no, clock, wall. rewrite nspd, U. unfold unix, ns_per_sec in *.
      assert (Q : (a + l (b / 1000000000) * 1000000000) / 1000000000 = (b + l (b / 1000000000) * 1000000000) / 1000000000)
        by (rewrite !Z.div_add by lia; lia).
      rewrite Q. replace 86400000000000 with (1000000000 * 86400) by lia. rewrite <- !Z.div_div by lia. rewrite Q. split; reflexivity. }
    destruct W as [D C]. unfold hour, minute, second. now rewrite D, C, U.
Qed.

(** ** All types *)
Lemma eqb_iff (a b : string) (P : Prop) : (a = b <-> P) -> (String.eqb a b = true <-> P).
Proof. intros H. rewrite String.eqb_eq. exact H. Qed.
Lemma key_iff l t a b : not_nan a -> not_nan b -> column t a -> column t b ->
  exists ka kb, group_key l a = Ok ka /\ group_key l b = Ok kb /\ (same_key ka kb = true <-> equal_keys a b).
Proof.
  intros N1 N2 A B. destruct a as [a|], b as [b|]; cbn [column] in A, B; cbn [group_key].
  - destruct t, a; cbn [column_value] in A; try tauto; destruct b; cbn [column_value] in B; try tauto;
      (eexists; eexists; split; [reflexivity|split; [reflexivity|]]); cbn [same_key equal_keys alike].
    + apply Z.eqb_eq.
    + apply String.eqb_eq.
    + apply String.eqb_eq.
    + pose proof (N1 f eq_refl) as N1'. pose proof (N2 f0 eq_refl) as N2'.
      rewrite N1', N2'. cbn [same_key]. rewrite float_compare_spec by (split; assumption).
      destruct (Z.compare_spec (float_scaled f) (float_scaled f0)); intuition (try congruence; try lia).
    + apply eqb_iff, num_text_inj.
    + destruct b0, b; cbn; intuition congruence.
    + apply eqb_iff. destruct A, B. now apply date_key.
    + apply eqb_iff. destruct A, B. now apply datetime_key.
    + apply eqb_iff. destruct A, B. now apply time_key.
  - destruct t, a; cbn [column_value] in A; try tauto; (eexists; eexists; split; [reflexivity|split; [reflexivity|]]); cbn [same_key equal_keys];
      try (split; [discriminate|tauto]).
    rewrite (N1 f eq_refl). cbn. split; [discriminate|tauto].
  - destruct t, b; cbn [column_value] in B; try tauto; (eexists; eexists; split; [reflexivity|split; [reflexivity|]]); cbn [same_key equal_keys];
      try (split; [discriminate|tauto]).
    rewrite (N2 f eq_refl). cbn. split; [discriminate|tauto].
  - exists KNull, KNull. split; [reflexivity|]. split; [reflexivity|]. cbn. tauto.
Qed.
