From Coq Require Import Ascii String List ZArith Lia Bool.
From Verif Require Import GoBase GoBaseFacts CalendarModel CalendarFacts InstantModel DateModel DateSpec DateProofs PartModel PartSpec PartProofs IntervalModel IntervalSpec.
Import ListNotations.
Local Open Scope string_scope.
Open Scope Z_scope.
Local Opaque civil year_start leap godate.

Lemma in32_abs z : Z.abs z <= 2147483647 -> wrap32 z = z.
Proof. intros H. apply wrap32_id. unfold in32, two31. lia. Qed.

Lemma quot_rem_facts a k : 0 < k -> a = k * Z.quot a k + Z.rem a k /\ under k (Z.rem a k) /\ Z.abs (Z.quot a k) <= Z.abs a / k.
Proof.
  intros K. split; [apply Z.quot_rem; lia|]. split.
  - unfold under. pose proof (Z.rem_bound_abs a k ltac:(lia)). lia.
  - rewrite <- Z.quot_abs by lia. rewrite Z.quot_div_nonneg by lia. rewrite (Z.abs_eq k) by lia. lia.
Qed.
Lemma quot_small_abs a k : under k a -> Z.quot a k = 0 /\ Z.rem a k = a.
Proof.
  intros H. destruct (Z.le_ge_cases 0 a) as [P|N].
  - split; [apply Z.quot_small|apply Z.rem_small]; unfold under in H; lia.
  - replace a with (- (- a)) by lia. unfold under in H. rewrite Z.quot_opp_l, Z.rem_opp_l' by lia.
    rewrite Z.quot_small, Z.rem_small by lia. lia.
Qed.

(** A carry of the same field is one division. *)
Lemma carry_same k hi lo : 0 < k -> in32 hi -> carry k hi lo lo = (wrap32 (hi + Z.quot lo k), Z.rem lo k).
Proof.
  intros K H. unfold carry. destruct (Z.ltb_spec (k - 1) lo); [reflexivity|].
  destruct (Z.ltb_spec lo (1 - k)); [reflexivity|].
  destruct (quot_small_abs lo k ltac:(unfold under; lia)) as [-> ->]. rewrite Z.add_0_r, wrap32_id; auto.
Qed.
(** The carry of the minutes: right unless they are under -59. *)
Lemma carry_min k hi lo b : 0 < k -> in32 hi ->
  carry k hi lo b = (wrap32 (hi + (if lo <? 1 - k then Z.quot b k else Z.quot lo k)), Z.rem lo k).
Proof.
  intros K H. unfold carry. destruct (Z.ltb_spec (k - 1) lo).
  - destruct (Z.ltb_spec lo (1 - k)); [lia|reflexivity].
  - destruct (Z.ltb_spec lo (1 - k)); [reflexivity|].
    destruct (quot_small_abs lo k ltac:(unfold under; lia)) as [-> ->]. rewrite Z.add_0_r, wrap32_id; auto.
Qed.

(** JUSTIFY_DAYS *)
Definition total_months (v : interval) : Z := months v + Z.quot (days v) 30.
Definition days_within (v : interval) : Prop :=
  Z.abs (years v) <= 10000 /\ Z.abs (months v) <= 120000 /\ Z.abs (days v) <= 20000000.
Lemma days_eq v : days_within v ->
  justify_days v =
    let m := total_months v in
    let c := if 11 <? m then 1 else if m <? -11 then -1 else 0 in
    IV (years v + c) (m - 12 * c) (Z.rem (days v) 30) (hours v) (minutes v) (seconds v) (nanos v).
Proof.
  intros (Y & M & D). unfold justify_days, total_months.
  pose proof (quot_rem_facts (days v) 30 ltac:(lia)) as (_ & _ & Q).
  assert (Z.abs (days v) / 30 <= 700000) by (apply Z.div_le_upper_bound; lia).
  rewrite carry_same by (unfold in32, two31; lia). rewrite (in32_abs (months v + _)) by lia. cbn iota zeta beta.
  set (m := months v + Z.quot (days v) 30) in *.
  destruct (11 <? m); [|destruct (m <? -11)]; rewrite ?in32_abs by lia; f_equal; lia.
Qed.

(** JUSTIFY_HOURS *)
Definition hour_carry (v : interval) : Z :=
  if whole_minutes v <? -59 then Z.quot (hours v) 60 else Z.quot (whole_minutes v) 60.
Lemma hours_eq v : within v ->
  justify_hours v =
    let h := hours v + hour_carry v in
    IV (years v) (months v) (days v + Z.quot h 24) (Z.rem h 24) (Z.rem (whole_minutes v) 60) (Z.rem (seconds v) 60) (nanos v).
Proof.
  intros (Y & M & D & H & Mi & S_). unfold justify_hours, hour_carry, whole_minutes.
  pose proof (quot_rem_facts (seconds v) 60 ltac:(lia)) as (_ & _ & Q).
  assert (Z.abs (seconds v) / 60 <= 33333334) by (apply Z.div_le_upper_bound; lia).
  rewrite carry_same by (unfold in32, two31; lia). rewrite (in32_abs (minutes v + _)) by lia. cbn iota zeta beta.
  set (mi := minutes v + Z.quot (seconds v) 60) in *.
  pose proof (quot_rem_facts mi 60 ltac:(lia)) as (_ & _ & Q2).
  assert (Z.abs mi / 60 <= 35000000) by (apply Z.div_le_upper_bound; lia).
  pose proof (quot_rem_facts (hours v) 60 ltac:(lia)) as (_ & _ & Q3).
  assert (Z.abs (hours v) / 60 <= 35000000) by (apply Z.div_le_upper_bound; lia).
  rewrite carry_min by (unfold in32, two31; lia). change (1 - 60) with (-59).
  set (c := if mi <? -59 then Z.quot (hours v) 60 else Z.quot mi 60) in *.
  assert (Z.abs c <= 35000000) by (unfold c; destruct (mi <? -59); lia).
  rewrite (in32_abs (hours v + c)) by lia. cbn iota zeta beta.
  pose proof (quot_rem_facts (hours v + c) 24 ltac:(lia)) as (_ & _ & Q4).
  assert (Z.abs (hours v + c) / 24 <= 6000000) by (apply Z.div_le_upper_bound; lia).
  rewrite carry_same by (unfold in32, two31; lia). rewrite (in32_abs (days v + _)) by lia. reflexivity.
Qed.
Lemma hours_within v : within v -> days_within (justify_hours v).
Proof.
  intros W. rewrite (hours_eq v W). cbv zeta. unfold days_within. cbn [years months days].
  destruct W as (Y & M & D & H & Mi & S_). unfold hour_carry, whole_minutes.
  pose proof (quot_rem_facts (seconds v) 60 ltac:(lia)) as (_ & _ & Q).
  assert (Z.abs (seconds v) / 60 <= 33333334) by (apply Z.div_le_upper_bound; lia).
  set (mi := minutes v + Z.quot (seconds v) 60) in *.
  pose proof (quot_rem_facts mi 60 ltac:(lia)) as (_ & _ & Q2).
  assert (Z.abs mi / 60 <= 35000000) by (apply Z.div_le_upper_bound; lia).
  pose proof (quot_rem_facts (hours v) 60 ltac:(lia)) as (_ & _ & Q3).
  assert (Z.abs (hours v) / 60 <= 35000000) by (apply Z.div_le_upper_bound; lia).
  set (c := if mi <? -59 then Z.quot (hours v) 60 else Z.quot mi 60) in *.
  assert (Z.abs c <= 35000000) by (unfold c; destruct (mi <? -59); lia).
  pose proof (quot_rem_facts (hours v + c) 24 ltac:(lia)) as (_ & _ & Q4).
  assert (Z.abs (hours v + c) / 24 <= 6000000) by (apply Z.div_le_upper_bound; lia). lia.
Qed.
Lemma within_days v : within v -> days_within v.
Proof. unfold within, days_within. lia. Qed.
(** What JUSTIFY_DAYS does. *)
Lemma days_props v : days_within v ->
  length30 (justify_days v) = length30 v /\ clock_count (justify_days v) = clock_count v /\
  under 30 (days (justify_days v)) /\
  (under 12 (months (justify_days v)) <-> under 24 (months v + Z.quot (days v) 30)).
Proof.
  intros W. rewrite (days_eq v W). cbv zeta. unfold length30, length24, month_count, clock_count.
  cbn [years months days hours minutes seconds nanos].
  destruct (quot_rem_facts (days v) 30 ltac:(lia)) as (E & U & _). fold (total_months v).
  split; [|split; [reflexivity|split; [exact U|]]].
  - unfold total_months. set (c := if 11 <? _ then 1 else _). lia.
  - destruct (Z.ltb_spec 11 (total_months v)); [|destruct (Z.ltb_spec (total_months v) (-11))]; unfold under; lia.
Qed.
Lemma hours_length v : within v ->
  length24 (justify_hours v) = length24 v + (hour_carry v - Z.quot (whole_minutes v) 60) * 3600000000000.
Proof.
  intros W. rewrite (hours_eq v W). cbv zeta. unfold length24, clock_count. cbn [days hours minutes seconds nanos].
  pose proof (Z.quot_rem (hours v + hour_carry v) 24 ltac:(lia)).
  pose proof (Z.quot_rem (whole_minutes v) 60 ltac:(lia)). pose proof (Z.quot_rem (seconds v) 60 ltac:(lia)).
  unfold whole_minutes in *. lia.
Qed.
(** The hour carry is wrong exactly when the minutes are under -59 and the hours have
    another quotient. *)
Lemma hour_carry_ok v : hour_carry v = Z.quot (whole_minutes v) 60 <->
  -60 < whole_minutes v \/ Z.quot (hours v) 60 = Z.quot (whole_minutes v) 60.
Proof. unfold hour_carry. destruct (Z.ltb_spec (whole_minutes v) (-59)); lia. Qed.

(** ** Adding *)
Lemma shift_eq sg w v d : months_later (day_no w) (sg * month_count v) d ->
  shift sg w v = (d + (day (day_no w) - day d) + sg * days v) * 86400000000000 + w mod 86400000000000 + sg * clock_count v.
Proof.
  intros [K _]. unfold shift, go_time, ns_per_sec. rewrite godate_mstart.
  destruct (mix_spec d) as [_ E].
  assert (X : mindex (year (day_no w) + sg * years v) (month (day_no w) + sg * months v) = mix d).
  { unfold mix, mindex, month_count in *. lia. }
  rewrite X. pose proof (wall_fields w) as F. pose proof (day_no_split w) as G. unfold clock_count. lia.
Qed.
