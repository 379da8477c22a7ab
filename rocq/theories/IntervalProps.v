(** Properties C66 and C131-C135: INTERVAL values. *)
From Coq Require Import Ascii String List ZArith Lia Bool.
From Verif Require Import GoBase GoBaseFacts CalendarModel CalendarFacts InstantModel DateModel DateSpec DateProofs PartModel PartSpec PartProofs PartProps IntervalModel IntervalSpec IntervalProofs.
Import ListNotations.
Local Open Scope string_scope.
Open Scope Z_scope.
Local Opaque civil year_start leap godate.

(** ** C66 and C131: JUSTIFY *)
(** JUSTIFY_DAYS keeps the length and brings the days under 30; one year at most is
    carried, so the months are under 12 exactly when the sum was under 24. *)
Theorem c66_days_partial : forall v, within v ->
  length30 (justify_days v) = length30 v /\ clock_count (justify_days v) = clock_count v /\
  under 30 (days (justify_days v)) /\
  (under 12 (months (justify_days v)) <-> under 24 (months v + Z.quot (days v) 30)).
Proof. intros v W. now apply days_props, within_days. Qed.
(** An interval of at least 1050 days and less than a year besides is left with more than
    11 months. *)
Theorem c66_months_refuted : forall v, within v -> under 12 (months v) -> 1050 <= Z.abs (days v) ->
  ~ under 12 (months (justify_days v)).
Proof.
  intros v W M D. rewrite (proj2 (proj2 (proj2 (c66_days_partial v W)))). unfold under in *.
  pose proof (Z.quot_rem (days v) 30 ltac:(lia)). pose proof (Z.rem_bound_abs (days v) 30 ltac:(lia)). lia.
Qed.
(** JUSTIFY_HOURS brings hours, minutes and seconds under their limits, and keeps the length
    exactly when the minutes are above -60, or the hours happen to have the same quotient
    by 60. *)
Theorem c66_hours_partial : forall v, within v ->
  under 24 (hours (justify_hours v)) /\ under 60 (minutes (justify_hours v)) /\ under 60 (seconds (justify_hours v)) /\
  month_count (justify_hours v) = month_count v /\
  (length24 (justify_hours v) = length24 v <->
   -60 < whole_minutes v \/ Z.quot (hours v) 60 = Z.quot (whole_minutes v) 60).
Proof.
  intros v W. pose proof (hours_length v W) as L. rewrite <- hour_carry_ok. rewrite (hours_eq v W) in L |- *. cbv zeta in *.
  cbn [years months days hours minutes seconds nanos] in *.
  split; [apply quot_rem_facts; lia|]. split; [apply quot_rem_facts; lia|]. split; [apply quot_rem_facts; lia|].
  split; [reflexivity|]. lia.
Qed.
(** Without hours, 60 or more negative minutes always change the length. *)
Theorem c66_minutes_refuted : forall v, within v -> hours v = 0 -> whole_minutes v <= -60 ->
  length24 (justify_hours v) = length24 v + Z.quot (- whole_minutes v) 60 * 3600000000000 /\
  length24 (justify_hours v) <> length24 v.
Proof.
  intros v W H M. rewrite (hours_length v W). unfold hour_carry. rewrite H.
  destruct (Z.ltb_spec (whole_minutes v) (-59)); [|lia]. rewrite Z.quot_opp_l by lia. change (Z.quot 0 60) with 0.
  pose proof (Z.quot_rem (whole_minutes v) 60 ltac:(lia)). pose proof (Z.rem_bound_abs (whole_minutes v) 60 ltac:(lia)). lia.
Qed.
(** JUSTIFY_INTERVAL does both: its result has the length of the interval exactly when
    JUSTIFY_HOURS kept it, and the months are under 12 exactly when those with the carried
    days were under 24. *)
Theorem c66_interval_partial : forall v, within v ->
  under 30 (days (justify_interval v)) /\ under 24 (hours (justify_interval v)) /\
  under 60 (minutes (justify_interval v)) /\ under 60 (seconds (justify_interval v)) /\
  (length30 (justify_interval v) = length30 v <-> length24 (justify_hours v) = length24 v) /\
  (under 12 (months (justify_interval v)) <-> under 24 (months v + Z.quot (days (justify_hours v)) 30)).
Proof.
  intros v W. destruct (c66_hours_partial v W) as (H1 & H2 & H3 & H4 & _).
  pose proof (hours_within v W) as W2. destruct (days_props _ W2) as (I1 & _ & I3 & I4).
  assert (M : months (justify_hours v) = months v) by (rewrite (hours_eq v W); reflexivity).
  rewrite M in I4.
  assert (J : hours (justify_interval v) = hours (justify_hours v) /\ minutes (justify_interval v) = minutes (justify_hours v) /\
              seconds (justify_interval v) = seconds (justify_hours v)).
  { unfold justify_interval. rewrite (days_eq _ W2). repeat split. }
  destruct J as (J1 & J2 & J3). rewrite J1, J2, J3. unfold justify_interval.
  repeat match goal with |- _ /\ _ => split end; auto. rewrite I1. unfold length30. rewrite H4. lia.
Qed.

(** C131: what JUSTIFY does to intervals in the form they are written in, with minutes and
    seconds under 60: all three keep the length, and the hours and days end under 24 and
    30. *)
Theorem c131_written : forall v, within v -> under 60 (minutes v) -> under 60 (seconds v) ->
  length30 (justify_days v) = length30 v /\ length24 (justify_hours v) = length24 v /\
  length30 (justify_interval v) = length30 v /\
  under 30 (days (justify_days v)) /\ under 24 (hours (justify_hours v)) /\
  under 30 (days (justify_interval v)) /\ under 24 (hours (justify_interval v)) /\
  minutes (justify_interval v) = minutes v /\ seconds (justify_interval v) = seconds v /\ nanos (justify_interval v) = nanos v.
Proof.
  intros v W M S_. destruct (c66_days_partial v W) as (D1 & _ & D3 & _). destruct (c66_hours_partial v W) as (H1 & H2 & H3 & H4 & H5).
  pose proof (hours_within v W) as W2. destruct (days_props _ W2) as (I1 & _ & I3 & _).
  assert (Q : Z.quot (seconds v) 60 = 0) by now apply quot_small_abs.
  assert (K : length24 (justify_hours v) = length24 v).
  { apply H5. left. unfold whole_minutes. rewrite Q. unfold under in M. lia. }
  assert (Wm : whole_minutes v = minutes v) by (unfold whole_minutes; lia).
  assert (J : hours (justify_interval v) = hours (justify_hours v) /\ minutes (justify_interval v) = minutes v /\
              seconds (justify_interval v) = seconds v /\ nanos (justify_interval v) = nanos v).
  { unfold justify_interval. rewrite (days_eq _ W2). cbv zeta. cbn [hours minutes seconds nanos]. rewrite (hours_eq v W). cbv zeta.
    cbn [hours minutes seconds nanos]. rewrite Wm. repeat split; now apply quot_small_abs. }
  destruct J as (J1 & J2 & J3 & J4). rewrite J1, J2, J3, J4. unfold justify_interval.
  repeat match goal with |- _ /\ _ => split end; auto; unfold length30 in *; try lia.
Qed.
Example c66_example :
  (* JUSTIFY_DAYS(INTERVAL 370 DAY), 3 years of days, INTERVAL -12345 MINUTE as it is and as it is written *)
  within (IV 0 0 370 0 0 0 0) /\ justify_days (IV 0 0 370 0 0 0 0) = IV 1 0 10 0 0 0 0 /\
  justify_days (IV 0 0 1080 0 0 0 0) = IV 1 24 0 0 0 0 0 /\
  within (IV 0 0 0 0 (-12345) 0 0) /\ justify_hours (IV 0 0 0 0 (-12345) 0 0) = IV 0 0 0 0 (-45) 0 0 /\
  within (IV 0 0 0 (-205) (-45) 0 0) /\ justify_hours (IV 0 0 0 (-205) (-45) 0 0) = IV 0 0 (-8) (-13) (-45) 0 0 /\
  justify_interval (IV 0 0 29 49 0 0 0) = IV 0 1 1 1 0 0 0.
Proof. unfold within. repeat split; vm_compute; congruence. Qed.

(** ** C132: INTERVAL n part *)
(** An interval of n parts comes out for the parts other than QUARTER and WEEK exactly when
    n fits 32 bits; QUARTER and WEEK always fail. *)
Theorem c132_part_partial : forall part size n, In (part, size) part_size -> in64 n ->
  ((exists v, make_part n part = Ok v /\ is_of_parts n size v) <-> in32 n /\ part <> "QUARTER" /\ part <> "WEEK").
Proof.
  intros part size n I _. cbn [part_size In] in I.
  repeat match type of I with _ \/ _ => destruct I as [I|I] | False => destruct I end;
    (assert (P : part = fst (part, size)) by reflexivity; assert (Q : size = snd (part, size)) by reflexivity; rewrite <- I in P, Q; cbn [fst snd] in P, Q; subst part size; clear I;
     unfold make_part; cbn [String.eqb Ascii.eqb Bool.eqb];
     split; [intros (v & E & S_); try discriminate; apply Ok_inj in E; subst v; unfold is_of_parts, month_count, clock_count in S_;
             cbn [years months days hours minutes seconds nanos] in S_; pose proof (wrap32_range n); repeat split; try discriminate; unfold in32 in *; lia
            |intros (R & A & B); first [congruence | rewrite (wrap32_id n R); eexists; split; [reflexivity|];
             unfold is_of_parts, month_count, clock_count; cbn [years months days hours minutes seconds nanos]; lia]]).
Qed.
Theorem c132_wrap_refuted : forall part size n, In (part, size) part_size -> in64 n -> ~ in32 n ->
  forall v, make_part n part = Ok v -> ~ is_of_parts n size v.
Proof. intros part size n I B N v E S_. apply N. apply (c132_part_partial part size n I B). now exists v. Qed.
Theorem c132_week_refuted : forall n, make_part n "WEEK" = Err /\ make_part n "QUARTER" = Err.
Proof. intros n. split; reflexivity. Qed.
(** MAKE_INTERVAL *)
Theorem c132_make_partial : forall y m d h mi s, in64 y -> in64 m -> in64 d -> in64 h -> in64 mi -> in64 s ->
  exists v, make_interval y m d h mi s = Ok v /\
    ((years v = y /\ months v = m /\ days v = d /\ hours v = h /\ minutes v = mi /\ seconds v = s /\ nanos v = 0) <->
     in32 y /\ in32 m /\ in32 d /\ in32 h /\ in32 mi /\ in32 s).
Proof.
  intros y m d h mi s _ _ _ _ _ _. eexists. split; [reflexivity|]. cbn [years months days hours minutes seconds nanos]. split.
  - intros (A & B & C & D & E & F & _). rewrite <- A, <- B, <- C, <- D, <- E, <- F. repeat (split; [apply wrap32_range|]). apply wrap32_range.
  - intros (A & B & C & D & E & F). rewrite !wrap32_id by assumption. tauto.
Qed.
Example c132_example :
  make_part 3000000000 "SECOND" = Ok (IV 0 0 0 0 0 (-1294967296) 0) /\ in64 3000000000 /\ ~ in32 3000000000 /\
  make_part (-3) "MONTH" = Ok (IV 0 (-3) 0 0 0 0 0) /\ In ("SECOND", (0, 0, 1000000000)) part_size.
Proof. split; [reflexivity|]. split; [unfold in64, two63; lia|]. split; [unfold in32, two31; lia|]. split; [reflexivity|]. cbn. tauto. Qed.

(** ** C133: DATE and DATETIME with an INTERVAL *)
(** d is the day that the months of the interval lead to, clamped to the end of its month.
    When that day has the same day of the month, the result is that day at the time of day
    of the argument, moved by the days and the clock of the interval. *)
Definition arrives (w r d dd ns : Z) : Prop := r = (d + dd) * day_length + time_of_day w + ns.
Lemma arrives_dec w v d : months_later (w / day_length) (month_count v) d ->
  datetime_plus w v = (d + (day (w / day_length) - day d) + days v) * day_length + time_of_day w + clock_count v.
Proof.
  intros H. unfold datetime_plus. rewrite (shift_eq 1 w v d).
  - unfold time_of_day, day_no. rewrite nspd. unfold day_length. lia.
  - unfold day_no. rewrite nspd. now rewrite Z.mul_1_l.
Qed.
Lemma leaves_dec w v d : months_later (w / day_length) (- month_count v) d ->
  datetime_minus w v = (d + (day (w / day_length) - day d) - days v) * day_length + time_of_day w - clock_count v.
Proof.
  intros H. unfold datetime_minus. rewrite (shift_eq (-1) w v d).
  - unfold time_of_day, day_no. rewrite nspd. unfold day_length. lia.
  - unfold day_no. rewrite nspd. now replace (-1 * month_count v) with (- month_count v) by lia.
Qed.
Theorem c133_datetime_partial : forall w v,
  (forall d, months_later (w / day_length) (month_count v) d ->
     (arrives w (datetime_plus w v) d (days v) (clock_count v) <-> day d = day (w / day_length))) /\
  (forall d, months_later (w / day_length) (- month_count v) d ->
     (arrives w (datetime_minus w v) d (- days v) (- clock_count v) <-> day d = day (w / day_length))).
Proof.
  intros w v. split; intros d H; unfold arrives.
  - rewrite (arrives_dec w v d H). unfold day_length. lia.
  - rewrite (leaves_dec w v d H). unfold day_length. lia.
Qed.
Theorem c133_date_partial : forall n v,
  (forall d, months_later n (month_count v) d ->
     (arrives 0 (date_plus n v) d (days v) (clock_count v) <-> day d = day n)) /\
  (forall d, months_later n (- month_count v) d ->
     (arrives 0 (date_minus n v) d (- days v) (- clock_count v) <-> day d = day n)).
Proof.
  intros n v. pose proof (c133_datetime_partial (n * day_length) v) as [A B].
  assert (N : n * day_length / day_length = n) by (apply Z.div_mul; unfold day_length; lia).
  assert (T : time_of_day (n * day_length) = time_of_day 0).
  { unfold time_of_day. rewrite Z.mod_mul by (unfold day_length; lia). reflexivity. }
  rewrite N in A, B. unfold arrives in *. rewrite T in A, B.
  unfold date_plus, date_minus. change ns_per_day with day_length. split; assumption.
Qed.
(** Otherwise the result spills over into the next month, by the days the month lacks. *)
Theorem c133_month_end_refuted : forall w v d, months_later (w / day_length) (month_count v) d ->
  day d <> day (w / day_length) ->
  datetime_plus w v = (d + days v) * day_length + time_of_day w + clock_count v + (day (w / day_length) - day d) * day_length /\
  0 < day (w / day_length) - day d.
Proof.
  intros w v d H N. split; [rewrite (arrives_dec w v d H); lia|]. destruct H as [_ E]. lia.
Qed.
(** Without months, - undoes +. *)
Theorem c133_inverse_partial : forall w v, month_count v = 0 -> datetime_minus (datetime_plus w v) v = w.
Proof.
  assert (I : forall n, months_later n 0 n).
  { intros n. split; [lia|]. pose proof (day_range n). lia. }
  intros w v M.
  assert (P : datetime_plus w v = w + length24 v).
  { rewrite (arrives_dec w v (w / day_length)) by (rewrite M; apply I). unfold length24, time_of_day.
    pose proof (Z.div_mod w day_length ltac:(unfold day_length; lia)). unfold day_length in *. lia. }
  rewrite (leaves_dec _ v (datetime_plus w v / day_length)) by (rewrite M; apply I). rewrite P. unfold length24, time_of_day.
  pose proof (Z.div_mod (w + (days v * 86400000000000 + clock_count v)) day_length ltac:(unfold day_length; lia)).
  unfold day_length in *. lia.
Qed.
(** 2023-01-31 + INTERVAL 1 MONTH is 2023-03-03; DATE "2020-09-22" + INTERVAL "1-2 3 18:1:55" *)
Example c133_example :
  months_later (days_of 2023 1 31) 1 (days_of 2023 2 28) /\
  date_plus (days_of 2023 1 31) (IV 0 1 0 0 0 0 0) = go_time 2023 3 3 0 0 0 0 /\
  date_plus (days_of 2020 9 22) (IV 1 2 3 18 1 55 0) = go_time 2021 11 25 18 1 55 0 /\
  datetime_minus (datetime_plus leap_noon (IV 1 (-12) 400 5 0 0 0)) (IV 1 (-12) 400 5 0 0 0) = leap_noon.
Proof. unfold months_later. vm_compute. repeat split. Qed.

(** ** C134: DATE - DATE *)
(** The difference goes through a Duration of at most 292 years. *)
Theorem c134_days_partial : forall a b, in_range a -> in_range b ->
  (is_of_parts (a - b) (0, 1, 0) (date_minus_date a b) <-> Z.abs (a - b) <= 106751).
Proof.
  intros a b A B. unfold is_of_parts, date_minus_date, month_count, clock_count, span, two63, day_ns.
  cbn [years months days hours minutes seconds nanos]. rewrite nspd.
  unfold in_range in A, B. change (days_of 1 1 1) with (-719162) in *. change (days_of 9999 12 31) with 2932896 in *.
  set (s := Z.max _ _).
  assert (Q : Z.quot s 86400000000000 = a - b <-> Z.abs (a - b) <= 106751).
  { pose proof (Z.quot_rem s 86400000000000 ltac:(lia)) as E. pose proof (Z.rem_bound_abs s 86400000000000 ltac:(lia)) as R.
    assert (G : (0 <= s -> 0 <= Z.rem s 86400000000000) /\ (s <= 0 -> Z.rem s 86400000000000 <= 0)).
    { split; intros; [apply Z.rem_nonneg|apply Z.rem_nonpos]; lia. }
    split; [intros X; rewrite X in E; unfold s in *; lia|intros X].
    assert (s = (a - b) * 86400000000000) as -> by (unfold s; lia). apply Z.quot_mul. lia. }
  assert (W : wrap32 (Z.quot s 86400000000000) = Z.quot s 86400000000000).
  { apply in32_abs. pose proof (Z.quot_rem s 86400000000000 ltac:(lia)) as E. pose proof (Z.rem_bound_abs s 86400000000000 ltac:(lia)) as R. unfold s in *. lia. }
  rewrite W, <- Q. split; [intros (_ & E & _)|intros E; repeat split]; lia.
Qed.
Theorem c134_far_refuted : forall a b, in_range a -> in_range b -> 106751 < Z.abs (a - b) ->
  days (date_minus_date a b) = Z.sgn (a - b) * 106751.
Proof.
  intros a b A B F. unfold date_minus_date, span, two63, day_ns. cbn [days]. rewrite nspd.
  unfold in_range in A, B. change (days_of 1 1 1) with (-719162) in *. change (days_of 9999 12 31) with 2932896 in *.
  destruct (Z.le_gt_cases a b).
  - rewrite Z.max_l by lia. rewrite Z.sgn_neg by lia. reflexivity.
  - rewrite Z.min_l by lia. rewrite Z.max_r by lia. rewrite Z.sgn_pos by lia. reflexivity.
Qed.
Example c134_example : in_range (days_of 2021 5 20) /\ in_range (days_of 1700 1 1) /\
  date_minus_date (days_of 2021 5 20) (days_of 2020 4 19) = IV 0 0 396 0 0 0 0 /\
  days_of 2021 5 20 - days_of 1700 1 1 = 117382 /\
  date_minus_date (days_of 2021 5 20) (days_of 1700 1 1) = IV 0 0 106751 0 0 0 0.
Proof. unfold in_range. vm_compute. repeat split; congruence. Qed.

(** ** C135: TIMESTAMP with an INTERVAL *)
(** In a process whose zone has a fixed offset, an interval without months moves the
    instant by its length. *)
Theorem c135_fixed_partial : forall off t v, month_count v = 0 ->
  timestamp_plus (fixed off) t v = t + length24 v /\ timestamp_minus (fixed off) t v = t - length24 v.
Proof.
  assert (I : forall n, months_later n 0 n).
  { intros n. split; [lia|]. pose proof (day_range n). lia. }
  intros off t v M. unfold timestamp_plus, timestamp_minus. rewrite wall_fixed. set (w := t + off * 1000000000).
  rewrite (shift_eq 1 w v (day_no w)) by (rewrite M; apply I). rewrite (shift_eq (-1) w v (day_no w)) by (rewrite M; apply I).
  rewrite !from_wall_fixed. unfold length24. pose proof (day_no_split w). subst w. lia.
Qed.
(** With other zones the result moves with the zone's offset: it is right exactly when
    the offset is the same at both ends. *)
Theorem c135_zone_partial : forall local t v, month_count v = 0 ->
  let w := wall local t + length24 v in
  (timestamp_plus local t v = t + length24 v <-> local (unix w - local (unix w)) = local (unix t)).
Proof.
  assert (I : forall n, months_later n 0 n).
  { intros n. split; [lia|]. pose proof (day_range n). lia. }
  intros local t v M w. unfold timestamp_plus. set (x := wall local t).
  assert (E : shift 1 x v = w).
  { rewrite (shift_eq 1 x v (day_no x)) by (rewrite M; apply I). unfold w, length24. pose proof (day_no_split x). subst x. lia. }
  rewrite E. unfold from_wall. unfold w at 1. unfold wall at 1. unfold ns_per_sec. lia.
Qed.
(** New York: adding one hour to 2024-11-03 00:30 EDT is right, adding two hours gives 02:30
    EST, three hours later. *)
Theorem c135_dst_refuted : exists local t,
  timestamp_plus local t (IV 0 0 0 1 0 0 0) = t + 3600000000000 /\
  timestamp_plus local t (IV 0 0 0 2 0 0 0) = t + 3 * 3600000000000.
Proof. exists (falls_back 1730613600 (-14400)), 1730608200000000000. vm_compute. split; reflexivity. Qed.
Example c135_example : month_count (IV 0 0 1 2 3 4 0) = 0 /\
  timestamp_plus (fixed 32400) leap_noon (IV 0 0 1 2 3 4 0) = leap_noon + 93784 * 1000000000.
Proof. vm_compute. split; reflexivity. Qed.


Print Assumptions c66_days_partial.
Print Assumptions c66_months_refuted.
Print Assumptions c66_hours_partial.
Print Assumptions c66_minutes_refuted.
Print Assumptions c66_interval_partial.
Print Assumptions c131_written.
Print Assumptions c132_part_partial.
Print Assumptions c132_wrap_refuted.
Print Assumptions c132_week_refuted.
Print Assumptions c132_make_partial.
Print Assumptions c133_datetime_partial.
Print Assumptions c133_date_partial.
Print Assumptions c133_month_end_refuted.
Print Assumptions c133_inverse_partial.
Print Assumptions c134_days_partial.
Print Assumptions c134_far_refuted.
Print Assumptions c135_fixed_partial.
Print Assumptions c135_zone_partial.
Print Assumptions c135_dst_refuted.
