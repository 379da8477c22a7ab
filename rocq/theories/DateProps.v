(** Properties C29, C57-C63 and C87-C89: the DATE functions. *)
From Coq Require Import Ascii String List ZArith Lia Bool.
From Verif Require Import GoBase GoBaseFacts CalendarModel CalendarFacts DateModel DateSpec DateProofs.
Import ListNotations.
Local Open Scope string_scope.
Open Scope Z_scope.
Local Opaque civil year_start leap.

(** C29 is refuted: the literal is right exactly when the process's zone is not
    west of Greenwich; anywhere west of it every DATE literal is the day before. *)
Theorem c29_partial : forall off n, in_range n ->
  (date_literal off n = n <-> 0 <= off < 86400).
Proof.
  intros off n H. unfold date_literal.
  assert (R : -719162 <= n <= 2932896) by exact H.
  rewrite !wrap64_fits by (try rewrite wrap64_fits; unfold two63; lia).
  replace (n * 24 * 3600) with (86400 * n) by lia. apply local_day_right.
Qed.
Print Assumptions c29_partial.
Theorem c29_west_refuted : forall off n, in_range n -> -86400 <= off < 0 -> date_literal off n = n - 1.
Proof.
  intros off n H Ho. unfold date_literal.
  assert (R : -719162 <= n <= 2932896) by exact H.
  rewrite !wrap64_fits by (try rewrite wrap64_fits; unfold two63; lia).
  unfold local_day. replace (n * 24 * 3600 + off) with (86400 + off + (n - 1) * 86400) by lia.
  rewrite Z_div_plus_full by lia. rewrite Z.div_small; lia.
Qed.
Print Assumptions c29_west_refuted.
(** 2024-02-29 in New York, in UTC and in Tokyo. *)
Example c29_example : in_range 19782 /\ civil 19782 = (2024, 2, 29) /\
  date_literal (-18000) 19782 = 19781 /\ date_literal 0 19782 = 19782 /\ date_literal 32400 19782 = 19782.
Proof. split; [vm_compute; split; discriminate|]. vm_compute. repeat split. Qed.

(** C57 *)
Theorem c57_days : forall n v, in_range n -> in_range (n + v) ->
  date_add n v "DAY" = Ok (n + v) /\ date_sub (n + v) v "DAY" = Ok n /\ date_sub n (- v) "DAY" = Ok (n + v).
Proof.
  intros n v H1 H2.
  assert (R1 : -719162 <= n <= 2932896) by exact H1. assert (R2 : -719162 <= n + v <= 2932896) by exact H2.
  unfold date_add, date_sub. cbn -[add_date wrap64 Z.opp Z.add].
  rewrite !wrap64_fits by (unfold two63; lia). rewrite !add_date_days. repeat split; f_equal; lia.
Qed.
Print Assumptions c57_days.
Theorem c57_weeks : forall n v, in_range n -> in_range (n + 7 * v) ->
  date_add n v "WEEK" = Ok (n + 7 * v) /\ date_sub (n + 7 * v) v "WEEK" = Ok n.
Proof.
  intros n v H1 H2.
  assert (R1 : -719162 <= n <= 2932896) by exact H1. assert (R2 : -719162 <= n + 7 * v <= 2932896) by exact H2.
  unfold date_add, date_sub. cbn -[add_date wrap64 Z.opp Z.mul Z.add].
  rewrite !wrap64_fits by (try rewrite wrap64_fits; unfold two63; lia).
  rewrite !add_date_days. repeat split; f_equal; lia.
Qed.
Print Assumptions c57_weeks.
Example c57_example :
  (* 2024-02-29 + 1 day = 2024-03-01; 1969-12-31 + 1 week = 1970-01-07 *)
  date_add 19782 1 "DAY" = Ok 19783 /\ civil 19783 = (2024, 3, 1) /\
  date_add (-1) 1 "WEEK" = Ok 6 /\ in_range (-1) /\ in_range 6 /\ civil 6 = (1970, 1, 7).
Proof. repeat split; try (vm_compute; reflexivity); vm_compute; discriminate. Qed.

(** C58: MONTH and YEAR are exact and determined by the specification. *)
Theorem c58_months_partial : forall n v r,
  (date_add n v "MONTH" = Ok r <-> months_later n v r) /\
  (date_add n v "YEAR" = Ok r <-> months_later n (12 * v) r).
Proof.
  intros n v r. unfold date_add. cbn -[add_month add_year]. split; split.
  - intros E. apply Ok_inj in E. subst. apply add_month_ok.
  - intros H. f_equal. exact (months_later_unique _ _ _ _ (add_month_ok n v) H).
  - intros E. apply Ok_inj in E. subst. apply add_year_ok.
  - intros H. f_equal. exact (months_later_unique _ _ _ _ (add_year_ok n v) H).
Qed.
Print Assumptions c58_months_partial.
(** DATE_SUB by months and years is DATE_ADD of the opposite number (other than
    the least int64, which has no opposite). *)
Theorem c58_sub_partial : forall n v, - two63 < v < two63 ->
  date_sub n v "MONTH" = date_add n (- v) "MONTH" /\ date_sub n v "YEAR" = date_add n (- v) "YEAR".
Proof.
  intros n v H. unfold date_add, date_sub. cbn -[add_month add_year wrap64 Z.opp].
  rewrite wrap64_fits by lia. split; reflexivity.
Qed.
Print Assumptions c58_sub_partial.
(** QUARTER is refuted: the number is ignored, and DATE_SUB does not know it. *)
Theorem c58_quarter_refuted : forall n v,
  (forall r, date_add n v "QUARTER" = Ok r -> (months_later n (3 * v) r <-> v = 1)) /\
  date_sub n v "QUARTER" = Err.
Proof.
  intros n v. split; [|reflexivity]. unfold date_add. cbn -[add_month Z.mul]. intros r E. apply Ok_inj in E.
  pose proof (add_month_ok n 3) as A. rewrite E in A. split.
  - intros H. pose proof (months_later_inj _ _ _ _ A H). lia.
  - intros ->. exact A.
Qed.
Print Assumptions c58_quarter_refuted.
Example c58_example :
  (* 2024-01-31 + 1 month, 2024-02-29 + 1 year, 2024-03-31 - 1 month *)
  date_add 19753 1 "MONTH" = Ok 19782 /\ civil 19753 = (2024, 1, 31) /\ civil 19782 = (2024, 2, 29) /\
  date_add 19782 1 "YEAR" = Ok 20147 /\ civil 20147 = (2025, 2, 28) /\
  date_sub 19813 1 "MONTH" = Ok 19782 /\
  (* 2024-01-31 + 2 quarters gives 2024-04-30 *)
  date_add 19753 2 "QUARTER" = Ok 19843 /\ civil 19843 = (2024, 4, 30).
Proof. vm_compute. repeat split. Qed.

(** C59: WEEK and its variants, MONTH, YEAR, ISOYEAR count boundaries. *)
Theorem c59_weeks_partial : forall a b part w, In (part, w) week_parts ->
  date_diff a b part = Ok (boundaries (starts_week w) b a).
Proof.
  intros a b part w H. destruct (week_parts_ok part w H) as (P & W & R). unfold date_diff. rewrite P, W. f_equal. now apply diff_weeks_ok.
Qed.
Print Assumptions c59_weeks_partial.
Theorem c59_months_years_partial : forall a b,
  date_diff a b "MONTH" = Ok (boundaries starts_month b a) /\
  date_diff a b "YEAR" = Ok (boundaries starts_year b a) /\
  date_diff a b "ISOYEAR" = Ok (boundaries starts_iso_year b a).
Proof.
  intros a b. unfold date_diff. cbn -[year month iso_year boundaries Z.mul].
  rewrite (boundaries_index _ mix) by apply month_index.
  rewrite (boundaries_index _ year) by apply year_index.
  rewrite (boundaries_index _ iso_year) by apply iso_year_index.
  repeat split; f_equal. unfold mix, mindex. lia.
Qed.
Print Assumptions c59_months_years_partial.
Theorem c59_antisymmetric : forall a b part x, date_diff a b part = Ok x -> date_diff b a part = Ok (- x).
Proof. exact date_diff_anti. Qed.
Print Assumptions c59_antisymmetric.
(** DAY is right up to 106751 days (292 years) and stuck at 106752 beyond. *)
Theorem c59_days_partial : forall a b,
  date_diff a b "DAY" = Ok (boundaries starts_day b a) <-> -106752 <= a - b <= 106752.
Proof.
  intros a b. rewrite (boundaries_index _ (fun n => n)) by (intros; unfold starts_day; lia).
  destruct (Z_le_gt_dec (Z.abs (a - b)) 106751) as [H|H].
  - rewrite diff_day by lia. split; [lia|reflexivity].
  - rewrite diff_day_far by lia. destruct (Z.ltb_spec b a); (split; [intros E; apply Ok_inj in E; lia|intros E; f_equal; lia]).
Qed.
Print Assumptions c59_days_partial.
(** ISOWEEK: right within a year, wrong between any two days of different years
    (unless the ISO year of one of them is not its calendar year). *)
Theorem c59_isoweek_refuted : forall a b,
  (iso_year a = year a -> iso_year b = year b -> year a <> year b ->
     date_diff a b "ISOWEEK" <> Ok (boundaries (starts_week 1) b a)) /\
  (iso_year a = iso_year b ->
     (date_diff a b "ISOWEEK" = Ok (boundaries (starts_week 1) b a) <-> year a = year b)) /\
  date_diff a b "QUARTER" = Err.
Proof.
  intros a b. split; [apply diff_isoweek_wrong|]. split; [apply diff_isoweek_year|reflexivity].
Qed.
Print Assumptions c59_isoweek_refuted.
Example c59_example :
  (* 2017-10-15 and 2017-10-14 (Sunday, Saturday) *)
  date_diff 17454 17453 "WEEK" = Ok 1 /\ date_diff 17454 17453 "WEEK_MONDAY" = Ok 0 /\
  boundaries (starts_week 0) 17453 17454 = 1 /\
  date_diff 17454 17453 "MONTH" = Ok 0 /\ date_diff 17453 17454 "DAY" = Ok (-1) /\
  (* 2024-06-15 and 2023-06-15 *)
  iso_year 19889 = year 19889 /\ iso_year 19523 = year 19523 /\
  date_diff 19889 19523 "ISOWEEK" = Ok 48 /\ boundaries (starts_week 1) 19523 19889 = 52 /\
  (* 0001-01-01 and 9999-12-31 *)
  date_diff 2932896 (-719162) "DAY" = Ok 106752.
Proof. vm_compute. repeat split. Qed.

(** C60 *)
Theorem c60_trunc_partial : forall n part P d,
  (part = "DAY" /\ P = starts_day) \/ (part = "MONTH" /\ P = starts_month) \/
  (part = "QUARTER" /\ P = starts_quarter) \/ (part = "YEAR" /\ P = starts_year) \/
  (exists w, In (part, w) week_parts /\ P = starts_week w) ->
  (date_trunc n part = Ok d <-> first_day_of P n d).
Proof.
  intros n part P d H.
  assert (X : exists d0, date_trunc n part = Ok d0 /\ first_day_of P n d0).
  { destruct H as [[-> ->]|[[-> ->]|[[-> ->]|[[-> ->]|[w [Hw ->]]]]]].
    - exists n. split; [apply trunc_day|]. split; [reflexivity|]. split; [lia|]. intros e He. lia.
    - eexists. split; [apply trunc_month|apply first_of_month].
    - eexists. split; [apply trunc_quarter|apply first_of_quarter].
    - eexists. split; [apply trunc_year|apply first_of_year].
    - destruct (week_parts_ok part w Hw) as (Hp & W & R).
      eexists. split; [unfold date_trunc; rewrite Hp, W; reflexivity|]. now apply trunc_week. }
  destruct X as [d0 [E F]]. rewrite E. split.
  - intros G. apply Ok_inj in G. now subst.
  - intros G. f_equal. now apply (first_day_unique P n).
Qed.
Print Assumptions c60_trunc_partial.
(** Any function that gives the first day of the period is idempotent, monotone
    and at most its argument; so these parts have those laws. *)
Theorem c60_laws_partial : forall part P,
  (part = "DAY" /\ P = starts_day) \/ (part = "MONTH" /\ P = starts_month) \/
  (part = "QUARTER" /\ P = starts_quarter) \/ (part = "YEAR" /\ P = starts_year) \/
  (exists w, In (part, w) week_parts /\ P = starts_week w) ->
  forall a b ta tb, date_trunc a part = Ok ta -> date_trunc b part = Ok tb ->
    ta <= a /\ date_trunc ta part = Ok ta /\ (a <= b -> ta <= tb).
Proof.
  intros part P H a b ta tb Ea Eb.
  pose proof (fun n d => c60_trunc_partial n part P d H) as C.
  apply C in Ea, Eb. destruct Ea as [A1 [A2 A3]], Eb as [B1 [B2 B3]].
  split; [assumption|]. split.
  - apply C. split; [assumption|]. split; [lia|]. intros e He. lia.
  - intros Hab. destruct (Z.le_gt_cases ta tb); [assumption|]. exfalso. rewrite (B3 ta) in A1 by lia. discriminate.
Qed.
Print Assumptions c60_laws_partial.
(** ISOYEAR is right exactly when January 1st of the ISO year is neither a Friday
    nor a Saturday; ISOWEEK is never right. *)
Theorem c60_iso_refuted : forall n,
  (forall d, first_day_of starts_iso_year n d ->
     (date_trunc n "ISOYEAR" = Ok d <->
      weekday (year_start (iso_year n)) <> 5 /\ weekday (year_start (iso_year n)) <> 6)) /\
  (forall d, first_day_of (starts_week 1) n d -> date_trunc n "ISOWEEK" <> Ok d).
Proof.
  intros n. split.
  - intros d H. rewrite (first_day_unique _ _ _ _ H (first_of_iso_year n)). apply trunc_iso_year_right.
  - intros d H E. exact (trunc_iso_week_wrong n d E H).
Qed.
Print Assumptions c60_iso_refuted.
Example c60_example :
  (* 2024-05-15, a Wednesday *)
  civil 19858 = (2024, 5, 15) /\ weekday 19858 = 3 /\
  date_trunc 19858 "WEEK" = Ok 19855 /\ date_trunc 19858 "WEEK_THURSDAY" = Ok 19852 /\
  date_trunc 19858 "MONTH" = Ok 19844 /\ date_trunc 19858 "QUARTER" = Ok 19814 /\ date_trunc 19858 "YEAR" = Ok 19723 /\
  (* the ISO week of 2024-05-15 started on the 13th; the answer is April 18th *)
  date_trunc 19858 "ISOWEEK" = Ok 19831 /\ civil 19831 = (2024, 4, 18) /\
  (* ISO year 2021 started on 2021-01-04 *)
  date_trunc 18700 "ISOYEAR" = Ok 18624 /\ civil 18624 = (2020, 12, 28) /\ weekday (year_start (iso_year 18700)) = 5.
Proof. vm_compute. repeat split. Qed.

(** C61 *)
Theorem c61_last_partial : forall n d,
  (last_day n "YEAR" = Ok d <-> last_day_of starts_year n d) /\
  (last_day n "MONTH" = Ok d <-> last_day_of starts_month n d) /\
  (last_day n "WEEK" = Ok d <-> last_day_of (starts_week 0) n d).
Proof.
  intros n d.
  assert (G : forall P d0 part, last_day n part = Ok d0 -> last_day_of P n d0 -> (last_day n part = Ok d <-> last_day_of P n d)).
  { intros P d0 part E F. rewrite E. split; [intros X; apply Ok_inj in X; now subst|].
    intros X. f_equal. now apply (last_day_unique P n). }
  split; [|split].
  - eapply G; [apply last_day_year; now left|apply last_of_year].
  - eapply G; [apply last_day_month|apply last_of_month].
  - eapply G.
    + unfold last_day. cbn -[add_date weekday Z.sub]. rewrite add_date_days. reflexivity.
    + pose proof (weekday_range n). replace (6 - weekday n) with (6 + 0 - weekday n) by lia. apply last_week_iff; lia.
Qed.
Print Assumptions c61_last_partial.
(** WEEK(k) is right exactly for the days of the week from k to Saturday;
    otherwise the answer is a week late.  ISOWEEK is right on no day, QUARTER is
    not implemented. *)
Theorem c61_week_refuted : forall n part w, In (part, w) week_parts ->
  (exists d, last_day n part = Ok d /\ (last_day_of (starts_week w) n d <-> w <= weekday n)) /\
  (forall d, last_day n "ISOWEEK" = Ok d -> ~ last_day_of (starts_week 1) n d) /\
  last_day n "QUARTER" = Err.
Proof.
  intros n part w Hw. destruct (week_parts_ok part w Hw) as (_ & W & _). split; [|split; [|reflexivity]].
  - exists (n + (6 + w - weekday n)). split; [|apply last_week_iff; now apply (week_part_range part)].
    assert (forall d, add_date n 0 0 d = n + d) as A by apply add_date_days.
    unfold week_part in W. unfold last_day.
    repeat match type of W with context [String.eqb part ?s] =>
      let E := fresh in destruct (String.eqb part s) eqn:E;
        [apply String.eqb_eq in E; subst part; injection W as <-; cbn -[add_date weekday Z.sub Z.add]; rewrite A; f_equal; lia|] end.
    discriminate.
  - intros d E [H _]. unfold last_day in E. cbn -[add_date weekday Z.sub] in E. apply Ok_inj in E. rewrite add_date_days in E.
    subst d. unfold starts_week in H. apply Z.eqb_eq in H.
    replace (n + (6 - weekday n) + 1) with (n + (7 - weekday n)) in H by lia. rewrite weekday_add in H.
    replace (weekday n + (7 - weekday n)) with 7 in H by lia. discriminate.
Qed.
Print Assumptions c61_week_refuted.
(** ISOYEAR is right exactly when the calendar year ends on a Sunday and the day
    belongs to the ISO year of the same number. *)
Theorem c61_isoyear_refuted : forall n,
  exists d, last_day n "ISOYEAR" = Ok d /\
    (last_day_of starts_iso_year n d <->
     weekday (year_start (year n + 1)) = 1 /\ iso_year n = year n).
Proof.
  intros n. exists (year_start (year n + 1) - 1). split; [apply last_day_year; now right|].
  pose proof (year_spec n) as Y. pose proof (iso_year_spec n) as I. split.
  - intros H. assert (E := last_day_unique _ _ _ _ H (last_of_iso_year n)).
    destruct (iso_start_spec (iso_year n + 1)) as [W1 W2]. 
    assert (X : year_start (year n + 1) = iso_start (iso_year n + 1)) by lia.
    split; [now rewrite X|].
    assert (year (iso_start (iso_year n + 1)) = year n + 1) as Z1.
    { rewrite <- X. apply year_unique. pose proof (year_start_lt (year n + 1) (year n + 1 + 1) ltac:(lia)). lia. }
    assert (year (year_start (iso_year n + 1) + 3) = iso_year n + 1) as Z2.
    { apply year_unique. pose proof (year_start_lt (iso_year n + 1) (iso_year n + 1 + 1) ltac:(lia)). lia. }
    assert (year (year_start (iso_year n + 1) + 3) = year n + 1) as Z3.
    { apply year_unique. pose proof (year_start_lt (year n + 1) (year n + 1 + 1) ltac:(lia)). lia. }
    lia.
  - intros [W E].
    assert (year_start (year n + 1) = iso_start (iso_year n + 1)) as ->; [|apply last_of_iso_year].
    rewrite E. destruct (iso_start_spec (year n + 1)) as [W1 W2]. unfold weekday in *.
    pose proof (Z.div_mod (year_start (year n + 1) + 4) 7 ltac:(lia)).
    pose proof (Z.div_mod (iso_start (year n + 1) + 4) 7 ltac:(lia)). lia.
Qed.
Print Assumptions c61_isoyear_refuted.
Example c61_example :
  (* 2024-02-15, a Thursday *)
  civil 19768 = (2024, 2, 15) /\ weekday 19768 = 4 /\
  last_day 19768 "MONTH" = Ok 19782 /\ last_day 19768 "YEAR" = Ok 20088 /\ last_day 19768 "WEEK" = Ok 19770 /\
  last_day 19768 "WEEK_MONDAY" = Ok 19771 /\
  (* weeks from Saturday: the week of the 15th ends on the 16th, the answer is the 23rd *)
  last_day 19768 "WEEK_SATURDAY" = Ok 19776 /\
  (* 2023 ends on a Sunday *)
  weekday (year_start (2023 + 1)) = 1 /\ last_day 19523 "ISOYEAR" = Ok 19722.
Proof. vm_compute. repeat split. Qed.

(** C62: exact for a process not west of Greenwich and days up to 106751 from 1970. *)
Theorem c62_partial : forall off n, -106751 <= n <= 106751 ->
  (unix_date (date_from_unix_date off n) = n <-> 0 <= off < 86400).
Proof. intros off n H. rewrite unix_date_id, dfud_near by assumption. apply local_day_right. Qed.
Print Assumptions c62_partial.
Theorem c62_reverse_partial : forall off n, 0 <= off < 86400 -> -106751 <= n <= 106751 ->
  date_from_unix_date off (unix_date n) = n.
Proof. intros off n Ho H. rewrite unix_date_id, dfud_near by assumption. now apply local_day_right. Qed.
Print Assumptions c62_reverse_partial.
(** Beyond that the nanoseconds overflow and no day is right, in any zone. *)
Theorem c62_far_refuted : forall off n, -86400 < off < 86400 -> 106753 < n \/ n < -106754 ->
  date_from_unix_date off n <> n.
Proof.
  intros off n Ho Hn E. unfold date_from_unix_date in E.
  pose proof (wrap64_range (wrap64 (n * 24) * 3600000000000)) as R. set (x := wrap64 (wrap64 (n * 24) * 3600000000000)) in *.
  unfold in64, two63 in R. unfold local_day in E.
  pose proof (Z.quot_rem' x 1000000000). pose proof (Z.rem_bound_abs x 1000000000 ltac:(lia)).
  pose proof (Z.div_mod (Z.quot x 1000000000 + off) 86400 ltac:(lia)).
  pose proof (Z.mod_pos_bound (Z.quot x 1000000000 + off) 86400 ltac:(lia)).
  lia.
Qed.
Print Assumptions c62_far_refuted.
Example c62_example :
  date_from_unix_date 0 (-1) = -1 /\ civil (-1) = (1969, 12, 31) /\ unix_date (-719162) = -719162 /\
  date_from_unix_date (-18000) 14238 = 14237 /\ in_range 150000 /\ date_from_unix_date 0 150000 <> 150000.
Proof. repeat split; try (vm_compute; reflexivity); vm_compute; discriminate. Qed.

(** C63: the fields EXTRACT returns are a valid civil date that denotes the day;
    since day numbers and valid civil dates correspond one to one, they are the
    calendar fields. *)
Theorem c63_fields_partial : forall n, exists y m d,
  extract n "YEAR" = Ok y /\ extract n "MONTH" = Ok m /\ extract n "DAY" = Ok d /\
  valid_date y m d /\ days_of y m d = n.
Proof.
  intros n. exists (year n), (month n), (day n). repeat split.
  - apply month_range.
  - apply month_range.
  - apply day_range.
  - apply day_range.
  - apply days_of_civil.
Qed.
Print Assumptions c63_fields_partial.
Theorem c63_days_partial : forall n,
  extract n "DAYOFYEAR" = Ok (n - days_of (year n) 1 1 + 1) /\
  exists w, extract n "DAYOFWEEK" = Ok w /\ 1 <= w <= 7 /\
    (* 1970-01-04 was a Sunday *) (n - days_of 1970 1 4 - (w - 1)) mod 7 = 0.
Proof.
  intros n. split.
  - rewrite days_of_jan1. reflexivity.
  - exists (weekday n + 1). split; [reflexivity|]. pose proof (weekday_range n). split; [lia|].
    change (days_of 1970 1 4) with 3. unfold weekday in *.
    pose proof (Z.div_mod (n + 4) 7 ltac:(lia)). replace (n - 3 - ((n + 4) mod 7 + 1 - 1)) with (0 + ((n + 4) / 7 - 1) * 7) by lia.
    rewrite Z_mod_plus_full. reflexivity.
Qed.
Print Assumptions c63_days_partial.
(** QUARTER is refuted: it is wrong on April 1st and July 1st of every common year
    and on September 30th of every leap year, and right on every other day. *)
Theorem c63_quarter_refuted : forall n,
  extract n "QUARTER" = Ok ((month n - 1) / 3 + 1) <->
  ~ (leap (year n) = false /\ (month n = 4 \/ month n = 7) /\ day n = 1) /\
  ~ (leap (year n) = true /\ month n = 9 /\ day n = 30).
Proof. exact quarter_right. Qed.
Print Assumptions c63_quarter_refuted.
Example c63_example :
  civil 19448 = (2023, 4, 1) /\ extract 19448 "QUARTER" = Ok 1 /\ extract 19448 "MONTH" = Ok 4 /\
  extract 19448 "DAYOFWEEK" = Ok 7 /\ extract 19448 "DAYOFYEAR" = Ok 91 /\
  civil 19996 = (2024, 9, 30) /\ extract 19996 "QUARTER" = Ok 4.
Proof. vm_compute. repeat split. Qed.

(** C87: the ISO year of a day is the year y such that January 4th of y lies in the
    first week of the ISO year that contains the day; the ISO week counts weeks
    from there. *)
Theorem c87_iso_partial : forall n d, first_day_of starts_iso_year n d ->
  exists y, extract n "ISOYEAR" = Ok y /\ d <= days_of y 1 4 <= d + 6 /\
    extract n "ISOWEEK" = Ok ((n - d) / 7 + 1).
Proof.
  intros n d H. rewrite (first_day_unique _ _ _ _ H (first_of_iso_year n)).
  exists (iso_year n). split; [reflexivity|]. split.
  - rewrite jan4. apply iso_start_spec.
  - change (extract n "ISOWEEK") with (Ok (iso_week n)). now rewrite iso_week_count.
Qed.
Print Assumptions c87_iso_partial.
(** WEEK (the number of Sundays of the year up to the day) is right exactly when
    the first Sunday of the year is January 4th or later and not after the day. *)
Theorem c87_week_refuted : forall n,
  extract n "WEEK" = Ok (boundaries (starts_week 0) (days_of (year n) 1 1 - 1) n) <->
  days_of (year n) 1 1 <= n - weekday n /\ 3 <= (n - weekday n - days_of (year n) 1 1) mod 7.
Proof. intros n. rewrite days_of_jan1. apply extract_week_right. Qed.
Print Assumptions c87_week_refuted.
Example c87_example :
  (* 2024-05-15: weeks since the ISO year started on 2024-01-01 *)
  first_day_of starts_iso_year 19858 19723 /\ extract 19858 "ISOWEEK" = Ok 20 /\
  (* 2023 began on a Sunday: 2023-06-15 is in week 24, the answer is 23 *)
  civil 19523 = (2023, 6, 15) /\ extract 19523 "WEEK" = Ok 23 /\
  boundaries (starts_week 0) (days_of (year 19523) 1 1 - 1) 19523 = 24 /\
  (* 2024: first Sunday January 7th *)
  extract 19858 "WEEK" = Ok 19 /\ boundaries (starts_week 0) (days_of (year 19858) 1 1 - 1) 19858 = 19.
Proof.
  split; [|vm_compute; repeat split].
  assert (E : iso_start (iso_year 19858) = 19723) by (vm_compute; reflexivity).
  rewrite <- E. apply first_of_iso_year.
Qed.

(** C88: DATE(y, m, d) of a valid civil date is that date, and EXTRACT gives the
    three numbers back. *)
Theorem c88_date : forall y m d, valid_date y m d ->
  date3 y m d = days_of y m d /\
  extract (date3 y m d) "YEAR" = Ok y /\ extract (date3 y m d) "MONTH" = Ok m /\ extract (date3 y m d) "DAY" = Ok d.
Proof.
  intros y m d H.
  assert (E : date3 y m d = days_of y m d).
  { unfold date3. rewrite add_date_mix. destruct zero_mix as [-> ->]. destruct H as [Hm _].
    rewrite <- godate_days_of by assumption. rewrite godate_mstart. unfold mindex. f_equal; [f_equal|]; lia. }
  split; [assumption|]. rewrite E.
  change (Ok (year (days_of y m d)) = Ok y /\ Ok (month (days_of y m d)) = Ok m /\ Ok (day (days_of y m d)) = Ok d).
  rewrite year_days_of, month_days_of, day_days_of by assumption. repeat split.
Qed.
Print Assumptions c88_date.
Theorem c88_extract : forall n y m d,
  extract n "YEAR" = Ok y -> extract n "MONTH" = Ok m -> extract n "DAY" = Ok d -> date3 y m d = n.
Proof.
  intros n y m d Hy Hm Hd. apply Ok_inj in Hy, Hm, Hd. subst y m d.
  destruct (c88_date (year n) (month n) (day n)) as [E _]; [split; [apply month_range|apply day_range]|].
  rewrite E. apply days_of_civil.
Qed.
Print Assumptions c88_extract.
Example c88_example : valid_date 2000 2 29 /\ date3 2000 2 29 = 11016 /\ ~ valid_date 1900 2 29.
Proof.
  split; [split; [lia|vm_compute; split; discriminate]|]. split; [vm_compute; reflexivity|].
  intros [_ [_ H]]. vm_compute in H. now apply H.
Qed.

(** C89: DATE_DIFF undoes DATE_ADD. *)
Theorem c89_diff_add_partial : forall n v part r,
  in_range n -> in_range r ->
  (part = "DAY" /\ -106752 <= v <= 106752) \/ part = "WEEK" \/ part = "MONTH" \/ part = "YEAR" ->
  - two63 < 7 * v < two63 ->
  date_add n v part = Ok r -> date_diff r n part = Ok v.
Proof.
  intros n v part r Hn Hr Hp Hv E. destruct Hp as [[-> Hd]|[->|[->| ->]]].
  - assert (r = n + v) as -> by (unfold date_add in E; cbn -[add_date] in E; apply Ok_inj in E; rewrite add_date_days in E; lia).
    destruct (c59_days_partial (n + v) n) as [_ D]. rewrite D by lia. f_equal.
    rewrite (boundaries_index _ (fun n => n)) by (intros; unfold starts_day; lia). lia.
  - assert (r = n + 7 * v) as ->.
    { unfold date_add in E. cbn -[add_date wrap64 Z.mul] in E. apply Ok_inj in E. rewrite add_date_days, wrap64_fits in E by lia. lia. }
    rewrite (c59_weeks_partial _ _ "WEEK" 0) by (left; reflexivity). f_equal.
    rewrite (boundaries_index _ (fun n => (n + 4 - 0) / 7)) by (intros z; apply week_index; lia).
    replace (n + 7 * v + 4 - 0) with (n + 4 - 0 + v * 7) by lia. rewrite Z_div_plus_full by lia. lia.
  - apply (c58_months_partial n v r) in E. destruct E as [E _].
    unfold date_diff. cbn -[year month Z.mul]. f_equal. lia.
  - apply (c58_months_partial n v r) in E. destruct E as [E _].
    unfold date_diff. cbn -[year month Z.mul]. f_equal. pose proof (month_range n). pose proof (month_range r). lia.
Qed.
Print Assumptions c89_diff_add_partial.
(** Further apart than 106752 days (292 years) the difference in days is that bound. *)
Theorem c89_days_refuted : forall n v r, 106752 < Z.abs v -> date_add n v "DAY" = Ok r ->
  r = n + v /\ date_diff r n "DAY" = Ok (if 0 <? v then 106752 else -106752).
Proof.
  intros n v r Hv E.
  assert (r = n + v) as -> by (unfold date_add in E; cbn -[add_date] in E; apply Ok_inj in E; rewrite add_date_days in E; lia).
  split; [reflexivity|]. rewrite diff_day_far by lia. destruct (Z.ltb_spec n (n + v)), (Z.ltb_spec 0 v); try lia; reflexivity.
Qed.
Print Assumptions c89_days_refuted.
Example c89_days_example : date_add (-719162) 3652058 "DAY" = Ok 2932896 /\ date_diff 2932896 (-719162) "DAY" = Ok 106752.
Proof. split; vm_compute; reflexivity. Qed.
Example c89_example : in_range 19753 /\ in_range 19782 /\ date_add 19753 1 "MONTH" = Ok 19782 /\
  date_diff 19782 19753 "MONTH" = Ok 1.
Proof. repeat split; try (vm_compute; reflexivity); vm_compute; discriminate. Qed.
