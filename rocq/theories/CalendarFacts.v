(** Facts about the calendar: civil dates and day numbers correspond one to one. *)
From Coq Require Import ZArith Lia Bool List.
From Verif Require Import GoBase CalendarModel.
Import ListNotations.
Open Scope Z_scope.

Definition valid_date (y m d : Z) : Prop := 1 <= m <= 12 /\ 1 <= d <= days_in_month y m.

(** One 400-year cycle, by computation. *)
Fixpoint upto (n : nat) (z : Z) (f : Z -> bool) : bool :=
  match n with O => true | S k => f z && upto k (z + 1) f end.
Lemma upto_spec n z f : upto n z f = true -> forall x, z <= x < z + Z.of_nat n -> f x = true.
Proof.
  revert z. induction n as [|n IH]; intros z H x Hx; [lia|].
  cbn [upto] in H. apply andb_true_iff in H. destruct H as [H1 H2].
  destruct (Z.eq_dec x z) as [->|]; [assumption|]. apply (IH (z + 1)); [assumption|lia].
Qed.

Lemma leap_cycle y k : leap (y + 400 * k) = leap y.
Proof.
  unfold leap.
  replace ((y + 400 * k) mod 4) with (y mod 4) by (replace (y + 400 * k) with (y + (100 * k) * 4) by lia; now rewrite Z_mod_plus_full).
  replace ((y + 400 * k) mod 100) with (y mod 100) by (replace (y + 400 * k) with (y + (4 * k) * 100) by lia; now rewrite Z_mod_plus_full).
  replace ((y + 400 * k) mod 400) with (y mod 400) by (replace (y + 400 * k) with (y + k * 400) by lia; now rewrite Z_mod_plus_full).
  reflexivity.
Qed.
Lemma dim_cycle y k m : days_in_month (y + 400 * k) m = days_in_month y m.
Proof. unfold days_in_month. now rewrite leap_cycle. Qed.
Lemma before_cycle y k m : days_before (y + 400 * k) m = days_before y m.
Proof. unfold days_before. now rewrite leap_cycle. Qed.
Lemma start_cycle y k : year_start (y + 400 * k) = year_start y + 146097 * k.
Proof.
  unfold year_start.
  replace (y + 400 * k - 1) with (y - 1 + (100 * k) * 4) at 1 by lia.
  replace (y + 400 * k - 1) with (y - 1 + (4 * k) * 100) at 1 by lia.
  replace (y + 400 * k - 1) with (y - 1 + k * 400) at 1 by lia.
  rewrite !Z_div_plus_full by lia. lia.
Qed.
Lemma days_of_cycle y k m d : days_of (y + 400 * k) m d = days_of y m d + 146097 * k.
Proof. unfold days_of. rewrite start_cycle, before_cycle. lia. Qed.

Lemma years_length : upto 400 0 (fun y => year_start (y + 1) =? year_start y + (if leap y then 366 else 365)) = true.
Proof. vm_cast_no_check (eq_refl true). Qed.
Lemma year_length y : year_start (y + 1) = year_start y + (if leap y then 366 else 365).
Proof.
  set (k := y / 400). set (y0 := y mod 400).
  assert (Ey : y = y0 + 400 * k) by (unfold y0, k; pose proof (Z.div_mod y 400); lia).
  assert (R : 0 <= y0 < 0 + Z.of_nat 400) by (unfold y0; pose proof (Z.mod_pos_bound y 400); lia).
  pose proof (upto_spec _ _ _ years_length y0 R) as C. cbv beta in C. rewrite Z.eqb_eq in C.
  rewrite Ey. replace (y0 + 400 * k + 1) with (y0 + 1 + 400 * k) by lia.
  rewrite !start_cycle, leap_cycle. lia.
Qed.
Lemma dim_range y m : 28 <= days_in_month y m <= 31.
Proof.
  unfold days_in_month. destruct (leap y); destruct m as [|p|p]; try lia;
    do 5 (try destruct p as [p|p|]; try lia).
Qed.

Lemma month_cases (P : Z -> Prop) : P 1 -> P 2 -> P 3 -> P 4 -> P 5 -> P 6 -> P 7 -> P 8 -> P 9 -> P 10 -> P 11 -> P 12 ->
  forall m, 1 <= m <= 12 -> P m.
Proof.
  intros. assert (m = 1 \/ m = 2 \/ m = 3 \/ m = 4 \/ m = 5 \/ m = 6 \/ m = 7 \/ m = 8 \/ m = 9 \/ m = 10 \/ m = 11 \/ m = 12) as E by lia.
  destruct E as [->|[->|[->|[->|[->|[->|[->|[->|[->|[->|[->| ->]]]]]]]]]]]; assumption.
Qed.

(** Consecutive months and years join. *)
Lemma before_next y m : 1 <= m < 12 -> days_before y (m + 1) = days_before y m + days_in_month y m.
Proof.
  intros H. unfold days_before, days_in_month.
  assert (m = 1 \/ m = 2 \/ m = 3 \/ m = 4 \/ m = 5 \/ m = 6 \/ m = 7 \/ m = 8 \/ m = 9 \/ m = 10 \/ m = 11) as E by lia.
  destruct E as [->|[->|[->|[->|[->|[->|[->|[->|[->|[->| ->]]]]]]]]]]; cbn; destruct (leap y); lia.
Qed.
Lemma before_range y m : 1 <= m <= 12 -> 0 <= days_before y m /\ days_before y m + days_in_month y m <= if leap y then 366 else 365.
Proof.
  revert m. apply month_cases; unfold days_before, days_in_month; destruct (leap y); lia.
Qed.

Lemma year_start_step y z : y < z -> year_start y < year_start z.
Proof.
  intros H. assert (E : forall k, 0 <= k -> year_start y < year_start (y + 1 + k)).
  { apply (natlike_ind (fun k => year_start y < year_start (y + 1 + k))).
    - replace (y + 1 + 0) with (y + 1) by lia. rewrite year_length. destruct (leap y); lia.
    - intros k Hk IH. replace (y + 1 + Z.succ k) with (y + 1 + k + 1) by lia. rewrite year_length.
      destruct (leap (y + 1 + k)); lia. }
  replace z with (y + 1 + (z - y - 1)) by lia. apply E. lia.
Qed.
Lemma year_of_spec n : year_start (year_of n) <= n < year_start (year_of n + 1).
Proof.
  assert (B : forall c, c = 400 * (n + 719162) / 146097 + 1 -> year_start (c - 1) <= n < year_start (c + 2)).
  { intros c Hc. unfold year_start.
    replace (c - 1 - 1) with (c - 2) by lia. replace (c + 2 - 1) with (c + 1) by lia.
    pose proof (Z.div_mod (400 * (n + 719162)) 146097 ltac:(lia)). pose proof (Z.mod_pos_bound (400 * (n + 719162)) 146097 ltac:(lia)).
    pose proof (Z.div_mod (c - 2) 4 ltac:(lia)). pose proof (Z.mod_pos_bound (c - 2) 4 ltac:(lia)).
    pose proof (Z.div_mod (c - 2) 100 ltac:(lia)). pose proof (Z.mod_pos_bound (c - 2) 100 ltac:(lia)).
    pose proof (Z.div_mod (c - 2) 400 ltac:(lia)). pose proof (Z.mod_pos_bound (c - 2) 400 ltac:(lia)).
    pose proof (Z.div_mod (c + 1) 4 ltac:(lia)). pose proof (Z.mod_pos_bound (c + 1) 4 ltac:(lia)).
    pose proof (Z.div_mod (c + 1) 100 ltac:(lia)). pose proof (Z.mod_pos_bound (c + 1) 100 ltac:(lia)).
    pose proof (Z.div_mod (c + 1) 400 ltac:(lia)). pose proof (Z.mod_pos_bound (c + 1) 400 ltac:(lia)).
    lia. }
  unfold year_of. set (c := 400 * (n + 719162) / 146097 + 1). specialize (B c eq_refl). cbv zeta.
  destruct (Z.leb_spec (year_start (c + 1)) n) as [H1|H1]; [replace (c + 1 + 1) with (c + 2) by lia; lia|].
  destruct (Z.ltb_spec n (year_start c)) as [H2|H2]; [replace (c - 1 + 1) with c by lia; lia|lia].
Qed.
Lemma year_of_unique n y : year_start y <= n < year_start (y + 1) -> year_of n = y.
Proof.
  intros H. pose proof (year_of_spec n) as S.
  destruct (Z.lt_trichotomy (year_of n) y) as [L|[E|L]]; [|assumption|].
  - assert (year_start (year_of n + 1) <= year_start y); [|lia].
    destruct (Z.eq_dec (year_of n + 1) y) as [->|]; [lia|]. apply Z.lt_le_incl, year_start_step. lia.
  - assert (year_start (y + 1) <= year_start (year_of n)); [|lia].
    destruct (Z.eq_dec (y + 1) (year_of n)) as [->|]; [lia|]. apply Z.lt_le_incl, year_start_step. lia.
Qed.
Lemma month_of_spec y q : 0 <= q < (if leap y then 366 else 365) ->
  1 <= month_of y q <= 12 /\ days_before y (month_of y q) <= q < days_before y (month_of y q) + days_in_month y (month_of y q).
Proof.
  unfold month_of, days_before, days_in_month. intros H. destruct (leap y);
    repeat match goal with |- context [?a <? ?b] => destruct (Z.ltb_spec a b) end; split; lia.
Qed.
Lemma month_of_unique y q m : 1 <= m <= 12 -> days_before y m <= q < days_before y m + days_in_month y m -> month_of y q = m.
Proof.
  intros Hm. assert (m = 1 \/ m = 2 \/ m = 3 \/ m = 4 \/ m = 5 \/ m = 6 \/ m = 7 \/ m = 8 \/ m = 9 \/ m = 10 \/ m = 11 \/ m = 12) as E by lia.
  clear Hm. unfold month_of, days_before, days_in_month.
  destruct (leap y); destruct E as [->|[->|[->|[->|[->|[->|[->|[->|[->|[->|[->| ->]]]]]]]]]]]; intros H;
    repeat match goal with |- context [?a <? ?b] => destruct (Z.ltb_spec a b) end; lia.
Qed.

Lemma civil_valid n : let '(y, m, d) := civil n in valid_date y m d /\ days_of y m d = n.
Proof.
  unfold civil. pose proof (year_of_spec n) as Y. rewrite year_length in Y. set (y := year_of n) in *.
  destruct (month_of_spec y (n - year_start y) ltac:(lia)) as [M1 M2]. cbv zeta.
  set (m := month_of y (n - year_start y)) in *. unfold valid_date, days_of. lia.
Qed.

Lemma days_of_civil n : days_of (year n) (month n) (day n) = n.
Proof. unfold year, month, day. pose proof (civil_valid n) as H. destruct (civil n) as [[y m] d]. apply H. Qed.
Lemma month_range n : 1 <= month n <= 12.
Proof. unfold month. pose proof (civil_valid n) as H. destruct (civil n) as [[y m] d]. apply H. Qed.
Lemma day_range n : 1 <= day n <= days_in_month (year n) (month n).
Proof. unfold year, month, day. pose proof (civil_valid n) as H. destruct (civil n) as [[y m] d]. apply H. Qed.

Lemma civil_days_of y m d : valid_date y m d -> civil (days_of y m d) = (y, m, d).
Proof.
  intros [Hm Hd]. pose proof (before_range y m Hm) as B.
  assert (Y : year_of (days_of y m d) = y).
  { apply year_of_unique. rewrite year_length. unfold days_of. lia. }
  unfold civil. rewrite Y. cbv zeta.
  assert (M : month_of y (days_of y m d - year_start y) = m).
  { apply month_of_unique; [assumption|]. unfold days_of. lia. }
  rewrite M. f_equal. unfold days_of. lia.
Qed.

Lemma year_days_of y m d : valid_date y m d -> year (days_of y m d) = y.
Proof. intros H. unfold year. now rewrite civil_days_of. Qed.
Lemma month_days_of y m d : valid_date y m d -> month (days_of y m d) = m.
Proof. intros H. unfold month. now rewrite civil_days_of. Qed.
Lemma day_days_of y m d : valid_date y m d -> day (days_of y m d) = d.
Proof. intros H. unfold day. now rewrite civil_days_of. Qed.

Lemma before_total y : days_before y 12 + 31 = if leap y then 366 else 365.
Proof. unfold days_before. destruct (leap y); reflexivity. Qed.

(** godate is the day number with any month. *)
Definition mindex (y m : Z) : Z := 12 * y + (m - 1).
Lemma godate_days_of y m d : 1 <= m <= 12 -> godate y m d = days_of y m d.
Proof.
  intros H. unfold godate. rewrite Z.div_small, Z.mod_small by lia.
  f_equal; lia.
Qed.
Lemma godate_shift y m d k : godate y m (d + k) = godate y m d + k.
Proof. unfold godate, days_of. lia. Qed.
Lemma godate_mindex y m y' m' d : mindex y m = mindex y' m' -> godate y m d = godate y' m' d.
Proof.
  unfold mindex, godate. intros H.
  assert (m - 1 = m' - 1 + (y' - y) * 12) as E by lia.
  rewrite E, Z_mod_plus_full, Z_div_plus_full by lia. f_equal; lia.
Qed.
(** The first of the next month is one past the last of this one. *)
Lemma godate_next y m : 1 <= m <= 12 -> godate y (m + 1) 1 = godate y m 1 + days_in_month y m.
Proof.
  intros H. destruct (Z.eq_dec m 12) as [->|].
  - rewrite (godate_mindex y (12 + 1) (y + 1) 1) by (unfold mindex; lia).
    rewrite !godate_days_of by lia. unfold days_of. pose proof (year_length y) as E. rewrite <- before_total in E.
    change (days_in_month y 12) with 31. change (days_before (y + 1) 1) with 0. lia.
  - rewrite !godate_days_of by lia. unfold days_of. rewrite before_next by lia. lia.
Qed.

(** Splitting a month index. *)
Definition my (i : Z) : Z := i / 12.
Definition mm (i : Z) : Z := i mod 12 + 1.
Lemma mm_range i : 1 <= mm i <= 12.
Proof. unfold mm. pose proof (Z.mod_pos_bound i 12). lia. Qed.
Lemma mindex_split i : mindex (my i) (mm i) = i.
Proof. unfold mindex, my, mm. pose proof (Z.div_mod i 12). lia. Qed.
Lemma split_mindex y m : 1 <= m <= 12 -> my (mindex y m) = y /\ mm (mindex y m) = m.
Proof.
  intros H. unfold my, mm, mindex. replace (12 * y + (m - 1)) with (m - 1 + y * 12) by lia.
  rewrite Z_div_plus_full, Z_mod_plus_full, Z.div_small, Z.mod_small by lia. lia.
Qed.
(** First day of the month with index i, and its length. *)
Definition mstart (i : Z) : Z := godate (my i) (mm i) 1.
Definition mlen (i : Z) : Z := days_in_month (my i) (mm i).
Lemma mstart_next i : mstart (i + 1) = mstart i + mlen i.
Proof.
  unfold mstart, mlen. rewrite <- godate_next by apply mm_range. apply godate_mindex.
  pose proof (mindex_split i). pose proof (mindex_split (i + 1)). unfold mindex in *. lia.
Qed.
Lemma mlen_range i : 28 <= mlen i <= 31. Proof. apply dim_range. Qed.
Lemma godate_mstart y m d : godate y m d = mstart (mindex y m) + (d - 1).
Proof.
  unfold mstart. replace d with (1 + (d - 1)) at 1 by lia. rewrite godate_shift. f_equal.
  apply godate_mindex. now rewrite mindex_split.
Qed.
Lemma mstart_mono i j : i < j -> mstart i + mlen i <= mstart j.
Proof.
  intros H. replace j with (i + 1 + (j - i - 1)) by lia. generalize (Z.le_0_sub (i+1) j). intros _.
  assert (0 <= j - i - 1) as Hk by lia. revert Hk. generalize (j - i - 1). clear H j.
  intros k Hk. rewrite <- mstart_next. pattern k. apply natlike_ind; [|intros x Hx IH|assumption].
  - rewrite Z.add_0_r. lia.
  - replace (i + 1 + Z.succ x) with (i + 1 + x + 1) by lia. rewrite (mstart_next (i + 1 + x)). pose proof (mlen_range (i + 1 + x)). lia.
Qed.

(** The month index of a day. *)
Definition mix (n : Z) : Z := mindex (year n) (month n).
Lemma mix_spec n : mstart (mix n) <= n < mstart (mix n) + mlen (mix n) /\ n = mstart (mix n) + (day n - 1).
Proof.
  unfold mix. pose proof (days_of_civil n) as E. pose proof (month_range n) as Hm. pose proof (day_range n) as Hd.
  rewrite <- godate_days_of, godate_mstart in E by assumption.
  unfold mlen. destruct (split_mindex (year n) (month n) Hm) as [-> ->]. lia.
Qed.
Lemma mix_unique n i : mstart i <= n < mstart i + mlen i -> mix n = i.
Proof.
  intros H. destruct (mix_spec n) as [H1 _].
  destruct (Z.lt_trichotomy (mix n) i) as [Hlt|[E|Hlt]]; [|assumption|].
  - apply mstart_mono in Hlt. lia.
  - apply mstart_mono in Hlt. lia.
Qed.
Lemma civil_of_mix n i d : n = mstart i + (d - 1) -> 1 <= d <= mlen i ->
  year n = my i /\ month n = mm i /\ day n = d.
Proof.
  intros E Hd. assert (mix n = i) as X by (apply mix_unique; lia).
  destruct (mix_spec n) as [_ Hn]. rewrite X in Hn.
  unfold mix in X. destruct (split_mindex (year n) (month n) (month_range n)) as [Y1 Y2].
  rewrite X in Y1, Y2. repeat split; try congruence. lia.
Qed.
Lemma mix_mono a b : a <= b -> mix a <= mix b.
Proof.
  intros H. destruct (Z.le_gt_cases (mix a) (mix b)) as [|Hgt]; [assumption|].
  assert (mstart (mix b) + mlen (mix b) <= mstart (mix a)) by (apply mstart_mono; lia).
  destruct (mix_spec a), (mix_spec b). lia.
Qed.
Lemma year_mix n : year n = my (mix n).
Proof. unfold mix. now rewrite (proj1 (split_mindex (year n) (month n) (month_range n))). Qed.
Lemma month_mix n : month n = mm (mix n).
Proof. unfold mix. now rewrite (proj2 (split_mindex (year n) (month n) (month_range n))). Qed.
Lemma year_mono a b : a <= b -> year a <= year b.
Proof. intros H. rewrite !year_mix. unfold my. apply Z.div_le_mono; [lia|]. now apply mix_mono. Qed.

(** Years. *)
Lemma year_start_mstart y : year_start y = mstart (12 * y).
Proof.
  replace (12 * y) with (mindex y 1) by (unfold mindex; lia).
  pose proof (godate_mstart y 1 1) as E. rewrite godate_days_of in E by lia. unfold days_of in E.
  change (days_before y 1) with 0 in E. lia.
Qed.
Lemma year_spec n : year_start (year n) <= n < year_start (year n + 1).
Proof.
  rewrite !year_start_mstart, year_mix. destruct (mix_spec n) as [H _].
  assert (12 * my (mix n) <= mix n < 12 * (my (mix n) + 1)).
  { unfold my. pose proof (Z.div_mod (mix n) 12). pose proof (Z.mod_pos_bound (mix n) 12). lia. }
  split.
  - destruct (Z.eq_dec (12 * my (mix n)) (mix n)) as [->|]; [lia|].
    pose proof (mstart_mono (12 * my (mix n)) (mix n) ltac:(lia)). pose proof (mlen_range (12 * my (mix n))). lia.
  - pose proof (mstart_mono (mix n) (12 * (my (mix n) + 1)) ltac:(lia)). lia.
Qed.
Lemma year_start_lt y z : y < z -> year_start y + 365 <= year_start z.
Proof.
  intros H. assert (year_start (y + 1) <= year_start z).
  { rewrite !year_start_mstart. destruct (Z.eq_dec (12 * (y + 1)) (12 * z)) as [->|]; [lia|].
    pose proof (mstart_mono (12 * (y + 1)) (12 * z) ltac:(lia)). pose proof (mlen_range (12 * (y + 1))). lia. }
  rewrite year_length in H0. destruct (leap y); lia.
Qed.
Lemma year_unique n y : year_start y <= n < year_start (y + 1) -> year n = y.
Proof.
  intros H. pose proof (year_spec n).
  destruct (Z.lt_trichotomy (year n) y) as [Hlt|[E|Hlt]]; [|assumption|].
  - destruct (Z.eq_dec (year n + 1) y) as [E|]; [rewrite E in *; lia|].
    pose proof (year_start_lt (year n + 1) y ltac:(lia)). lia.
  - destruct (Z.eq_dec (y + 1) (year n)) as [E|]; [rewrite E in *; lia|].
    pose proof (year_start_lt (y + 1) (year n) ltac:(lia)). lia.
Qed.
Lemma yearday_range n : 1 <= yearday n <= 366.
Proof.
  unfold yearday. pose proof (year_spec n) as H. rewrite year_length in H. destruct (leap (year n)); lia.
Qed.
Lemma yearday_civil n : yearday n = days_before (year n) (month n) + day n.
Proof. unfold yearday. rewrite <- (days_of_civil n) at 1. unfold days_of. lia. Qed.

Lemma weekday_range n : 0 <= weekday n < 7.
Proof. apply Z.mod_pos_bound. lia. Qed.
Lemma weekday_add n k : weekday (n + k) = (weekday n + k) mod 7.
Proof. unfold weekday. rewrite Zplus_mod_idemp_l. f_equal. lia. Qed.

Example calendar_examples :
  civil 0 = (1970, 1, 1) /\ civil (-1) = (1969, 12, 31) /\ civil 19000 = (2022, 1, 8) /\
  days_of 1 1 1 = -719162 /\ civil (-719162) = (1, 1, 1) /\ civil 2932896 = (9999, 12, 31) /\
  weekday 0 = 4 /\ godate 2022 13 32 = days_of 2023 2 1 /\ iso_week (days_of 2021 1 3) = 53 /\
  iso_year (days_of 2021 1 3) = 2020.
Proof. repeat split. Qed.
