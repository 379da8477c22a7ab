From Coq Require Import Ascii String List ZArith Lia Bool.
From Verif Require Import GoBase GoBaseFacts CalendarModel CalendarFacts DateModel DateSpec.
Import ListNotations.
Local Open Scope string_scope.
Open Scope Z_scope.

Local Opaque civil year_start leap.

Lemma Ok_inj {A} (a b : A) : Ok a = Ok b -> a = b.
Proof. congruence. Qed.

(** ** Adding *)
Lemma add_date_days n d : add_date n 0 0 d = n + d.
Proof.
  unfold add_date. rewrite !Z.add_0_r, godate_shift, godate_days_of by apply month_range.
  now rewrite days_of_civil.
Qed.

Lemma add_date_mix n y m d : add_date n y m d = mstart (mix n + 12 * y + m) + (day n + d - 1).
Proof.
  unfold add_date. rewrite godate_mstart. unfold mix. f_equal. f_equal. unfold mindex. lia.
Qed.

Lemma first_of n : godate (year n) (month n) 1 = mstart (mix n).
Proof. rewrite godate_mstart. fold (mix n). lia. Qed.
Lemma mstart_fields i : year (mstart i) = my i /\ month (mstart i) = mm i /\ day (mstart i) = 1.
Proof. apply civil_of_mix; [lia|]. pose proof (mlen_range i). lia. Qed.
Lemma mix_mstart i : mix (mstart i) = i.
Proof. apply mix_unique. pose proof (mlen_range i). lia. Qed.

Lemma add_months_core n k : 
  let i := mix n + k in
  let first := mstart (mix n) in
  let next := mstart i in
  let after := godate (year next) (month next) (day n) in
  (if negb (month next =? month after) then mstart i + mlen i - 1 else mstart i + (day n - 1))
  = mstart i + (Z.min (day n) (mlen i) - 1).
Proof.
  intros i first next after.
  destruct (mstart_fields i) as [F1 [F2 F3]].
  assert (Ea : after = mstart i + (day n - 1)).
  { unfold after, next. rewrite F1, F2, godate_mstart. now rewrite mindex_split. }
  pose proof (day_range n) as Hd. pose proof (dim_range (year n) (month n)). pose proof (mlen_range i).
  destruct (Z.le_gt_cases (day n) (mlen i)) as [Hle|Hgt].
  - destruct (civil_of_mix after i (day n) Ea ltac:(lia)) as [_ [M _]].
    unfold next. rewrite F2, M, Z.eqb_refl. cbn [negb]. rewrite Z.min_l by lia. reflexivity.
  - pose proof (mlen_range (i + 1)).
    destruct (civil_of_mix after (i + 1) (day n - mlen i)) as [_ [M _]].
    { rewrite mstart_next. lia. }
    { lia. }
    unfold next. rewrite F2, M.
    assert (mm i <> mm (i + 1)) as Hne.
    { unfold mm. intros E. pose proof (Z.div_mod i 12 ltac:(lia)). pose proof (Z.div_mod (i + 1) 12 ltac:(lia)). lia. }
    apply Z.eqb_neq in Hne. rewrite Hne. cbn [negb]. rewrite Z.min_r by lia. lia.
Qed.

Lemma add_date_first j y m d i : i = j + 12 * y + m -> add_date (mstart j) y m d = mstart i + d.
Proof.
  intros ->. rewrite add_date_mix, mix_mstart. destruct (mstart_fields j) as [_ [_ D]]. rewrite D. lia.
Qed.
Lemma add_month_spec n m : add_month n m = mstart (mix n + m) + (Z.min (day n) (mlen (mix n + m)) - 1).
Proof.
  rewrite <- add_months_core. unfold add_month. rewrite first_of. cbv zeta.
  rewrite !(add_date_first _ 0 m 0 (mix n + m)) by lia. rewrite Z.add_0_r.
  destruct (negb _).
  - rewrite (add_date_first _ 0 (m + 1) (-1) (mix n + m + 1)) by lia. rewrite mstart_next. lia.
  - rewrite add_date_mix. replace (mix n + 12 * 0 + m) with (mix n + m) by lia. lia.
Qed.

Lemma add_year_spec n y : add_year n y = mstart (mix n + 12 * y) + (Z.min (day n) (mlen (mix n + 12 * y)) - 1).
Proof.
  rewrite <- add_months_core. unfold add_year. rewrite first_of. cbv zeta.
  rewrite !(add_date_first _ y 0 0 (mix n + 12 * y)) by lia. rewrite Z.add_0_r.
  destruct (negb _).
  - rewrite (add_date_first _ y 1 (-1) (mix n + 12 * y + 1)) by lia. rewrite mstart_next. lia.
  - rewrite add_date_mix. replace (mix n + 12 * y + 0) with (mix n + 12 * y) by lia. lia.
Qed.

Lemma months_later_intro n k r :
  r = mstart (mix n + k) + (Z.min (day n) (mlen (mix n + k)) - 1) -> months_later n k r.
Proof.
  intros E. pose proof (day_range n). pose proof (dim_range (year n) (month n)). pose proof (mlen_range (mix n + k)).
  destruct (civil_of_mix r (mix n + k) (Z.min (day n) (mlen (mix n + k))) E ltac:(lia)) as [Y [M D]].
  split.
  - rewrite Y, M. pose proof (mindex_split (mix n + k)) as X. unfold mindex in X. unfold mix, mindex in *. lia.
  - rewrite D, Y, M. reflexivity.
Qed.

(** The property determines the day. *)
Lemma months_later_unique n k r r' : months_later n k r -> months_later n k r' -> r = r'.
Proof.
  intros [A1 A2] [B1 B2].
  pose proof (month_range r). pose proof (month_range r').
  assert (year r = year r' /\ month r = month r') as [Y M] by lia.
  rewrite <- (days_of_civil r), <- (days_of_civil r'). rewrite A2, B2, Y, M. reflexivity.
Qed.

Lemma add_month_ok n m : months_later n m (add_month n m).
Proof. apply months_later_intro, add_month_spec. Qed.
Lemma add_year_ok n y : months_later n (12 * y) (add_year n y).
Proof. apply months_later_intro, add_year_spec. Qed.

Lemma months_later_inj n k k' r : months_later n k r -> months_later n k' r -> k = k'.
Proof. intros [A _] [B _]. lia. Qed.

(** ** Counting boundaries *)
Lemma starts_in_index (P : Z -> bool) (g : Z -> Z) b k :
  (forall n, g n - g (n - 1) = if P n then 1 else 0) ->
  starts_in P b k = g (b + Z.of_nat k) - g b.
Proof.
  intros H. induction k as [|k IH].
  - cbn. rewrite Z.add_0_r. lia.
  - cbn [starts_in]. rewrite IH. pose proof (H (b + Z.of_nat (S k))) as E.
    replace (b + Z.of_nat (S k) - 1) with (b + Z.of_nat k) in E by lia. lia.
Qed.
Lemma boundaries_index (P : Z -> bool) (g : Z -> Z) a b :
  (forall n, g n - g (n - 1) = if P n then 1 else 0) -> boundaries P b a = g a - g b.
Proof.
  intros H. unfold boundaries. destruct (Z.leb_spec b a) as [Hle|Hlt].
  - rewrite (starts_in_index P g) by assumption. rewrite Z2Nat.id by lia. do 2 f_equal. lia.
  - rewrite (starts_in_index P g) by assumption. rewrite Z2Nat.id by lia.
    replace (a + (b - a)) with b by lia. lia.
Qed.

Lemma boundaries_anti P a b : boundaries P a b = - boundaries P b a.
Proof.
  unfold boundaries. destruct (Z.leb_spec a b), (Z.leb_spec b a); try lia.
  assert (a = b) as -> by lia. rewrite Z.sub_diag. reflexivity.
Qed.

Lemma week_index w n : 0 <= w < 7 -> (n + 4 - w) / 7 - (n - 1 + 4 - w) / 7 = if starts_week w n then 1 else 0.
Proof.
  intros Hw. unfold starts_week, weekday.
  pose proof (Z.div_mod (n + 4) 7 ltac:(lia)). pose proof (Z.mod_pos_bound (n + 4) 7 ltac:(lia)).
  pose proof (Z.div_mod (n + 4 - w) 7 ltac:(lia)). pose proof (Z.mod_pos_bound (n + 4 - w) 7 ltac:(lia)).
  pose proof (Z.div_mod (n - 1 + 4 - w) 7 ltac:(lia)). pose proof (Z.mod_pos_bound (n - 1 + 4 - w) 7 ltac:(lia)).
  destruct (Z.eqb_spec ((n + 4) mod 7) w); lia.
Qed.
Lemma month_index n : mix n - mix (n - 1) = if starts_month n then 1 else 0.
Proof.
  unfold starts_month. destruct (mix_spec n) as [H1 H2]. pose proof (day_range n).
  destruct (Z.eqb_spec (day n) 1) as [E|E].
  - assert (mix (n - 1) = mix n - 1); [|lia]. apply mix_unique.
    pose proof (mstart_next (mix n - 1)) as X. replace (mix n - 1 + 1) with (mix n) in X by lia.
    pose proof (mlen_range (mix n - 1)). lia.
  - assert (mix (n - 1) = mix n); [|lia]. apply mix_unique. lia.
Qed.
Lemma before_zero y m : 1 <= m <= 12 -> 0 <= days_before y m /\ (days_before y m = 0 -> m = 1).
Proof.
  revert m. apply month_cases; unfold days_before; destruct (leap y); lia.
Qed.
Lemma days_of_jan1 y : days_of y 1 1 = year_start y.
Proof. unfold days_of, days_before. lia. Qed.
Lemma starts_year_iff n : starts_year n = true <-> n = year_start (year n).
Proof.
  unfold starts_year. rewrite andb_true_iff, !Z.eqb_eq. pose proof (days_of_civil n) as C. split.
  - intros [D M]. rewrite D, M, days_of_jan1 in C. now symmetry.
  - intros E. unfold days_of in C.
    pose proof (day_range n). pose proof (month_range n) as M.
    destruct (before_zero (year n) (month n) M) as [B1 B2].
    generalize dependent (days_before (year n) (month n)). intros db C B1 B2.
    split; [lia|]. apply B2. lia.
Qed.
Lemma year_index n : year n - year (n - 1) = if starts_year n then 1 else 0.
Proof.
  pose proof (year_spec n) as H.
  destruct (starts_year n) eqn:E.
  - apply starts_year_iff in E. assert (year (n - 1) = year n - 1); [|lia]. apply year_unique.
    replace (year n - 1 + 1) with (year n) by lia.
    pose proof (year_start_lt (year n - 1) (year n) ltac:(lia)). lia.
  - assert (year (n - 1) = year n); [|lia]. apply year_unique.
    assert (n <> year_start (year n)) by (intros X; apply starts_year_iff in X; congruence). lia.
Qed.

Lemma thursday_spec n : thursday n - 3 <= n < thursday n + 4 /\ weekday (thursday n) = 4.
Proof.
  unfold thursday, weekday. pose proof (Z.mod_pos_bound (n + 3) 7 ltac:(lia)).
  pose proof (Z.div_mod (n + 3) 7 ltac:(lia)).
  split; [lia|]. replace (n + 3 - (n + 3) mod 7 + 4) with (4 + ((n + 3) / 7) * 7) by lia.
  rewrite Z_mod_plus_full. reflexivity.
Qed.
Lemma thursday_week n : thursday n = 7 * ((n + 3) / 7).
Proof. unfold thursday. pose proof (Z.div_mod (n + 3) 7 ltac:(lia)). lia. Qed.
Lemma thursday_monday n : weekday n = 1 -> thursday n = n + 3 /\ thursday (n - 1) = n - 4.
Proof.
  unfold weekday. intros H. rewrite !thursday_week.
  pose proof (Z.div_mod (n + 4) 7 ltac:(lia)).
  pose proof (Z.div_mod (n + 3) 7 ltac:(lia)). pose proof (Z.mod_pos_bound (n + 3) 7 ltac:(lia)).
  pose proof (Z.div_mod (n - 1 + 3) 7 ltac:(lia)). pose proof (Z.mod_pos_bound (n - 1 + 3) 7 ltac:(lia)). lia.
Qed.
Lemma thursday_other n : weekday n <> 1 -> thursday (n - 1) = thursday n.
Proof.
  unfold weekday. intros H. rewrite !thursday_week.
  pose proof (Z.div_mod (n + 4) 7 ltac:(lia)). pose proof (Z.mod_pos_bound (n + 4) 7 ltac:(lia)).
  pose proof (Z.div_mod (n + 3) 7 ltac:(lia)). pose proof (Z.mod_pos_bound (n + 3) 7 ltac:(lia)).
  pose proof (Z.div_mod (n - 1 + 3) 7 ltac:(lia)). pose proof (Z.mod_pos_bound (n - 1 + 3) 7 ltac:(lia)). lia.
Qed.

Lemma jan4 y : days_of y 1 4 = year_start y + 3.
Proof. unfold days_of. change (days_before y 1) with 0. lia. Qed.

Lemma starts_iso_year_iff n : starts_iso_year n = true <->
  weekday n = 1 /\ exists y, n <= year_start y + 3 <= n + 6.
Proof.
  unfold starts_iso_year. rewrite jan4, andb_true_iff, Z.eqb_eq, andb_true_iff, !Z.leb_le. split.
  - intros [H1 H2]. split; [assumption|]. eexists. exact H2.
  - intros [H1 [y H2]]. split; [assumption|].
    assert (year (n + 6) = y) as ->; [|assumption]. apply year_unique.
    pose proof (year_start_lt y (y + 1) ltac:(lia)). lia.
Qed.

Lemma iso_year_index n : iso_year n - iso_year (n - 1) = if starts_iso_year n then 1 else 0.
Proof.
  unfold iso_year. destruct (Z.eq_dec (weekday n) 1) as [W|W].
  - destruct (thursday_monday n W) as [-> ->].
    destruct (starts_iso_year n) eqn:E.
    + apply starts_iso_year_iff in E. destruct E as [_ [y Hy]].
      assert (year (n + 3) = y) as ->.
      { apply year_unique. pose proof (year_start_lt y (y + 1) ltac:(lia)). lia. }
      assert (year (n - 4) = y - 1) as ->; [|lia].
      apply year_unique. replace (y - 1 + 1) with y by lia. pose proof (year_start_lt (y - 1) y ltac:(lia)). lia.
    + assert (year (n - 4) = year (n + 3)); [|lia]. pose proof (year_spec (n + 3)) as Y.
      apply year_unique. destruct (Z.le_gt_cases (year_start (year (n + 3))) (n - 4)); [lia|].
      exfalso. enough (starts_iso_year n = true) by congruence. apply starts_iso_year_iff.
      split; [assumption|]. exists (year (n + 3)). lia.
  - rewrite thursday_other by assumption.
    destruct (starts_iso_year n) eqn:E; [|lia]. apply starts_iso_year_iff in E. lia.
Qed.

(** ** DATE_DIFF *)
Lemma count_rem_starts s w k : 0 <= w < 7 -> (k < 7)%nat ->
  count_rem (weekday s) w k = starts_in (starts_week w) s k.
Proof.
  intros Hw. induction k as [|k IH]; intros Hk; [reflexivity|].
  cbn [count_rem starts_in]. rewrite IH by lia. f_equal. unfold starts_week.
  now rewrite weekday_add.
Qed.

Lemma starts_in_weeks w s q : 0 <= w < 7 -> 0 <= q ->
  starts_in (starts_week w) s (Z.to_nat (7 * q)) = q.
Proof.
  intros Hw Hq. rewrite (starts_in_index _ (fun n => (n + 4 - w) / 7)) by (intros n; now apply week_index).
  rewrite Z2Nat.id by lia.
  replace (s + 7 * q + 4 - w) with (s + 4 - w + q * 7) by lia. rewrite Z_div_plus_full by lia. lia.
Qed.

Lemma diff_weeks_ok a b w : 0 <= w < 7 -> diff_weeks a b w = boundaries (starts_week w) b a.
Proof.
  intros Hw.
  assert (Days : forall s e, s <= e -> Z.quot (Z.quot (Z.quot (86400 * e - 86400 * s) 24) 60) 60 = e - s).
  { intros s e H. rewrite !Z.quot_quot by lia. replace (86400 * e - 86400 * s) with ((e - s) * (24 * 60 * 60)) by lia.
    rewrite Z.quot_mul; lia. }
  assert (Core : forall s e, s <= e ->
     Z.quot (e - s) 7 + count_rem (weekday s) w (Z.to_nat (Z.rem (e - s) 7)) =
     (e + 4 - w) / 7 - (s + 4 - w) / 7).
  { intros s e H. rewrite Z.quot_div_nonneg, Z.rem_mod_nonneg by lia.
    pose proof (Z.mod_pos_bound (e - s) 7 ltac:(lia)). pose proof (Z.div_mod (e - s) 7 ltac:(lia)).
    rewrite count_rem_starts by lia.
    rewrite (starts_in_index _ (fun n => (n + 4 - w) / 7)) by (intros n; now apply week_index).
    rewrite Z2Nat.id by lia.
    replace (e + 4 - w) with (s + (e - s) mod 7 + 4 - w + (e - s) / 7 * 7) by lia.
    rewrite Z_div_plus_full by lia. lia. }
  rewrite (boundaries_index _ (fun n => (n + 4 - w) / 7)) by (intros n; now apply week_index).
  unfold diff_weeks. cbv zeta. destruct (Z.ltb_spec a b).
  - rewrite Days, Core by lia. lia.
  - rewrite Days, Core by lia. lia.
Qed.

Lemma week_part_range part w : week_part part = Some w -> 0 <= w < 7.
Proof.
  unfold week_part. repeat (match goal with |- context [String.eqb part ?s] => destruct (String.eqb part s) end;
    [intros E; injection E as <-; lia|]). discriminate.
Qed.

Lemma diff_day a b : - 106751 <= a - b <= 106751 ->
  date_diff a b "DAY" = Ok (a - b).
Proof.
  intros H. unfold date_diff. cbn [has_prefix]. cbn -[time_sub Z.quot Z.rem day_ns].
  assert (time_sub a b = (a - b) * day_ns) as ->.
  { unfold time_sub, day_ns, two63. lia. }
  rewrite Z.quot_mul, Z.rem_mul by (unfold day_ns; lia). reflexivity.
Qed.
Lemma diff_day_far a b : 106751 < a - b \/ a - b < - 106751 ->
  date_diff a b "DAY" = Ok (if b <? a then 106752 else -106752).
Proof.
  intros H. unfold date_diff. cbn [has_prefix]. cbn -[time_sub Z.quot Z.rem day_ns].
  destruct (Z.ltb_spec b a).
  - assert (time_sub a b = two63 - 1) as -> by (unfold time_sub, day_ns, two63; lia). reflexivity.
  - assert (time_sub a b = - two63) as -> by (unfold time_sub, day_ns, two63; lia). reflexivity.
Qed.

(** ** DATE_TRUNC and LAST_DAY *)
Lemma first_day_unique P n d d' : first_day_of P n d -> first_day_of P n d' -> d = d'.
Proof.
  intros [A1 [A2 A3]] [B1 [B2 B3]]. destruct (Z.lt_trichotomy d d') as [H|[H|H]]; [|assumption|].
  - rewrite (A3 d') in B1 by lia. discriminate.
  - rewrite (B3 d) in A1 by lia. discriminate.
Qed.
Lemma first_day_laws P T :
  (forall n, first_day_of P n (T n)) ->
  (forall n, T n <= n) /\ (forall n, T (T n) = T n) /\ (forall a b, a <= b -> T a <= T b).
Proof.
  intros H. split; [intros n; apply (H n)|]. split.
  - intros n. apply (first_day_unique P (T n)); [apply H|]. split; [apply (H n)|]. split; [lia|]. intros e He. lia.
  - intros a b Hab. destruct (H a) as [A1 [A2 A3]], (H b) as [B1 [B2 B3]].
    destruct (Z.le_gt_cases (T a) (T b)); [assumption|]. exfalso. rewrite (B3 (T a)) in A1 by lia. discriminate.
Qed.

Lemma back_to_spec w : 0 <= w < 7 -> forall fuel n, (n + 4 - w) mod 7 <= Z.of_nat fuel ->
  back_to fuel n w = n - (n + 4 - w) mod 7.
Proof.
  intros Hw. induction fuel as [|fuel IH]; intros n Hn; cbn [back_to]; unfold weekday;
    pose proof (Z.div_mod (n + 4) 7 ltac:(lia)); pose proof (Z.mod_pos_bound (n + 4) 7 ltac:(lia));
    pose proof (Z.div_mod (n + 4 - w) 7 ltac:(lia)); pose proof (Z.mod_pos_bound (n + 4 - w) 7 ltac:(lia));
    destruct (Z.eqb_spec ((n + 4) mod 7) w) as [E|E]; try lia.
  fold (weekday n). rewrite add_date_days.
  pose proof (Z.div_mod (n + -1 + 4 - w) 7 ltac:(lia)). pose proof (Z.mod_pos_bound (n + -1 + 4 - w) 7 ltac:(lia)).
  rewrite IH by lia. lia.
Qed.
Lemma trunc_week w n : 0 <= w < 7 -> first_day_of (starts_week w) n (back_to 6 n w).
Proof.
  intros Hw. pose proof (Z.mod_pos_bound (n + 4 - w) 7 ltac:(lia)).
  rewrite back_to_spec by (try assumption; cbn; lia).
  unfold first_day_of, starts_week, weekday.
  pose proof (Z.div_mod (n + 4 - w) 7 ltac:(lia)).
  split; [|split; [lia|]].
  - apply Z.eqb_eq. replace (n - (n + 4 - w) mod 7 + 4) with (w + ((n + 4 - w) / 7) * 7) by lia.
    rewrite Z_mod_plus_full. apply Z.mod_small. lia.
  - intros e He. apply Z.eqb_neq. intros E. pose proof (Z.div_mod (e + 4) 7 ltac:(lia)). lia.
Qed.

Lemma first_of_month n : first_day_of starts_month n (mstart (mix n)).
Proof.
  destruct (mix_spec n) as [H1 H2]. destruct (mstart_fields (mix n)) as [_ [_ D]].
  split; [unfold starts_month; now rewrite D|]. split; [lia|].
  intros e He. unfold starts_month. apply Z.eqb_neq. intros X.
  assert (mix e = mix n) as E by (apply mix_unique; lia). destruct (mix_spec e) as [_ E2]. rewrite E in E2. lia.
Qed.
Lemma first_of_year n : first_day_of starts_year n (year_start (year n)).
Proof.
  pose proof (year_spec n) as H.
  split; [|split; [lia|]].
  - apply starts_year_iff. f_equal. symmetry. apply year_unique. pose proof (year_start_lt (year n) (year n + 1) ltac:(lia)). lia.
  - intros e He. destruct (starts_year e) eqn:E; [|reflexivity]. exfalso. apply starts_year_iff in E.
    assert (year e = year n) as X by (apply year_unique; lia). rewrite X in E. lia.
Qed.
Lemma first_of_quarter n : first_day_of starts_quarter n (mstart (3 * (mix n / 3))).
Proof.
  destruct (mix_spec n) as [H1 H2]. set (q := 3 * (mix n / 3)).
  pose proof (Z.div_mod (mix n) 3 ltac:(lia)) as D3. pose proof (Z.mod_pos_bound (mix n) 3 ltac:(lia)) as M3.
  assert (Mod : forall i, (mm i - 1) mod 3 = i mod 3).
  { intros i. unfold mm. replace (i mod 12 + 1 - 1) with (i mod 12) by lia.
    pose proof (Z.div_mod i 12 ltac:(lia)). replace (i mod 12) with (i + (- 4 * (i / 12)) * 3) by lia.
    now rewrite Z_mod_plus_full. }
  destruct (mstart_fields q) as [_ [Mq Dq]].
  split; [|split].
  - unfold starts_quarter. rewrite Mq, Dq, Mod, Z.eqb_refl. cbn [andb]. apply Z.eqb_eq. unfold q.
    generalize (mix n / 3). intros z. replace (3 * z) with (0 + z * 3) by lia. now rewrite Z_mod_plus_full.
  - destruct (Z.eq_dec q (mix n)) as [->|]; [lia|]. pose proof (mstart_mono q (mix n) ltac:(lia)). pose proof (mlen_range q). lia.
  - intros e He. unfold starts_quarter. destruct (Z.eqb_spec (day e) 1) as [E|E]; [|reflexivity]. cbn [andb]. apply Z.eqb_neq.
    rewrite month_mix, Mod. destruct (mix_spec e) as [_ E2].
    assert (q < mix e).
    { destruct (Z.le_gt_cases (mix e) q) as [Hle|]; [|lia]. exfalso.
      destruct (Z.eq_dec (mix e) q) as [X|]; [rewrite X in E2; lia|].
      pose proof (mstart_mono (mix e) q ltac:(lia)). pose proof (mlen_range (mix e)). lia. }
    pose proof (mix_mono e n ltac:(lia)). pose proof (Z.div_mod (mix e) 3 ltac:(lia)). lia.
Qed.

Lemma zero_mix : mix zero_time = 12 /\ day zero_time = 1.
Proof. vm_compute. split; reflexivity. Qed.
Lemma add_zero y m : add_date zero_time y m 0 = mstart (12 + 12 * y + m).
Proof. rewrite add_date_mix. destruct zero_mix as [-> ->]. f_equal. lia. Qed.

Lemma trunc_month n : date_trunc n "MONTH" = Ok (mstart (mix n)).
Proof.
  unfold date_trunc. cbn -[add_date year month]. rewrite add_zero. do 2 f_equal. unfold mix, mindex. lia.
Qed.
Lemma trunc_year n : date_trunc n "YEAR" = Ok (year_start (year n)).
Proof.
  unfold date_trunc. cbn -[add_date year month]. rewrite add_zero, year_start_mstart. do 2 f_equal. lia.
Qed.
Lemma quarter_month m : 1 <= m <= 12 ->
  nth (Z.to_nat (Z.quot (m - 1) 3)) quarter_start_months 0 = 3 * ((m - 1) / 3) + 1.
Proof. revert m. apply month_cases; reflexivity. Qed.
Lemma trunc_quarter n : date_trunc n "QUARTER" = Ok (mstart (3 * (mix n / 3))).
Proof.
  unfold date_trunc. cbn -[godate year month nth quarter_start_months Z.quot].
  rewrite godate_mstart.
  assert (E : mindex (year n) (nth (Z.to_nat (Z.quot (month n - 1) 3)) quarter_start_months 0) = 3 * (mix n / 3)).
  { unfold mix, mindex. replace (12 * year n + (month n - 1)) with (month n - 1 + (4 * year n) * 3) by lia.
    rewrite Z_div_plus_full by lia. rewrite quarter_month by apply month_range. lia. }
  rewrite E. replace (mstart (3 * (mix n / 3)) + (1 - 1)) with (mstart (3 * (mix n / 3))) by lia. reflexivity.
Qed.
Lemma trunc_day n : date_trunc n "DAY" = Ok n.
Proof.
  unfold date_trunc. cbn -[godate year month day]. rewrite godate_days_of by apply month_range. now rewrite days_of_civil.
Qed.

(** The ISO year of a day starts on the Monday of the week with January 4th. *)
Definition iso_start (y : Z) : Z := thursday (year_start y + 3) - 3.
Lemma iso_start_spec y : weekday (iso_start y) = 1 /\ iso_start y <= year_start y + 3 <= iso_start y + 6.
Proof.
  unfold iso_start. destruct (thursday_spec (year_start y + 3)) as [H1 H2]. split; [|lia].
  unfold weekday in *. pose proof (Z.div_mod (thursday (year_start y + 3) + 4) 7 ltac:(lia)).
  replace (thursday (year_start y + 3) - 3 + 4) with (1 + ((thursday (year_start y + 3) + 4) / 7) * 7) by lia.
  rewrite Z_mod_plus_full. reflexivity.
Qed.
Lemma iso_start_bounds y : iso_start y - 3 <= year_start y <= iso_start y + 3 /\ iso_start y = year_start y + 3 - (year_start y + 6) mod 7.
Proof.
  destruct (iso_start_spec y) as [W H]. split; [lia|].
  unfold iso_start, thursday. replace (year_start y + 3 + 3) with (year_start y + 6) by lia. lia.
Qed.
Lemma thursday_mono a b : a <= b -> thursday a <= thursday b.
Proof.
  intros H. rewrite !thursday_week. assert ((a + 3) / 7 <= (b + 3) / 7) by (apply Z.div_le_mono; lia). lia.
Qed.
Lemma thursday_iso_start y : thursday (iso_start y) = iso_start y + 3.
Proof. apply thursday_monday. apply iso_start_spec. Qed.
Lemma iso_year_spec n : iso_start (iso_year n) <= n < iso_start (iso_year n + 1).
Proof.
  unfold iso_year. set (y := year (thursday n)). pose proof (year_spec (thursday n)) as Y. fold y in Y.
  destruct (thursday_spec n) as [T _]. 
  split.
  - destruct (Z.le_gt_cases (iso_start y) n); [assumption|]. exfalso.
    assert (thursday n <= iso_start y - 4).
    { assert (thursday n <= thursday (iso_start y - 1)) by (apply thursday_mono; lia).
      destruct (thursday_monday (iso_start y) (proj1 (iso_start_spec y))) as [_ E]. lia. }
    pose proof (iso_start_bounds y). lia.
  - destruct (Z.le_gt_cases (iso_start (y + 1)) n); [|lia]. exfalso.
    assert (iso_start (y + 1) + 3 <= thursday n).
    { rewrite <- thursday_iso_start. apply thursday_mono. lia. }
    pose proof (iso_start_bounds (y + 1)). lia.
Qed.
Lemma starts_iso_year_start n : starts_iso_year n = true <-> exists y, n = iso_start y.
Proof.
  rewrite starts_iso_year_iff. split.
  - intros [W [y H]]. exists y. destruct (iso_start_spec y) as [W' H'].
    unfold weekday in *. pose proof (Z.div_mod (n + 4) 7 ltac:(lia)). pose proof (Z.div_mod (iso_start y + 4) 7 ltac:(lia)). lia.
  - intros [y ->]. destruct (iso_start_spec y). split; [assumption|]. exists y. lia.
Qed.
Lemma iso_start_lt y z : y < z -> iso_start y + 358 < iso_start z.
Proof.
  intros H. pose proof (iso_start_bounds y). pose proof (iso_start_bounds z). pose proof (year_start_lt y z H). lia.
Qed.
Lemma iso_start_inj_between y n : iso_start y < n < iso_start (y + 1) -> starts_iso_year n = false.
Proof.
  intros H. destruct (starts_iso_year n) eqn:E; [|reflexivity]. exfalso. apply starts_iso_year_start in E. destruct E as [z ->].
  destruct (Z.lt_trichotomy z y) as [X|[X|X]].
  - apply iso_start_lt in X. lia.
  - subst. lia.
  - destruct (Z.eq_dec z (y + 1)) as [->|]; [lia|]. pose proof (iso_start_lt (y + 1) z ltac:(lia)). lia.
Qed.
Lemma first_of_iso_year n : first_day_of starts_iso_year n (iso_start (iso_year n)).
Proof.
  pose proof (iso_year_spec n). split; [apply starts_iso_year_start; now eexists|]. split; [lia|].
  intros e He. apply (iso_start_inj_between (iso_year n)). lia.
Qed.

Lemma trunc_iso_year n : date_trunc n "ISOYEAR" = Ok (year_start (iso_year n) + (1 - weekday (year_start (iso_year n)))).
Proof.
  unfold date_trunc. cbn -[godate add_date iso_year weekday]. rewrite add_date_days.
  rewrite godate_days_of by lia. unfold days_of. change (days_before (iso_year n) 1) with 0.
  replace (year_start (iso_year n) + 0 + (1 - 1)) with (year_start (iso_year n)) by lia. reflexivity.
Qed.
Lemma trunc_iso_year_right n :
  date_trunc n "ISOYEAR" = Ok (iso_start (iso_year n)) <->
  weekday (year_start (iso_year n)) <> 5 /\ weekday (year_start (iso_year n)) <> 6.
Proof.
  rewrite trunc_iso_year. destruct (iso_start_bounds (iso_year n)) as [_ E]. set (s := year_start (iso_year n)) in *.
  unfold weekday. pose proof (Z.div_mod (s + 4) 7 ltac:(lia)). pose proof (Z.mod_pos_bound (s + 4) 7 ltac:(lia)).
  pose proof (Z.div_mod (s + 6) 7 ltac:(lia)). pose proof (Z.mod_pos_bound (s + 6) 7 ltac:(lia)).
  split.
  - intros X. apply Ok_inj in X. lia.
  - intros [X1 X2]. f_equal. lia.
Qed.

Lemma trunc_iso_week_wrong n d : date_trunc n "ISOWEEK" = Ok d -> first_day_of (starts_week 1) n d -> False.
Proof.
  unfold date_trunc. cbn -[godate iso_year iso_week Z.mul]. intros E [W [Hle Hmin]].
  assert (Ed : d = godate (iso_year n) 0 (7 * iso_week n)) by (apply Ok_inj in E; lia). clear E.
  assert (G : d = year_start (iso_year n) + 7 * iso_week n - 32).
  { rewrite Ed. rewrite (godate_mindex (iso_year n) 0 (iso_year n - 1) 12) by (unfold mindex; lia).
    rewrite godate_days_of by lia. unfold days_of.
    pose proof (year_length (iso_year n - 1)) as L. replace (iso_year n - 1 + 1) with (iso_year n) in L by lia.
    pose proof (before_total (iso_year n - 1)). lia. }
  (* the week of the Thursday *)
  assert (K : 7 * iso_week n <= yearday (thursday n) + 6).
  { unfold iso_week. pose proof (Z.div_mod (yearday (thursday n) - 1) 7 ltac:(lia)).
    pose proof (Z.mod_pos_bound (yearday (thursday n) - 1) 7 ltac:(lia)). lia. }
  unfold yearday in K. fold (iso_year n) in K. destruct (thursday_spec n) as [T _].
  assert (d < n - 13) by lia.
  pose proof (trunc_week 1 n ltac:(lia)) as [B1 [B2 B3]].
  pose proof (Z.mod_pos_bound (n + 4 - 1) 7 ltac:(lia)).
  pose proof (back_to_spec 1 ltac:(lia) 6 n ltac:(cbn; lia)) as B.
  rewrite (Hmin (back_to 6 n 1)) in B1 by lia. discriminate.
Qed.

(** LAST_DAY *)
Lemma last_week_iff w n : 0 <= w < 7 ->
  (last_day_of (starts_week w) n (n + (6 + w - weekday n)) <-> w <= weekday n).
Proof.
  intros Hw. pose proof (weekday_range n). unfold last_day_of, starts_week. split.
  - intros [_ [_ H3]]. destruct (Z.le_gt_cases w (weekday n)); [assumption|]. exfalso.
    assert (weekday (n + (w - weekday n)) <> w) as X by (apply Z.eqb_neq, H3; lia).
    apply X. rewrite weekday_add. replace (weekday n + (w - weekday n)) with w by lia. apply Z.mod_small. lia.
  - intros Hle. split; [|split; [lia|]].
    + apply Z.eqb_eq. replace (n + (6 + w - weekday n) + 1) with (n + (7 + w - weekday n)) by lia. rewrite weekday_add.
      replace (weekday n + (7 + w - weekday n)) with (w + 1 * 7) by lia. rewrite Z_mod_plus_full. apply Z.mod_small. lia.
    + intros e He. apply Z.eqb_neq. intros E. unfold weekday in *.
      pose proof (Z.div_mod (n + 4) 7 ltac:(lia)). pose proof (Z.div_mod (e + 4) 7 ltac:(lia)). lia.
Qed.

Lemma last_of_month n : last_day_of starts_month n (mstart (mix n) + mlen (mix n) - 1).
Proof.
  destruct (mix_spec n) as [H1 H2]. split; [|split; [lia|]].
  - replace (mstart (mix n) + mlen (mix n) - 1 + 1) with (mstart (mix n + 1)) by (rewrite mstart_next; lia).
    unfold starts_month. destruct (mstart_fields (mix n + 1)) as [_ [_ ->]]. reflexivity.
  - intros e He. unfold starts_month. apply Z.eqb_neq. intros X.
    assert (mix e = mix n) as E by (apply mix_unique; lia). destruct (mix_spec e) as [_ E2]. rewrite E in E2. lia.
Qed.
Lemma last_day_month n : last_day n "MONTH" = Ok (mstart (mix n) + mlen (mix n) - 1).
Proof.
  unfold last_day. cbn -[add_date day]. rewrite add_date_mix.
  replace (mix n + 12 * 0 + 1) with (mix n + 1) by lia. rewrite mstart_next. f_equal. lia.
Qed.
Lemma last_of_year n : last_day_of starts_year n (year_start (year n + 1) - 1).
Proof.
  pose proof (year_spec n) as H. split; [|split; [lia|]].
  - apply starts_year_iff. replace (year_start (year n + 1) - 1 + 1) with (year_start (year n + 1)) by lia.
    f_equal. symmetry. apply year_unique. pose proof (year_start_lt (year n + 1) (year n + 1 + 1) ltac:(lia)). lia.
  - intros e He. destruct (starts_year e) eqn:E; [|reflexivity]. exfalso. apply starts_year_iff in E.
    assert (year e = year n) as X by (apply year_unique; lia). rewrite X in E. lia.
Qed.
Lemma last_day_year n part : part = "YEAR" \/ part = "ISOYEAR" -> last_day n part = Ok (year_start (year n + 1) - 1).
Proof.
  intros [->| ->]; unfold last_day; cbn -[godate year]; rewrite godate_days_of by lia; unfold days_of;
    change (days_before (year n + 1) 1) with 0; f_equal; lia.
Qed.
Lemma last_of_iso_year n : last_day_of starts_iso_year n (iso_start (iso_year n + 1) - 1).
Proof.
  pose proof (iso_year_spec n). split; [|split; [lia|]].
  - apply starts_iso_year_start. exists (iso_year n + 1). lia.
  - intros e He. apply (iso_start_inj_between (iso_year n)). lia.
Qed.
Lemma last_day_unique P n d d' : last_day_of P n d -> last_day_of P n d' -> d = d'.
Proof.
  intros [A1 [A2 A3]] [B1 [B2 B3]]. destruct (Z.lt_trichotomy d d') as [H|[H|H]]; [|assumption|].
  - rewrite (B3 (d + 1)) in A1 by lia. discriminate.
  - rewrite (A3 (d' + 1)) in B1 by lia. discriminate.
Qed.

(** ** EXTRACT(QUARTER) *)
Definition dim_l (l : bool) (m : Z) : Z :=
  match m with
  | 1 => 31 | 2 => if l then 29 else 28 | 3 => 31 | 4 => 30 | 5 => 31 | 6 => 30
  | 7 => 31 | 8 => 31 | 9 => 30 | 10 => 31 | 11 => 30 | _ => 31
  end.
Definition before_l (b : bool) (m : Z) : Z :=
  let l := if b then 1 else 0 in
  match m with
  | 1 => 0 | 2 => 31 | 3 => 59 + l | 4 => 90 + l | 5 => 120 + l | 6 => 151 + l
  | 7 => 181 + l | 8 => 212 + l | 9 => 243 + l | 10 => 273 + l | 11 => 304 + l | _ => 334 + l
  end.
Definition quarter_of_yearday (d : Z) : Z :=
  if d <=? 91 then 1 else if d <=? 91 * 2 then 2 else if d <=? 91 * 3 then 3 else 4.
Definition quarter_bad (l : bool) (m d : Z) : bool :=
  (negb l && (((m =? 4) || (m =? 7)) && (d =? 1))) || (l && ((m =? 9) && (d =? 30))).
Definition quarter_chk (l : bool) (m d : Z) : bool :=
  implb (d <=? dim_l l m)
    (Bool.eqb (quarter_of_yearday (before_l l m + d) =? (m - 1) / 3 + 1) (negb (quarter_bad l m d))).
Lemma quarter_table : forall l, upto 12 1 (fun m => upto 31 1 (quarter_chk l m)) = true.
Proof. intros [|]; vm_compute; reflexivity. Qed.
Lemma quarter_right n :
  extract n "QUARTER" = Ok ((month n - 1) / 3 + 1) <->
  ~ (leap (year n) = false /\ (month n = 4 \/ month n = 7) /\ day n = 1) /\
  ~ (leap (year n) = true /\ month n = 9 /\ day n = 30).
Proof.
  change (extract n "QUARTER") with (Ok (quarter_of_yearday (yearday n))).
  rewrite yearday_civil.
  pose proof (day_range n) as D. pose proof (month_range n) as M.
  pose proof (quarter_table (leap (year n))) as T.
  pose proof (upto_spec _ _ _ T (month n) ltac:(cbn; lia)) as T1. cbv beta in T1.
  pose proof (dim_range (year n) (month n)) as L.
  pose proof (upto_spec _ _ _ T1 (day n) ltac:(cbn; lia)) as T2. clear T T1. unfold quarter_chk in T2.
  change (days_in_month (year n) (month n)) with (dim_l (leap (year n)) (month n)) in D.
  change (days_before (year n) (month n)) with (before_l (leap (year n)) (month n)).
  assert (D' : (day n <=? dim_l (leap (year n)) (month n)) = true) by (apply Z.leb_le; lia).
  rewrite D' in T2. cbn [implb] in T2. apply eqb_prop in T2.
  transitivity (quarter_bad (leap (year n)) (month n) (day n) = false).
  - rewrite <- negb_true_iff, <- T2, Z.eqb_eq. split; [intros X; now apply Ok_inj in X|now intros ->].
  - unfold quarter_bad. rewrite orb_false_iff, <- !not_true_iff_false, !andb_true_iff, !orb_true_iff, negb_true_iff, !Z.eqb_eq.
    destruct (leap (year n)); intuition congruence.
Qed.

(** ** ISO weeks *)
Lemma iso_week_count n : iso_week n = (n - iso_start (iso_year n)) / 7 + 1.
Proof.
  unfold iso_week, yearday. fold (iso_year n). rewrite thursday_week.
  destruct (iso_start_bounds (iso_year n)) as [B E]. pose proof (thursday_iso_start (iso_year n)) as T.
  rewrite thursday_week in T. set (s := iso_start (iso_year n)) in *. set (ys := year_start (iso_year n)) in *.
  pose proof (Z.div_mod (n + 3) 7 ltac:(lia)). pose proof (Z.mod_pos_bound (n + 3) 7 ltac:(lia)).
  pose proof (Z.div_mod (n - s) 7 ltac:(lia)). pose proof (Z.mod_pos_bound (n - s) 7 ltac:(lia)).
  pose proof (Z.div_mod (7 * ((n + 3) / 7) - ys + 1 - 1) 7 ltac:(lia)).
  pose proof (Z.mod_pos_bound (7 * ((n + 3) / 7) - ys + 1 - 1) 7 ltac:(lia)).
  lia.
Qed.
Lemma year_start_ge y k : 0 <= k -> year_start y + 365 * k <= year_start (y + k).
Proof.
  intros Hk. revert k Hk. apply (natlike_ind (fun k => year_start y + 365 * k <= year_start (y + k))).
  - replace (y + 0) with y by lia. lia.
  - intros k Hk IH. pose proof (year_start_lt (y + k) (y + Z.succ k) ltac:(lia)). lia.
Qed.
Lemma iso_weeks_between a b :
  boundaries (starts_week 1) b a =
  (iso_start (iso_year a) - iso_start (iso_year b)) / 7 + iso_week a - iso_week b.
Proof.
  rewrite (boundaries_index _ (fun n => (n + 4 - 1) / 7)) by (intros n; apply week_index; lia).
  rewrite !iso_week_count.
  pose proof (thursday_iso_start (iso_year a)) as Ta. pose proof (thursday_iso_start (iso_year b)) as Tb.
  rewrite thursday_week in Ta, Tb. set (sa := iso_start (iso_year a)) in *. set (sb := iso_start (iso_year b)) in *.
  replace (sa - sb) with (0 + ((sa + 3) / 7 - (sb + 3) / 7) * 7) by lia.
  replace (a - sa) with (a + 3 + (- ((sa + 3) / 7)) * 7) by lia.
  replace (b - sb) with (b + 3 + (- ((sb + 3) / 7)) * 7) by lia.
  rewrite !Z_div_plus_full by lia. change (0 / 7) with 0.
  replace (a + 4 - 1) with (a + 3) by lia. replace (b + 4 - 1) with (b + 3) by lia. lia.
Qed.
Lemma diff_isoweek a b : date_diff a b "ISOWEEK" = Ok ((year a - year b) * 48 + iso_week a - iso_week b).
Proof. reflexivity. Qed.
Lemma diff_isoweek_wrong a b : iso_year a = year a -> iso_year b = year b -> year a <> year b ->
  date_diff a b "ISOWEEK" <> Ok (boundaries (starts_week 1) b a).
Proof.
  intros Ia Ib Hne E. rewrite diff_isoweek, iso_weeks_between in E. apply Ok_inj in E. rewrite Ia, Ib in E.
  assert (F : (iso_start (year a) - iso_start (year b)) / 7 = (year a - year b) * 48) by lia.
  destruct (iso_start_bounds (year a)) as [A _]. destruct (iso_start_bounds (year b)) as [B _].
  pose proof (Z.div_mod (iso_start (year a) - iso_start (year b)) 7 ltac:(lia)).
  pose proof (Z.mod_pos_bound (iso_start (year a) - iso_start (year b)) 7 ltac:(lia)).
  destruct (Z.lt_trichotomy (year a) (year b)) as [H1|[H1|H1]]; [|contradiction|].
  - pose proof (year_start_ge (year a) (year b - year a) ltac:(lia)) as X.
    replace (year a + (year b - year a)) with (year b) in X by lia. lia.
  - pose proof (year_start_ge (year b) (year a - year b) ltac:(lia)) as X.
    replace (year b + (year a - year b)) with (year a) in X by lia. lia.
Qed.
Lemma diff_isoweek_year a b : iso_year a = iso_year b ->
  (date_diff a b "ISOWEEK" = Ok (boundaries (starts_week 1) b a) <-> year a = year b).
Proof.
  intros I. rewrite diff_isoweek, iso_weeks_between, I, Z.sub_diag. change (0 / 7) with 0. split.
  - intros E. apply Ok_inj in E. lia.
  - intros ->. f_equal. lia.
Qed.

(** ** Antisymmetry of DATE_DIFF *)
Lemma time_sub_far a b : time_sub b a = - time_sub a b \/ (time_sub a b = two63 - 1 /\ time_sub b a = - two63)
  \/ (time_sub a b = - two63 /\ time_sub b a = two63 - 1).
Proof. unfold time_sub, day_ns, two63. lia. Qed.
Lemma date_diff_anti a b part x : date_diff a b part = Ok x -> date_diff b a part = Ok (- x).
Proof.
  unfold date_diff. destruct (has_prefix "WEEK" part).
  - destruct (week_part part) as [w|] eqn:W; [|discriminate]. apply week_part_range in W.
    rewrite !diff_weeks_ok by assumption. intros E. apply Ok_inj in E. rewrite boundaries_anti. now rewrite E.
  - cbv zeta. destruct (String.eqb part "DAY").
    + intros E. apply Ok_inj in E. f_equal. rewrite <- E.
      destruct (time_sub_far a b) as [-> |[[-> ->]|[-> ->]]]; [|reflexivity|reflexivity].
      rewrite Z.quot_opp_l, Z.rem_opp_l by discriminate.
      destruct (Z.ltb_spec 0 (Z.rem (time_sub a b) day_ns)), (Z.ltb_spec (Z.rem (time_sub a b) day_ns) 0),
        (Z.ltb_spec 0 (- Z.rem (time_sub a b) day_ns)), (Z.ltb_spec (- Z.rem (time_sub a b) day_ns) 0); lia.
    + repeat (match goal with |- context [String.eqb part ?s] => destruct (String.eqb part s) end;
        [intros E; apply Ok_inj in E; f_equal; lia|]). discriminate.
Qed.

(** ** EXTRACT(WEEK) *)
Lemma extract_week_right n :
  extract n "WEEK" = Ok (boundaries (starts_week 0) (year_start (year n) - 1) n) <->
  year_start (year n) <= n - weekday n /\ 3 <= (n - weekday n - year_start (year n)) mod 7.
Proof.
  change (extract n "WEEK") with (Ok (iso_week (add_date n 0 0 (- weekday n)))).
  rewrite add_date_days. replace (n + - weekday n) with (n - weekday n) by lia.
  rewrite (boundaries_index _ (fun n => (n + 4 - 0) / 7)) by (intros z; apply week_index; lia).
  pose proof (weekday_range n) as W. pose proof (year_spec n) as Y.
  set (s := n - weekday n) in *. set (ys := year_start (year n)) in *.
  assert (Ws : weekday s = 0).
  { unfold s. replace (n - weekday n) with (n + - weekday n) by lia. rewrite weekday_add.
    replace (weekday n + - weekday n) with 0 by lia. reflexivity. }
  assert (Es : s = 7 * ((s + 4) / 7) - 4).
  { unfold weekday in Ws. pose proof (Z.div_mod (s + 4) 7 ltac:(lia)). lia. }
  assert (En : (n + 4 - 0) / 7 = (s + 4) / 7).
  { pose proof (Z.div_mod (n + 4 - 0) 7 ltac:(lia)). pose proof (Z.mod_pos_bound (n + 4 - 0) 7 ltac:(lia)). lia. }
  assert (Th : thursday s = s - 3).
  { rewrite thursday_week. pose proof (Z.div_mod (s + 3) 7 ltac:(lia)). pose proof (Z.mod_pos_bound (s + 3) 7 ltac:(lia)). lia. }
  rewrite En.
  pose proof (Z.div_mod (ys - 1 + 4 - 0) 7 ltac:(lia)). pose proof (Z.mod_pos_bound (ys - 1 + 4 - 0) 7 ltac:(lia)).
  pose proof (Z.div_mod (s - ys) 7 ltac:(lia)). pose proof (Z.mod_pos_bound (s - ys) 7 ltac:(lia)).
  destruct (Z.le_gt_cases (ys + 3) s) as [G|G].
  - assert (IW : iso_week s = (s - 3 - ys) / 7 + 1).
    { unfold iso_week, yearday. rewrite Th.
      assert (year (s - 3) = year n) as -> by (apply year_unique; fold ys; lia).
      fold ys. replace (s - 3 - ys + 1 - 1) with (s - 3 - ys) by lia. reflexivity. }
    rewrite IW. pose proof (Z.div_mod (s - 3 - ys) 7 ltac:(lia)). pose proof (Z.mod_pos_bound (s - 3 - ys) 7 ltac:(lia)).
    split; [intros E; apply Ok_inj in E; lia|intros [E1 E2]; f_equal; lia].
  - assert (IW : 51 <= iso_week s).
    { unfold iso_week, yearday. rewrite Th.
      assert (year (s - 3) = year n - 1) as ->.
      { apply year_unique. replace (year n - 1 + 1) with (year n) by lia. fold ys.
        pose proof (year_start_lt (year n - 1) (year n) ltac:(lia)). lia. }
      pose proof (year_start_lt (year n - 1) (year n) ltac:(lia)). fold ys in H3.
      set (yp := year_start (year n - 1)) in *.
      pose proof (Z.div_mod (s - 3 - yp + 1 - 1) 7 ltac:(lia)). pose proof (Z.mod_pos_bound (s - 3 - yp + 1 - 1) 7 ltac:(lia)).
      lia. }
    split; [intros E; apply Ok_inj in E; lia|intros [E1 E2]; lia].
Qed.

(** ** Days from numbers *)
Lemma local_day_whole off n : 0 <= off < 86400 -> local_day off (86400 * n) = n.
Proof.
  intros H. unfold local_day. replace (86400 * n + off) with (off + n * 86400) by lia.
  rewrite Z_div_plus_full by lia. rewrite Z.div_small; lia.
Qed.
Lemma local_day_right off n : local_day off (86400 * n) = n <-> 0 <= off < 86400.
Proof.
  split; [|apply local_day_whole]. unfold local_day. intros E.
  pose proof (Z.div_mod (86400 * n + off) 86400 ltac:(lia)). pose proof (Z.mod_pos_bound (86400 * n + off) 86400 ltac:(lia)). lia.
Qed.
Lemma wrap64_fits z : - two63 <= z < two63 -> wrap64 z = z.
Proof. intros H. apply wrap64_id. unfold in64. lia. Qed.
Lemma dfud_near off v : -106751 <= v <= 106751 -> date_from_unix_date off v = local_day off (86400 * v).
Proof.
  intros H. unfold date_from_unix_date. rewrite !wrap64_fits; try (unfold two63; lia).
  - f_equal. replace (v * 24 * 3600000000000) with ((86400 * v) * 1000000000) by lia. apply Z.quot_mul. lia.
  - rewrite wrap64_fits; unfold two63; lia.
Qed.
Lemma unix_date_id n : unix_date n = n.
Proof. unfold unix_date. rewrite Z.mul_comm. apply Z.quot_mul. lia. Qed.

Lemma week_parts_ok part w : In (part, w) week_parts -> has_prefix "WEEK" part = true /\ week_part part = Some w /\ 0 <= w < 7.
Proof.
  intros H. cbn [week_parts In] in H.
  repeat destruct H as [H|H]; try contradiction;
  (assert (E1 : fst (part, w) = part) by reflexivity; assert (E2 : snd (part, w) = w) by reflexivity; rewrite <- H in E1, E2;
   cbn in E1, E2; subst; repeat split; reflexivity || lia || discriminate).
Qed.
