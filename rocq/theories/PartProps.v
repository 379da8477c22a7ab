(** Properties C64, C65, C120-C126, C129 and C130: TIMESTAMP, DATETIME and TIME functions. *)
From Coq Require Import Ascii String List ZArith Lia Bool.
From Verif Require Import GoBase GoBaseFacts CalendarModel CalendarFacts InstantModel DateModel DateSpec DateProofs PartModel PartSpec PartProofs.
Import ListNotations.
Local Open Scope string_scope.
Open Scope Z_scope.
Local Opaque civil year_start leap godate.

(** ** C64: truncation *)
(** TIMESTAMP_TRUNC in UTC or any zone with a fixed offset rounds down to the start of the
    part, for every part but the ISO ones. *)
Theorem c64_timestamp_clock_partial : forall off t part u r, In (part, u) clock_parts -> micros t ->
  (timestamp_trunc (fixed off) t part = Ok r <-> latest (begins u off) t r).
Proof.
  intros off t part u r H M. apply latest_iff. eexists. split; [apply (ts_trunc_clock off t part u H M)|].
  apply latest_floor. now apply (unit_of_parts part).
Qed.
Theorem c64_timestamp_date_partial : forall off t part P r, date_part part P ->
  (timestamp_trunc (fixed off) t part = Ok r <-> latest (midnight P off) t r).
Proof. intros off t part P r H. apply latest_iff. now apply ts_trunc_date. Qed.
(** In a zone that goes back an hour, the repeated hour is truncated to its first
    occurrence, an hour too early: [shift] is the second at which the offset drops from
    off to off - 3600. *)
Definition falls_back (shift off : Z) : loc := fun s => if s <? shift then off else off - 3600.
Theorem c64_repeated_hour_refuted : forall shift off t,
  (shift + off) mod 3600 = 0 -> offset off -> off <= 0 -> unix t - shift < 3600 -> shift <= unix t ->
  timestamp_trunc (falls_back shift off) t "HOUR" = Ok ((shift - 3600) * 1000000000) /\
  (wall (falls_back shift off) (shift * 1000000000)) mod 3600000000000 = 0 /\ shift * 1000000000 <= t.
Proof.
  intros shift off t A O N B C. unfold unix, ns_per_sec in B, C.
  pose proof (Z.div_mod t 1000000000 ltac:(lia)) as D. pose proof (Z.mod_pos_bound t 1000000000 ltac:(lia)) as M.
  set (q := t / 1000000000) in *. set (m := t mod 1000000000) in *.
  assert (L : falls_back shift off q = off - 3600) by (unfold falls_back; destruct (Z.ltb_spec q shift); [lia|reflexivity]).
  apply Z.mod_divide in A; [|lia]. destruct A as [k A].
  assert (W : wall (falls_back shift off) t = (k - 1) * 3600000000000 + ((q - shift) * 1000000000 + m)).
  { unfold wall, unix, ns_per_sec. fold q. rewrite L. lia. }
  split; [|split].
  - unfold timestamp_trunc. cbn [String.eqb Ascii.eqb Bool.eqb]. f_equal.
    set (w := wall (falls_back shift off) t) in *.
    assert (T : with_clock w (hour w) 0 0 0 = (k - 1) * 3600000000000).
    { rewrite with_clock_eq. pose proof (wall_fields w) as Wf. pose proof (mod_hour w) as Mh.
      assert (w mod 3600000000000 = (q - shift) * 1000000000 + m) by (symmetry; apply Z.mod_unique with (q := k - 1); lia). lia. }
    rewrite T. unfold from_wall, unix, ns_per_sec.
    replace ((k - 1) * 3600000000000) with ((k - 1) * 3600 * 1000000000) by lia. rewrite Z.div_mul by lia.
    assert (L1 : falls_back shift off ((k - 1) * 3600) = off) by (unfold falls_back; destruct (Z.ltb_spec ((k - 1) * 3600) shift); [reflexivity|lia]).
    rewrite L1.
    assert (L2 : falls_back shift off ((k - 1) * 3600 - off) = off) by (unfold falls_back; destruct (Z.ltb_spec ((k - 1) * 3600 - off) shift); [reflexivity|lia]).
    rewrite L2. lia.
  - unfold wall, unix, ns_per_sec. rewrite Z.div_mul by lia.
    assert (L1 : falls_back shift off shift = off - 3600) by (unfold falls_back; rewrite Z.ltb_irrefl; reflexivity).
    rewrite L1. replace (shift * 1000000000 + (off - 3600) * 1000000000) with ((k - 1) * 3600000000000) by lia. apply Z.mod_mul. lia.
  - lia.
Qed.
(** ISOWEEK is never the week's start; ISOYEAR depends on the weekday of January 1st (C60). *)
Theorem c64_iso_refuted : forall off t r,
  timestamp_trunc (fixed off) t "ISOWEEK" = Ok r -> ~ latest (midnight (starts_week 1) off) t r.
Proof.
  intros off t r E L. rewrite ts_trunc_other in E by (repeat split; reflexivity).
  rewrite wall_fixed in E. set (w := t + off * 1000000000) in *.
  destruct (date_trunc (day_no w) "ISOWEEK") as [d| |] eqn:D; [|unfold date_trunc_at in E; rewrite D in E; discriminate..].
  destruct (trunc_at_day _ _ _ D) as (x & X & Dx). rewrite X in E. cbn [bind] in E. apply Ok_inj in E.
  rewrite from_wall_fixed, (with_clock_midnight x d) in E by auto.
  apply (trunc_iso_week_wrong (day_no w) d D).
  assert (F : first_day_of (starts_week 1) (day_no w) (back_to 6 (day_no w) 1)) by (apply trunc_week; lia).
  pose proof (latest_unique _ _ _ _ L (latest_midnight _ off t _ F)) as U.
  replace d with (back_to 6 (day_no w) 1) by lia. exact F.
Qed.

(** DATETIME_TRUNC *)
Theorem c64_datetime_partial : forall w r,
  (forall part u, In (part, u) clock_parts -> part <> "SECOND" -> part <> "MILLISECOND" -> micros w ->
     (datetime_trunc w part = Ok r <-> latest (begins u 0) w r)) /\
  (forall part P, plain_part part P -> (datetime_trunc w part = Ok r <-> latest (midnight P 0) w r)).
Proof.
  intros w r. split.
  - intros part u H N1 N2 M. apply latest_iff. exists (w - (w + 0 * 1000000000) mod u).
    split; [|apply latest_floor; now apply (unit_of_parts part)].
    pose proof (wall_fields w) as W. rewrite Z.mul_0_l, Z.add_0_r.
    apply clock_parts_cases in H. destruct H as [[-> ->]|[[-> ->]|[[-> ->]|[[-> ->]|[-> ->]]]]]; try congruence;
      unfold datetime_trunc; cbn [String.eqb Ascii.eqb Bool.eqb]; rewrite ?with_clock_eq; f_equal.
    + rewrite M. lia.
    + rewrite mod_minute. lia.
    + rewrite mod_hour. lia.
  - intros part P H. apply latest_iff.
    destruct (date_part_first part P (day_no w) (or_introl H)) as (d & E & F).
    rewrite dt_trunc_other by (now apply (not_clock part P); left).
    unfold date_trunc_at. rewrite E. cbn [bind].
    assert (Hp : has_prefix "WEEK" part = false) by (destruct H as [[-> _]|[[-> _]|[[-> _]|[-> _]]]]; reflexivity).
    rewrite Hp. eexists. split; [reflexivity|].
    replace (d * ns_per_day) with (d * 86400000000000 - 0 * 1000000000) by (rewrite nspd; lia).
    apply latest_midnight. now rewrite Z.mul_0_l, Z.add_0_r.
Qed.
(** SECOND sets the seconds to zero, MILLISECOND drops the fraction, and a WEEK part keeps
    the time of day: each is right exactly when that makes no difference. *)
Theorem c64_datetime_refuted : forall w r,
  (latest (begins 1000000000 0) w r -> (datetime_trunc w "SECOND" = Ok r <-> second w = 0)) /\
  (latest (begins 1000000 0) w r -> (datetime_trunc w "MILLISECOND" = Ok r <-> nanosecond w < 1000000)) /\
  (forall part d, In (part, d) week_parts -> latest (midnight (starts_week d) 0) w r ->
     (datetime_trunc w part = Ok r <-> time_of_day w = 0)).
Proof.
  intros w r. pose proof (wall_fields w) as W. pose proof (field_ranges w) as R.
  split; [|split].
  - intros L. rewrite (latest_unique _ _ _ _ L (latest_floor 1000000000 0 w ltac:(lia))).
    rewrite Z.mul_0_l, Z.add_0_r, mod_second.
    unfold datetime_trunc. cbn [String.eqb Ascii.eqb Bool.eqb]. rewrite with_clock_eq. unfold sec.
    rewrite Z.quot_small by lia. split.
    + intros E. apply Ok_inj in E. lia.
    + intros E. f_equal. lia.
  - intros L. rewrite (latest_unique _ _ _ _ L (latest_floor 1000000 0 w ltac:(lia))).
    rewrite Z.mul_0_l, Z.add_0_r, mod_milli.
    unfold datetime_trunc. cbn [String.eqb Ascii.eqb Bool.eqb]. rewrite with_clock_eq. unfold micro.
    rewrite Z.quot_small by lia. pose proof (Z.div_mod (nanosecond w) 1000000 ltac:(lia)) as D.
    pose proof (Z.mod_pos_bound (nanosecond w) 1000000 ltac:(lia)). split.
    + intros E. apply Ok_inj in E. assert (nanosecond w / 1000000 = 0) by lia. lia.
    + intros E. f_equal. rewrite Z.mod_small by lia. lia.
  - intros part d H L. destruct (week_parts_ok part d H) as (Hp & Wp & Rd).
    assert (F : first_day_of (starts_week d) (day_no (w + 0 * 1000000000)) (back_to 6 (day_no w) d)).
    { rewrite Z.mul_0_l, Z.add_0_r. now apply trunc_week. }
    pose proof (latest_unique _ _ _ _ L (latest_midnight _ 0 w _ F)) as U.
    rewrite dt_trunc_other by (now apply not_clock_prefix).
    unfold date_trunc_at, date_trunc. rewrite Hp, Wp. cbn [bind]. rewrite U.
    unfold at_clock, time_of_day, day_length. rewrite nspd. split.
    + intros E. apply Ok_inj in E. lia.
    + intros E. f_equal. lia.
Qed.
(** TIME_TRUNC has the same clock parts, and fails for every other. *)
Theorem c64_time_partial : forall w part r, time_trunc w part = Ok r <->
  (exists u, In (part, u) clock_parts) /\ datetime_trunc w part = Ok r.
Proof.
  intros w part r. unfold time_trunc, datetime_trunc. split.
  - intros H. split.
    + repeat match type of H with context [String.eqb part ?s] => destruct (String.eqb_spec part s) as [->|] end; try discriminate;
        eexists; cbn [clock_parts In]; intuition reflexivity.
    + repeat match type of H with context [String.eqb part ?s] => destruct (String.eqb part s) end; try assumption; discriminate.
  - intros [[u U] H]. apply clock_parts_cases in U.
    destruct U as [[-> ->]|[[-> ->]|[[-> ->]|[[-> ->]|[-> ->]]]]]; exact H.
Qed.
(** 2024-02-29 12:34:56.789012 (a Thursday) *)
Definition leap_noon : Z := go_time 2024 2 29 12 34 56 789012000.
Example c64_example : micros leap_noon /\ leap_noon = 1709210096789012000 /\
  timestamp_trunc (fixed 32400) leap_noon "DAY" = Ok 1709132400000000000 /\
  timestamp_trunc utc leap_noon "WEEK_MONDAY" = Ok (go_time 2024 2 26 0 0 0 0) /\
  datetime_trunc leap_noon "MINUTE" = Ok (go_time 2024 2 29 12 34 0 0) /\
  datetime_trunc leap_noon "SECOND" = Ok (go_time 2024 2 29 12 34 0 0) /\ second leap_noon = 56 /\
  datetime_trunc leap_noon "MILLISECOND" = Ok (go_time 2024 2 29 12 34 56 0) /\
  datetime_trunc leap_noon "WEEK" = Ok (go_time 2024 2 25 12 34 56 789012000) /\
  (* New York, 2024-11-03 01:30 EST, clocks went back at 06:00 UTC *)
  timestamp_trunc (falls_back 1730613600 (-14400)) 1730615400000000000 "HOUR" = Ok 1730610000000000000.
Proof. vm_compute. repeat split. Qed.

(** ** C65: Unix numbers *)
Lemma quot_rem_micros us : from_unix (Z.quot us 1000000) (Z.rem us 1000000 * 1000) = us * 1000.
Proof. unfold from_unix, ns_per_sec. pose proof (Z.quot_rem us 1000000 ltac:(lia)). lia. Qed.
Lemma unix_milli_floor t : unix_milli t = t / 1000000.
Proof.
  unfold unix_milli, unix, nanosecond, ns_per_sec. pose proof (Z.div_mod t 1000000000 ltac:(lia)).
  apply Z.div_unique with (r := t mod 1000000000 mod 1000000); [left; apply Z.mod_pos_bound; lia|].
  pose proof (Z.div_mod (t mod 1000000000) 1000000 ltac:(lia)). lia.
Qed.
Lemma unix_micro_floor t : unix_micro t = t / 1000.
Proof.
  unfold unix_micro, unix, nanosecond, ns_per_sec. pose proof (Z.div_mod t 1000000000 ltac:(lia)).
  apply Z.div_unique with (r := t mod 1000000000 mod 1000); [left; apply Z.mod_pos_bound; lia|].
  pose proof (Z.div_mod (t mod 1000000000) 1000 ltac:(lia)). lia.
Qed.
(** [n] units of length [u] after 1970-01-01 is a TIMESTAMP SQL can hold. *)
Definition holds_unix (n u : Z) : Prop := instant_in_range (n * u).
Theorem c65_from_unix : forall n,
  (holds_unix n 1000000000 -> timestamp_seconds n = n * 1000000000) /\
  (holds_unix n 1000000 -> timestamp_millis n = n * 1000000) /\
  (holds_unix n 1000 -> timestamp_micros n = n * 1000).
Proof.
  intros n. unfold holds_unix, instant_in_range, day_length. split; [|split]; intros H.
  - unfold timestamp_seconds, from_unix, ns_per_sec. lia.
  - unfold timestamp_millis, unix_micro_time. rewrite wrap64_id by (unfold in64, two63; lia). rewrite quot_rem_micros. lia.
  - unfold timestamp_micros, unix_micro_time. apply quot_rem_micros.
Qed.
Theorem c65_round_trip : forall n,
  (holds_unix n 1000000000 -> unix_seconds (timestamp_seconds n) = n) /\
  (holds_unix n 1000000 -> unix_millis (timestamp_millis n) = n) /\
  (holds_unix n 1000 -> unix_micros (timestamp_micros n) = n).
Proof.
  intros n. destruct (c65_from_unix n) as (A & B & C). split; [|split]; intros H.
  - rewrite A by assumption. unfold unix_seconds, unix, ns_per_sec. apply Z.div_mul. lia.
  - rewrite B by assumption. unfold unix_millis. rewrite unix_milli_floor. apply Z.div_mul. lia.
  - rewrite C by assumption. unfold unix_micros. rewrite unix_micro_floor. apply Z.div_mul. lia.
Qed.
(** The other way the result is the latest whole second or millisecond, also before 1970;
    microseconds lose nothing. *)
Theorem c65_rounds_down : forall t,
  latest (begins 1000000000 0) t (unix_seconds t * 1000000000) /\
  latest (begins 1000000 0) t (unix_millis t * 1000000) /\
  (micros t -> unix_micros t * 1000 = t).
Proof.
  intros t. unfold unix_seconds, unix, unix_millis, unix_micros, ns_per_sec. rewrite unix_milli_floor, unix_micro_floor.
  split; [|split].
  - pose proof (latest_floor 1000000000 0 t ltac:(lia)) as L. rewrite Z.mul_0_l, Z.add_0_r in L.
    replace (t / 1000000000 * 1000000000) with (t - t mod 1000000000); [exact L|]. pose proof (Z.div_mod t 1000000000 ltac:(lia)). lia.
  - pose proof (latest_floor 1000000 0 t ltac:(lia)) as L. rewrite Z.mul_0_l, Z.add_0_r in L.
    replace (t / 1000000 * 1000000) with (t - t mod 1000000); [exact L|]. pose proof (Z.div_mod t 1000000 ltac:(lia)). lia.
  - intros M. unfold micros in M. pose proof (Z.div_mod t 1000 ltac:(lia)). lia.
Qed.
Example c65_example : holds_unix (-1) 1000000 /\ holds_unix 253402300799 1000000000 /\
  timestamp_millis (-1) = -1000000 /\ unix_seconds (-1000000) = -1 /\ unix_millis (-1000000) = -1 /\
  unix_seconds (timestamp_seconds 253402300799) = 253402300799.
Proof. vm_compute. repeat split; discriminate. Qed.

(** ** C120: adding clock units *)
Lemma dur_exact v u : dur v u = v * u <-> in64 (v * u).
Proof. unfold dur. apply wrap64_eq_iff. Qed.
Lemma neg_dur_exact v u : - two63 < v < two63 -> (neg_dur v u = - (v * u) <-> in64 (- (v * u))).
Proof.
  intros H. unfold neg_dur. rewrite (wrap64_id (- v)) by (unfold in64, two63 in *; lia).
  replace (- v * u) with (- (v * u)) by lia. apply wrap64_eq_iff.
Qed.
Lemma add_Ok_iff a b c : @Ok Z (a + b) = Ok (a + c) <-> b = c.
Proof. split; [intros H; apply Ok_inj in H; lia|intros ->; reflexivity]. Qed.
(** The sum is exact if and only if the distance is a Go Duration, about 292 years. *)
Theorem c120_add_partial : forall local t v part u, In (part, u) clock_parts -> - two63 < v < two63 ->
  (timestamp_add local t v part = Ok (t + v * u) <-> in64 (v * u)) /\
  (datetime_add t v part = Ok (t + v * u) <-> in64 (v * u)) /\
  (timestamp_sub local t v part = Ok (t - v * u) <-> in64 (- (v * u))) /\
  (datetime_sub t v part = Ok (t - v * u) <-> in64 (- (v * u))).
Proof.
  intros local t v part u H B. destruct (unit_of_parts part u H) as [E _].
  unfold timestamp_add, datetime_add, timestamp_sub, datetime_sub. rewrite E.
  replace (t - v * u) with (t + - (v * u)) by lia.
  rewrite !add_Ok_iff. rewrite <- (dur_exact v u), <- (neg_dur_exact v u B). tauto.
Qed.
(** A difference of less than 292 years is the number of whole units, towards zero; so
    it undoes an addition. *)
Lemma span_near a b : in64 (a - b) -> span a b = a - b.
Proof. unfold in64, span, two63. lia. Qed.
Theorem c120_diff_partial : forall a b part u, In (part, u) clock_parts -> in64 (a - b) ->
  instant_diff a b part = Ok (Z.quot (a - b) u).
Proof.
  intros a b part u H R. destruct (unit_of_parts part u H) as [E _].
  unfold instant_diff. rewrite E, span_near by assumption. reflexivity.
Qed.
Theorem c120_diff_add_partial : forall local t v part u r, In (part, u) clock_parts -> - two63 < v < two63 -> in64 (v * u) ->
  timestamp_add local t v part = Ok r -> instant_diff r t part = Ok v.
Proof.
  intros local t v part u r H B R E.
  destruct (c120_add_partial local t v part u H B) as (A & _). apply A in R as R'. rewrite R' in E. apply Ok_inj in E. subst r.
  destruct (unit_of_parts part u H) as [_ P].
  rewrite (c120_diff_partial _ _ part u H) by (replace (t + v * u - t) with (v * u) by lia; assumption).
  f_equal. replace (t + v * u - t) with (v * u) by lia. apply Z.quot_mul. lia.
Qed.
(** Farther apart, all differences are the same. *)
Theorem c120_far_refuted : forall a b part u, In (part, u) clock_parts -> two63 <= a - b ->
  instant_diff a b part = Ok ((two63 - 1) / u).
Proof.
  intros a b part u H F. destruct (unit_of_parts part u H) as [E P].
  unfold instant_diff. rewrite E. unfold span. f_equal.
  replace (Z.max (- two63) (Z.min (two63 - 1) (a - b))) with (two63 - 1) by (unfold two63 in *; lia).
  apply Z.quot_div_nonneg; [discriminate|lia].
Qed.
(** 0001-01-01 and 9999-12-31 are both TIMESTAMP values; 0001-01-01 plus 3000000 hours (342 years) is
    the year -242. *)
Example c120_example : instant_in_range (-719162 * day_length) /\ instant_in_range (2932896 * day_length) /\
  instant_diff (2932896 * day_length) (-719162 * day_length) "HOUR" = Ok 2562047 /\
  instant_diff 0 (-719162 * day_length) "HOUR" = Ok 2562047 /\
  instant_diff 5400000000000 0 "HOUR" = Ok 1 /\ instant_diff 0 5400000000000 "HOUR" = Ok (-1) /\
  timestamp_add utc (-719162 * day_length) 3000000 "HOUR" <> Ok (-719162 * day_length + 3000000 * 3600000000000).
Proof. vm_compute. repeat split; discriminate. Qed.

(** ** C121: TIMESTAMP_ADD in days *)
(** It adds 24 hours per day exactly when the process's zone has the same offset at both
    ends; with a fixed offset it always does. *)
Theorem c121_days_partial : forall local t v, - two63 < v < two63 ->
  let w := wall local t + v * day_length in
  (timestamp_add local t v "DAY" = Ok (t + v * day_length) <-> local (unix w - local (unix w)) = local (unix t)) /\
  (forall off, timestamp_add (fixed off) t v "DAY" = Ok (t + v * day_length) /\
               timestamp_sub (fixed off) t v "DAY" = Ok (t - v * day_length)).
Proof.
  intros local t v B w. split.
  - unfold timestamp_add. change (unit_of "DAY") with (@None Z). cbn [String.eqb Ascii.eqb Bool.eqb].
    change ns_per_day with day_length. fold w. unfold from_wall. unfold w at 1. unfold wall at 1. unfold ns_per_sec.
    split.
    + intros E. apply Ok_inj in E. lia.
    + intros E. f_equal. rewrite E. lia.
  - intros off. unfold timestamp_add, timestamp_sub. change (unit_of "DAY") with (@None Z). cbn [String.eqb Ascii.eqb Bool.eqb].
    change ns_per_day with day_length. rewrite !from_wall_fixed, wall_fixed. rewrite wrap64_id by (unfold in64, two63 in *; lia).
    split; f_equal; lia.
Qed.
(** New York: adding one day to 2024-11-02 12:00 EDT gives 12:00 EST, 25 hours later. *)
Theorem c121_dst_refuted : exists local t,
  timestamp_add local t 1 "DAY" = Ok (t + day_length + 3600000000000).
Proof. exists (falls_back 1730613600 (-14400)), 1730563200000000000. vm_compute. reflexivity. Qed.

(** ** C122: DATETIME_ADD with date parts *)
(** The time of day is kept and the date is that of DATE_ADD or DATE_SUB. *)
Lemma at_clock_day d w : day_no (at_clock d w) = d /\ time_of_day (at_clock d w) = time_of_day w.
Proof.
  unfold at_clock, time_of_day, day_length. rewrite nspd. pose proof (field_ranges w) as (_ & _ & _ & _ & M). split.
  - now apply day_no_eq.
  - rewrite Z.add_comm, Z.mod_add by lia. now apply Z.mod_small.
Qed.
Lemma at_clock_unique d w r : day_no r = d -> time_of_day r = time_of_day w -> r = at_clock d w.
Proof. intros <- T. unfold at_clock. rewrite nspd. rewrite (day_no_split r) at 1. unfold time_of_day, day_length in T. lia. Qed.
Theorem c122_date_parts : forall w v part r, unit_of part = None ->
  (datetime_add w v part = Ok r <-> time_of_day r = time_of_day w /\ date_add (day_no w) v part = Ok (day_no r)) /\
  (datetime_sub w v part = Ok r <-> time_of_day r = time_of_day w /\ date_sub (day_no w) v part = Ok (day_no r)).
Proof.
  intros w v part r U. unfold datetime_add, datetime_sub. rewrite U. split.
  - destruct (date_add (day_no w) v part) as [d| |]; cbn [bind]; [|split; [discriminate|intros [_ H]; discriminate]..].
    destruct (at_clock_day d w) as [A B]. split.
    + intros E. apply Ok_inj in E. subst r. rewrite A, B. tauto.
    + intros [T E]. apply Ok_inj in E. f_equal. symmetry. now apply at_clock_unique.
  - destruct (date_sub (day_no w) v part) as [d| |]; cbn [bind]; [|split; [discriminate|intros [_ H]; discriminate]..].
    destruct (at_clock_day d w) as [A B]. split.
    + intros E. apply Ok_inj in E. subst r. rewrite A, B. tauto.
    + intros [T E]. apply Ok_inj in E. f_equal. symmetry. now apply at_clock_unique.
Qed.
Example c122_example : unit_of "MONTH" = None /\
  datetime_add (go_time 2024 1 31 12 34 56 789) 1 "MONTH" = Ok (go_time 2024 2 29 12 34 56 789) /\
  datetime_sub (go_time 2024 2 29 12 34 56 789) 1 "YEAR" = Ok (go_time 2023 2 28 12 34 56 789).
Proof. vm_compute. repeat split. Qed.

(** ** C123: differences in days *)
(** The code rounds away from zero.  For TIMESTAMP values, whose difference is the number
    of whole days, that is right only for multiples of 24 hours; for DATETIME values,
    where it is the number of midnights between them, only when the later one has the
    earlier time of day, or the same. *)
Lemma diff_day_eq a b : in64 (a - b) ->
  date_diff_day a b = (if 0 <? Z.rem (a - b) day_length then Z.quot (a - b) day_length + 1
                       else if Z.rem (a - b) day_length <? 0 then Z.quot (a - b) day_length - 1 else Z.quot (a - b) day_length).
Proof. intros H. unfold date_diff_day. rewrite span_near by assumption. reflexivity. Qed.
Theorem c123_timestamp_refuted : forall a b, in64 (a - b) ->
  (instant_diff a b "DAY" = Ok (Z.quot (a - b) day_length) <-> (a - b) mod day_length = 0).
Proof.
  intros a b H. unfold instant_diff. change (unit_of "DAY") with (@None Z). cbn [String.eqb Ascii.eqb Bool.eqb].
  rewrite diff_day_eq by assumption.
  assert (Z : Z.rem (a - b) day_length = 0 <-> (a - b) mod day_length = 0).
  { rewrite Z.mod_divide, Z.rem_divide by discriminate. tauto. }
  rewrite <- Z. destruct (Z.ltb_spec 0 (Z.rem (a - b) day_length)); [|destruct (Z.ltb_spec (Z.rem (a - b) day_length) 0)].
  - split; [intros E; apply Ok_inj in E; lia|lia].
  - split; [intros E; apply Ok_inj in E; lia|lia].
  - split; [lia|reflexivity].
Qed.
Theorem c123_datetime_refuted : forall a b, in64 (a - b) ->
  (instant_diff a b "DAY" = Ok (day_no a - day_no b) <->
   (b <= a -> time_of_day a <= time_of_day b) /\ (a <= b -> time_of_day b <= time_of_day a)).
Proof.
  intros a b H. unfold instant_diff. change (unit_of "DAY") with (@None Z). cbn [String.eqb Ascii.eqb Bool.eqb].
  rewrite diff_day_eq by assumption. unfold time_of_day, day_length.
  pose proof (day_no_split a) as A. pose proof (day_no_split b) as B.
  pose proof (field_ranges a) as (_ & _ & _ & _ & Ma). pose proof (field_ranges b) as (_ & _ & _ & _ & Mb).
  set (D := 86400000000000) in *. set (x := a mod D) in *. set (y := b mod D) in *. set (p := day_no a) in *. set (q := day_no b) in *.
  clearbody x y p q. clear H.
  assert (Dp : D = 86400000000000) by reflexivity. clearbody D.
  pose proof (Z.quot_rem (a - b) D ltac:(lia)) as Q.
  assert (Rb : (0 <= a - b -> 0 <= Z.rem (a - b) D < D) /\ (a - b <= 0 -> - D < Z.rem (a - b) D <= 0)).
  { split; intros S; [apply Z.rem_bound_pos; lia|]. pose proof (Z.rem_bound_pos (- (a - b)) D ltac:(lia) ltac:(lia)) as N. rewrite Z.rem_opp_l' in N. lia. }
  destruct Rb as [Rp Rn].
  set (k := Z.quot (a - b) D) in *. set (m := Z.rem (a - b) D) in *. clearbody k m.
  destruct (Z.ltb_spec 0 m); [|destruct (Z.ltb_spec m 0)].
  - assert (0 < a - b) by (destruct (Z.le_gt_cases (a - b) 0); [specialize (Rn ltac:(lia)); lia|lia]).
    specialize (Rp ltac:(lia)). split.
    + intros E. apply Ok_inj in E. split; [|lia]. intros _. nia.
    + intros [E _]. specialize (E ltac:(lia)). f_equal. nia.
  - assert (a - b < 0) by (destruct (Z.le_gt_cases 0 (a - b)); [specialize (Rp ltac:(lia)); lia|lia]).
    specialize (Rn ltac:(lia)). split.
    + intros E. apply Ok_inj in E. split; [lia|]. intros _. nia.
    + intros [_ E]. specialize (E ltac:(lia)). f_equal. nia.
  - assert (m = 0) by lia. subst m. split.
    + intros E. apply Ok_inj in E. nia.
    + intros E. f_equal. nia.
Qed.
Theorem c123_days_partial : forall a b, in64 (a - b) -> time_of_day a = time_of_day b ->
  instant_diff a b "DAY" = Ok (day_no a - day_no b).
Proof. intros a b H T. apply c123_datetime_refuted; [assumption|]. lia. Qed.
Example c123_example : in64 (go_time 2024 2 29 12 0 0 0 - go_time 2024 2 29 0 0 0 0) /\
  instant_diff (go_time 2024 2 29 12 0 0 0) (go_time 2024 2 29 0 0 0 0) "DAY" = Ok 1 /\
  instant_diff (go_time 2024 2 29 12 0 0 0) (go_time 2024 2 27 12 0 0 0) "DAY" = Ok 2.
Proof. vm_compute. repeat split; discriminate. Qed.

(** ** C124: the default zone of conversions from TIMESTAMP *)
(** DATE, DATETIME and TIME of a TIMESTAMP without a zone give its date and clock in UTC
    only where the process's own zone agrees with UTC. *)
Theorem c124_default_zone_refuted : forall local t,
  (datetime_of_ts local None t = datetime_of_ts local (Some utc) t <-> local (unix t) = 0) /\
  (date_of_ts local None t = date_of_ts local (Some utc) t <-> day_no (t + local (unix t) * 1000000000) = day_no t) /\
  (-86400 < local (unix t) < 86400 ->
   (time_of_day (time_of_ts local None t) = time_of_day (time_of_ts local (Some utc) t) <-> local (unix t) = 0)).
Proof.
  intros local t. unfold datetime_of_ts, date_of_ts, time_of_ts, utc. rewrite wall_fixed. unfold wall, ns_per_sec.
  rewrite Z.mul_0_l, Z.add_0_r. split; [lia|]. split; [tauto|]. intros B. unfold time_of_day, day_length. split; [|intros ->; now rewrite Z.mul_0_l, Z.add_0_r].
  intros E. pose proof (Z.div_mod t 86400000000000 ltac:(lia)).
  pose proof (Z.div_mod (t + local (unix t) * 1000000000) 86400000000000 ltac:(lia)). lia.
Qed.
(** With a zone of fixed offset the machine does not matter, and conversion to TIMESTAMP
    and back is the identity in both directions. *)
Theorem c129_round_trip : forall local off t w,
  (timestamp_of_datetime (fixed off) w = t <-> datetime_of_ts local (Some (fixed off)) t = w) /\
  datetime_of_date_time (date_of_ts local (Some (fixed off)) t) (time_of_ts local (Some (fixed off)) t)
    = datetime_of_ts local (Some (fixed off)) t.
Proof.
  intros local off t w. unfold timestamp_of_datetime, datetime_of_ts, datetime_of_date_time, date_of_ts, time_of_ts.
  rewrite from_wall_fixed, wall_fixed. split; [lia|].
  unfold at_clock. rewrite nspd. symmetry. apply day_no_split.
Qed.
(** ... and the clock parts EXTRACT finds in that zone are those of the DATETIME. *)
Theorem c129_extract : forall local off t part,
  extract_ts (Some (fixed off)) t part = extract_clock (datetime_of_ts local (Some (fixed off)) t) part /\
  extract_ts None t part = extract_clock (timestamp_of_datetime utc t) part.
Proof.
  intros. split; [reflexivity|]. unfold extract_ts, timestamp_of_datetime, utc. rewrite wall_fixed, from_wall_fixed.
  now replace (t + 0 * 1000000000) with (t - 0 * 1000000000) by lia.
Qed.
Example c129_example :
  datetime_of_ts (fixed (-18000)) (Some (fixed 32400)) 1709210096789012000 = go_time 2024 2 29 21 34 56 789012000 /\
  datetime_of_ts (fixed (-18000)) None 1709210096789012000 = go_time 2024 2 29 7 34 56 789012000 /\
  timestamp_of_datetime (fixed 32400) (go_time 2024 2 29 21 34 56 789012000) = 1709210096789012000.
Proof. vm_compute. repeat split. Qed.

(** ** C125: TIME arithmetic wraps around at midnight *)
Theorem c125_add_partial : forall w v part u, In (part, u) clock_parts -> - two63 < v < two63 ->
  (in64 (v * u) -> exists r, time_add w v part = Ok r /\ time_of_day r = (time_of_day w + v * u) mod day_length) /\
  (in64 (- (v * u)) -> exists r, time_subtract w v part = Ok r /\ time_of_day r = (time_of_day w - v * u) mod day_length).
Proof.
  intros w v part u H B. destruct (unit_of_parts part u H) as [E _].
  unfold time_add, time_subtract. rewrite E. split; intros R; eexists; (split; [reflexivity|]); unfold time_of_day.
  - apply dur_exact in R. rewrite R. rewrite <- (Z.add_mod_idemp_l w) by discriminate. reflexivity.
  - apply (neg_dur_exact v u B) in R. rewrite R. unfold Z.sub. rewrite <- (Z.add_mod_idemp_l w) by discriminate. reflexivity.
Qed.
(** Beyond 292 years the number of units is cut to 64 bits, which is never right for
    microseconds, milliseconds and seconds. *)
Theorem c125_far_refuted : forall w v part u, In (part, u) clock_parts -> in64 v -> u <= 1000000000 -> ~ in64 (v * u) ->
  exists r, time_add w v part = Ok r /\ time_of_day r <> (time_of_day w + v * u) mod day_length.
Proof.
  intros w v part u H B U N. destruct (unit_of_parts part u H) as [E P].
  unfold time_add. rewrite E. eexists. split; [reflexivity|]. unfold time_of_day, dur. intros C.
  pose proof (wrap64_range (v * u)) as W. destruct (wrap64_cong (v * u)) as [k K]. rewrite K in C, W.
  rewrite Z.add_mod_idemp_l in C by discriminate.
  assert (K0 : k <> 0). { intros ->. apply N. rewrite Z.add_0_r in W. exact W. }
  assert (Kb : -1318359375 < k < 1318359375).
  { unfold in64, two63, two64 in *. nia. }
  assert (D : (day_length | k * two64)).
  { apply Z.mod_divide; [discriminate|].
    replace (k * two64) with ((w + (v * u + k * two64)) - (w + v * u)) by lia.
    rewrite Zminus_mod, C, Z.sub_diag. reflexivity. }
  assert (G : (1318359375 | k)).
  { apply Z.gauss with (m := 281474976710656); [|reflexivity].
    destruct D as [c D]. exists c. unfold day_length, two64 in D. lia. }
  destruct G as [c G]. assert (c = 0) by lia. lia.
Qed.
(** TIME_DIFF of two times is exact. *)
Theorem c125_diff_partial : forall a b part u, In (part, u) clock_parts -> day_no a = day_no b ->
  time_diff a b part = Ok (Z.quot (time_of_day a - time_of_day b) u).
Proof.
  intros a b part u H D. destruct (unit_of_parts part u H) as [E _]. unfold time_diff. rewrite E.
  pose proof (day_no_split a) as A. pose proof (day_no_split b) as B.
  pose proof (field_ranges a) as (_ & _ & _ & _ & Ma). pose proof (field_ranges b) as (_ & _ & _ & _ & Mb).
  rewrite span_near by (unfold in64, two63; lia). unfold time_of_day, day_length. do 2 f_equal. lia.
Qed.
Example c125_example :
  match time_add (23 * hour_) 2 "HOUR" with Ok r => time_of_day r | _ => -1 end = 1 * hour_ /\
  match time_add 0 9223372036854775 "MILLISECOND" with Ok r => time_of_day r | _ => -1 end = 86399999192000 /\
  (9223372036854775 * 1000000) mod day_length = 14454775000000 /\ ~ in64 (9223372036854775 * 1000000) /\
  time_diff (5 * hour_) (7 * hour_ + 1) "HOUR" = Ok (-2).
Proof.
  repeat apply conj; try (vm_compute; reflexivity). intros [_ B]. unfold two63 in B. lia.
Qed.

(** ** C126: EXTRACT of clock parts *)
(** The parts are the hour, minute, second and fraction of the time of day. *)
Theorem c126_clock_parts : forall w, micros w -> exists h mi s us,
  extract_clock w "HOUR" = Ok h /\ extract_clock w "MINUTE" = Ok mi /\ extract_clock w "SECOND" = Ok s /\
  extract_clock w "MICROSECOND" = Ok us /\ extract_clock w "MILLISECOND" = Ok (us / 1000) /\
  0 <= h < 24 /\ 0 <= mi < 60 /\ 0 <= s < 60 /\ 0 <= us < 1000000 /\
  time_of_day w = ((h * 60 + mi) * 60 + s) * 1000000000 + us * 1000.
Proof.
  intros w M. pose proof (field_ranges w) as R. pose proof (wall_fields w) as W.
  exists (hour w), (minute w), (second w), (nanosecond w / 1000).
  assert (Q : nanosecond w = nanosecond w / 1000 * 1000).
  { pose proof (Z.div_mod (nanosecond w) 1000 ltac:(lia)) as D.
    assert (nanosecond w mod 1000 = 0); [|lia].
    unfold nanosecond, ns_per_sec. rewrite <- M. symmetry. change 1000000000 with (1000 * 1000000).
    rewrite Z.rem_mul_r by lia. rewrite Z.mul_comm, Z.mod_add by lia. symmetry. rewrite Z.mod_mod by lia. reflexivity. }
  unfold extract_clock. cbn [String.eqb Ascii.eqb Bool.eqb]. unfold micro, milli.
  repeat split; try (rewrite ?Z.quot_div_nonneg by lia; rewrite ?Z.div_div by lia; reflexivity); try lia.
  unfold time_of_day, day_length. symmetry. apply Z.mod_unique with (q := day_no w); lia.
Qed.
(** DATETIME and TIME built from existing fields have those fields. *)
Theorem c126_built : forall y m d h mi s w, valid_date y m d -> 0 <= h < 24 -> 0 <= mi < 60 -> 0 <= s < 60 ->
  (datetime6 y m d h mi s = Ok w ->
     day_no w = days_of y m d /\ extract_clock w "HOUR" = Ok h /\ extract_clock w "MINUTE" = Ok mi /\
     extract_clock w "SECOND" = Ok s /\ extract_clock w "MICROSECOND" = Ok 0) /\
  (time3 h mi s = Ok w ->
     extract_clock w "HOUR" = Ok h /\ extract_clock w "MINUTE" = Ok mi /\
     extract_clock w "SECOND" = Ok s /\ extract_clock w "MICROSECOND" = Ok 0).
Proof.
  intros y m d h mi s w V H1 H2 H3.
  assert (F : forall n, let x := (n * 86400 + h * 3600 + mi * 60 + s) * 1000000000 + 0 in
    day_no x = n /\ hour x = h /\ minute x = mi /\ second x = s /\ nanosecond x = 0).
  { intros n x. pose proof (wall_fields x) as W. pose proof (field_ranges x) as R. unfold x in W at 1. 
    assert (day_no x = n) by lia. assert (hour x = h) by lia. assert (minute x = mi) by lia. assert (second x = s) by lia. lia. }
  unfold extract_clock. cbn [String.eqb Ascii.eqb Bool.eqb]. split; intros E.
  - unfold datetime6, datetime, go_time, ns_per_sec in E. apply Ok_inj in E.
    rewrite godate_days_of in E by (destruct V; lia). destruct (F (days_of y m d)) as (A & B & C & D & G). rewrite E in *.
    rewrite A, B, C, D, G. repeat split.
  - unfold time3, datetime, go_time, ns_per_sec in E. apply Ok_inj in E.
    destruct (F (godate 0 0 0)) as (A & B & C & D & G). rewrite E in *. rewrite B, C, D, G. repeat split.
Qed.
Example c126_example : micros leap_noon /\ extract_clock leap_noon "HOUR" = Ok 12 /\ extract_clock leap_noon "MILLISECOND" = Ok 789 /\
  valid_date 2024 2 29 /\ datetime6 2024 2 29 12 34 56 = Ok (go_time 2024 2 29 12 34 56 0).
Proof. vm_compute. repeat split; discriminate. Qed.

(** ** C130: DATE, DATETIME and TIME of fields that do not exist *)
(** Nothing is refused: a field out of range is carried into the next one. *)
Theorem c130_carried_refuted : forall y m d h mi s,
  (exists w, datetime6 y m d h mi s = Ok w /\ datetime6 y (m + 12) d h mi s = datetime6 (y + 1) m d h mi s /\
     datetime6 y m (d + 1) h mi s = Ok (w + day_length) /\ datetime6 y m d (h + 24) mi s = Ok (w + day_length)) /\
  (exists w w', time3 h mi s = Ok w /\ time3 (h + 24) mi s = Ok w' /\ time_of_day w' = time_of_day w).
Proof.
  intros y m d h mi s. split.
  - eexists. split; [reflexivity|]. unfold datetime6, datetime, go_time, ns_per_sec, day_length. repeat split; f_equal.
    + assert (G : godate y (m + 12) d = godate (y + 1) m d) by (apply godate_mindex; unfold mindex; lia). rewrite G. reflexivity.
    + rewrite godate_shift. lia.
    + lia.
  - eexists. eexists. split; [reflexivity|]. split; [reflexivity|]. unfold datetime, go_time, ns_per_sec, time_of_day, day_length.
    set (g := godate 0 0 0). replace ((g * 86400 + (h + 24) * 3600 + mi * 60 + s) * 1000000000 + 0)
      with ((g * 86400 + h * 3600 + mi * 60 + s) * 1000000000 + 0 + 1 * 86400000000000) by lia.
    apply Z.mod_add. discriminate.
Qed.
Example c130_example : time3 25 0 0 = Ok (datetime 0 0 1 1 0 0 0) /\ datetime6 2023 2 30 0 0 0 = datetime6 2023 3 2 0 0 0.
Proof. vm_compute. repeat split. Qed.

Print Assumptions c64_timestamp_clock_partial.
Print Assumptions c64_timestamp_date_partial.
Print Assumptions c64_repeated_hour_refuted.
Print Assumptions c64_iso_refuted.
Print Assumptions c64_datetime_partial.
Print Assumptions c64_datetime_refuted.
Print Assumptions c64_time_partial.
Print Assumptions c65_from_unix.
Print Assumptions c65_round_trip.
Print Assumptions c65_rounds_down.
Print Assumptions c120_add_partial.
Print Assumptions c120_diff_partial.
Print Assumptions c120_diff_add_partial.
Print Assumptions c120_far_refuted.
Print Assumptions c121_days_partial.
Print Assumptions c121_dst_refuted.
Print Assumptions c122_date_parts.
Print Assumptions c123_timestamp_refuted.
Print Assumptions c123_datetime_refuted.
Print Assumptions c123_days_partial.
Print Assumptions c124_default_zone_refuted.
Print Assumptions c129_round_trip.
Print Assumptions c129_extract.
Print Assumptions c125_add_partial.
Print Assumptions c125_far_refuted.
Print Assumptions c125_diff_partial.
Print Assumptions c126_clock_parts.
Print Assumptions c126_built.
Print Assumptions c130_carried_refuted.
