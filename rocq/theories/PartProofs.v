(** Lemmas about the TIMESTAMP, DATETIME and TIME functions. *)
From Coq Require Import Ascii String List ZArith Lia Bool.
From Verif Require Import GoBase GoBaseFacts CalendarModel CalendarFacts InstantModel DateModel DateSpec DateProofs DateProps PartModel PartSpec.
Import ListNotations.
Local Open Scope string_scope.
Open Scope Z_scope.
Local Opaque civil year_start leap godate date_trunc.

Ltac units := unfold ns_per_day, ns_per_sec, micro, milli, sec, min_, hour_, day_length in *.

Lemma wall_fixed off t : wall (fixed off) t = t + off * 1000000000.
Proof. reflexivity. Qed.
Lemma from_wall_fixed off w : from_wall (fixed off) w = w - off * 1000000000.
Proof. reflexivity. Qed.

Lemma nspd : ns_per_day = 86400000000000. Proof. reflexivity. Qed.
(** The fields of a wall clock. *)
Lemma clock_fields w : clock w = hour w * 3600 + minute w * 60 + second w.
Proof.
  unfold hour, minute, second. generalize (clock w). intros c.
  pose proof (Z.div_mod c 60 ltac:(lia)). pose proof (Z.div_mod (c / 60) 60 ltac:(lia)).
  rewrite Z.div_div in * by lia. change (60 * 60) with 3600 in *. lia.
Qed.
Lemma wall_fields w : w = day_no w * 86400000000000 + (hour w * 3600 + minute w * 60 + second w) * 1000000000 + nanosecond w.
Proof.
  rewrite <- clock_fields. unfold day_no, clock, nanosecond. rewrite nspd. unfold ns_per_sec.
  pose proof (Z.div_mod w 1000000000 ltac:(lia)). pose proof (Z.div_mod (w / 1000000000) 86400 ltac:(lia)).
  rewrite Z.div_div in * by lia. change (1000000000 * 86400) with 86400000000000 in *. lia.
Qed.
Lemma field_ranges w : 0 <= hour w < 24 /\ 0 <= minute w < 60 /\ 0 <= second w < 60 /\ 0 <= nanosecond w < 1000000000 /\
  0 <= w mod 86400000000000 < 86400000000000.
Proof.
  unfold hour, minute, second, nanosecond, ns_per_sec.
  pose proof (Z.mod_pos_bound (w / ns_per_sec) 86400 ltac:(lia)) as C. fold (clock w) in C.
  pose proof (Z.mod_pos_bound (clock w / 60) 60 ltac:(lia)). pose proof (Z.mod_pos_bound (clock w) 60 ltac:(lia)).
  pose proof (Z.mod_pos_bound w 1000000000 ltac:(lia)). pose proof (Z.mod_pos_bound w 86400000000000 ltac:(lia)).
  assert (0 <= clock w / 3600 < 24) by (split; [apply Z.div_pos; lia|apply Z.div_lt_upper_bound; lia]). lia.
Qed.
Lemma godate_civil n : godate (year n) (month n) (day n) = n.
Proof. rewrite godate_days_of by apply month_range. apply days_of_civil. Qed.
Lemma with_clock_eq w h mi s ns : with_clock w h mi s ns = day_no w * 86400000000000 + (h * 3600 + mi * 60 + s) * 1000000000 + ns.
Proof. unfold with_clock, datetime, go_time. rewrite godate_civil. unfold ns_per_sec. lia. Qed.

Lemma day_no_eq d c : 0 <= c < 86400000000000 -> day_no (d * 86400000000000 + c) = d.
Proof. intros H. unfold day_no. rewrite nspd. rewrite Z.add_comm, Z.div_add by lia. rewrite Z.div_small; lia. Qed.
Lemma day_no_split w : w = day_no w * 86400000000000 + w mod 86400000000000.
Proof. unfold day_no. rewrite nspd. pose proof (Z.div_mod w 86400000000000 ltac:(lia)). lia. Qed.

(** Rounding down to a unit. *)
Lemma latest_unique P t r r' : latest P t r -> latest P t r' -> r = r'.
Proof. intros (A & B & C) (A' & B' & C'). specialize (C _ A' B'). specialize (C' _ A B). lia. Qed.
Lemma latest_floor u off t : 0 < u -> latest (begins u off) t (t - (t + off * 1000000000) mod u).
Proof.
  intros U. unfold latest, begins. pose proof (Z.mod_pos_bound (t + off * 1000000000) u U).
  set (o := off * 1000000000) in *. split; [|split].
  - replace (t - (t + o) mod u + o) with (u * ((t + o) / u)).
    + rewrite Z.mul_comm. apply Z.mod_mul. lia.
    + pose proof (Z.div_mod (t + o) u ltac:(lia)). lia.
  - lia.
  - intros x X L. apply Z.mod_divide in X; [|lia]. destruct X as [k X].
    pose proof (Z.div_mod (t + o) u ltac:(lia)).
    assert (k <= (t + o) / u) by (apply Z.div_le_lower_bound; lia). nia.
Qed.
Lemma latest_iff P t r (X : res Z) : (exists r0, X = Ok r0 /\ latest P t r0) -> (X = Ok r <-> latest P t r).
Proof.
  intros (r0 & E & L). rewrite E. split.
  - intros G. apply Ok_inj in G. now subst.
  - intros G. f_equal. now apply (latest_unique P t).
Qed.
Lemma latest_midnight P off t d : first_day_of P (day_no (t + off * 1000000000)) d ->
  latest (midnight P off) t (d * 86400000000000 - off * 1000000000).
Proof.
  intros (A & B & C). set (o := off * 1000000000) in *.
  pose proof (day_no_split (t + o)). pose proof (field_ranges (t + o)) as (_ & _ & _ & _ & M).
  split; [|split].
  - exists d. split; [unfold day_length; lia|assumption].
  - nia.
  - intros x (e & E & F) L. unfold day_length in E. fold o in E.
    assert (e <= day_no (t + o)) by nia.
    assert (e <= d). { destruct (Z.le_gt_cases e d); [assumption|]. rewrite (C e) in F by lia. discriminate. }
    lia.
Qed.

Lemma mod_hour w : w mod 3600000000000 = (minute w * 60 + second w) * 1000000000 + nanosecond w.
Proof.
  pose proof (wall_fields w). pose proof (field_ranges w).
  symmetry. apply Z.mod_unique with (q := day_no w * 24 + hour w); lia.
Qed.
Lemma mod_minute w : w mod 60000000000 = second w * 1000000000 + nanosecond w.
Proof.
  pose proof (wall_fields w). pose proof (field_ranges w).
  symmetry. apply Z.mod_unique with (q := day_no w * 1440 + hour w * 60 + minute w); lia.
Qed.
Lemma mod_second w : w mod 1000000000 = nanosecond w.
Proof. reflexivity. Qed.
Lemma mod_milli w : w mod 1000000 = nanosecond w mod 1000000.
Proof.
  pose proof (wall_fields w) as W. rewrite W at 1.
  replace (day_no w * 86400000000000 + (hour w * 3600 + minute w * 60 + second w) * 1000000000 + nanosecond w)
    with (nanosecond w + ((day_no w * 86400 + hour w * 3600 + minute w * 60 + second w) * 1000) * 1000000) by lia.
  apply Z.mod_add. lia.
Qed.

Lemma clock_parts_cases part u : In (part, u) clock_parts ->
  (part = "MICROSECOND" /\ u = 1000) \/ (part = "MILLISECOND" /\ u = 1000000) \/ (part = "SECOND" /\ u = 1000000000) \/
  (part = "MINUTE" /\ u = 60000000000) \/ (part = "HOUR" /\ u = 3600000000000).
Proof.
  intros H. repeat destruct H as [H|H]; try contradiction;
  (assert (E1 : fst (part, u) = part) by reflexivity; assert (E2 : snd (part, u) = u) by reflexivity; rewrite <- H in E1, E2;
   cbn in E1, E2; subst; tauto).
Qed.
Lemma unit_of_parts part u : In (part, u) clock_parts -> unit_of part = Some u /\ 0 < u.
Proof. intros H. apply clock_parts_cases in H. destruct H as [[-> ->]|[[-> ->]|[[-> ->]|[[-> ->]|[-> ->]]]]]; split; reflexivity. Qed.
Lemma unit_of_some part u : unit_of part = Some u -> In (part, u) clock_parts.
Proof.
  unfold unit_of. cbn [clock_parts In].
  repeat match goal with |- context [String.eqb part ?s] => destruct (String.eqb_spec part s) as [->|] end;
    intros H; try discriminate; assert (E : forall (a b : Z), Some a = Some b -> a = b) by congruence; apply E in H; subst u; tauto.
Qed.

(** TIMESTAMP_TRUNC, clock parts *)
Lemma ts_trunc_clock off t part u : In (part, u) clock_parts -> micros t ->
  timestamp_trunc (fixed off) t part = Ok (t - (t + off * 1000000000) mod u).
Proof.
  intros H M. apply clock_parts_cases in H. set (w := t + off * 1000000000).
  pose proof (wall_fields w) as W. pose proof (field_ranges w) as R.
  destruct H as [[-> ->]|[[-> ->]|[[-> ->]|[[-> ->]|[-> ->]]]]]; unfold timestamp_trunc; rewrite wall_fixed; fold w;
    cbn [String.eqb Ascii.eqb Bool.eqb]; rewrite ?from_wall_fixed, ?with_clock_eq.
  - f_equal. unfold micros in M. subst w. replace (off * 1000000000) with (off * 1000000 * 1000) by lia.
    rewrite Z.mod_add, M by lia. lia.
  - f_equal. rewrite mod_milli. unfold milli. rewrite Z.quot_div_nonneg by lia.
    pose proof (Z.div_mod (nanosecond w) 1000000 ltac:(lia)). lia.
  - f_equal. rewrite mod_second. lia.
  - f_equal. rewrite mod_minute. lia.
  - f_equal. rewrite mod_hour. lia.
Qed.

Lemma with_clock_midnight w d : d = day_no w -> with_clock w 0 0 0 0 = d * 86400000000000.
Proof. intros ->. rewrite with_clock_eq. lia. Qed.
Lemma trunc_at_day w part d : date_trunc (day_no w) part = Ok d ->
  exists x, date_trunc_at w part = Ok x /\ day_no x = d.
Proof.
  intros E. unfold date_trunc_at. rewrite E. cbn [bind]. eexists. split; [reflexivity|].
  pose proof (field_ranges w) as (_ & _ & _ & _ & M).
  destruct (has_prefix "WEEK" part).
  - unfold at_clock. rewrite nspd. now apply day_no_eq.
  - rewrite nspd. replace (d * 86400000000000) with (d * 86400000000000 + 0) by lia. apply day_no_eq. lia.
Qed.
Lemma not_clock_prefix part : has_prefix "WEEK" part = true ->
  String.eqb part "MICROSECOND" = false /\ String.eqb part "MILLISECOND" = false /\ String.eqb part "SECOND" = false /\
  String.eqb part "MINUTE" = false /\ String.eqb part "HOUR" = false.
Proof.
  intros H. repeat split; match goal with |- ?x = false => destruct x eqn:E; [|reflexivity] end;
    apply String.eqb_eq in E; subst; discriminate.
Qed.
Lemma not_clock part P : date_part part P ->
  String.eqb part "MICROSECOND" = false /\ String.eqb part "MILLISECOND" = false /\ String.eqb part "SECOND" = false /\
  String.eqb part "MINUTE" = false /\ String.eqb part "HOUR" = false.
Proof.
  intros [[[-> _]|[[-> _]|[[-> _]|[-> _]]]]|(w & H & _)]; try (repeat split; reflexivity). apply not_clock_prefix.
  now apply (week_parts_ok part w).
Qed.
Lemma date_part_first part P n : date_part part P -> exists d, date_trunc n part = Ok d /\ first_day_of P n d.
Proof.
  intros H. destruct H as [[[-> ->]|[[-> ->]|[[-> ->]|[-> ->]]]]|(w & Hw & ->)].
  - exists n. split; [apply trunc_day|]. split; [reflexivity|]. split; [lia|]. intros e He. lia.
  - eexists. split; [apply trunc_month|apply first_of_month].
  - eexists. split; [apply trunc_quarter|apply first_of_quarter].
  - eexists. split; [apply trunc_year|apply first_of_year].
  - destruct (week_parts_ok part w Hw) as (Hp & W & R). exists (back_to 6 n w). split; [|now apply trunc_week].
    Local Transparent date_trunc. unfold date_trunc. rewrite Hp, W. reflexivity.
Qed.
Local Opaque date_trunc.
Lemma ts_trunc_other l t part :
  String.eqb part "MICROSECOND" = false /\ String.eqb part "MILLISECOND" = false /\ String.eqb part "SECOND" = false /\
  String.eqb part "MINUTE" = false /\ String.eqb part "HOUR" = false ->
  timestamp_trunc l t part = bind (date_trunc_at (wall l t) part) (fun d => Ok (from_wall l (with_clock d 0 0 0 0))).
Proof. intros (A & B & C & D & E). unfold timestamp_trunc. now rewrite A, B, C, D, E. Qed.
Lemma dt_trunc_other w part :
  String.eqb part "MICROSECOND" = false /\ String.eqb part "MILLISECOND" = false /\ String.eqb part "SECOND" = false /\
  String.eqb part "MINUTE" = false /\ String.eqb part "HOUR" = false ->
  datetime_trunc w part = date_trunc_at w part.
Proof. intros (A & B & C & D & E). unfold datetime_trunc. now rewrite A, B, C, D, E. Qed.
Lemma ts_trunc_date off t part P : date_part part P ->
  exists r, timestamp_trunc (fixed off) t part = Ok r /\ latest (midnight P off) t r.
Proof.
  intros H. rewrite ts_trunc_other by (now apply (not_clock part P)). rewrite wall_fixed.
  destruct (date_part_first part P (day_no (t + off * 1000000000)) H) as (d & E & F).
  destruct (trunc_at_day _ _ _ E) as (x & X & D). rewrite X. cbn [bind].
  eexists. split; [reflexivity|]. rewrite from_wall_fixed, (with_clock_midnight x d) by auto.
  now apply latest_midnight.
Qed.
