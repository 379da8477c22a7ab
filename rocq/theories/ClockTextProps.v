(** C100, C101: the text of DATE, TIME and DATETIME values. *)
From Coq Require Import Ascii String List ZArith Lia Bool.
From Verif Require Import GoBase CalendarModel CalendarFacts InstantModel InstantFacts DecModel ClockTextModel ClockTextSpec ClockTextProofs.
Local Open Scope string_scope.
Open Scope Z_scope.

(** C100: every DATE of the years 0 to 9999, and every TIME and DATETIME of those years
    with at most microsecond precision, is read back from its own text as itself. *)
Theorem c100_date_text_reads_back : forall n, 0 <= year n <= 9999 -> parse_date (date_text n) = Some n.
Proof.
  intros n H. apply parse_date_iff. exists (year n), (month n), (day n).
  split; [exact H|]. split; [apply civil_is_valid|]. split; [now apply date_text_ymd|symmetry; apply days_of_civil].
Qed.
Theorem c100_datetime_text_reads_back : forall t, 0 <= year (day_no t) <= 9999 -> t mod 1000 = 0 ->
  parse_datetime (datetime_text t) = Some t /\ parse_datetime (date_text (day_no t) ++ " " ++ clock_text t) = Some t.
Proof.
  intros t Y M. assert (E : to_micros t = t) by (unfold to_micros; pose proof (Z.div_mod t 1000 ltac:(lia)); lia).
  rewrite parse_datetime_text, parse_datetime_space, E by auto. auto.
Qed.
(** A TIME keeps its time of day; its day, which is never shown, becomes that of the parser. *)
Theorem c100_time_text_reads_back : forall t, t mod 1000 = 0 ->
  exists t', parse_time (clock_text t) = Some t' /\ clock t' = clock t /\ nanosecond t' = nanosecond t /\ clock_text t' = clock_text t.
Proof.
  intros t M. rewrite parse_time_text. eexists. split; [reflexivity|].
  destruct (time_of_fields t) as (V & N & K & E). set (g := godate 0 1 1).
  assert (R : nanosecond t / 1000 * 1000 = nanosecond t).
  { assert (Q : nanosecond t mod 1000 = 0).
    { unfold nanosecond, ns_per_sec. change 1000000000 with (1000 * 1000000). rewrite Z.rem_mul_r by lia. rewrite M.
      rewrite Z.add_0_l, Z.mul_comm. apply Z.mod_mul. lia. }
    pose proof (Z.div_mod (nanosecond t) 1000 ltac:(lia)). lia. }
  rewrite R. set (t' := (g * 86400 + clock t) * ns_per_sec + nanosecond t).
  assert (C : clock t' = clock t).
  { unfold t', clock at 1. unfold ns_per_sec in *. rewrite Z.div_add_l by lia. rewrite Z.div_small by lia.
    rewrite Z.add_0_r, Z.add_comm, Z.mod_add by lia. apply Z.mod_small. apply clock_range. }
  assert (D : nanosecond t' = nanosecond t).
  { unfold t', nanosecond at 1. rewrite Z.add_comm, Z.mod_add by (unfold ns_per_sec; lia). now apply Z.mod_small. }
  split; [exact C|]. split; [exact D|]. unfold clock_text, hour, minute, second. now rewrite C, D.
Qed.
(** Two DATEs (DATETIMEs at microsecond precision) with the same text are the same. *)
Theorem c100_text_is_unambiguous :
  (forall a b, 0 <= year a <= 9999 -> 0 <= year b <= 9999 -> date_text a = date_text b -> a = b) /\
  (forall a b, 0 <= year (day_no a) <= 9999 -> 0 <= year (day_no b) <= 9999 -> a mod 1000 = 0 -> b mod 1000 = 0 ->
     datetime_text a = datetime_text b -> a = b).
Proof.
  split.
  - intros a b A B E. pose proof (c100_date_text_reads_back a A) as P. rewrite E, c100_date_text_reads_back in P by auto. congruence.
  - intros a b A B Ma Mb E. destruct (c100_datetime_text_reads_back a A Ma) as [P _]. destruct (c100_datetime_text_reads_back b B Mb) as [Q _].
    rewrite E, Q in P. congruence.
Qed.
Example c100_ex : date_text 19782 = "2024-02-29" /\ parse_date "2024-02-29" = Some 19782 /\
  datetime_text (go_time 2024 2 29 1 2 3 120000000) = "2024-02-29T01:02:03.12" /\
  parse_datetime "2024-02-29T01:02:03.12" = Some (go_time 2024 2 29 1 2 3 120000000) /\ go_time 2024 2 29 1 2 3 120000000 mod 1000 = 0.
Proof. repeat split; reflexivity. Qed.

(** C101: a string is read as a DATE exactly when it is YYYY-MM-DD for a day that exists,
    and then as that day. *)
Theorem c101_date_reading : forall s n, parse_date s = Some n <-> names_day s n.
Proof. exact parse_date_iff. Qed.
(** The same for a TIME and for a DATETIME. *)
Theorem c101_time_reading : forall s t, parse_time s = Some t <->
  exists c ns, names_clock s c ns /\ t = (godate 0 1 1 * 86400 + c) * ns_per_sec + ns.
Proof. exact parse_time_iff. Qed.
Theorem c101_datetime_reading : forall s t, parse_datetime s = Some t <->
  exists n c ns, names_datetime s n c ns /\ t = (n * 86400 + c) * ns_per_sec + ns.
Proof. exact parse_datetime_iff. Qed.
Example c101_ex : parse_date "2023-02-29" = None /\ parse_date "2023-2-28" = None /\ parse_time "24:00:00" = None /\
  parse_time "7:05:09" = parse_time "07:05:09" /\ parse_time "7:05:09" <> None /\
  parse_datetime "2024-12-31 23:59:59.1234567899" = Some (go_time 2024 12 31 23 59 59 123456789) /\
  parse_datetime "2024-12-31" = None.
Proof. repeat split; try reflexivity. discriminate. Qed.

Print Assumptions c100_date_text_reads_back.
Print Assumptions c100_datetime_text_reads_back.
Print Assumptions c100_time_text_reads_back.
Print Assumptions c100_text_is_unambiguous.
Print Assumptions c101_date_reading.
Print Assumptions c101_time_reading.
Print Assumptions c101_datetime_reading.
