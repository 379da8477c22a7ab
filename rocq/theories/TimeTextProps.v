(** Properties C28 and C30. *)
From Coq Require Import Ascii String List ZArith Lia Bool.
From Verif Require Import GoBase GoBaseFacts CalendarModel CalendarFacts InstantModel InstantFacts DecModel DecFacts TimeTextModel TimeTextSpec TimeTextProofs.
Import ListNotations.
Local Open Scope string_scope.
Open Scope Z_scope.
Local Opaque civil year_start leap.

(** C28 *)
Theorem c28_datetime : forall y mo d h mi s us, 0 <= y <= 9999 -> valid_date y mo d -> valid_clock h mi s -> 0 <= us < 1000000 ->
  let t := datetime_of_literal (pack y mo d h mi s us) in
  civil (day_no t) = (y, mo, d) /\ hour t = h /\ minute t = mi /\ second t = s /\ nanosecond t = us * 1000.
Proof.
  intros y mo d h mi s us Hy V C U t. pose proof C as C'. destruct C' as (Hh & Hm & Hs). pose proof V as [V1 V2].
  assert (D31 : days_in_month y mo <= 31) by (pose proof (dim_range y mo); lia).
  destruct (unpack y mo d h mi s us) as (F1 & F2 & F3 & F4 & F5 & F6 & F7); try lia.
  unfold t, datetime_of_literal. rewrite F1, F2, F3, F4, F5, F6, F7.
  destruct (go_time_split y mo d h mi s (us * 1000)) as (A & B & N); [unfold ns_per_sec; lia|assumption|].
  rewrite A, N. rewrite godate_days_of by assumption. rewrite civil_days_of by assumption.
  destruct (clock_fields _ _ _ _ B C) as (E1 & E2 & E3). auto.
Qed.
Print Assumptions c28_datetime.
Theorem c28_time : forall h mi s us, valid_clock h mi s -> 0 <= us < 1000000 ->
  let t := time_of_literal (pack 0 0 0 h mi s us) in
  hour t = h /\ minute t = mi /\ second t = s /\ nanosecond t = us * 1000.
Proof.
  intros h mi s us C U t. pose proof C as C'. destruct C' as (Hh & Hm & Hs).
  destruct (unpack 0 0 0 h mi s us) as (F1 & F2 & F3 & F4 & F5 & F6 & F7); try lia.
  unfold t, time_of_literal. rewrite F4, F5, F6, F7.
  destruct (go_time_split 0 0 0 h mi s (us * 1000)) as (A & B & N); [unfold ns_per_sec; lia|assumption|].
  destruct (clock_fields _ _ _ _ B C) as (E1 & E2 & E3). auto.
Qed.
Print Assumptions c28_time.
Local Transparent civil year_start leap.
Example c28_example : valid_date 2024 2 29 /\ valid_clock 23 59 59 /\
  datetime_of_literal (pack 2024 2 29 23 59 59 999999) = 1709251199999999000 /\ civil (1709251199999999000 / ns_per_day) = (2024, 2, 29).
Proof. split; [split; vm_compute; split; discriminate|]. split; [split; lia|]. split; vm_compute; reflexivity. Qed.
Local Opaque civil year_start leap.

(** C30: the text converts back, for every instant a 64-bit count of microseconds
    can hold. *)
Theorem c30_back_partial : forall t, in64 (unix_micro t) ->
  time_from_text (timestamp_text t) = Ok (t - t mod 1000).
Proof.
  intros t H. unfold timestamp_text, time_from_text. rewrite split_text.
  set (u := unix_micro t) in *.
  pose proof (Z.quot_rem' u 1000000) as Q. assert (R : u - Z.quot u 1000000 * 1000000 = Z.rem u 1000000) by lia.
  rewrite R. pose proof (Z.rem_bound_abs u 1000000 ltac:(lia)) as B. unfold in64, two63 in H.
  assert (Z.abs (Z.quot u 1000000) <= Z.abs u).
  { rewrite <- Z.quot_abs by lia. apply Z.quot_le_upper_bound; lia. }
  rewrite !parse_dec by (unfold in64, two63; lia).
  rewrite wrap64_id by (unfold in64, two63; lia). f_equal. unfold from_unix, ns_per_sec.
  pose proof (Z.div_mod t 1000 ltac:(lia)). rewrite <- unix_micro_floor in H1. fold u in H1. lia.
Qed.
Print Assumptions c30_back_partial.
(** The text is the decimal number of seconds exactly when the microseconds are zero
    or have six digits. *)
Theorem c30_decimal_partial : forall t, let u := unix_micro t in
  reads_as (timestamp_text t) u <-> Z.rem u 1000000 = 0 \/ 100000 <= Z.rem u 1000000.
Proof.
  intros t u. unfold timestamp_text. fold u.
  pose proof (Z.quot_rem' u 1000000) as Q. assert (R : u - Z.quot u 1000000 * 1000000 = Z.rem u 1000000) by lia.
  rewrite R. set (sec := Z.quot u 1000000) in *. set (f := Z.rem u 1000000) in *.
  assert (B : Z.abs f < 1000000) by (apply Z.rem_bound_abs; lia).
  assert (S1 : 0 <= u -> 0 <= f /\ 0 <= sec) by (intros; split; [apply Z.rem_nonneg; lia|apply Z.quot_pos; lia]).
  assert (S2 : u <= 0 -> f <= 0 /\ sec <= 0).
  { intros. split; [apply Z.rem_nonpos; lia|]. assert (0 <= - sec) by (unfold sec; rewrite <- Z.quot_opp_l by lia; apply Z.quot_pos; lia). lia. }
  split.
  - intros (sign & a & b & n & g & E & Na & Pa & Pb & K).
    pose proof (f_equal (split1 ".") E) as SP. rewrite split_text in SP.
    replace (sign ++ a ++ "." ++ b)%string with ((sign ++ a) ++ String "." b)%string in SP by (rewrite <- string_app_assoc; reflexivity).
    assert (NS : has_char "." (sign ++ a)%string = false).
    { rewrite has_char_app, (all_digits_no_dot a) by (eapply positional_digits; eauto). destruct K as [[-> _]|[-> _]]; reflexivity. }
    rewrite split1_app in SP by exact NS. rewrite split1_nochar in SP by (apply all_digits_no_dot; eapply positional_digits; eauto).
    injection SP as SA SB. subst b. destruct (dec_positional _ _ Pb) as [F0 ->].
    assert (DF : dec f = udec f) by (unfold dec; destruct (Z.ltb_spec f 0); [lia|reflexivity]). rewrite DF in K.
    destruct (Z.eq_dec f 0) as [Fz|Fn]; auto. right. apply udec_length_six; [lia|].
    destruct K as [[-> K]|[-> K]].
    + cbn [String.append] in SA. subst a. destruct (dec_positional _ _ Pa) as [Sec0 ->].
      set (L := String.length (udec f)) in *.
      assert (10 ^ Z.of_nat L = 1000000).
      { assert (f * 10 ^ Z.of_nat L = f * 1000000) by (rewrite Q in K; lia). nia. }
      change 1000000 with (10 ^ 6) in H. apply Z.pow_inj_r in H; lia.
    + exfalso. assert (sec < 0).
      { unfold dec in SA. destruct (Z.ltb_spec sec 0); auto. exfalso. pose proof (udec_all_digits sec ltac:(lia)) as A. rewrite SA in A. cbn in A. discriminate. }
      assert (u < 0) by lia. destruct (S2 ltac:(lia)). lia.
  - intros K.
    destruct (Z.le_gt_cases 0 f) as [F0|F0]; [|lia].
    assert (DF : dec f = udec f) by (unfold dec; destruct (Z.ltb_spec f 0); [lia|reflexivity]). rewrite DF.
    assert (EQ : f * 10 ^ Z.of_nat (String.length (udec f)) = f * 1000000).
    { destruct K as [->|K]; [lia|]. apply udec_length_six in K; [|lia]. rewrite K. reflexivity. }
    destruct (Z.ltb_spec sec 0) as [Sn|Sp].
    + exists "-", (udec (- sec)), (udec f), (- sec), f.
      assert (f = 0) by lia.
      split; [unfold dec; destruct (Z.ltb_spec sec 0); [reflexivity|lia]|].
      split; [apply udec_nonempty|]. split; [apply positional_udec; lia|]. split; [now apply positional_udec|].
      right. split; auto. rewrite Q. subst f. lia.
    + exists "", (udec sec), (udec f), sec, f.
      split; [unfold dec; destruct (Z.ltb_spec sec 0); [lia|reflexivity]|].
      split; [apply udec_nonempty|]. split; [apply positional_udec; lia|]. split; [now apply positional_udec|].
      left. split; auto. rewrite Q. lia.
Qed.
Print Assumptions c30_decimal_partial.
(** One microsecond past the epoch reads as a tenth of a second. *)
Theorem c30_refuted : timestamp_text 1000 = "0.1" /\ reads_as "0.1" 100000 /\ ~ reads_as (timestamp_text 1000) (unix_micro 1000) /\
  timestamp_text (-1500000000) = "-1.-500000".
Proof.
  split; [reflexivity|]. split.
  - exists "", "0", "1", 0, 1. split; [reflexivity|]. split; [discriminate|]. split; [reflexivity|]. split; [reflexivity|]. left. split; reflexivity.
  - split; [|reflexivity]. intros H. apply c30_decimal_partial in H. cbn in H. lia.
Qed.
Print Assumptions c30_refuted.
Example c30_example : timestamp_text 1700000000123456789 = "1700000000.123456" /\ in64 (unix_micro 1700000000123456789) /\
  time_from_text "1700000000.123456" = Ok 1700000000123456000.
Proof. split; [reflexivity|]. split; [vm_compute; split; [discriminate|reflexivity]|]. reflexivity. Qed.
