(** Lemmas on CAST. *)
From Coq Require Import Ascii String List ZArith QArith Lia Bool SpecFloat.
From Verif Require Import GoBase GoBaseFacts CalendarModel CalendarFacts InstantModel InstantFacts DecModel DecFacts ValueModel CastModel CastSpec CastProofs CastProps Utf8Model Utf8Facts EncModel ClockTextModel ClockTextSpec ClockTextProofs ClockTextProps CodecModel CodecSpec CodecProofs CodecProps TimeTextModel JsonSpec JsonModel JsonDocSpec RowsModel RowsSpec RowsProofs ConvertModel ConvertSpec.
Import ListNotations.
Local Open Scope string_scope.
Open Scope Z_scope.

(** ** Shapes *)
Lemma shape_d p n s : 0 <= n < 10 -> shape (String "d" p) (String (digit n) s) = shape p s.
Proof. intros H. cbn [shape]. change (Ascii.eqb "d" "d") with true. cbv iota. now rewrite digit_val_digit. Qed.
Lemma shape_two p n s : 0 <= n < 100 -> shape (String "d" (String "d" p)) (two n ++ s) = shape p s.
Proof. intros H. destruct (ten n H) as (A & B & _). unfold two. cbn [append]. rewrite !shape_d; auto. Qed.
Lemma shape_four p n s : 0 <= n < 10000 -> shape ("dddd" ++ p) (four n ++ s) = shape p s.
Proof. intros H. destruct (hundred n H) as (A & B & _). unfold four. rewrite <- string_app_assoc. cbn [append]. rewrite !shape_two; auto. Qed.
Lemma shape_ymd p y m d s : 0 <= y <= 9999 -> valid_date y m d -> shape ("dddd-dd-dd" ++ p) (ymd y m d ++ s) = shape p s.
Proof.
  intros Y [M D]. pose proof (dim_range y m). change ("dddd-dd-dd" ++ p) with ("dddd" ++ "-dd-dd" ++ p). unfold ymd. rewrite <- !string_app_assoc. rewrite shape_four by lia.
  change (shape ("-dd-dd" ++ p) ("-" ++ two m ++ "-" ++ two d ++ s)) with (shape (String "d" (String "d" ("-dd" ++ p))) (two m ++ "-" ++ two d ++ s)).
  rewrite shape_two by lia. change (shape ("-dd" ++ p) ("-" ++ two d ++ s)) with (shape (String "d" (String "d" p)) (two d ++ s)). now rewrite shape_two by lia.
Qed.
Lemma shape_hms p h mi sc s : valid_clock h mi sc -> shape ("dd:dd:dd" ++ p) (hms h mi sc ++ s) = shape p s.
Proof.
  intros (H & M & C). unfold hms. rewrite <- !string_app_assoc. change ("dd:dd:dd" ++ p) with (String "d" (String "d" (":dd:dd" ++ p))). rewrite shape_two by lia.
  change (shape (":dd:dd" ++ p) (":" ++ two mi ++ ":" ++ two sc ++ s)) with (shape (String "d" (String "d" (":dd" ++ p))) (two mi ++ ":" ++ two sc ++ s)).
  rewrite shape_two by lia. change (shape (":dd" ++ p) (":" ++ two sc ++ s)) with (shape (String "d" (String "d" p)) (two sc ++ s)). now rewrite shape_two by lia.
Qed.
Lemma is_date_ymd y m d s : 0 <= y <= 9999 -> valid_date y m d -> is_date (ymd y m d ++ s) = is_end s.
Proof. intros Y V. unfold is_date, whole. change "dddd-dd-dd" with ("dddd-dd-dd" ++ ""). rewrite shape_ymd by auto. destruct s; reflexivity. Qed.
Lemma is_datetime_date y m d : 0 <= y <= 9999 -> valid_date y m d -> is_datetime (ymd y m d) = false.
Proof. intros Y V. unfold is_datetime, whole. rewrite <- (app_empty (ymd y m d)). change "dddd-dd-ddsdd:dd:dd" with ("dddd-dd-dd" ++ "sdd:dd:dd"). now rewrite shape_ymd by auto. Qed.
Lemma is_datetime_of y m d h mi sc s : 0 <= y <= 9999 -> valid_date y m d -> valid_clock h mi sc -> is_datetime (ymd y m d ++ "T" ++ hms h mi sc ++ s) = is_end s.
Proof.
  intros Y V C. unfold is_datetime, whole. change "dddd-dd-ddsdd:dd:dd" with ("dddd-dd-dd" ++ "sdd:dd:dd"). rewrite shape_ymd by auto.
  change (shape "sdd:dd:dd" ("T" ++ hms h mi sc ++ s)) with (shape ("dd:dd:dd" ++ "") (hms h mi sc ++ s)). rewrite shape_hms by auto. destruct s; reflexivity.
Qed.
Lemma is_time_ymd y m d s : 0 <= y <= 9999 -> is_time (ymd y m d ++ s) = false.
Proof.
  intros Y. destruct (hundred y ltac:(lia)) as (A & B & _). unfold is_time, ymd, four. rewrite <- !string_app_assoc.
  change "dd:dd:dd" with (String "d" (String "d" ":dd:dd")). rewrite shape_two by lia. destruct (ten _ B) as (C & _). unfold two at 1. cbn [append shape].
  change (Ascii.eqb ":" "d") with false. change (Ascii.eqb ":" "s") with false. cbv iota.
  destruct (Ascii.eqb_spec ":" (digit (y mod 100 / 10))) as [E|E]; [|reflexivity]. exfalso.
  pose proof (digit_val_digit _ C) as D. rewrite <- E in D. discriminate.
Qed.
Lemma is_time_hms h mi sc s : valid_clock h mi sc -> is_time (hms h mi sc ++ s) = true.
Proof. intros V. unfold is_time. change "dd:dd:dd" with ("dd:dd:dd" ++ ""). rewrite shape_hms by auto. reflexivity. Qed.
Lemma is_date_hms h mi sc s : valid_clock h mi sc -> is_date (hms h mi sc ++ s) = false.
Proof.
  intros (H & _). unfold is_date, whole, hms. rewrite <- !string_app_assoc. change "dddd-dd-dd" with (String "d" (String "d" "dd-dd-dd")). rewrite shape_two by lia. reflexivity.
Qed.
Lemma is_datetime_hms h mi sc s : valid_clock h mi sc -> is_datetime (hms h mi sc ++ s) = false.
Proof.
  intros (H & _). unfold is_datetime, whole, hms. rewrite <- !string_app_assoc. change "dddd-dd-ddsdd:dd:dd" with (String "d" (String "d" "dd-dd-ddsdd:dd:dd")). rewrite shape_two by lia. reflexivity.
Qed.

(** ** Nine decimals before a zone *)
Definition stops (s : string) : Prop := match s with String c _ => is_digit c = false /\ c <> "."%char /\ c <> ","%char | EmptyString => True end.
Definition no_digit (s : string) : Prop := match s with String c _ => is_digit c = false | EmptyString => True end.
Lemma stops_no_digit s : stops s -> no_digit s.
Proof. destruct s; cbn; tauto. Qed.
Lemma span_stops ds s : all_digits ds = true -> no_digit s -> span_digits (ds ++ s) = (ds, s).
Proof.
  intros A T. induction ds as [|c ds IH]; cbn [append span_digits].
  - destruct s as [|c s]; [reflexivity|]. cbn [no_digit] in T. cbn [span_digits]. unfold is_digit in T. now destruct (digit_val c).
  - cbn [all_digits] in A. apply andb_true_iff in A. destruct A as [Ac A]. unfold is_digit in Ac. destruct (digit_val c); [|discriminate]. now rewrite IH.
Qed.
Lemma strip_digits s : all_digits s = true -> all_digits (strip_zeros s) = true.
Proof.
  induction s as [|c s IH]; intros A; [reflexivity|]. cbn [all_digits] in A. apply andb_true_iff in A. destruct A as [Ac A]. specialize (IH A).
  cbn [strip_zeros]. destruct (strip_zeros s).
  - destruct (Ascii.eqb c "0"); [reflexivity|]. cbn [all_digits]. now rewrite Ac.
  - cbn [all_digits] in *. now rewrite Ac.
Qed.
Lemma frac_nano ns s : 0 <= ns < ns_per_sec -> stops s -> frac (nano_text ns ++ s) = (ns, s).
Proof.
  intros H T. unfold ns_per_sec in H. unfold nano_text.
  pose proof (positional_pad 9 ns ltac:(lia)) as P. pose proof (pad_length 9 ns ltac:(lia) H) as L. pose proof (pad_digits 9 ns ltac:(lia)) as D. apply strip_digits in D.
  destruct (strip_positional _ _ P) as (w & k & W & K & V). rewrite L in K.
  destruct (strip_zeros (pad 9 ns)) as [|c f] eqn:E.
  - cbn in W. assert (w = 0) by congruence. subst w. assert (ns = 0) by lia. subst ns. cbn [append]. unfold frac. destruct s as [|c s]; [reflexivity|].
    destruct T as (_ & T1 & T2). destruct (Ascii.eqb_spec c "."); [contradiction|]. destruct (Ascii.eqb_spec c ","); [contradiction|]. reflexivity.
  - rewrite <- E in W, K, D |- *. change (String "." (strip_zeros (pad 9 ns)) ++ s) with (String "." (strip_zeros (pad 9 ns) ++ s)). unfold frac.
    change (Ascii.eqb "." "." || Ascii.eqb "." ",") with true. cbv iota. rewrite span_stops by auto using stops_no_digit.
    assert (N : nanos (strip_zeros (pad 9 ns)) = ns).
    { rewrite (nanos_of _ w W) by lia. transitivity (w * 10 ^ Z.of_nat k); [do 2 f_equal; lia|now symmetry]. }
    rewrite N. rewrite E. reflexivity.
Qed.
Lemma zone_text_stops o : stops (zone_text o) /\ zone_text o <> "".
Proof.
  unfold zone_text. destruct (o =? 0); [split; [repeat split; discriminate|discriminate]|]. cbv zeta.
  destruct (_ <? 0); (split; [repeat split; discriminate|discriminate]).
Qed.
Lemma minutes_of o : whole_minutes o -> exists k, o = k * 60 /\ Z.quot o 60 = k /\ Z.abs k < 1440.
Proof.
  intros [M B]. exists (o / 60). assert (o = o / 60 * 60) by (pose proof (Z.div_mod o 60); lia). split; [exact H|]. split; [|lia].
  rewrite H at 1. now apply Z.quot_mul.
Qed.

(** ** The texts are ASCII *)
Definition asc (s : string) : Prop := ascii_only (list_ascii_of_string s).
Lemma asc_app a b : asc a -> asc b -> asc (a ++ b).
Proof. unfold asc. intros A B. rewrite list_ascii_app. now apply Forall_app. Qed.
Lemma asc_pad w n : 0 <= n -> asc (pad w n).
Proof. intros. now apply digits_ascii, pad_digits. Qed.
Lemma asc_cons c s : (b2z c < 128)%Z -> asc s -> asc (String c s).
Proof. intros. constructor; assumption. Qed.
Lemma asc_frac s : all_digits s = true -> asc (match strip_zeros s with EmptyString => EmptyString | r => String "." r end).
Proof. intros D. apply strip_digits in D. destruct (strip_zeros s); [constructor|]. apply asc_cons; [reflexivity|]. now apply digits_ascii. Qed.
Lemma asc_date n : 0 <= year n <= 9999 -> asc (date_text n).
Proof.
  intros Y. pose proof (month_range n). pose proof (day_range n). unfold date_text.
  repeat (apply asc_app; [first [apply asc_pad; lia | repeat constructor]|]). apply asc_pad. lia.
Qed.
Lemma asc_clock t : asc (clock_text t).
Proof.
  destruct (time_of_fields t) as ((H & M & C) & N & _). unfold clock_text. repeat (apply asc_app; [first [apply asc_pad; lia | repeat constructor]|]).
  unfold frac_text. apply asc_frac, pad_digits. apply Z.div_pos; lia.
Qed.
Lemma asc_datetime t : 0 <= year (day_no t) <= 9999 -> asc (datetime_text t).
Proof. intros. unfold datetime_text. apply asc_app; [now apply asc_date|]. apply asc_app; [repeat constructor|apply asc_clock]. Qed.
Lemma asc_zone o : asc (zone_text o).
Proof.
  unfold zone_text. destruct (o =? 0); [repeat constructor|]. cbv zeta. apply asc_cons; [destruct (_ <? 0); reflexivity|].
  apply asc_app; [apply asc_pad; apply Z.div_pos; lia|]. apply asc_app; [repeat constructor|]. apply asc_pad. apply Z.mod_pos_bound. lia.
Qed.
Lemma asc_rfc3339 offset t : 0 <= year (day_no (local offset t)) <= 9999 -> asc (rfc3339 offset t).
Proof.
  intros Y. unfold rfc3339. cbv zeta. destruct (time_of_fields (local offset t)) as ((H & M & C) & N & _).
  apply asc_app; [now apply asc_date|]. repeat (apply asc_app; [first [apply asc_pad; lia | repeat constructor; fail | apply asc_frac, pad_digits; lia]|]). apply asc_zone.
Qed.
Lemma asc_numeric q : asc (string_of (numeric_text q)).
Proof.
  unfold asc, string_of, numeric_text. rewrite list_ascii_of_string_of_list_ascii. set (b := Z.abs _). assert (0 <= b) by (subst b; lia).
  apply Forall_app. split; [destruct (Qnum q <? 0); repeat constructor|]. apply Forall_app. split; [apply digits_ascii, udec_all_digits, Z.div_pos; lia|].
  pose proof (asc_frac (pad 9 (b mod 1000000000)) ltac:(apply pad_digits, Z.mod_pos_bound; lia)) as F.
  destruct (strip_zeros _); [constructor|exact F].
Qed.
Lemma nano_mod t : t mod 1000 = nanosecond t mod 1000.
Proof.
  unfold nanosecond, ns_per_sec. change 1000000000 with (1000 * 1000000). rewrite Z.rem_mul_r by lia. rewrite Z.mul_comm, Z.mod_add by lia. symmetry. apply Z.mod_mod. lia.
Qed.
Lemma text_round s : text_ok s -> round_trip (Some (VStr s)) = Ok (Some (VStr s)).
Proof. apply c26_text_iff_utf8. Qed.
Lemma asc_round s : asc s -> round_trip (Some (VStr s)) = Ok (Some (VStr s)).
Proof. intros A. apply text_round. now apply ascii_text_ok. Qed.
Lemma stored v : storable false v -> exists w, round_trip (Some v) = Ok (Some w) /\ same v w.
Proof. apply c26_stored_values_come_back_partial. Qed.

(** ** Base64 is longer *)
Lemma block_length bs : (1 <= List.length bs <= 3)%nat -> List.length (block base64 bs) = 4%nat.
Proof.
  intros H. unfold block. rewrite app_length, map_length, repeat_length, firstn_length, EncProofs.digits_be_length. change (c_m base64) with 4%nat.
  destruct (List.length bs) as [|[|[|[|n]]]]; try lia; reflexivity.
Qed.
Lemma blocks_longer f : forall s, (List.length s <= f)%nat -> s <> [] -> (List.length s < List.length (encode_blocks base64 f s))%nat.
Proof.
  induction f as [|f IH]; intros s L N; [destruct s; [contradiction|cbn in L; lia]|]. destruct s as [|c s]; [contradiction|].
  change (encode_blocks base64 (S f) (c :: s)) with (block base64 (firstn 3 (c :: s)) ++ encode_blocks base64 f (skipn 3 (c :: s)))%list.
  rewrite app_length, block_length by (rewrite firstn_length; cbn [List.length]; lia).
  pose proof (firstn_skipn 3 (c :: s)) as FS. apply (f_equal (@List.length ascii)) in FS. rewrite app_length in FS. pose proof (firstn_le_length 3 (c :: s)).
  assert (Lf : (1 <= List.length (firstn 3 (c :: s)))%nat) by (cbn; lia). set (a := firstn 3 (c :: s)) in *. set (z := skipn 3 (c :: s)) in *. set (w := c :: s) in *. clearbody a z w.
  destruct z as [|x r]; [cbn [List.length] in *; lia|]. specialize (IH (x :: r) ltac:(lia) ltac:(discriminate)). lia.
Qed.
Lemma base64_other s : s <> "" -> base64_text s <> s.
Proof.
  intros N E. apply (f_equal list_ascii_of_string) in E. unfold base64_text in E. rewrite list_ascii_of_string_of_list_ascii in E.
  pose proof (blocks_longer (List.length (list_ascii_of_string s)) (list_ascii_of_string s) ltac:(lia)) as L. unfold to_base64, encode_with in E. rewrite E in L.
  destruct s; [contradiction|]. cbn [list_ascii_of_string] in *. specialize (L ltac:(discriminate)). lia.
Qed.
(** ** Years and microseconds *)
Lemma day_bounds n : 0 <= year n <= 9999 -> -800000 <= n <= 3000000.
Proof.
  intros Y. split.
  - destruct (Z.le_gt_cases (-800000) n); [assumption|]. pose proof (year_mono n (-800000) ltac:(lia)) as M. change (year (-800000)) with (-221) in M. lia.
  - destruct (Z.le_gt_cases n 3000000); [assumption|]. pose proof (year_mono 3000000 n ltac:(lia)) as M. change (year 3000000) with 10183 in M. lia.
Qed.
Lemma micros_fit t : 0 <= year (day_no t) <= 9999 -> in64 (t / 1000).
Proof.
  intros Y. apply day_bounds in Y. unfold day_no in Y. pose proof (Z.div_mod t ns_per_day ltac:(discriminate)). pose proof (Z.mod_pos_bound t ns_per_day ltac:(reflexivity)).
  change ns_per_day with 86400000000000 in *. unfold in64, two63. split; [apply Z.div_le_lower_bound; lia|apply Z.div_lt_upper_bound; lia].
Qed.

(** ** Days, clocks and fractions *)
Lemma split_time n c ns : 0 <= c < 86400 -> 0 <= ns < ns_per_sec -> let t := (n * 86400 + c) * ns_per_sec + ns in day_no t = n /\ clock t = c /\ nanosecond t = ns.
Proof.
  intros C N t. assert (U : t / ns_per_sec = n * 86400 + c) by (unfold t; rewrite Z.div_add_l by discriminate; rewrite (Z.div_small ns) by exact N; lia).
  split; [|split].
  - unfold day_no, ns_per_day. rewrite Z.mul_comm, <- Z.div_div by (discriminate || reflexivity). rewrite U, Z.div_add_l by lia. rewrite Z.div_small by exact C. lia.
  - unfold clock. rewrite U, Z.add_comm, Z.mod_add by lia. now apply Z.mod_small.
  - unfold nanosecond, t. rewrite Z.add_comm, Z.mod_add by discriminate. now apply Z.mod_small.
Qed.
Lemma fraction_range f ns : names_fraction f ns -> 0 <= ns < ns_per_sec.
Proof.
  intros [[_ ->]|(c & ds & v & _ & _ & _ & D & ->)]; [unfold ns_per_sec; lia|]. apply digits_value_iff, positional_nonneg in D. unfold ns_per_sec.
  assert (0 < 10 ^ Z.of_nat (String.length ds)) by (apply Z.pow_pos_nonneg; lia). split; [apply Z.div_pos; lia|apply Z.div_lt_upper_bound; nia].
Qed.
Lemma datetime_range s n c ns : names_datetime s n c ns -> 0 <= year n <= 9999 /\ 0 <= c < 86400 /\ 0 <= ns < ns_per_sec.
Proof.
  intros (a & b & sep & (y & m & d & Y & V & _ & ->) & (h & mi & sc & x & f & H & M & C & _ & F & _ & ->) & _). rewrite year_days_of by exact V. split; [exact Y|]. split; [lia|]. now apply fraction_range with f.
Qed.
Lemma is_date_longer s n c r : names_day s n -> is_date (s ++ String c r) = false.
Proof. intros (y & m & d & Y & V & -> & _). now rewrite is_date_ymd. Qed.

Section Convert.
  Variable offset : Z -> Z.
  Variable zone_offset : string -> option Z.
  Variable other_rat : string -> Q.
  Variable float_text : float -> string.
  Variable float_read : string -> option float.
  Variable rat_float : Q -> float.
  Variable int_read : string -> option Z.
  Variable doc_text : val -> string.
  Variable json_text : val -> string.
  Variable float_time : float -> Z.
  Notation convert := (convert offset zone_offset other_rat float_text float_read rat_float int_read doc_text json_text float_time).
  Notation cast_to := (cast_to offset zone_offset other_rat float_text float_read rat_float int_read doc_text json_text float_time).
  Notation sql_cast := (sql_cast offset zone_offset other_rat float_text float_read rat_float int_read doc_text json_text float_time).
  Notation cast_seen := (cast_seen offset zone_offset other_rat float_text float_read rat_float int_read doc_text json_text float_time).
  Notation string_time := (string_time zone_offset).
  Notation rfc3339 := (rfc3339 offset).

  Lemma read_zone_text o : whole_minutes o -> read_zone zone_offset (zone_text o) = Some o.
  Proof.
    intros H. destruct (minutes_of o H) as (k & -> & Q & B). unfold zone_text. destruct (Z.eqb_spec (k * 60) 0) as [E|E]; [rewrite E; reflexivity|].
    cbv zeta. rewrite Q. unfold read_zone.
    assert (D1 : 0 <= Z.abs k / 60 < 24) by (split; [apply Z.div_pos; lia|apply Z.div_lt_upper_bound; lia]).
    assert (D2 : 0 <= Z.abs k mod 60 < 60) by (apply Z.mod_pos_bound; lia). pose proof (Z.div_mod (Z.abs k) 60 ltac:(lia)) as DM.
    rewrite !pad_two by lia. rewrite <- (app_empty (two (Z.abs k mod 60))).
    destruct (Z.ltb_spec k 0); cbv iota; cbn [append String.eqb]; [change (Ascii.eqb "-" "Z") with false | change (Ascii.eqb "+" "Z") with false]; cbv iota;
    [change (Ascii.eqb "-" "+" || Ascii.eqb "-" "-") with true | change (Ascii.eqb "+" "+" || Ascii.eqb "+" "-") with true]; cbv iota;
    rewrite num2_two by lia; rewrite lit_self; rewrite num2_two by lia; rewrite !(proj2 (between_iff _ _ _)) by lia; cbn [andb];
    [change (Ascii.eqb "-" "-") with true | change (Ascii.eqb "+" "-") with false]; cbv iota; f_equal; lia.
  Qed.

  (** ** Reading the texts of times *)
  Lemma string_time_date t : t mod ns_per_day = 0 -> 0 <= year (day_no t) <= 9999 -> string_time (date_text (day_no t)) = Ok (t, t).
  Proof.
    intros M Y. unfold ConvertModel.string_time. pose proof (civil_is_valid (day_no t)) as V. pose proof (c100_date_text_reads_back _ Y) as R. rewrite date_text_ymd in * by auto. rewrite <- (app_empty (ymd _ _ _)) at 1.
    rewrite is_date_ymd by auto. cbn [is_end]. rewrite R. cbn [option_map utc].
    assert (E : day_no t * ns_per_day = t) by (unfold day_no in *; rewrite (Z.div_mod t ns_per_day) at 2 by discriminate; lia). now rewrite E.
  Qed.
  Lemma zoned_datetime t : ordinary t -> zoned zone_offset (lit "T") (datetime_text t) = Some (t, t).
  Proof.
    intros (M & Y). destruct (time_of_fields t) as (V & N & K & _). unfold zoned, datetime_text.
    rewrite date_text_ymd by auto. rewrite read_ymd_of by (auto using civil_is_valid). cbn [append]. rewrite lit_self.
    rewrite clock_text_hms, read_hms_of by auto. cbv iota zeta.
    assert (E : (days_of (year (day_no t)) (month (day_no t)) (day (day_no t)) * 86400 + (hour t * 3600 + minute t * 60 + second t)) * ns_per_sec + nanosecond t / 1000 * 1000 = t).
    { rewrite days_of_civil, <- K, <- to_micros_fields. unfold to_micros. pose proof (Z.div_mod t 1000). lia. }
    now rewrite E.
  Qed.
  Lemma string_time_datetime t : ordinary t -> string_time (datetime_text t) = Ok (t, t).
  Proof.
    intros O. pose proof (zoned_datetime t O) as Zn. destruct O as (M & Y). unfold ConvertModel.string_time, parse_timestamp. rewrite Zn. rewrite parse_datetime_text by auto.
    assert (E : to_micros t = t) by (unfold to_micros; pose proof (Z.div_mod t 1000); lia). rewrite E. cbn [utc].
    unfold datetime_text. rewrite date_text_ymd by auto. rewrite is_date_ymd, is_time_ymd by (auto using civil_is_valid). cbn [append is_end]. now destruct (is_datetime _).
  Qed.
  Lemma string_time_time t : string_time (clock_text t) = utc (parse_time (clock_text t)).
  Proof.
    destruct (time_of_fields t) as (V & _). unfold ConvertModel.string_time. rewrite clock_text_hms, is_date_hms, is_datetime_hms, is_time_hms by auto. reflexivity.
  Qed.
  Lemma string_time_rfc3339 t : whole_minutes (offset t) -> 0 <= year (day_no (local offset t)) <= 9999 ->
    string_time (rfc3339 t) = Ok (t, local offset t).
  Proof.
    intros W Y. unfold ConvertModel.rfc3339. cbv zeta. set (w := local offset t) in *. destruct (time_of_fields w) as ((Vh & Vm & Vs) & N & K & E).
    rewrite !pad_two by lia. rewrite date_text_ymd by auto.
    assert (T : two (hour w) ++ ":" ++ two (minute w) ++ ":" ++ two (second w) ++ nano_text (nanosecond w) ++ zone_text (offset t) =
                hms (hour w) (minute w) (second w) ++ (nano_text (nanosecond w) ++ zone_text (offset t))) by (unfold hms; now rewrite <- !string_app_assoc).
    rewrite T. pose proof (civil_is_valid (day_no w)) as Vd. assert (Vc : valid_clock (hour w) (minute w) (second w)) by (split; [|split]; assumption).
    destruct (zone_text_stops (offset t)) as (St & Ne).
    unfold ConvertModel.string_time. rewrite is_date_ymd, is_datetime_of, is_time_ymd by auto. cbn [append is_end].
    assert (En : is_end (nano_text (nanosecond w) ++ zone_text (offset t)) = false).
    { unfold nano_text. destruct (strip_zeros _); [|reflexivity]. cbn [append]. now destruct (zone_text (offset t)). }
    rewrite En. unfold parse_timestamp, zoned. rewrite read_ymd_of by auto. rewrite lit_self.
    assert (R : read_hms (hms (hour w) (minute w) (second w) ++ nano_text (nanosecond w) ++ zone_text (offset t)) = Some (clock w, nanosecond w, zone_text (offset t))).
    { unfold read_hms, hms. rewrite <- !string_app_assoc. rewrite num12_two by lia. cbn [append]. rewrite lit_self, num2_two by lia. rewrite lit_self, num2_two by lia.
      rewrite frac_nano by auto. rewrite !(proj2 (between_iff _ _ _)) by lia. cbn [andb]. rewrite K. reflexivity. }
    rewrite R. rewrite days_of_civil, <- E.
    destruct (zone_text (offset t)) eqn:Zt; [contradiction|]. rewrite <- Zt. rewrite read_zone_text by auto.
    unfold w, local. do 2 f_equal. lia.
  Qed.

  Lemma string_time_hms h mi sc f ns : valid_clock h mi sc -> names_fraction f ns ->
    string_time (hms h mi sc ++ f) = Ok ((days_of 0 1 1 * 86400 + (h * 3600 + mi * 60 + sc)) * ns_per_sec + ns, (days_of 0 1 1 * 86400 + (h * 3600 + mi * 60 + sc)) * ns_per_sec + ns).
  Proof.
    intros V F. unfold ConvertModel.string_time. rewrite is_date_hms, is_datetime_hms, is_time_hms by auto.
    assert (P : parse_time (hms h mi sc ++ f) = Some ((days_of 0 1 1 * 86400 + (h * 3600 + mi * 60 + sc)) * ns_per_sec + ns)).
    { apply parse_time_iff. exists (h * 3600 + mi * 60 + sc), ns. split; [|reflexivity]. destruct V as (H & M & C). exists h, mi, sc, (two h), f. repeat (split; [lia || assumption || (now left)|]).
      split; [|reflexivity]. unfold hms. now rewrite <- !string_app_assoc. }
    rewrite P. reflexivity.
  Qed.
  Lemma zoned_of_both sep s t : parse_both sep s = Some t -> zoned zone_offset sep s = Some (t, t).
  Proof.
    unfold parse_both, zoned. destruct (read_ymd s) as [[n r]|]; [|discriminate]. destruct (sep r) as [r'|]; [|discriminate]. destruct (read_hms r') as [[[c ns] r'']|]; [|discriminate].
    destruct r''; [|discriminate]. cbn [is_end]. intros E. assert (T : (n * 86400 + c) * ns_per_sec + ns = t) by congruence. now rewrite T.
  Qed.
  Lemma string_time_names s n c ns : names_datetime s n c ns ->
    string_time s = Ok ((n * 86400 + c) * ns_per_sec + ns, (n * 86400 + c) * ns_per_sec + ns).
  Proof.
    intros N. set (t := (n * 86400 + c) * ns_per_sec + ns).
    assert (P : parse_datetime s = Some t) by (apply parse_datetime_iff; exists n, c, ns; split; [exact N|reflexivity]).
    assert (Pt : parse_timestamp zone_offset s = Some (t, t)).
    { unfold parse_timestamp. unfold parse_datetime in P. destruct (parse_both (lit "T") s) as [u|] eqn:E1.
      - rewrite (zoned_of_both _ _ _ E1). congruence.
      - assert (Z1 : zoned zone_offset (lit "T") s = None).
        { unfold parse_both in P. unfold zoned. destruct (read_ymd s) as [[k r]|]; [|reflexivity]. destruct (lit "T" r) as [r'|] eqn:L; [|reflexivity]. apply lit_inv in L. subst r. discriminate. }
        rewrite Z1. now rewrite (zoned_of_both _ _ _ P). }
    destruct N as (a & b & sep & A & B & Sp & ->). unfold ConvertModel.string_time. rewrite P, Pt. cbn [utc].
    assert (D : is_date (a ++ sep ++ b) = false) by (destruct Sp as [->|(k & ->)]; cbn [blanks append]; now apply is_date_longer with n).
    assert (Tm : is_time (a ++ sep ++ b) = false) by (destruct A as (y & m & d & Y & _ & -> & _); now apply is_time_ymd).
    rewrite D, Tm. now destruct (is_datetime _).
  Qed.

  (** ** Numbers *)
  Lemma plain_numeric q : nine q -> exists p, plain_decimal (string_of (numeric_text q)) = Some p /\ (p == q)%Q.
  Proof. clear.
    intros N. pose proof (JsonProofs.billionths_nine q N) as Bn. unfold numeric_text. set (b := Z.abs (billionths q)) in *. set (f := strip_zeros _).
    assert (Bm : 0 <= b mod 1000000000 < 1000000000) by (apply Z.mod_pos_bound; lia).
    assert (Fd : all_digits f = true) by (apply strip_digits, pad_digits; lia).
    destruct (strip_positional _ _ (positional_pad 9 (b mod 1000000000) ltac:(lia))) as (w & k & W & L & V). fold f in W, L.
    rewrite (pad_length 9) in L by (cbn; lia).
    set (n := b / 1000000000) in *. assert (Nn : 0 <= n) by (subst n b; apply Z.div_pos; lia).
    set (body := udec n ++ match f with EmptyString => EmptyString | _ => String "." f end).
    assert (Un : exists p, unsigned_decimal body = Some p /\ (p == b # 1000000000)%Q).
    { unfold unsigned_decimal, body. rewrite span_stops; [|now apply udec_all_digits|destruct f; [exact I|reflexivity]].
      pose proof (udec_nonempty n) as Ue. pose proof (read_udec n Nn) as Ur. unfold read_nat in Ur.
      destruct (udec n) as [|u0 us] eqn:U; [contradiction|]. rewrite <- U in *. destruct f as [|f0 fs] eqn:Ef.
      - rewrite U. rewrite <- U. rewrite U in Ur. rewrite <- U in Ur. cbn [DecFacts.positional String.length] in *. assert (w = 0) by congruence. subst w.
        assert (k = 9)%nat by lia. subst k. rewrite Ur. cbn [option_map]. eexists. split; [reflexivity|]. unfold Qeq, inject_Z. cbn [Qnum Qden].
        pose proof (Z.div_mod b 1000000000 ltac:(lia)). fold n in H. lia.
      - rewrite <- Ef in *. rewrite U. rewrite <- U. change (Ascii.eqb "." ".") with true. cbv iota. rewrite Ef. rewrite <- Ef.
        assert (Rd : read_digits (udec n ++ f) 0 = Some (n * 10 ^ Z.of_nat (String.length f) + w)).
        { rewrite read_positional. pose proof (read_positional (udec n) 0) as Rp. destruct (DecFacts.positional (udec n)) as [x|] eqn:Px; cbn [option_map] in Rp.
          - assert (x = n). { rewrite U in Ur. rewrite <- U in Ur. assert (Some (0 * 10 ^ Z.of_nat (String.length (udec n)) + x) = Some n) by congruence. assert (0 * 10 ^ Z.of_nat (String.length (udec n)) + x = n) by congruence. lia. } subst x.
            rewrite (positional_app _ _ _ _ Px W). cbn [option_map]. f_equal; lia.
          - rewrite U in Ur. rewrite <- U in Ur. congruence. }
        rewrite Rd. eexists. split; [reflexivity|]. unfold Qeq. cbn [Qnum Qden]. rewrite Z2Pos.id by (apply Z.pow_pos_nonneg; lia).
        assert (P10 : 10 ^ Z.of_nat (String.length f) * 10 ^ Z.of_nat k = 1000000000) by (rewrite <- Z.pow_add_r by lia; replace (Z.of_nat (String.length f) + Z.of_nat k) with 9 by lia; reflexivity).
        pose proof (Z.div_mod b 1000000000 ltac:(lia)) as DM. fold n in DM. rewrite DM, V. change (Z.pos 1000000000) with 1000000000. rewrite <- P10. ring. }
    destruct Un as (p & Up & Pe).
    assert (St : string_of ((if Qnum q <? 0 then ["-"%char] else []) ++ text_of (udec n) ++ match f with EmptyString => [] | _ => "."%char :: text_of f end)%list = (if Qnum q <? 0 then String "-" body else body)).
    { unfold string_of, body, text_of. assert (Sa : forall a b : string, string_of_list_ascii (list_ascii_of_string a ++ list_ascii_of_string b)%list = a ++ b) by (intros x y; rewrite <- list_ascii_app; apply string_of_list_ascii_of_string).
      assert (Fe : match f with EmptyString => [] | _ => "."%char :: list_ascii_of_string f end = list_ascii_of_string (match f with EmptyString => EmptyString | _ => String "." f end)) by (destruct f; reflexivity).
      rewrite Fe. destruct (Qnum q <? 0); cbn [app string_of_list_ascii]; [f_equal|]; apply Sa. }
    rewrite St.
    assert (Sg : (billionths q # 1000000000 == q)%Q) by (transitivity (Qred q); [rewrite <- Bn; symmetry; apply Qred_correct|apply Qred_correct]).
    assert (Sb : billionths q = if Qnum q <? 0 then - b else b).
    { subst b. unfold billionths. assert (D : 0 <= (2 * Z.abs (Qnum q * 1000000000) + Z.pos (Qden q)) / (2 * Z.pos (Qden q))) by (apply Z.div_pos; lia).
      set (d := (_ / _)) in *. destruct (Z.ltb_spec (Qnum q) 0).
      - rewrite (Z.sgn_neg (Qnum q * 1000000000)) by lia. lia.
      - destruct (Z.eq_dec (Qnum q) 0) as [Z0|Z0]; [rewrite Z0; cbn; reflexivity|]. rewrite (Z.sgn_pos (Qnum q * 1000000000)) by lia. lia. }
    destruct (Qnum q <? 0).
    - cbn [plain_decimal]. change (Ascii.eqb "-" "-") with true. cbv iota. rewrite Up. exists (- p)%Q. split; [reflexivity|]. rewrite Pe, <- Sg, Sb. reflexivity.
    - exists p. split; [|rewrite Pe, <- Sg, Sb; reflexivity].
      assert (Hd : exists c r, body = String c r /\ is_digit c = true).
      { unfold body. pose proof (udec_all_digits n Nn) as Ud. pose proof (udec_nonempty n). destruct (udec n) as [|c r]; [contradiction|]. cbn [all_digits] in Ud. apply andb_true_iff in Ud. cbn [append]. exists c. eexists. split; [reflexivity|tauto]. }
      destruct Hd as (c & r & Bd & Dc). unfold plain_decimal. rewrite Bd. destruct (digit_not_sign c Dc) as (-> & ->). now rewrite <- Bd.
  Qed.

  (** ** STRING and back *)
  Definition there_and_back (safe : bool) (t : ty) (v : val) : Prop :=
    exists s w, cast_seen safe t TStr (Some v) = Ok (Some (VStr s)) /\ cast_seen safe TStr t (Some (VStr s)) = Ok (Some w) /\ same v w.
  Lemma back_from safe t v s u : asc s ->
    sql_cast safe t TStr (Some v) = Ok (Some (VStr s)) -> sql_cast safe TStr t (Some (VStr s)) = Ok (Some u) -> storable false u ->
    (forall w, same u w -> same v w) -> there_and_back safe t v.
  Proof.
    intros A E F S R. destruct (stored u S) as (w & W & Sm). exists s, w. unfold ConvertModel.cast_seen. rewrite E, F. cbn [bind]. rewrite W. split; [now apply asc_round|]. split; [reflexivity|]. now apply R.
  Qed.
  Lemma texted_back safe t v : texted t v -> there_and_back safe t v.
  Proof.
    intros T. destruct T as [z Z|b|q N|s W|t M Y|t M Y|t M].
    - apply back_from with (s := dec z) (u := VInt z); [apply dec_ascii|reflexivity| |exact I|auto].
      unfold ConvertModel.sql_cast, ConvertModel.cast_to, cast_opt, cast_value. cbn [bind]. unfold ConvertModel.convert, to_int64, some.
      pose proof (c94_round_trip_partial z Z) as R. unfold cast_int64_string in R. rewrite R. reflexivity.
    - apply back_from with (s := cast_bool_string b) (u := VBool b); [destruct b; repeat constructor|reflexivity| |exact I|auto].
      destruct b; reflexivity.
    - destruct (plain_numeric q N) as (p & P & E). apply back_from with (s := string_of (numeric_text q)) (u := VNum p); [apply asc_numeric|reflexivity| |exact I|].
      + unfold ConvertModel.sql_cast, ConvertModel.cast_to, cast_opt, cast_value. cbn [bind]. unfold ConvertModel.convert, to_rat, some, string_rat. now rewrite P.
      + intros w S. destruct w; cbn [same] in *; try contradiction. now rewrite <- E.
    - exists s, (VStr s). unfold ConvertModel.cast_seen, ConvertModel.sql_cast, ConvertModel.cast_to, cast_opt, cast_value. cbn [bind]. rewrite !text_round by exact W. repeat split; reflexivity.
    - apply back_from with (s := date_text (day_no t)) (u := VDate t); [now apply asc_date|reflexivity| |split; assumption|auto].
      unfold ConvertModel.sql_cast, ConvertModel.cast_to, cast_opt, cast_value. cbn [bind]. unfold ConvertModel.convert, to_time, some. now rewrite string_time_date.
    - apply back_from with (s := datetime_text t) (u := VDatetime t); [now apply asc_datetime|reflexivity| |split; assumption|auto].
      unfold ConvertModel.sql_cast, ConvertModel.cast_to, cast_opt, cast_value. cbn [bind]. unfold ConvertModel.convert, to_time, some. now rewrite string_time_datetime by (split; assumption).
    - destruct (c100_time_text_reads_back t M) as (u & P & C & N & _).
      apply back_from with (s := clock_text t) (u := VTime u); [apply asc_clock|reflexivity| | |].
      + unfold ConvertModel.sql_cast, ConvertModel.cast_to, cast_opt, cast_value. cbn [bind]. unfold ConvertModel.convert, to_time, some. rewrite string_time_time, P. reflexivity.
      + cbn [storable]. rewrite <- M, (nano_mod u), (nano_mod t). now rewrite N.
      + intros w S. destruct w; cbn [same] in *; try contradiction. destruct S. split; congruence.
  Qed.
  Lemma timestamp_back safe t : t mod 1000 = 0 -> in64 (t / 1000) -> whole_minutes (offset t) -> 0 <= year (day_no (local offset t)) <= 9999 ->
    there_and_back safe TTimestamp (VTimestamp t).
  Proof.
    intros M I W Y. apply back_from with (s := rfc3339 t) (u := VTimestamp t); [now apply asc_rfc3339|reflexivity| | |auto].
    - unfold ConvertModel.sql_cast, ConvertModel.cast_to, cast_opt, cast_value. cbn [bind]. unfold ConvertModel.convert, to_time, some. now rewrite string_time_rfc3339.
    - split; [assumption|]. exact I.
  Qed.
  (** ** Arrays and structs *)
  Lemma plain_cast a b o : sql_cast false a b o = bind (cast_to a o) (cast_to b).
  Proof. unfold ConvertModel.sql_cast. now destruct (bind _ _). Qed.
  Notation cast_elems := (cast_elems convert (fun l => doc_text (VStruct l))).
  Lemma elems_both a b l : bind (bind (cast_elems a l) (fun cs => Ok (Some (VArray cs)))) (cast_to (TArray b)) =
    bind (bind (cast_elems a l) (cast_elems b)) (fun cs => Ok (Some (VArray cs))).
  Proof. destruct (cast_elems a l) as [ms| |]; cbn [bind]; [|reflexivity|reflexivity]. unfold ConvertModel.cast_to, cast_opt. apply cast_array. Qed.
  Lemma both_elems a b l : forall cs, bind (cast_elems a l) (cast_elems b) = Ok cs <-> Forall2 (fun o c => sql_cast false a b o = Ok c) l cs.
  Proof.
    induction l as [|o l IH]; intros cs.
    - cbn. split; [intros E; assert (cs = []) by congruence; subst; constructor|]. intros F. now inversion F.
    - cbn [RowsProofs.cast_elems]. fold (cast_to a o). split.
      + intros E. destruct (cast_to a o) as [m| |] eqn:A; cbn [bind] in E; try discriminate. destruct (cast_elems a l) as [ms| |]; cbn [bind] in E; try discriminate.
        cbn [RowsProofs.cast_elems] in E. fold (cast_to b m) in E. destruct (cast_to b m) as [c| |] eqn:B; cbn [bind] in E; try discriminate. destruct (cast_elems b ms) as [cs'| |] eqn:C; cbn [bind] in E; try discriminate.
        assert (cs = c :: cs') by congruence. subst cs. constructor; [rewrite plain_cast, A; exact B|]. apply IH. exact C.
      + intros F. inversion F as [|? c ? cs' E F' E1 E2]; subst. rewrite plain_cast in E. apply IH in F'. destruct (cast_to a o) as [m| |]; cbn [bind] in *; try discriminate.
        destruct (cast_elems a l) as [ms| |]; cbn [bind] in *; try discriminate. cbn [RowsProofs.cast_elems]. fold (cast_to b m). rewrite E, F'. reflexivity.
  Qed.
  Lemma both_err a b l : bind (cast_elems a l) (cast_elems b) = Err -> Exists (fun o => sql_cast false a b o = Err) l.
  Proof.
    induction l as [|o l IH]; [discriminate|]. cbn [RowsProofs.cast_elems]. fold (cast_to a o). intros E.
    destruct (cast_to a o) as [m| |] eqn:A; cbn [bind] in E; [|left; rewrite plain_cast, A; reflexivity|discriminate].
    destruct (cast_elems a l) as [ms| |]; cbn [bind] in E; [|right; now apply IH|discriminate].
    cbn [RowsProofs.cast_elems] in E. fold (cast_to b m) in E. destruct (cast_to b m) as [c| |] eqn:B; cbn [bind] in E; [|left; rewrite plain_cast, A; exact B|discriminate].
    right. apply IH. cbn [bind]. destruct (cast_elems b ms); [discriminate|reflexivity|discriminate].
  Qed.
  Lemma both_structs (l : list (string * (ty * ty * option val * option val))) : NoDup (map fst l) -> Exists (fun r => fst r <> "") l ->
    Forall (fun '((_, (a, b, o, c)) : string * (ty * ty * option val * option val)) => sql_cast false a b o = Ok c) l ->
    bind (cast_to (TStruct (map (fun '((k, (a, _, _, _)) : string * (ty * ty * option val * option val)) => (k, a)) l)) (Some (VStruct (map (fun '((k, (_, _, o, _)) : string * (ty * ty * option val * option val)) => (k, o)) l))))
      (cast_to (TStruct (map (fun '((k, (_, b, _, _)) : string * (ty * ty * option val * option val)) => (k, b)) l))) =
    Ok (Some (VStruct (map (fun '((k, (_, _, _, c)) : string * (ty * ty * option val * option val)) => (k, c)) l))).
  Proof.
    intros N X F. set (mid := fun '((k, (a, _, o, _)) : string * (ty * ty * option val * option val)) => (k, match cast_to a o with Ok m => m | _ => None end)).
    set (fo := fun '((k, (_, _, o, _)) : string * (ty * ty * option val * option val)) => (k, o)).
    assert (K : forall (B : Type) (f : string * (ty * ty * option val * option val) -> string * B), (forall r, fst (f r) = fst r) -> map fst (map f l) = map fst l).
    { intros B f H. rewrite map_map. apply map_ext. exact H. }
    assert (An : forall (B : Type) (f : string * (ty * ty * option val * option val) -> string * B), (forall r, fst (f r) = fst r) -> anonymous (map f l) = false).
    { intros B f H. apply anonymous_false. apply Exists_exists in X. destruct X as (r & I & Nr). apply Exists_exists. exists (f r). split; [now apply in_map|now rewrite H]. }
    assert (St : forall (ft : string * (ty * ty * option val * option val) -> string * ty) (fi fc : string * (ty * ty * option val * option val) -> string * option val),
      (forall r, fst (ft r) = fst r) -> (forall r, fst (fi r) = fst r) -> (forall r, fst (fc r) = fst r) ->
      Forall (fun r => cast_to (snd (ft r)) (snd (fi r)) = Ok (snd (fc r))) l ->
      cast_to (TStruct (map ft l)) (Some (VStruct (map fi l))) = Ok (Some (VStruct (map fc l)))).
    { intros ft fi fc Ht Hi Hc G. unfold ConvertModel.cast_to, cast_opt. rewrite cast_struct, (An _ fi Hi). rewrite (cast_fields_each _ _ (map ft l) (map fi l) (map fc l)); [reflexivity|now rewrite (K _ ft Ht)|].
      assert (G' : Forall (fun r => find_last (fst r) (map fi l) = Some (snd (fi r))) l).
      { apply Forall_forall. intros r I. apply find_last_nodup; [now rewrite (K _ fi Hi)|]. rewrite <- (Hi r), <- surjective_pairing. now apply in_map. }
      clear -G G' Ht Hc. revert G'. generalize (map fi l) as m. intros m G'. induction l as [|r l IH]; cbn [map]; constructor.
      - split; [congruence|]. exists (snd (fi r)). rewrite Ht. split; [now inversion G'|]. now inversion G.
      - apply IH; [now inversion G|now inversion G']. }
    rewrite (St _ fo mid); cycle 1.
    1-3: intros [k [[[? ?] ?] ?]]; reflexivity.
    { apply Forall_forall. intros [k [[[a b] o] c]] I. rewrite Forall_forall in F. specialize (F _ I). cbn in F. rewrite plain_cast in F. cbn [fo mid snd]. destruct (cast_to a o); [reflexivity|discriminate|discriminate]. }
    cbn [bind]. apply St.
    1-3: intros [k [[[? ?] ?] ?]]; reflexivity.
    apply Forall_forall. intros [k [[[a b] o] c]] I. rewrite Forall_forall in F. specialize (F _ I). cbn in F. rewrite plain_cast in F. cbn [mid snd]. destruct (cast_to a o); [exact F|discriminate|discriminate].
  Qed.

  (** ** One digit *)
  Lemma num2_one m c r : digit_val c = None -> num2 (String (digit m) (String c r)) = None.
  Proof. intros H. unfold num2. rewrite H. now destruct (digit_val (digit m)). Qed.
  Lemma one_digit_month y m d : 0 <= y <= 9999 -> 0 <= m <= 9 -> string_time (four y ++ "-" ++ String (digit m) ("-" ++ two d)) = Err.
  Proof.
    intros Y M. set (s := four y ++ _).
    assert (R : read_ymd s = None).
    { unfold read_ymd, s. rewrite num4_four by lia. cbn [append]. rewrite lit_self. now rewrite num2_one. }
    assert (Sh : forall p, shape ("dddd-dd" ++ p) s = None).
    { intros p. unfold s. change ("dddd-dd" ++ p) with ("dddd" ++ "-dd" ++ p). rewrite shape_four by lia.
      change (shape ("-dd" ++ p) ("-" ++ String (digit m) ("-" ++ two d))) with (shape (String "d" (String "d" p)) (String (digit m) ("-" ++ two d))). now rewrite shape_d by lia. }
    unfold ConvertModel.string_time, parse_timestamp, zoned, parse_date. rewrite R.
    assert (D : is_date s = false) by (unfold is_date, whole; change "dddd-dd-dd" with ("dddd-dd" ++ "-dd"); now rewrite Sh).
    assert (Dt : is_datetime s = false) by (unfold is_datetime, whole; change "dddd-dd-ddsdd:dd:dd" with ("dddd-dd" ++ "-ddsdd:dd:dd"); now rewrite Sh).
    assert (T : is_time s = false).
    { unfold is_time, s, four. destruct (hundred y ltac:(lia)) as (A & B & _). rewrite <- !string_app_assoc. change "dd:dd:dd" with (String "d" (String "d" ":dd:dd")). rewrite shape_two by lia. destruct (ten _ B) as (C & _). unfold two at 1. cbn [append shape].
      change (Ascii.eqb ":" "d") with false. change (Ascii.eqb ":" "s") with false. cbv iota.
      destruct (Ascii.eqb_spec ":" (digit (y mod 100 / 10))) as [E|E]; [|reflexivity]. exfalso. pose proof (digit_val_digit _ C) as Dv. rewrite <- E in Dv. discriminate. }
    rewrite D, Dt, T. reflexivity.
  Qed.
  Lemma one_digit_hour h r : 0 <= h <= 9 -> string_time (String (digit h) (":" ++ r)) = Err.
  Proof.
    intros H. set (s := String _ _).
    assert (R : read_ymd s = None) by (unfold read_ymd, num4, s; cbn [append]; now rewrite num2_one).
    assert (Sh : forall p, shape (String "d" (String "d" p)) s = None) by (intros p; unfold s; now rewrite shape_d by lia).
    unfold ConvertModel.string_time, parse_timestamp, zoned, parse_date. rewrite R.
    assert (D : is_date s = false) by (unfold is_date, whole; now rewrite Sh). assert (Dt : is_datetime s = false) by (unfold is_datetime, whole; now rewrite Sh). assert (T : is_time s = false) by (unfold is_time; now rewrite Sh).
    rewrite D, Dt, T. reflexivity.
  Qed.
End Convert.
