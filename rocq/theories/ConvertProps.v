(** C189 to C200: CAST and SAFE_CAST. *)
From Coq Require Import Ascii String List ZArith QArith Lia Bool SpecFloat.
From Verif Require Import GoBase GoBaseFacts CalendarModel CalendarFacts InstantModel InstantFacts DecModel DecFacts ValueModel CastModel CastSpec CastProofs CastProps Utf8Model Utf8Facts EncModel ClockTextModel ClockTextSpec ClockTextProofs ClockTextProps CodecModel CodecSpec CodecProofs CodecProps TimeTextModel JsonSpec JsonModel JsonDocSpec RowsModel RowsSpec RowsProofs ConvertModel ConvertSpec ConvertProofs.
Import ListNotations.
Local Open Scope string_scope.
Open Scope Z_scope.

(** In all of them the machine's time zone, the zone notations other than Z and +09:00, and what
    ConvertModel leaves open are arbitrary. *)
Section Convert.
Variable offset : Z -> Z.
Variable zone_offset : string -> option Z.
Variable other_rat : string -> Q.
Variable float_text : float -> string.
Variable float_read : string -> option float.
Variable rat_float : Q -> float.
Variable int_read : string -> option Z.
Variable doc_text : val -> string.
Variable json_text : val -> string.
Variable float_time : float -> Z.
Notation sql_cast := (sql_cast offset zone_offset other_rat float_text float_read rat_float int_read doc_text json_text float_time).
Notation cast_seen := (cast_seen offset zone_offset other_rat float_text float_read rat_float int_read doc_text json_text float_time).
Ltac open_cast := unfold ConvertModel.cast_seen, ConvertModel.sql_cast, ConvertModel.cast_to, cast_opt, cast_value; cbn [bind]; unfold ConvertModel.convert, to_time, some; cbn [bind fst snd].

(** C189: CAST to STRING and back gives the value one started with. *)
Theorem c189_text_and_back : forall safe t v, texted t v ->
  exists s w, cast_seen safe t TStr (Some v) = Ok (Some (VStr s)) /\ cast_seen safe TStr t (Some (VStr s)) = Ok (Some w) /\ same v w.
Proof. intros safe t v T. exact (texted_back offset zone_offset other_rat float_text float_read rat_float int_read doc_text json_text float_time safe t v T). Qed.
(** So does a TIMESTAMP, in a zone whose offset is a whole number of minutes. *)
Theorem c189_timestamp_and_back : forall safe t, t mod 1000 = 0 -> in64 (t / 1000) -> whole_minutes (offset t) -> 0 <= year (day_no (t + offset t * ns_per_sec)) <= 9999 ->
  exists s w, cast_seen safe TTimestamp TStr (Some (VTimestamp t)) = Ok (Some (VStr s)) /\
    cast_seen safe TStr TTimestamp (Some (VStr s)) = Ok (Some w) /\ same (VTimestamp t) w.
Proof. intros. now apply timestamp_back. Qed.

Example c189_example : texted TNum (VNum (-5 # 4)) /\ cast_seen false TNum TStr (Some (VNum (-5 # 4))) = Ok (Some (VStr "-1.25")) /\
  texted TDatetime (VDatetime 1709210096250000000) /\ cast_seen false TDatetime TStr (Some (VDatetime 1709210096250000000)) = Ok (Some (VStr "2024-02-29T12:34:56.25")) /\
  cast_seen false TStr TDatetime (Some (VStr "2024-02-29T12:34:56.25")) = Ok (Some (VDatetime 1709210096250000000)).
Proof.
  split; [constructor; now exists (-1250000000)|]. split; [reflexivity|]. split; [constructor; [reflexivity|split; cbv; discriminate]|]. split; reflexivity.
Qed.

(** C190: casts between the types without a zone, and to TIMESTAMP, which is in UTC. *)
Theorem c190_dates_and_times : forall safe t, ordinary t ->
  (t mod ns_per_day = 0 ->
   cast_seen safe TDate TDatetime (Some (VDate t)) = Ok (Some (VDatetime t)) /\
   cast_seen safe TDate TTimestamp (Some (VDate t)) = Ok (Some (VTimestamp t))) /\
  cast_seen safe TDatetime TDate (Some (VDatetime t)) = Ok (Some (VDate (midnight t))) /\
  cast_seen safe TDatetime TTimestamp (Some (VDatetime t)) = Ok (Some (VTimestamp t)) /\
  exists u, cast_seen safe TDatetime TTime (Some (VDatetime t)) = Ok (Some (VTime u)) /\ clock u = clock t /\ nanosecond u = nanosecond t.
Proof.
  intros safe t (M & Y).
  assert (Dt : round_trip (Some (VDatetime t)) = Ok (Some (VDatetime t))).
  { destruct (stored (VDatetime t) (conj M Y)) as (w & W & S). destruct w; cbn [same] in S; try contradiction. now subst. }
  assert (Ts : round_trip (Some (VTimestamp t)) = Ok (Some (VTimestamp t))).
  { destruct (stored (VTimestamp t) (conj M (micros_fit t Y))) as (w & W & S). destruct w; cbn [same] in S; try contradiction. now subst. }
  split; [intros D; split; open_cast; [exact Dt|exact Ts]|]. split; [|split; [open_cast; exact Ts|]].
  - open_cast. unfold round_trip, encode_opt. cbn [encode_value bind through_engine decode_value decode_text]. rewrite c100_date_text_reads_back by exact Y. cbn [lift]. do 3 f_equal.
    unfold midnight, day_no. pose proof (Z.div_mod t ns_per_day ltac:(discriminate)). lia.
  - destruct (stored (VTime t) M) as (w & W & S). destruct w as [| | | | | | | | | | |u| |]; cbn [same] in S; try contradiction. destruct S as (C & N). exists u. open_cast. rewrite W. repeat split; congruence.
Qed.
Example c190_example : let t := 1709210096 * ns_per_sec in ordinary t /\ datetime_text t = "2024-02-29T12:34:56" /\
  cast_seen false TDatetime TDate (Some (VDatetime t)) = Ok (Some (VDate (19782 * ns_per_day))) /\ date_text 19782 = "2024-02-29" /\ ordinary (19782 * ns_per_day) /\ 19782 * ns_per_day mod ns_per_day = 0.
Proof. cbv zeta. unfold ordinary. repeat split; try reflexivity; cbv; discriminate. Qed.

(** C191: what CAST makes of a TIMESTAMP is its wall clock in the zone of the machine. *)
Theorem c191_local_clock_partial : forall safe t, ordinary (t + offset t * ns_per_sec) ->
  cast_seen safe TTimestamp TDatetime (Some (VTimestamp t)) = Ok (Some (VDatetime (t + offset t * ns_per_sec))) /\
  cast_seen safe TTimestamp TDate (Some (VTimestamp t)) = Ok (Some (VDate (midnight (t + offset t * ns_per_sec)))) /\
  exists u, cast_seen safe TTimestamp TTime (Some (VTimestamp t)) = Ok (Some (VTime u)) /\
    clock u = clock (t + offset t * ns_per_sec) /\ nanosecond u = nanosecond (t + offset t * ns_per_sec).
Proof.
  intros safe t O. destruct (c190_dates_and_times safe _ O) as (_ & D & _ & u & T & C & N). fold (local offset t) in *.
  revert D T. open_cast. intros D T. split; [|split; [exact D|exists u; auto]].
  destruct O as (M & Y). destruct (stored (VDatetime (local offset t)) (conj M Y)) as (w & W & S). destruct w; cbn [same] in S; try contradiction. rewrite W. now subst.
Qed.
(** So it is not the one in UTC unless the zone agrees with UTC. *)
Theorem c191_utc_refuted : forall safe t, ordinary (t + offset t * ns_per_sec) -> offset t <> 0 ->
  cast_seen safe TTimestamp TDatetime (Some (VTimestamp t)) <> Ok (Some (VDatetime t)).
Proof.
  intros safe t O Nz. destruct (c191_local_clock_partial safe t O) as (E & _). rewrite E. intros F.
  assert (t + offset t * ns_per_sec = t) by congruence. unfold ns_per_sec in *. lia.
Qed.

(** C192: a STRING that names a day is that DATE, one that names a time of day that TIME, one
    that names both that DATETIME. *)
Theorem c192_dates : forall safe s n, names_day s n ->
  cast_seen safe TStr TDate (Some (VStr s)) = Ok (Some (VDate (n * ns_per_day))).
Proof.
  intros safe s n (y & m & d & Y & V & -> & ->). open_cast. unfold string_time. rewrite <- (app_empty (ymd y m d)) at 1. rewrite is_date_ymd by auto. cbn [is_end].
  assert (P : parse_date (ymd y m d) = Some (days_of y m d)) by (apply parse_date_iff; exists y, m, d; auto). rewrite P. cbn [option_map utc bind snd].
  unfold round_trip, encode_opt. cbn [encode_value bind through_engine decode_value decode_text]. unfold day_no. rewrite Z.div_mul by discriminate.
  rewrite c100_date_text_reads_back; [reflexivity|]. now rewrite year_days_of.
Qed.
(** A TIME keeps microseconds. *)
Theorem c192_times : forall safe h mi sc f ns, valid_clock h mi sc -> names_fraction f ns ->
  exists u, cast_seen safe TStr TTime (Some (VStr (hms h mi sc ++ f))) = Ok (Some (VTime u)) /\
    clock u = h * 3600 + mi * 60 + sc /\ nanosecond u = ns / 1000 * 1000.
Proof.
  intros safe h mi sc f ns V F. pose proof (fraction_range f ns F) as R. open_cast. rewrite (string_time_hms zone_offset h mi sc f ns V F). cbn [bind snd].
  set (t := (days_of 0 1 1 * 86400 + (h * 3600 + mi * 60 + sc)) * ns_per_sec + ns).
  destruct (split_time (days_of 0 1 1) (h * 3600 + mi * 60 + sc) ns ltac:(destruct V as (? & ? & ?); lia) R) as (D & C & N). fold t in D, C, N.
  unfold round_trip, encode_opt. cbn [encode_value bind through_engine decode_value decode_text]. rewrite parse_time_text. cbn [lift]. eexists. split; [reflexivity|].
  rewrite C, N. apply split_time; [destruct V as (? & ? & ?); lia|]. pose proof (Z.div_mod ns 1000 ltac:(lia)). pose proof (Z.mod_pos_bound ns 1000 ltac:(lia)). unfold ns_per_sec in *. split; [apply Z.mul_nonneg_nonneg; [apply Z.div_pos|]|]; lia.
Qed.
Theorem c192_datetimes : forall safe s n c ns, names_datetime s n c ns ->
  cast_seen safe TStr TDatetime (Some (VStr s)) = Ok (Some (VDatetime ((n * 86400 + c) * ns_per_sec + ns / 1000 * 1000))).
Proof.
  intros safe s n c ns N. pose proof (datetime_range s n c ns N) as (Y & C & R). open_cast. rewrite (string_time_names zone_offset s n c ns N). cbn [bind snd].
  destruct (split_time n c ns C R) as (D & Ck & Ns). set (t := (n * 86400 + c) * ns_per_sec + ns) in *.
  unfold round_trip, encode_opt. cbn [encode_value bind through_engine decode_value decode_text]. rewrite parse_datetime_text by (rewrite D; exact Y). cbn [lift].
  rewrite to_micros_fields, D, Ck, Ns. reflexivity.
Qed.
Example c192_example : names_datetime "2024-02-29 9:34:56.25" 19782 34496 250000000 /\
  cast_seen false TStr TDatetime (Some (VStr "2024-02-29 9:34:56.25")) = Ok (Some (VDatetime (1709199296250000000))).
Proof.
  split; [|reflexivity]. exists "2024-02-29", "9:34:56.25", " ". split; [apply parse_date_iff; reflexivity|]. split; [apply read_hms_iff; reflexivity|]. split; [right; now exists O|reflexivity].
Qed.

(** C193: SAFE_CAST is NULL where CAST fails and agrees with CAST elsewhere. *)
Theorem c193_safe_cast : forall from to o,
  (sql_cast false from to o = Err -> sql_cast true from to o = Ok None) /\
  (forall r, sql_cast false from to o = Ok r -> sql_cast true from to o = Ok r) /\
  sql_cast true from to o <> Err.
Proof.
  intros from to o. unfold ConvertModel.sql_cast. destruct (bind _ _); repeat split; intros; congruence.
Qed.
Example c193_example : sql_cast false TStr TDate (Some (VStr "x")) = Err /\ sql_cast true TStr TDate (Some (VStr "x")) = Ok None /\
  sql_cast true TStr TInt (Some (VStr "12")) = Ok (Some (VInt 12)).
Proof. repeat split; reflexivity. Qed.

(** C194: casting an ARRAY casts its elements, one by one, and fails if one of them fails. *)
Theorem c194_arrays : forall a b l,
  (forall cs, sql_cast false (TArray a) (TArray b) (Some (VArray l)) = Ok (Some (VArray cs)) <-> Forall2 (fun o c => sql_cast false a b o = Ok c) l cs) /\
  (sql_cast false (TArray a) (TArray b) (Some (VArray l)) = Err -> Exists (fun o => sql_cast false a b o = Err) l) /\
  forall safe, sql_cast safe (TArray a) (TArray b) None = Ok None.
Proof.
  intros a b l. split; [|split]; [| |reflexivity].
  - intros cs. rewrite plain_cast. unfold ConvertModel.cast_to at 1. unfold cast_opt at 1. rewrite cast_array. rewrite elems_both. split.
    + intros H. apply both_elems. match type of H with bind ?x _ = _ => destruct x as [xs| |] end; cbn [bind] in H; [|discriminate|discriminate]. congruence.
    + intros H. apply both_elems in H. rewrite H. reflexivity.
  - rewrite plain_cast. unfold ConvertModel.cast_to at 1. unfold cast_opt at 1. rewrite cast_array, elems_both. intros H. apply both_err. match type of H with bind ?x _ = _ => destruct x as [xs| |] end; [discriminate|reflexivity|discriminate].
Qed.

Example c194_example : sql_cast false (TArray TStr) (TArray TInt) (Some (VArray [Some (VStr "7"); None])) = Ok (Some (VArray [Some (VInt 7); None])) /\
  sql_cast false (TArray TStr) (TArray TInt) (Some (VArray [Some (VStr "7"); Some (VStr "x")])) = Err.
Proof. split; reflexivity. Qed.

(** C195: fields with the same names, one of them not empty, all different, are cast one by one. *)
Theorem c195_structs_partial : forall safe (l : list (string * (ty * ty * option val * option val))), NoDup (map fst l) -> Exists (fun r => fst r <> "") l ->
  Forall (fun '((_, (a, b, o, c)) : string * (ty * ty * option val * option val)) => sql_cast false a b o = Ok c) l ->
  sql_cast safe (TStruct (map (fun '((k, (a, _, _, _)) : string * (ty * ty * option val * option val)) => (k, a)) l))
    (TStruct (map (fun '((k, (_, b, _, _)) : string * (ty * ty * option val * option val)) => (k, b)) l))
    (Some (VStruct (map (fun '((k, (_, _, o, _)) : string * (ty * ty * option val * option val)) => (k, o)) l))) =
  Ok (Some (VStruct (map (fun '((k, (_, _, _, c)) : string * (ty * ty * option val * option val)) => (k, c)) l))).
Proof.
  intros safe l N X F.
  assert (E : bind (ConvertModel.cast_to offset zone_offset other_rat float_text float_read rat_float int_read doc_text json_text float_time (TStruct (map (fun '((k, (a, _, _, _)) : string * (ty * ty * option val * option val)) => (k, a)) l)) (Some (VStruct (map (fun '((k, (_, _, o, _)) : string * (ty * ty * option val * option val)) => (k, o)) l))))
    (ConvertModel.cast_to offset zone_offset other_rat float_text float_read rat_float int_read doc_text json_text float_time (TStruct (map (fun '((k, (_, b, _, _)) : string * (ty * ty * option val * option val)) => (k, b)) l))) =
    Ok (Some (VStruct (map (fun '((k, (_, _, _, c)) : string * (ty * ty * option val * option val)) => (k, c)) l)))) by now apply both_structs.
  unfold ConvertModel.sql_cast. rewrite E. reflexivity.
Qed.
(** Otherwise a field that the type gives another name becomes NULL, *)
Theorem c195_renamed_refuted : forall safe k k' a b v c, k <> "" -> k' <> k -> sql_cast false a b (Some v) = Ok (Some c) ->
  sql_cast safe (TStruct [(k, a)]) (TStruct [(k', b)]) (Some (VStruct [(k, Some v)])) = Ok (Some (VStruct [(k', None)])).
Proof.
  intros safe k k' a b v c K D E. rewrite plain_cast in E. unfold ConvertModel.sql_cast. unfold ConvertModel.cast_to at 1. unfold cast_opt at 1. rewrite cast_struct.
  cbn [anonymous]. destruct (String.eqb_spec k ""); [contradiction|]. cbn [andb cast_fields find_last]. rewrite String.eqb_refl.
  unfold ConvertModel.cast_to in E. destruct (cast_opt _ _ a (Some v)) as [m| |] eqn:C; cbn [bind] in E; [|discriminate|discriminate]. cbn [bind].
  unfold ConvertModel.cast_to, cast_opt. rewrite cast_struct. cbn [anonymous]. destruct (String.eqb_spec k ""); [contradiction|]. cbn [andb cast_fields find_last]. destruct (String.eqb_spec k k'); [congruence|]. reflexivity.
Qed.
(** and fields without names are not cast at all. *)
Theorem c195_unnamed_refuted : forall safe fs gs l, Forall (fun p => fst p = "") l ->
  sql_cast safe (TStruct fs) (TStruct gs) (Some (VStruct l)) = Ok (Some (VStruct l)).
Proof.
  intros safe fs gs l F. assert (A : anonymous l = true).
  { induction F as [|[k o] l E F IH]; [reflexivity|]. cbn in *. subst k. exact IH. }
  unfold ConvertModel.sql_cast, ConvertModel.cast_to, cast_opt. rewrite cast_struct, A. cbn [bind]. rewrite cast_struct, A. reflexivity.
Qed.

Example c195_example : sql_cast false (TStruct [("a", TStr); ("b", TInt)]) (TStruct [("a", TInt); ("b", TStr)]) (Some (VStruct [("a", Some (VStr "7")); ("b", Some (VInt 8))])) =
    Ok (Some (VStruct [("a", Some (VInt 7)); ("b", Some (VStr "8"))])) /\
  sql_cast false (TStruct [("a", TStr)]) (TStruct [("b", TInt)]) (Some (VStruct [("a", Some (VStr "7"))])) = Ok (Some (VStruct [("b", None)])) /\
  sql_cast false (TStruct [("", TStr)]) (TStruct [("", TInt)]) (Some (VStruct [("", Some (VStr "7"))])) = Ok (Some (VStruct [("", Some (VStr "7"))])).
Proof. repeat split; reflexivity. Qed.

(** C196: CAST of a STRING to BYTES gives its bytes. *)
Theorem c196_string_to_bytes : forall safe s, cast_seen safe TStr TBytes (Some (VStr s)) = Ok (Some (VBytes s)).
Proof. intros safe s. open_cast. apply (c26_scalars_are_exact 0 (S754_zero false) s). Qed.

(** C197: CAST of BYTES to STRING gives the base64 text of the bytes, valid UTF-8 or not, and
    that is another text unless there are none. *)
Theorem c197_base64_refuted : forall safe s,
  cast_seen safe TBytes TStr (Some (VBytes s)) = Ok (Some (VStr (base64_text s))) /\ (base64_text s = s <-> s = "").
Proof.
  intros safe s. split.
  - open_cast. apply asc_round. unfold asc. unfold base64_text. rewrite list_ascii_of_string_of_list_ascii. apply base64_ascii.
  - split; [|intros ->; reflexivity]. destruct (String.eqb_spec s "") as [->|N]; [reflexivity|]. intros E. exfalso. revert E. now apply base64_other.
Qed.
Example c197_example : cast_seen false TBytes TStr (Some (VBytes "abc")) = Ok (Some (VStr "YWJj")).
Proof. reflexivity. Qed.

(** C198: no text is rejected as a NUMERIC. *)
Theorem c198_never_fails_refuted : forall safe s, exists q, cast_seen safe TStr TNum (Some (VStr s)) = Ok (Some (VNum q)).
Proof.
  intros safe s. open_cast. unfold to_rat. cbn [bind]. unfold round_trip, encode_opt. cbn [encode_value bind through_engine decode_value decode_text]. eexists. reflexivity.
Qed.
(** A plain decimal number is read as what it is. *)
Theorem c198_decimals_partial : forall safe q, nine q ->
  exists p, cast_seen safe TStr TNum (Some (VStr (string_of (numeric_text q)))) = Ok (Some (VNum p)) /\ (p == q)%Q.
Proof.
  intros safe q N. destruct (plain_numeric q N) as (p & P & E). destruct (stored (VNum p) I) as (w & W & S). destruct w as [| | | |r| | | | | | | | |]; cbn [same] in S; try contradiction.
  exists r. split; [|now rewrite <- S]. open_cast. unfold to_rat, string_rat. rewrite P. cbn [bind]. exact W.
Qed.

(** C199: numbers survive a CAST to a wider type and back. *)
Theorem c199_wider_and_back : forall safe,
  (forall z, in64 z -> exists w, cast_seen safe TInt TNum (Some (VInt z)) = Ok (Some w) /\ cast_seen safe TNum TInt (Some w) = Ok (Some (VInt z))) /\
  (forall z, Z.abs z < 2 ^ 53 -> exists w, cast_seen safe TInt TFloat (Some (VInt z)) = Ok (Some w) /\ cast_seen safe TFloat TInt (Some w) = Ok (Some (VInt z))) /\
  (forall b, exists w, cast_seen safe TBool TInt (Some (VBool b)) = Ok (Some w) /\ sql_cast safe TInt TBool (Some w) = Ok (Some (VBool b))).
Proof.
  intros safe. split; [|split].
  - intros z Z. destruct (stored (VNum (inject_Z z)) I) as (w & W & S). destruct w as [| | | |r| | | | | | | | |]; cbn [same] in S; try contradiction.
    exists (VNum r). split; [open_cast; exact W|]. open_cast. unfold to_int64, cast_numeric_int64, norm. cbn [bind].
    assert (R : Qred r = inject_Z z) by (rewrite <- (JsonProofs.Qred_int z); apply Qred_complete; now symmetry). rewrite R. cbn [Qnum inject_Z]. rewrite wrap64_id by exact Z. reflexivity.
  - intros z Z. pose proof (float_is_of_int z Z) as F. exists (VFloat (float_of_int z)). split.
    + open_cast. apply (c26_scalars_are_exact 0 (float_of_int z) ""). destruct (float_of_int z); try reflexivity. contradiction.
    + open_cast. rewrite (int_of_same z _ Z F). reflexivity.
  - intros b. exists (VInt (if b then 1 else 0)). destruct b; split; reflexivity.
Qed.

Example c199_example : cast_seen false TInt TNum (Some (VInt 9223372036854775807)) = Ok (Some (VNum (9223372036854775807 # 1))) /\ in64 9223372036854775807 /\
  cast_seen false TNum TInt (Some (VNum (9223372036854775807 # 1))) = Ok (Some (VInt 9223372036854775807)).
Proof. repeat split; try reflexivity; cbv; discriminate. Qed.

(** C200: the text of a TIMESTAMP has a T where the documented one has a space. *)
Theorem c200_timestamp_text_refuted : forall safe t, 0 <= year (day_no (t + offset t * ns_per_sec)) <= 9999 ->
  exists s, cast_seen safe TTimestamp TStr (Some (VTimestamp t)) = Ok (Some (VStr s)) /\ forall a b n, names_day a n -> s <> a ++ " " ++ b.
Proof.
  intros safe t Y. fold (local offset t) in Y. exists (rfc3339 offset t). split; [open_cast; now apply asc_round, asc_rfc3339|].
  intros a b n (y & m & d & _ & _ & -> & _) E. unfold rfc3339 in E. cbv zeta in E. rewrite date_text_ymd in E by exact Y. apply app_inv_length in E; [|reflexivity]. destruct E as (_ & E). discriminate.
Qed.

(** C201: texts of other types are not rejected. *)
(** A text of a time of day is accepted as a DATE, the first day of the year 0. *)
Theorem c201_time_as_date_refuted : forall safe h mi sc f ns, valid_clock h mi sc -> names_fraction f ns ->
  cast_seen safe TStr TDate (Some (VStr (hms h mi sc ++ f))) = Ok (Some (VDate (days_of 0 1 1 * ns_per_day))).
Proof.
  intros safe h mi sc f ns V F. pose proof (fraction_range f ns F) as R. open_cast. rewrite (string_time_hms zone_offset h mi sc f ns V F). cbn [bind snd].
  destruct (split_time (days_of 0 1 1) (h * 3600 + mi * 60 + sc) ns ltac:(destruct V as (? & ? & ?); lia) R) as (D & _ & _).
  unfold round_trip, encode_opt. cbn [encode_value bind through_engine decode_value decode_text]. rewrite D. reflexivity.
Qed.
(** A text of a day is accepted as a TIME, midnight. *)
Theorem c201_date_as_time_refuted : forall safe s n, names_day s n ->
  exists u, cast_seen safe TStr TTime (Some (VStr s)) = Ok (Some (VTime u)) /\ clock u = 0 /\ nanosecond u = 0.
Proof.
  intros safe s n (y & m & d & Y & V & -> & ->). open_cast. unfold string_time. assert (Dy : is_date (ymd y m d) = true) by (rewrite <- (app_empty (ymd y m d)); now rewrite is_date_ymd). rewrite Dy.
  assert (P : parse_date (ymd y m d) = Some (days_of y m d)) by (apply parse_date_iff; exists y, m, d; auto). rewrite P. cbn [option_map utc bind snd].
  destruct (split_time (days_of y m d) 0 0 ltac:(lia) ltac:(unfold ns_per_sec; lia)) as (_ & C & N). replace ((days_of y m d * 86400 + 0) * ns_per_sec + 0) with (days_of y m d * ns_per_day) in * by (unfold ns_per_day, ns_per_sec; lia).
  assert (M : days_of y m d * ns_per_day mod 1000 = 0) by (unfold ns_per_day, ns_per_sec; rewrite (Z.mul_assoc _ 86400), (Z.mul_comm _ 1000000000); change 1000000000 with (1000 * 1000000); rewrite <- Z.mul_assoc, Z.mul_comm; apply Z.mod_mul; lia).
  destruct (stored (VTime (days_of y m d * ns_per_day)) M) as (w & W & S). destruct w as [| | | | | | | | | | |u| |]; cbn [same] in S; try contradiction. exists u. rewrite W. split; [reflexivity|]. destruct S. split; congruence.
Qed.
(** A month or hour of one digit, which the documentation allows, is an error. *)
Theorem c201_one_digit_refuted : forall y m d h mi sc, 0 <= y <= 9999 -> 1 <= m <= 9 -> 0 <= d < 100 -> 0 <= h <= 9 ->
  cast_seen false TStr TDate (Some (VStr (four y ++ "-" ++ String (digit m) ("-" ++ two d)))) = Err /\
  cast_seen false TStr TTime (Some (VStr (String (digit h) (":" ++ two mi ++ ":" ++ two sc)))) = Err.
Proof.
  intros y m d h mi sc Y M D H. split; open_cast.
  - rewrite one_digit_month by lia. reflexivity.
  - rewrite one_digit_hour by lia. reflexivity.
Qed.

Example c201_example : cast_seen false TStr TDate (Some (VStr "12:34:56")) = Ok (Some (VDate (-719528 * ns_per_day))) /\
  cast_seen false TStr TTime (Some (VStr "2024-02-29")) <> Err /\ cast_seen false TStr TDate (Some (VStr "2024-2-09")) = Err /\ cast_seen false TStr TTime (Some (VStr "9:30:00")) = Err.
Proof. repeat split; try reflexivity. discriminate. Qed.
End Convert.
(** A machine in Tokyo: 2024-02-28 23:00:00 UTC is the 29th there. *)
Example c191_example : let cast := cast_seen (fun _ => 32400) (fun _ => None) (fun _ => 0%Q) (fun _ => "") (fun _ => None) (fun _ => S754_nan) (fun _ => None) (fun _ => "") (fun _ => "") (fun _ => 0) in
  let t := 1709161200 * ns_per_sec in datetime_text t = "2024-02-28T23:00:00" /\
  cast false TTimestamp TDate (Some (VTimestamp t)) = Ok (Some (VDate (19782 * ns_per_day))) /\ date_text 19782 = "2024-02-29" /\
  cast false TTimestamp TStr (Some (VTimestamp t)) = Ok (Some (VStr "2024-02-29T08:00:00+09:00")) /\
  ordinary (t + 32400 * ns_per_sec) /\ whole_minutes 32400.
Proof. cbv zeta. unfold ordinary, whole_minutes. repeat split; try reflexivity; cbv; discriminate. Qed.

Print Assumptions c189_text_and_back.
Print Assumptions c189_timestamp_and_back.
Print Assumptions c190_dates_and_times.
Print Assumptions c191_local_clock_partial.
Print Assumptions c191_utc_refuted.
Print Assumptions c192_dates.
Print Assumptions c192_times.
Print Assumptions c192_datetimes.
Print Assumptions c193_safe_cast.
Print Assumptions c194_arrays.
Print Assumptions c195_structs_partial.
Print Assumptions c195_renamed_refuted.
Print Assumptions c195_unnamed_refuted.
Print Assumptions c196_string_to_bytes.
Print Assumptions c197_base64_refuted.
Print Assumptions c198_never_fails_refuted.
Print Assumptions c198_decimals_partial.
Print Assumptions c199_wider_and_back.
Print Assumptions c200_timestamp_text_refuted.
Print Assumptions c201_time_as_date_refuted.
Print Assumptions c201_date_as_time_refuted.
Print Assumptions c201_one_digit_refuted.
