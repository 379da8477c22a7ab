(** Properties C67, C68 and C143-C149: FORMAT_* and PARSE_* of dates and times. *)
From Coq Require Import Ascii String List ZArith Lia Bool.
From Verif Require Import GoBase GoBaseFacts CalendarModel CalendarFacts InstantModel InstantFacts DecModel DecFacts PartModel PartProofs
  ClockTextSpec ClockTextProofs TimeFmtModel TimeFmtSpec TimeFmtProofs.
Import ListNotations.
Local Open Scope string_scope.
Open Scope Z_scope.
Local Opaque civil year_start leap godate days_of.

Section Props.
  (** The location of the process and the texts of Go's time package: any *)
  Variable local : loc.
  Variable read_ansic : string -> option Z.
  Variable ansic_text : Z -> string.
  Variable zone_name : tm -> string.
  Notation format_date := (format_date local read_ansic ansic_text zone_name).
  Notation parse_date_f := (parse_date_f local read_ansic ansic_text zone_name).
  Notation format_datetime := (format_datetime local read_ansic ansic_text zone_name).
  Notation parse_datetime_f := (parse_datetime_f local read_ansic ansic_text zone_name).
  Notation format_time_f := (format_time_f local read_ansic ansic_text zone_name).
  Notation parse_time_f := (parse_time_f local read_ansic ansic_text zone_name).
  Notation format_timestamp := (format_timestamp local read_ansic ansic_text zone_name).
  Notation parse_timestamp_f := (parse_timestamp_f local read_ansic ansic_text zone_name).
  Notation parse_timestamp_zone := (parse_timestamp_zone local read_ansic ansic_text zone_name).

  (** C67.  Formats of %Y, %m, %d and any characters. *)
  Lemma no_hours ps : Forall (readable KDate) ps -> ~ In (El "I") ps.
  Proof. rewrite Forall_forall. intros F I. specialize (F _ I). cbn [readable In] in F. intuition discriminate. Qed.
  Lemma day_wall y m d : wall_at (Civil y m d 0 0 0 0) = days_of y m d * ns_per_day.
  Proof. unfold wall_at, ns_per_day, ns_per_sec. cbn [cy cm cd ch cmi cs cns]. lia. Qed.
Theorem c67_any_partial : forall ps y m d, Forall (readable KDate) ps -> dated ps -> valid_date y m d ->
    1000 <= y <= 9999 \/ 1 <= y <= 9999 /\ year_ends ps -> ~ (m = 2 /\ d = 29) \/ year_first ps ->
    exists s, format_date (pattern ps) (days_of y m d) = Ok s /\ parse_date_f (pattern ps) s = Ok (days_of y m d).
  Proof.
    intros ps y m d F Da V Y N. set (v := Civil y m d 0 0 0 0). assert (G : good_time v) by now apply good_day.
    exists (joined (shown v) ps). split.
    - apply format_shown; auto; [intros _; cbn; lia | rewrite <- day_wall; apply (utc_wall (wall_at v)) | now apply no_hours].
    - unfold TimeFmtModel.parse_date_f. rewrite (parse_shown local read_ansic ansic_text zone_name KDate v ps G); auto; [|cbn; lia|destruct Y as [Y|[_ Y]]; [left; cbn; lia | now right]|apply not_lost; cbn; tauto | now apply no_hours].
      cbn [bind]. rewrite utc_wall, day_no_walk.
      + now rewrite walk_date.
      + apply good_walk; auto. intros (_ & _ & L3 & _). apply L3. apply Da.
  Qed.
  Lemma where_year ps : dated ps -> year_first ps \/ year_last ps.
  Proof.
    intros (I & _). apply in_split in I as (a & b & E). destruct (in_dec piece_dec (El "m") a), (in_dec piece_dec (El "d") a);
      [right; exists a, b; auto | left; exists a, b; tauto..].
  Qed.
  Lemma first_last ps : once (El "Y") ps -> year_first ps -> year_last ps -> False.
  Proof.
    intros (x & z & Ex & N1 & N2) (a & b & E & N) (a' & b' & E' & A1 & A2).
    assert (Q : forall a b, ps = (a ++ El "Y" :: b)%list -> a = x).
    { rewrite Ex. clear -N1 N2. revert N1. induction x as [|p x IH]; intros N1 a b E.
      - destruct a as [|q a]; [reflexivity|]. cbn in E. injection E as <- E. exfalso. apply N2. rewrite E. apply in_or_app. right. now left.
      - destruct a as [|q a]; cbn in E; [injection E as -> _; exfalso; apply N1; now left|]. injection E as <- E. f_equal. apply (IH (fun X => N1 (or_intror X)) a b E). }
    apply N. rewrite (Q _ _ E). rewrite <- (Q _ _ E'). auto.
  Qed.
  (** 29 February is read as 1 March where the year stands behind the month and the day. *)
Theorem c67_last_refuted : forall ps y, Forall (readable KDate) ps -> once (El "Y") ps -> once (El "m") ps -> once (El "d") ps -> year_last ps ->
    valid_date y 2 29 -> 1000 <= y <= 9999 ->
    exists s, format_date (pattern ps) (days_of y 2 29) = Ok s /\ parse_date_f (pattern ps) s = Ok (days_of y 3 1).
  Proof.
    intros ps y F Oy Om Od L V Y. set (v := Civil y 2 29 0 0 0 0). assert (G : good_time v) by now apply good_day.
    exists (joined (shown v) ps). split.
    - apply format_shown; auto; [intros _; cbn; lia | rewrite <- day_wall; apply (utc_wall (wall_at v)) | now apply no_hours].
    - destruct (steps_march v KDate ps G eq_refl eq_refl F Oy Om Od L) as (u & Gu & St & Du).
      unfold TimeFmtModel.parse_date_f. assert (P : TimeFmtModel.parse_time_format local read_ansic ansic_text zone_name KDate (pattern ps) (joined (shown v) ps) = Ok (Tm (wall_at u) utc)).
      { apply parse_ok; auto. exists (wall_at u), (half_after v ps None), (wall_at u). split; [|split; [apply settled_hours; now apply no_hours | reflexivity]].
        rewrite <- (app_empty (joined (shown v) ps)) at 1. apply (reads_shown v KDate ""); auto; [cbn; lia | intros (? & ? & _ & E); discriminate | discriminate | left; cbn; lia]. }
      rewrite P. cbn [bind]. rewrite utc_wall, day_no_walk by auto. now rewrite Du.
  Qed.
  (** The round trip, exactly, where each of year, month and day is printed once *)
Theorem c67_once_partial : forall ps y m d, Forall (readable KDate) ps -> once (El "Y") ps -> once (El "m") ps -> once (El "d") ps ->
    valid_date y m d -> 1000 <= y <= 9999 ->
    ((exists s, format_date (pattern ps) (days_of y m d) = Ok s /\ parse_date_f (pattern ps) s = Ok (days_of y m d)) <->
     ~ (m = 2 /\ d = 29) \/ year_first ps).
  Proof.
    intros ps y m d F Oy Om Od V Y.
    assert (Da : dated ps) by (repeat split; [destruct Oy as (? & ? & -> & _) | destruct Om as (? & ? & -> & _) | destruct Od as (? & ? & -> & _)]; apply in_or_app; right; now left).
    split; [|apply c67_any_partial; auto]. intros (s & P1 & P2). destruct (Z.eq_dec m 2) as [->|]; [|left; lia]. destruct (Z.eq_dec d 29) as [->|]; [|left; lia].
    destruct (where_year ps Da) as [W|W]; [now right|]. exfalso. destruct (c67_last_refuted ps y F Oy Om Od W V Y) as (s' & Q1 & Q2).
    assert (s' = s) by congruence. subst s'. assert (E : days_of y 2 29 = days_of y 3 1) by congruence.
    assert (V' : valid_date y 3 1) by (split; [lia | cbn; lia]).
    assert (X : month (days_of y 2 29) = month (days_of y 3 1)) by now rewrite E. rewrite !month_days_of in X by auto. discriminate.
  Qed.
Theorem c67_refuted : exists f y m d s, valid_date y m d /\ format_date f (days_of y m d) = Ok s /\ parse_date_f f s <> Ok (days_of y m d).
  Proof.
    exists "%m/%d/%Y", 2020, 2, 29, "02/29/2020". split; [split; [lia | cbn; change (leap 2020) with true; lia]|].
    split; [reflexivity | vm_compute; discriminate].
  Qed.
  (** A year with fewer than four digits is printed as it is, and so is read with the digits behind it. *)
Theorem c67_short_year_refuted : valid_date 999 1 1 /\
    format_date "%Y%m%d" (days_of 999 1 1) = Ok "9990101" /\ parse_date_f "%Y%m%d" "9990101" = Ok (days_of 9990 10 1).
  Proof. split; [split; [lia | cbn; lia]|]. split; reflexivity. Qed.
  (** The same for DATETIME, and for TIMESTAMP in UTC and in any fixed zone *)
Theorem c67_times_partial : forall ps v, good_time v -> cns v = 0 -> 1000 <= cy v <= 9999 -> dated ps -> timed ps -> ~ In (El "I") ps ->
    ~ (cm v = 2 /\ cd v = 29) \/ year_first ps ->
    (Forall (readable KDatetime) ps -> exists s, format_datetime (pattern ps) (wall_at v) = Ok s /\ parse_datetime_f (pattern ps) s = Ok (wall_at v)) /\
    (Forall (readable KTimestamp) ps -> exists s, format_timestamp (pattern ps) (wall_at v) utc = Ok s /\ parse_timestamp_f (pattern ps) s = Ok (wall_at v)) /\
    (Forall (readable KTimestamp) ps -> forall off, exists s, format_timestamp (pattern ps) (wall_at v - off * 1000000000) (fixed off) = Ok s /\
      parse_timestamp_zone (pattern ps) s (fixed off) = Ok (wall_at v - off * 1000000000)).
  Proof.
    intros ps v G Ns Y Da Ti NI N.
    assert (Pa : forall k, Forall (readable k) ps -> TimeFmtModel.parse_time_format local read_ansic ansic_text zone_name k (pattern ps) (joined (shown v) ps) = Ok (Tm (wall_at v) utc)).
    { intros k F. rewrite (parse_shown local read_ansic ansic_text zone_name k v ps G); auto; [|lia|left; lia|apply not_lost; tauto]. do 3 f_equal. now apply walk_all. }
    split; [|split]; intros F; [| |intros off]; exists (joined (shown v) ps); (split; [apply format_shown; auto; try (intros _; lia)|]).
    - apply (utc_wall (wall_at v)).
    - unfold TimeFmtModel.parse_datetime_f. rewrite Pa by auto. cbn [bind]. now rewrite utc_wall.
    - apply (utc_wall (wall_at v)).
    - unfold TimeFmtModel.parse_timestamp_f. now rewrite Pa by auto.
    - unfold wall, fixed, ns_per_sec. lia.
    - unfold TimeFmtModel.parse_timestamp_zone. rewrite Pa by auto. cbn [bind]. rewrite utc_wall, from_wall_fixed. reflexivity.
  Qed.
  Example c67_example : Forall (readable KDate) [El "d"; Ch "/"; El "Y"; Ch "/"; El "m"] /\ year_first [El "d"; Ch "/"; El "Y"; Ch "/"; El "m"] /\
    format_date "%d/%Y/%m" (days_of 2020 2 29) = Ok "29/2020/02" /\ parse_date_f "%d/%Y/%m" "29/2020/02" = Ok (days_of 2020 2 29).
  Proof.
    split; [repeat constructor; cbn; auto 10; try discriminate; left; (split; [discriminate | auto])|]. split.
    - exists [El "d"; Ch "/"], [Ch "/"; El "m"]. split; [reflexivity|]. intros [[X|[X|[]]] _]; discriminate.
    - split; reflexivity.
  Qed.

  (** C68.  What each text is read as.  The fields need not form a date, and the characters
      of the format outside the elements need not be the ones of the text. *)
Theorem c68_exact_partial : forall ps s n, Forall (readable KDate) ps ->
    (parse_date_f (pattern ps) s = Ok n <-> exists w h, reads ps s 0 None "" w h /\ n * 86400000000000 <= w < (n + 1) * 86400000000000).
  Proof.
    intros ps s n F. unfold TimeFmtModel.parse_date_f. pose proof (no_hours ps F) as NI.
    assert (Dn : forall w, day_no w = n <-> n * 86400000000000 <= w < (n + 1) * 86400000000000).
    { intros w. unfold day_no, ns_per_day, ns_per_sec. change (86400 * 1000000000) with 86400000000000. pose proof (Z.div_mod w 86400000000000 ltac:(lia)). pose proof (Z.mod_pos_bound w 86400000000000 ltac:(lia)). split; [intros <-; lia|].
      intros X. symmetry. apply Z.div_unique with (r := w - n * 86400000000000); lia. }
    split.
    - destruct (TimeFmtModel.parse_time_format _ _ _ _ _ _ _) as [t| |] eqn:P; try discriminate. cbn [bind]. intros E. apply parse_ok in P as (w & h & w' & R & Se & ->); auto.
      rewrite utc_wall in E. assert (w' = w) by (destruct Se; auto; tauto). subst w'. exists w, h. split; [exact R|]. apply Dn. congruence.
    - intros (w & h & R & B). assert (P : TimeFmtModel.parse_time_format local read_ansic ansic_text zone_name KDate (pattern ps) s = Ok (Tm w utc)).
      { apply parse_ok; auto. exists w, h, w. split; [exact R|]. split; [|reflexivity]. destruct h as [b|]; constructor. now right. }
      rewrite P. cbn [bind]. rewrite utc_wall. f_equal. now apply Dn.
  Qed.
Theorem c68_times_partial : forall ps s w',
    (Forall (readable KDatetime) ps -> (parse_datetime_f (pattern ps) s = Ok w' <-> exists w h, reads ps s 0 None "" w h /\ settled ps h w w')) /\
    (Forall (readable KTime) ps -> (parse_time_f (pattern ps) s = Ok w' <-> exists w h, reads ps s 0 None "" w h /\ settled ps h w w')) /\
    (Forall (readable KTimestamp) ps -> (parse_timestamp_f (pattern ps) s = Ok w' <-> exists w h, reads ps s 0 None "" w h /\ settled ps h w w')).
  Proof.
    intros ps s w'.
    assert (X : forall k, Forall (readable k) ps -> (bind (TimeFmtModel.parse_time_format local read_ansic ansic_text zone_name k (pattern ps) s) (fun t => Ok (wall_of t)) = Ok w' <->
      exists w h, reads ps s 0 None "" w h /\ settled ps h w w')).
    { intros k F. split.
      - destruct (TimeFmtModel.parse_time_format _ _ _ _ _ _ _) as [t| |] eqn:P; try discriminate. cbn [bind]. intros E. apply parse_ok in P as (w & h & u & R & Se & ->); auto.
        rewrite utc_wall in E. assert (u = w') by congruence. subst u. eauto.
      - intros (w & h & R & Se). assert (P : TimeFmtModel.parse_time_format local read_ansic ansic_text zone_name k (pattern ps) s = Ok (Tm w' utc)) by (apply parse_ok; auto; eauto 10).
        rewrite P. cbn [bind]. now rewrite utc_wall. }
    split; [apply X|]. split; [apply X|]. intros F. rewrite <- (X KTimestamp F). unfold TimeFmtModel.parse_timestamp_f.
    destruct (TimeFmtModel.parse_time_format _ _ _ _ KTimestamp _ _) as [t| |] eqn:P; cbn [bind]; try tauto.
    apply parse_ok in P as (w & h & u & R & Se & ->); auto. rewrite utc_wall. tauto.
  Qed.
  (** Whatever the character of the format, the result is the same *)
Theorem c68_literal_refuted : forall ps1 c d ps2 s, c <> " "%char -> d <> " "%char -> c <> "%"%char -> d <> "%"%char ->
    (Forall (readable KDate) (ps1 ++ ps2) -> parse_date_f (pattern (ps1 ++ Ch c :: ps2)) s = parse_date_f (pattern (ps1 ++ Ch d :: ps2)) s) /\
    (Forall (readable KTimestamp) (ps1 ++ ps2) -> parse_timestamp_f (pattern (ps1 ++ Ch c :: ps2)) s = parse_timestamp_f (pattern (ps1 ++ Ch d :: ps2)) s).
  Proof.
    intros. split; intros F; unfold TimeFmtModel.parse_date_f, TimeFmtModel.parse_timestamp_f; now rewrite (parse_lit local read_ansic ansic_text zone_name _ ps1 c d ps2 s).
  Qed.
  (** Every day up to 31 is taken in every month. *)
Theorem c68_rollover_refuted : forall y m d, 1000 <= y <= 9999 -> 1 <= m <= 12 -> 1 <= d <= 31 ->
    parse_date_f "%Y-%m-%d" (ymd y m d) = Ok (days_of y m 1 + (d - 1)).
  Proof.
    intros y m d Y M Dd. change "%Y-%m-%d" with (pattern [El "Y"; Ch "-"; El "m"; Ch "-"; El "d"]). apply c68_exact_partial.
    { repeat constructor; cbn; auto 10; try discriminate; left; (split; [discriminate | auto]). }
    assert (Vm : forall m, 1 <= m <= 12 -> valid_date y m 1) by (intros x X; split; [exact X | pose proof (dim_range y x); lia]).
    exists ((days_of y m 1 + (d - 1)) * 86400000000000), None. split; [|lia]. unfold ymd.
    assert (Nf : numeral 4 (four y) y ("-" ++ two m ++ "-" ++ two d)).
    { split; [apply digits_value_iff; apply positional_four; lia|]. split; [cbn; lia | now left]. }
    assert (Nm : numeral 2 (two m) m ("-" ++ two d)).
    { split; [apply digits_value_iff; apply positional_two; lia|]. split; [cbn; lia | now left]. }
    assert (Nd : numeral 2 (two d) d "").
    { split; [apply digits_value_iff; apply positional_two; lia|]. split; [cbn; lia | now left]. }
    eapply reads_number; [reflexivity | exact Nf | lia | |].
    { replace 0 with (days_of 1970 1 1 * 86400000000000 + 0) by reflexivity. apply (put_Y y _ 1970 1 1 0); [|lia]. split; [split; [lia | cbn; lia] | reflexivity]. }
    apply (reads_char "-" "-"); [discriminate|]. eapply reads_number; [reflexivity | exact Nm | lia | |].
    { apply (put_m m _ y 1 1 0); [|lia]. split; [now apply Vm; lia | reflexivity]. }
    apply (reads_char "-" "-"); [discriminate|]. rewrite <- (app_empty (two d)). eapply reads_number; [reflexivity | exact Nd | lia | |].
    { apply (put_d d _ y m 1 0); [|lia]. split; [now apply Vm | reflexivity]. }
    replace (days_of y m d * 86400000000000 + 0) with ((days_of y m 1 + (d - 1)) * 86400000000000) by (rewrite (days_of_eq y m d), (days_of_eq y m 1); lia). constructor.
  Qed.
Theorem c68_refuted : exists f s, f = "%Y-%m-%d" /\ s = "2023/02/30" /\ parse_date_f f s = Ok (days_of 2023 3 2).
  Proof. exists "%Y-%m-%d", "2023/02/30". repeat split. Qed.
  Example c68_example : parse_date_f "%Y-%m-%d" "2023-02-28" = Ok (days_of 2023 2 28) /\ parse_date_f "%Y-%m-%d" "2023-13-01" = Err /\
    parse_date_f "%Y-%m-%d" "2023-02-28 " = Err /\ parse_datetime_f "%Y-%m-%d %I:%M %p" "2023-02-28 01:30 pm" = Ok (days_of 2023 2 28 * 86400000000000 + (13 * 3600 + 30 * 60) * 1000000000).
  Proof. repeat split. Qed.

  (** C143: formats of these elements and any characters *)
  Definition right (k : kind) (p : piece) : Prop := match p with Ch c => c <> "%"%char | El e => In e right_elements /\ has_element k e end.
  Lemma right_text k v l t p : 1000 <= cy v <= 9999 -> good_time v -> wall l t = wall_at v -> right k p ->
    prints local read_ansic ansic_text zone_name k (Tm t l) (text v (l (unix t))) p.
  Proof.
    intros Y G W R. destruct p as [e|c]; [|split; auto]. destruct R as [I H]. destruct (right_prints local read_ansic ansic_text zone_name e v l t Y G W I) as (i & s & E & Do & Fo).
    exists i. split; [exact E|]. cbn [text]. rewrite Do. split; [|exact Fo].
    apply (has_kind_iff local read_ansic ansic_text zone_name) in H; [unfold has_kind in H; now rewrite E in H|].
    clear -I. cbn [right_elements In] in I. repeat (destruct I as [<-|I]; [discriminate|]). destruct I.
  Qed.
Theorem c143_texts : forall ps v, good_time v -> 1000 <= cy v <= 9999 ->
    (Forall (right KDatetime) ps -> format_datetime (pattern ps) (wall_at v) = Ok (joined (text v 0) ps)) /\
    (Forall (right KTime) ps -> format_time_f (pattern ps) (wall_at v) = Ok (joined (text v 0) ps)) /\
    (Forall (right KDate) ps -> ch v = 0 -> cmi v = 0 -> cs v = 0 -> cns v = 0 -> format_date (pattern ps) (day_of v) = Ok (joined (text v 0) ps)) /\
    (Forall (right KTimestamp) ps -> forall zone t, wall zone t = wall_at v -> format_timestamp (pattern ps) t zone = Ok (joined (text v (zone (unix t))) ps)).
  Proof.
    intros ps v G Y. assert (X : forall k l t, wall l t = wall_at v -> Forall (right k) ps ->
      TimeFmtModel.format_time local read_ansic ansic_text zone_name k (pattern ps) (Tm t l) = Ok (joined (text v (l (unix t))) ps)).
    { intros k l t W F. apply format_pattern. eapply Forall_impl; [|exact F]. intros p. now apply right_text. }
    split; [|split; [|split]]; intros F.
    - apply (X KDatetime utc (wall_at v)); auto. apply (utc_wall (wall_at v)).
    - apply (X KTime utc (wall_at v)); auto. apply (utc_wall (wall_at v)).
    - intros E1 E2 E3 E4. apply (X KDate utc (day_of v * ns_per_day)); auto. assert (W : wall_at v = day_of v * ns_per_day) by (unfold wall_at, day_of, ns_per_day, ns_per_sec; rewrite E1, E2, E3, E4; lia).
      rewrite <- W. apply (utc_wall (wall_at v)).
    - intros zone t W. now apply X.
  Qed.
  Example c143_example : Forall (right KTimestamp) [El "A"; Ch ","; Ch " "; El "d"; Ch " "; El "b"; Ch " "; El "Y"; Ch " "; El "T"; Ch " "; El "p"] /\
    format_timestamp "%A, %d %b %Y %T %p" (19781 * 86400000000000 + 82800000000000) (fixed 7200) = Ok "Thursday, 29 Feb 2024 01:00:00 AM" /\
    format_date "%a %F (%y, %G)" 19782 = Ok "Thu 2024-02-29 (24, 2024)".
  Proof.
    split; [|split; reflexivity].
    repeat apply Forall_cons; try apply Forall_nil; try (cbn; discriminate);
      (split; [cbn; repeat first [left; reflexivity | right] | right; first [left; cbn; repeat first [left; reflexivity | right]; fail | right; left; cbn; repeat first [left; reflexivity | right]; fail]]).
  Qed.

  (** C144: the other elements, in years of four digits: exactly when the text is the documented one *)
Theorem c144_exact_partial : forall e v P, good_time v -> 1000 <= cy v <= 9999 -> agreement e v = Some P ->
    ((exists s, documented e v 0 = Some s /\ format_datetime (String "%" (String e "")) (wall_at v) = Ok s) <-> P).
  Proof. exact (agreement_ok local read_ansic ansic_text zone_name). Qed.
  (** 2024-01-06 13:05:00, a Saturday in the first ISO week *)
Theorem c144_refuted : exists v, good_time v /\ cy v = 2024 /\ forall e, In e ["I"; "e"; "j"; "u"; "w"; "U"; "W"; "V"; "g"; "J"]%char ->
    exists s s', documented e v 0 = Some s /\ format_datetime (String "%" (String e "")) (wall_at v) = Ok s' /\ s <> s'.
  Proof.
    exists (Civil 2024 1 6 13 5 0 0). split; [repeat split; cbn; lia|]. split; [reflexivity|].
    intros e I. cbn [In] in I.
    destruct I as [<-|I]; [exists "01", "13"; split; [reflexivity|]; split; [reflexivity | discriminate]|].
    destruct I as [<-|I]; [exists " 6", "06"; split; [reflexivity|]; split; [reflexivity | discriminate]|].
    destruct I as [<-|I]; [exists "006", "6"; split; [reflexivity|]; split; [reflexivity | discriminate]|].
    destruct I as [<-|I]; [exists "6", "1"; split; [reflexivity|]; split; [reflexivity | discriminate]|].
    destruct I as [<-|I]; [exists "6", "0"; split; [reflexivity|]; split; [reflexivity | discriminate]|].
    destruct I as [<-|I]; [exists "00", "1"; split; [reflexivity|]; split; [reflexivity | discriminate]|].
    destruct I as [<-|I]; [exists "01", "1"; split; [reflexivity|]; split; [reflexivity | discriminate]|].
    destruct I as [<-|I]; [exists "01", "1"; split; [reflexivity|]; split; [reflexivity | discriminate]|].
    destruct I as [<-|I]; [exists "24", "2024"; split; [reflexivity|]; split; [reflexivity | discriminate]|].
    destruct I as [<-|I]; [exists "006", "2024"; split; [reflexivity|]; split; [reflexivity | discriminate]|].
    destruct I.
  Qed.

  (** C145: the elements with %E.  At the end of a format their text is the documented one;
      elsewhere it is followed by the text of the format without its next character. *)
Theorem c145_text_partial : forall e v text, good_time v -> 0 <= cy v <= 9999 ->
    (combo KDatetime e v 0 text -> format_datetime ("%E" ++ e) (wall_at v) = Ok text) /\
    (forall zone t, combo KTimestamp e v (zone (unix t)) text -> wall zone t = wall_at v -> zone (unix t) mod 60 = 0 -> Z.abs (zone (unix t)) < 360000 ->
      format_timestamp ("%E" ++ e) t zone = Ok text).
  Proof.
    intros e v text G Y. split.
    - intros C. destruct (combo_element KDatetime e v 0 text utc (wall_at v) C G Y eq_refl ltac:(lia) (utc_wall _) eq_refl) as (i & Ci & Av & Fo).
      unfold TimeFmtModel.format_datetime. now rewrite (format_combo_end local read_ansic ansic_text zone_name KDatetime i e).
    - intros zone t C W O1 O2. destruct (combo_element KTimestamp e v _ text zone t C G Y O1 O2 W eq_refl) as (i & Ci & Av & Fo).
      unfold TimeFmtModel.format_timestamp. now rewrite (format_combo_end local read_ansic ansic_text zone_name KTimestamp i e).
  Qed.
Theorem c145_dropped_refuted : forall e v text c f, good_time v -> 0 <= cy v <= 9999 ->
    (combo KDatetime e v 0 text -> forall rest, format_datetime f (wall_at v) = Ok rest -> format_datetime ("%E" ++ e ++ String c f) (wall_at v) = Ok (text ++ rest)) /\
    (forall zone t rest, combo KTimestamp e v (zone (unix t)) text -> wall zone t = wall_at v -> zone (unix t) mod 60 = 0 -> Z.abs (zone (unix t)) < 360000 ->
      format_timestamp f t zone = Ok rest -> format_timestamp ("%E" ++ e ++ String c f) t zone = Ok (text ++ rest)).
  Proof.
    intros e v text c f G Y. split.
    - intros C rest R. destruct (combo_element KDatetime e v 0 text utc (wall_at v) C G Y eq_refl ltac:(lia) (utc_wall _) eq_refl) as (i & Ci & Av & Fo).
      unfold TimeFmtModel.format_datetime in *. rewrite (format_combo local read_ansic ansic_text zone_name KDatetime i e c f _ Ci Av), Fo. cbn [bind]. now rewrite R.
    - intros zone t rest C W O1 O2 R. destruct (combo_element KTimestamp e v _ text zone t C G Y O1 O2 W eq_refl) as (i & Ci & Av & Fo).
      unfold TimeFmtModel.format_timestamp in *. rewrite (format_combo local read_ansic ansic_text zone_name KTimestamp i e c f _ Ci Av), Fo. cbn [bind]. now rewrite R.
  Qed.
  Example c145_example : format_datetime "%E4Y-%m" (days_of 2024 2 29 * 86400000000000) = Ok "202402" /\
    format_datetime "%H:%M:%E3S" 1234567890 = Ok "00:00:01.234" /\ combo KDatetime "3S" (Civil 1970 1 1 0 0 1 234567890) 0 "01.234" /\
    format_timestamp "%H%Ez" 0 (fixed (-12600)) = Ok "20-03:30".
  Proof.
    split; [reflexivity|]. split; [reflexivity|]. split; [|reflexivity].
    apply (combo_seconds KDatetime 3 (Civil 1970 1 1 0 0 1 234567890) 0 "234"); [discriminate | lia | | reflexivity]. apply digits_value_iff. reflexivity.
  Qed.

  (** C146: crashes, exactly *)
Theorem c146_parse_refuted : forall ps s,
    (Forall (readable KDate) ps -> (parse_date_f (pattern ps) s = GoPanic <-> exists ps1 c ps2 w h,
      ps = (ps1 ++ Ch c :: ps2)%list /\ reads ps1 s 0 None "" w h /\ c <> " "%char /\ Forall (fun p => exists c, p = Ch c) ps2)) /\
    (Forall (readable KTimestamp) ps -> (parse_timestamp_f (pattern ps) s = GoPanic <-> exists ps1 c ps2 w h,
      ps = (ps1 ++ Ch c :: ps2)%list /\ reads ps1 s 0 None "" w h /\ c <> " "%char /\ Forall (fun p => exists c, p = Ch c) ps2)).
  Proof.
    intros ps s. split; intros F; rewrite <- (parse_panics local read_ansic ansic_text zone_name _ ps s F); unfold TimeFmtModel.parse_date_f, TimeFmtModel.parse_timestamp_f;
      destruct (TimeFmtModel.parse_time_format _ _ _ _ _ _ _); cbn [bind]; split; intros; congruence.
  Qed.
  Definition known (k : kind) (p : piece) : Prop :=
    match p with Ch c => c <> "%"%char | El e => documented e (Civil 0 0 0 0 0 0 0) 0 <> None /\ has_element k e end.
Theorem c146_format_refuted : forall ps v, good_time v -> 0 <= cy v <= 9999 ->
    (Forall (known KDatetime) ps -> (format_datetime (pattern ps) (wall_at v) = GoPanic <-> cy v < 10 /\ exists e, In (El e) ps /\ In e ["C"; "D"; "x"]%char)) /\
    (Forall (known KDate) ps -> (format_date (pattern ps) (day_of v) = GoPanic <-> cy v < 10 /\ exists e, In (El e) ps /\ In e ["C"; "D"; "x"]%char)).
  Proof.
    intros ps v G Y. destruct (fields_at v G) as (Fn & Fy & _).
    assert (K : forall k t, t_year t = cy v -> Forall (known k) ps -> (TimeFmtModel.format_time local read_ansic ansic_text zone_name k (pattern ps) t = GoPanic <-> cy v < 10 /\ exists e, In (El e) ps /\ In e ["C"; "D"; "x"]%char)).
    { intros k t Ty F. assert (F' : forall p, In p ps -> match p with Ch c => c <> "%"%char | El e => has_kind local read_ansic ansic_text zone_name k e = true end).
      { rewrite Forall_forall in F. intros [e|c] I; specialize (F _ I); [|exact F]. apply has_kind_iff; apply F. }
      rewrite (format_panics local read_ansic ansic_text zone_name k t ltac:(lia) ps F').
      rewrite Ty. apply and_iff_compat_l. split; intros (e & I & Fr); exists e; (split; [exact I|]).
      - unfold fragile in Fr. apply existsb_exists in Fr as (x & I' & E). apply Ascii.eqb_eq in E. now subst.
      - unfold fragile. apply existsb_exists. exists e. split; [exact Fr | apply Ascii.eqb_refl]. }
    split; intros F; apply K; auto; unfold t_year.
    - now rewrite utc_wall.
    - rewrite utc_wall. replace (day_no (day_of v * ns_per_day)) with (day_of v); [now rewrite <- Fn|]. unfold day_no, ns_per_day, ns_per_sec. now rewrite Z.div_mul by lia.
  Qed.
  Example c146_example : parse_date_f "%Y-%m-%d!" "2024-02-29" = GoPanic /\ parse_date_f "%Y-%m-%d" "2024-02" = Err /\
    format_date "%D" (days_of 9 1 1) = GoPanic /\ format_date "%D" (days_of 10 1 1) = Ok "01/01/".
  Proof. repeat split. Qed.

  Lemma mod_day a c : (a * 86400000000000 + c) mod 86400000000000 = c mod 86400000000000.
  Proof. rewrite Z.add_comm, Z.mod_add by lia. reflexivity. Qed.
  (** C147: hours from 1 to 12 with AM or PM *)
Theorem c147_halves : forall ps v, good_time v -> cns v = 0 -> In (El "I") ps -> In (El "p") ps -> ~ In (El "H") ps -> In (El "M") ps -> In (El "S") ps ->
    (Forall (readable KTime) ps -> exists w, parse_time_f (pattern ps) (joined (shown v) ps) = Ok w /\ w mod 86400000000000 = wall_at v mod 86400000000000) /\
    (Forall (readable KDatetime) ps -> dated ps -> 1000 <= cy v <= 9999 -> ~ (cm v = 2 /\ cd v = 29) \/ year_first ps ->
      parse_datetime_f (pattern ps) (joined (shown v) ps) = Ok (wall_at v)).
  Proof.
    assert (X : forall k ps v, good_time v -> cns v = 0 -> In (El "I") ps -> In (El "p") ps -> ~ In (El "H") ps -> In (El "M") ps -> In (El "S") ps ->
      Forall (readable k) ps -> 1000 <= cy v <= 9999 -> (forall a p b, ps = (a ++ p :: b)%list -> ~ lost v a) -> good_time (walk v ps epoch) ->
      TimeFmtModel.parse_time_format local read_ansic ansic_text zone_name k (pattern ps) (joined (shown v) ps) =
        Ok (Tm (day_of (walk v ps epoch) * 86400000000000 + (ch v * 3600 + cmi v * 60 + cs v) * 1000000000) utc)).
    { intros k ps v G Ns I1 I2 NH I3 I4 F Y N Gw. apply parse_ok; auto.
      exists (wall_at (walk v ps epoch)), (half_after v ps None), (day_of (walk v ps epoch) * 86400000000000 + (ch v * 3600 + cmi v * 60 + cs v) * 1000000000).
      split; [|split; [|reflexivity]].
      - rewrite <- (app_empty (joined (shown v) ps)) at 1. apply (reads_walk v k ps ""); auto; [lia | intros (d & r & _ & E); discriminate | discriminate | left; lia].
      - unfold half_after. rewrite (proj2 (mem_in "p" ps) I2).
        assert (E : wall_at (walk v ps epoch) = day_of (walk v ps epoch) * 86400000000000 + hour12 (ch v) * 3600000000000 + (cmi v * 60 + cs v) * 1000000000).
        { unfold wall_at, day_of. rewrite (walk_h12 v ps epoch) by now apply mem_not. rewrite walk_mi, walk_s, walk_ns.
          rewrite (proj2 (mem_in "I" ps) I1), (proj2 (mem_in "M" ps) I3), (proj2 (mem_in "S" ps) I4). cbn [epoch cns]. lia. }
        destruct G as (_ & Gh & Gmi & Gs & _). pose proof (hour12_bounds (ch v)) as Hb. rewrite E.
        replace (day_of (walk v ps epoch) * 86400000000000 + (ch v * 3600 + cmi v * 60 + cs v) * 1000000000) with
          (day_of (walk v ps epoch) * 86400000000000 + (if negb (ch v <? 12) then if hour12 (ch v) <? 12 then hour12 (ch v) + 12 else hour12 (ch v) else hour12 (ch v) mod 12) * 3600000000000 + (cmi v * 60 + cs v) * 1000000000).
        { apply settled_12; auto; lia. }
        assert (H : (if negb (ch v <? 12) then if hour12 (ch v) <? 12 then hour12 (ch v) + 12 else hour12 (ch v) else hour12 (ch v) mod 12) = ch v); [|rewrite H; lia].
        clear -Gh. assert (C : ch v = 0 \/ 1 <= ch v <= 11 \/ ch v = 12 \/ 13 <= ch v <= 23) by lia. unfold hour12.
        destruct C as [->|[C|[->|C]]]; [reflexivity| |reflexivity|].
        + destruct (Z.ltb_spec (ch v) 12); [|lia]. cbn [negb]. replace (ch v + 11) with (ch v - 1 + 1 * 12) by lia. rewrite Z.mod_add, (Z.mod_small (ch v - 1)) by lia. rewrite Z.mod_small; lia.
        + destruct (Z.ltb_spec (ch v) 12); [lia|]. cbn [negb]. replace (ch v + 11) with (ch v - 13 + 2 * 12) by lia. rewrite Z.mod_add, (Z.mod_small (ch v - 13)) by lia.
          destruct (Z.ltb_spec (ch v - 13 + 1) 12); lia. }
    intros ps v G Ns I1 I2 NH I3 I4. split.
    - intros F. set (v' := Civil 2000 1 1 (ch v) (cmi v) (cs v) 0). assert (G' : good_time v') by (destruct G as (_ & G); split; [split; cbn; lia | cbn; lia]).
      assert (NX : forall e, In e ["Y"; "m"; "d"]%char -> ~ In (El e) ps).
      { rewrite Forall_forall in F. intros e Ie I. specialize (F _ I). cbn [readable In] in F, Ie. intuition congruence. }
      assert (E : joined (shown v) ps = joined (shown v') ps).
      { clear -F. induction ps as [|p ps IH]; [reflexivity|]. inversion F as [|? ? Fp Fr]; subst. cbn [joined]. rewrite IH by auto. f_equal. destruct p as [e|c]; [|reflexivity].
        cbn [readable In] in Fp. destruct Fp as [[X _]|[_ Fp]]; [congruence|]. repeat destruct Fp as [<-|Fp]; try reflexivity. destruct Fp. }
      rewrite E. eexists. split.
      + unfold TimeFmtModel.parse_time_f. rewrite (X KTime ps v' G' eq_refl); auto; [cbn [bind]; rewrite utc_wall; reflexivity | cbn; lia | |].
        * apply not_lost. right. right. left. apply NX. cbn. auto.
        * apply good_walk; auto. intros (L & _). revert L. apply NX. cbn. auto.
      + unfold wall_at. rewrite Ns, Z.add_0_r. cbn [v' ch cmi cs]. now rewrite !mod_day.
    - intros F Da Y N. unfold TimeFmtModel.parse_datetime_f. rewrite (X KDatetime ps v G Ns); auto.
      + cbn [bind]. rewrite utc_wall. f_equal. rewrite walk_date by auto. unfold wall_at, day_of. lia.
      + apply not_lost. tauto.
      + apply good_walk; auto. intros (_ & _ & L & _). apply L. apply Da.
  Qed.
  Example c147_example : parse_time_f "%I:%M:%S %p" "12:30:00 AM" = Ok 1800000000000 /\ parse_time_f "%I:%M:%S %p" "12:30:00 pm" = Ok (45000 * 1000000000) /\
    joined (shown (Civil 1970 1 1 0 30 0 0)) [El "I"; Ch ":"; El "M"; Ch ":"; El "S"; Ch " "; El "p"] = "12:30:00 AM".
  Proof. repeat split. Qed.

  (** C148: a TIME is its wall clock in any day *)
Theorem c148_times : forall ps v, good_time v -> cns v = 0 -> Forall (readable KTime) ps -> timed ps -> ~ In (El "I") ps ->
    exists s w, format_time_f (pattern ps) (wall_at v) = Ok s /\ parse_time_f (pattern ps) s = Ok w /\ w mod 86400000000000 = wall_at v mod 86400000000000.
  Proof.
    intros ps v G Ns F Ti NI. set (v' := Civil 2000 1 1 (ch v) (cmi v) (cs v) 0). assert (G' : good_time v') by (destruct G as (_ & G); split; [split; cbn; lia | cbn; lia]).
    assert (NX : forall e, In e ["Y"; "m"; "d"]%char -> ~ In (El e) ps).
    { rewrite Forall_forall in F. intros e Ie I. specialize (F _ I). cbn [readable In] in F, Ie. intuition congruence. }
    assert (E : joined (shown v) ps = joined (shown v') ps).
    { clear -F. induction ps as [|p ps IH]; [reflexivity|]. inversion F as [|? ? Fp Fr]; subst. cbn [joined]. rewrite IH by auto. f_equal. destruct p as [e|c]; [|reflexivity].
      cbn [readable In] in Fp. destruct Fp as [[X _]|[_ Fp]]; [congruence|]. repeat destruct Fp as [<-|Fp]; try reflexivity. destruct Fp. }
    exists (joined (shown v) ps), (wall_at (walk v' ps epoch)). split; [apply format_shown; auto; [congruence | apply (utc_wall (wall_at v))]|]. split.
    - rewrite E. unfold TimeFmtModel.parse_time_f. rewrite (parse_shown local read_ansic ansic_text zone_name KTime v' ps G'); auto; [cbn [bind]; now rewrite utc_wall | cbn; lia | left; cbn; lia|].
      apply not_lost. right. right. left. apply NX. cbn. auto.
    - destruct Ti as (T1 & T2 & T3). apply mem_in in T1, T2, T3. apply mem_not in NI. unfold wall_at. rewrite walk_h24, walk_mi, walk_s, walk_ns, T1, T2, T3 by auto. rewrite Ns. cbn [v' ch cmi cs epoch cns].
      rewrite !Z.add_0_r. now rewrite !mod_day.
  Qed.
  Example c148_example : Forall (readable KTime) [El "H"; Ch "."; El "M"; Ch "."; El "S"] /\ format_time_f "%H.%M.%S" (45296 * 1000000000) = Ok "12.34.56" /\
    parse_time_f "%H.%M.%S" "12.34.56" = Ok (45296 * 1000000000).
  Proof. split; [|split; reflexivity]. repeat apply Forall_cons; try apply Forall_nil; try (cbn; discriminate); right; (split; [discriminate | cbn; auto 10]). Qed.

  (** C149: with the offset from UTC at the end, in any zone *)
Theorem c149_zones : forall ps v zone t, good_time v -> 1000 <= cy v <= 9999 -> cns v = 0 -> Forall (readable KTimestamp) ps -> dated ps -> timed ps -> ~ In (El "I") ps ->
    ~ (cm v = 2 /\ cd v = 29) \/ year_first ps -> wall zone t = wall_at v -> zone (unix t) mod 60 = 0 -> Z.abs (zone (unix t)) < 360000 ->
    exists s, format_timestamp (pattern ps ++ "%Ez") t zone = Ok s /\ parse_timestamp_f (pattern ps ++ "%Ez") s = Ok t.
  Proof.
    intros ps v zone t G Y Ns F Da Ti NI N W O1 O2. destruct (zone_round local read_ansic ansic_text zone_name v ps zone t _ G Y Ns F Da Ti NI N O1 O2 W eq_refl) as [P1 P2].
    eexists. split; [exact P1|]. unfold TimeFmtModel.parse_timestamp_f. now rewrite P2.
  Qed.
  Example c149_example : format_timestamp "%Y-%m-%dT%H:%M:%S%Ez" 0 (fixed (-12600)) = Ok "1969-12-31T20:30:00-03:30" /\
    parse_timestamp_f "%Y-%m-%dT%H:%M:%S%Ez" "1969-12-31T20:30:00-03:30" = Ok 0.
  Proof. split; reflexivity. Qed.
End Props.

Print Assumptions c67_any_partial.
Print Assumptions c67_last_refuted.
Print Assumptions c67_once_partial.
Print Assumptions c67_refuted.
Print Assumptions c67_short_year_refuted.
Print Assumptions c67_times_partial.
Print Assumptions c68_exact_partial.
Print Assumptions c68_times_partial.
Print Assumptions c68_literal_refuted.
Print Assumptions c68_rollover_refuted.
Print Assumptions c68_refuted.
Print Assumptions c143_texts.
Print Assumptions c144_exact_partial.
Print Assumptions c144_refuted.
Print Assumptions c145_text_partial.
Print Assumptions c145_dropped_refuted.
Print Assumptions c146_parse_refuted.
Print Assumptions c146_format_refuted.
Print Assumptions c147_halves.
Print Assumptions c148_times.
Print Assumptions c149_zones.
