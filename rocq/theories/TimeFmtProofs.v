(** Proofs about formats and parsing. *)
From Coq Require Import Ascii String List ZArith Lia Bool.
From Verif Require Import TimeTextProofs GoBase GoBaseFacts CalendarModel CalendarFacts InstantModel InstantFacts DecModel DecFacts PartModel PartProofs
  ClockTextModel ClockTextSpec ClockTextProofs TimeFmtModel TimeFmtSpec.
Import ListNotations.
Local Open Scope string_scope.
Open Scope Z_scope.
Local Opaque civil year_start leap godate days_of.

Notation D := 86400000000000.
Lemma mod_at n c : 0 <= c < D -> (n * D + c) mod D = c.
Proof. intros H. rewrite Z.add_comm, Z.mod_add by lia. now apply Z.mod_small. Qed.
(** ** Setting a field *)
Lemma utc_date t y m d h mi s ns : place t = utc -> date_in t y m d h mi s ns = Tm (go_time y m d h mi s ns) utc.
Proof. intros E. unfold date_in. rewrite E. f_equal. unfold from_wall, utc, fixed. lia. Qed.
Lemma utc_wall w : wall_of (Tm w utc) = w.
Proof. unfold wall_of, wall, utc, fixed. cbn. lia. Qed.
Lemma go_time_date y m d w : 1 <= m <= 12 ->
  go_time y m d (hour w) (minute w) (second w) (nanosecond w) = days_of y m d * D + w mod D.
Proof.
  intros M. unfold go_time. rewrite godate_days_of by auto. pose proof (wall_fields w). pose proof (day_no_split w). unfold ns_per_sec. lia.
Qed.
Lemma go_time_clock w h mi s ns : go_time (year (day_no w)) (month (day_no w)) (day (day_no w)) h mi s ns =
  day_no w * D + (h * 3600 + mi * 60 + s) * 1000000000 + ns.
Proof. unfold go_time. rewrite godate_civil. unfold ns_per_sec. lia. Qed.
Lemma is_date_civil n : is_date n (year n) (month n) (day n).
Proof. split; [apply civil_is_valid | symmetry; apply days_of_civil]. Qed.
Lemma is_date_unique n y m d : is_date n y m d -> y = year n /\ m = month n /\ d = day n.
Proof. intros [V ->]. now rewrite year_days_of, month_days_of, day_days_of. Qed.

(** The fields of a wall clock written as a sum *)
Lemma hour_at n h c : 0 <= h <= 23 -> 0 <= c < 3600000000000 -> let w := n * D + h * 3600000000000 + c in
  day_no w = n /\ hour w = h /\ (minute w * 60 + second w) * 1000000000 + nanosecond w = c.
Proof.
  intros H C w. assert (Dn : day_no w = n) by (unfold w; replace (n * D + h * 3600000000000 + c) with (n * D + (h * 3600000000000 + c)) by lia; apply day_no_eq; lia).
  pose proof (wall_fields w) as F. pose proof (field_ranges w) as (R1 & R2 & R3 & R4 & _). rewrite Dn in F. unfold w in F at 1.
  assert (hour w = h) by lia. repeat split; lia.
Qed.
Lemma minute_at n mi c : 0 <= mi <= 59 -> 0 <= c < 60000000000 -> let w := n * 3600000000000 + mi * 60000000000 + c in
  day_no w * 24 + hour w = n /\ minute w = mi /\ second w * 1000000000 + nanosecond w = c.
Proof.
  intros H C w. pose proof (wall_fields w) as F. pose proof (field_ranges w) as (R1 & R2 & R3 & R4 & _). unfold w in F at 1.
  assert (day_no w * 24 + hour w = n) by lia. assert (minute w = mi) by lia. repeat split; lia.
Qed.
Lemma second_at n s c : 0 <= s <= 59 -> 0 <= c < 1000000000 -> let w := n * 60000000000 + s * 1000000000 + c in
  day_no w * 1440 + hour w * 60 + minute w = n /\ second w = s /\ nanosecond w = c.
Proof.
  intros H C w. pose proof (wall_fields w) as F. pose proof (field_ranges w) as (R1 & R2 & R3 & R4 & _). unfold w in F at 1.
  assert (day_no w * 1440 + hour w * 60 + minute w = n) by lia. assert (second w = s) by lia. repeat split; lia.
Qed.

(** Which of the model's setters an element has *)
Definition setter (e : ascii) : Z -> tm -> tm :=
  match e with
  | "Y"%char => set_year | "m"%char => set_month | "d"%char => set_day | "H"%char | "I"%char => set_hour
  | "M"%char => set_minute | _ => set_second
  end.
Lemma setter_utc e x t : place t = utc -> place (setter e x t) = utc.
Proof. intros E. unfold setter. repeat match goal with |- context [match ?a with Ascii _ _ _ _ _ _ _ _ => _ end] => destruct a as [[] [] [] [] [] [] [] []] end; exact E. Qed.
Lemma put_iff e x w w' lo hi k : range e = Some (lo, hi, k) -> lo <= x <= hi ->
  (put e x w w' <-> setter e x (Tm w utc) = Tm w' utc).
Proof.
  intros R X.
  assert (C : e = "Y"%char \/ e = "m"%char /\ 1 <= x <= 12 \/ e = "d"%char \/ (e = "H"%char \/ e = "I"%char) \/ e = "M"%char \/ e = "S"%char).
  { destruct e as [[] [] [] [] [] [] [] []]; try discriminate R; cbn in R; injection R as <- <- <-; auto 10. }
  assert (TM : forall a b, Tm a utc = Tm b utc <-> a = b) by (intros; split; congruence).
  pose proof (day_no_split w) as W. pose proof (Z.mod_pos_bound w D ltac:(lia)) as B. pose proof (month_range (day_no w)) as MR.
  pose proof (wall_fields w) as F. pose proof (field_ranges w) as (R1 & R2 & R3 & R4 & _).
  destruct C as [-> | [[-> Xm] | [-> | [C | [-> | ->]]]]]; try (destruct C as [-> | ->]); cbn [setter];
    unfold set_year, set_month, set_day, set_hour, set_minute, set_second, t_year, t_month, t_day, t_hour, t_minute, t_second, t_nano;
    rewrite utc_date, utc_wall, TM by reflexivity; rewrite ?go_time_date, ?go_time_clock by auto.
  - split; [|intros <-].
    + intros P; inversion P; subst; try (match goal with H : _ \/ _ |- _ => destruct H; discriminate end); try match goal with H : is_date _ _ _ _ |- _ => destruct (is_date_unique _ _ _ _ H) as (-> & -> & ->) end.
      rewrite day_no_eq, mod_at by lia. reflexivity.
    + rewrite W at 1. apply put_Y with (y := year (day_no w)); [apply is_date_civil | lia].
  - split; [|intros <-].
    + intros P; inversion P; subst; try (match goal with H : _ \/ _ |- _ => destruct H; discriminate end); try match goal with H : is_date _ _ _ _ |- _ => destruct (is_date_unique _ _ _ _ H) as (-> & -> & ->) end.
      rewrite day_no_eq, mod_at by lia. reflexivity.
    + rewrite W at 1. apply put_m with (m := month (day_no w)); [apply is_date_civil | lia].
  - split; [|intros <-].
    + intros P; inversion P; subst; try (match goal with H : _ \/ _ |- _ => destruct H; discriminate end); try match goal with H : is_date _ _ _ _ |- _ => destruct (is_date_unique _ _ _ _ H) as (-> & -> & ->) end.
      rewrite day_no_eq, mod_at by lia. reflexivity.
    + rewrite W at 1. apply put_d with (d := day (day_no w)); [apply is_date_civil | lia].
  - split; [|intros <-].
    + intros P; inversion P; subst. match goal with A : 0 <= ?h <= 23, B : 0 <= ?c < _ |- context [?n * D + ?h * 3600000000000 + ?c] => destruct (hour_at n h c A B) as (A1 & A2 & A3); rewrite A1; lia end.
    + replace w with (day_no w * D + hour w * 3600000000000 + ((minute w * 60 + second w) * 1000000000 + nanosecond w)) at 1 by lia.
      replace (day_no w * D + (x * 3600 + minute w * 60 + second w) * 1000000000 + nanosecond w) with
        (day_no w * D + x * 3600000000000 + ((minute w * 60 + second w) * 1000000000 + nanosecond w)) by lia.
      apply put_H; auto; lia.
  - split; [|intros <-].
    + intros P; inversion P; subst. match goal with A : 0 <= ?h <= 23, B : 0 <= ?c < _ |- context [?n * D + ?h * 3600000000000 + ?c] => destruct (hour_at n h c A B) as (A1 & A2 & A3); rewrite A1; lia end.
    + replace w with (day_no w * D + hour w * 3600000000000 + ((minute w * 60 + second w) * 1000000000 + nanosecond w)) at 1 by lia.
      replace (day_no w * D + (x * 3600 + minute w * 60 + second w) * 1000000000 + nanosecond w) with
        (day_no w * D + x * 3600000000000 + ((minute w * 60 + second w) * 1000000000 + nanosecond w)) by lia.
      apply put_H; auto; lia.
  - split; [|intros <-].
    + intros P; inversion P; subst; try (match goal with H : _ \/ _ |- _ => destruct H; discriminate end). match goal with A : 0 <= ?h <= 59, B : 0 <= ?c < _ |- context [?n * 3600000000000 + ?h * 60000000000 + ?c] => destruct (minute_at n h c A B) as (A1 & A2 & A3); lia end.
    + replace w with ((day_no w * 24 + hour w) * 3600000000000 + minute w * 60000000000 + (second w * 1000000000 + nanosecond w)) at 1 by lia.
      replace (day_no w * D + (hour w * 3600 + x * 60 + second w) * 1000000000 + nanosecond w) with
        ((day_no w * 24 + hour w) * 3600000000000 + x * 60000000000 + (second w * 1000000000 + nanosecond w)) by lia.
      apply put_M; lia.
  - split; [|intros <-].
    + intros P; inversion P; subst; try (match goal with H : _ \/ _ |- _ => destruct H; discriminate end). match goal with A : 0 <= ?h <= 59, B : 0 <= ?c < _ |- context [?n * 60000000000 + ?h * 1000000000 + ?c] => destruct (second_at n h c A B) as (A1 & A2 & A3); lia end.
    + replace w with ((day_no w * 1440 + hour w * 60 + minute w) * 60000000000 + second w * 1000000000 + nanosecond w) at 1 by lia.
      replace (day_no w * D + (hour w * 3600 + minute w * 60 + x) * 1000000000 + nanosecond w) with
        ((day_no w * 1440 + hour w * 60 + minute w) * 60000000000 + x * 1000000000 + nanosecond w) by lia.
      apply put_S; lia.
Qed.

(** ** Numbers *)
Lemma drop_app a b : drop (String.length a) (a ++ b) = b.
Proof. induction a as [|c a IH]; [now destruct b | exact IH]. Qed.
Lemma substring_app a b : substring 0 (String.length a) (a ++ b) = a.
Proof. induction a as [|c a IH]; [now destruct b | cbn; now rewrite IH]. Qed.
Lemma is_digit_begins c s : digit_val c <> None <-> begins_digit (String c s).
Proof.
  split.
  - intros H. destruct (digit_val c) as [d|] eqn:E; [|congruence]. exists d, s. split; [eapply digit_val_range; eauto|].
    now rewrite (digit_val_inj _ _ E).
  - intros (d & r & R & E). assert (c = digit d) as -> by congruence. now rewrite digit_val_digit.
Qed.
Lemma lead_spec n : forall s, exists b, s = lead n s ++ b /\ all_digits (lead n s) = true /\ (String.length (lead n s) <= n)%nat /\
  (String.length (lead n s) = n \/ ~ begins_digit b).
Proof.
  induction n as [|n IH]; intros s.
  - exists s. repeat split; auto.
  - destruct s as [|c s].
    + exists "". repeat split; auto; [cbn; lia|]. right. intros (d & r & _ & E). discriminate.
    + cbn [lead]. destruct (digit_val c) as [d|] eqn:E.
      * destruct (IH s) as (b & E1 & E2 & E3 & E4). exists b. cbn [append String.length all_digits]. repeat split.
        -- now rewrite <- E1.
        -- unfold is_digit. now rewrite E.
        -- lia.
        -- destruct E4; [left; lia | now right].
      * exists (String c s). repeat split; auto; [cbn; lia|]. right. rewrite <- is_digit_begins. congruence.
Qed.
Lemma lead_word n : forall word s, all_digits word = true -> (String.length word <= n)%nat ->
  String.length word = n \/ ~ begins_digit s -> lead n (word ++ s) = word.
Proof.
  induction n as [|n IH]; intros word s A L E.
  - destruct word; [reflexivity | cbn in L; lia].
  - destruct word as [|c word]; cbn [append].
    + destruct E as [E|E]; [discriminate|]. destruct s as [|c s]; [reflexivity|]. cbn [lead].
      destruct (digit_val c) eqn:V; [|reflexivity]. exfalso. apply E, is_digit_begins. congruence.
    + cbn [all_digits] in A. apply andb_true_iff in A as [A1 A2]. unfold is_digit in A1. cbn [lead].
      destruct (digit_val c); [|discriminate]. f_equal. apply IH; auto; [cbn in L; lia|]. destruct E as [E|E]; [left; cbn in E; lia | now right].
Qed.
Lemma read_value word v : word <> "" -> (read_nat word = Some v <-> digits_value word v).
Proof.
  intros N. rewrite digits_value_iff. destruct word as [|c word]; [congruence|]. unfold read_nat. rewrite read_positional.
  destruct (positional (String c word)); cbn; split; congruence.
Qed.
Lemma value_digits word v : digits_value word v -> all_digits word = true.
Proof.
  intros H. apply (proj2 (read_digits_some word 0)). exists v. rewrite read_positional. apply digits_value_iff in H. now rewrite H.
Qed.
Lemma number_iff lo hi s k v : number lo hi s = Some (k, v) <->
  exists word behind, s = word ++ behind /\ numeral (String.length (dec hi)) word v behind /\ k = String.length word /\ lo <= v <= hi.
Proof.
  unfold number. set (p := String.length (dec hi)). split.
  - intros H. destruct (lead_spec p s) as (b & E1 & E2 & E3 & E4). exists (lead p s), b.
    destruct (read_nat (lead p s)) as [u|] eqn:R; [|discriminate].
    destruct ((lo <=? u) && (u <=? hi)) eqn:B; [|discriminate]. assert (k = String.length (lead p s)) by congruence. assert (u = v) by congruence. subst u.
    apply andb_true_iff in B as [B1 B2]. apply Z.leb_le in B1, B2.
    assert (N : lead p s <> "") by (intros N; rewrite N in R; discriminate).
    repeat split; auto. { now apply read_value. } destruct (lead p s); [congruence | cbn; lia].
  - intros (word & b & -> & (V & L & F) & -> & R). assert (A := value_digits _ _ V).
    rewrite (lead_word p word b A ltac:(lia) F).
    assert (N : word <> "") by (intros ->; cbn in L; lia). apply (read_value _ _ N) in V. rewrite V.
    destruct ((lo <=? v) && (v <=? hi)) eqn:B; [reflexivity|]. apply andb_false_iff in B as [B|B]; apply Z.leb_gt in B; lia.
Qed.

Section Parse.
  Variable local : loc.
  Variable read_ansic : string -> option Z.
  Variable ansic_text : Z -> string.
  Variable zone_name : tm -> string.
  Notation element := (element local read_ansic ansic_text zone_name).
  Notation items := (items local read_ansic ansic_text zone_name).
  Notation parse_time_format := (parse_time_format local read_ansic ansic_text zone_name).
  Notation format_time := (format_time local read_ansic ansic_text zone_name).

  Definition item_of (p : piece) : item :=
    match p with Ch c => Lit c | El e => match element e with Some i => Elem e i | None => Bad end end.
  Lemma items_pattern more : forall ps f fuel, (forall p, In p ps -> match p with Ch c => c <> "%"%char | El e => element e <> None end) ->
    (String.length (pattern ps ++ f) <= fuel)%nat ->
    exists fuel', items fuel more (pattern ps ++ f) = (map item_of ps ++ items fuel' more f)%list /\ (String.length f <= fuel')%nat.
  Proof.
    induction ps as [|p ps IH]; intros f fuel H L.
    - exists fuel. split; [reflexivity | exact L].
    - assert (Hp := H p (or_introl eq_refl)). assert (Hr : forall q, In q ps -> match q with Ch c => c <> "%"%char | El e => element e <> None end)
        by (intros; apply H; now right).
      destruct p as [e|c].
      + change (pattern (El e :: ps) ++ f) with (String "%" (String e (pattern ps ++ f))) in *.
        destruct fuel as [|fuel]; [cbn in L; lia|].
        destruct (IH f fuel Hr ltac:(cbn in L; lia)) as (fuel' & E & L'). exists fuel'. split; auto.
        assert (Ne : Ascii.eqb e "E" = false).
        { apply Ascii.eqb_neq. intros ->. apply Hp. reflexivity. }
        cbn [TimeFmtModel.items]. rewrite Ne. cbn [Ascii.eqb]. cbn [map item_of app].
        destruct (element e) as [i|]; [|congruence]. now rewrite E.
      + change (pattern (Ch c :: ps) ++ f) with (String c (pattern ps ++ f)) in *.
        destruct fuel as [|fuel]; [cbn in L; lia|].
        destruct (IH f fuel Hr ltac:(cbn in L; lia)) as (fuel' & E & L'). exists fuel'. split; auto.
        apply Ascii.eqb_neq in Hp. cbn [TimeFmtModel.items]. rewrite Hp. cbn [map item_of app]. now rewrite E.
  Qed.
  Lemma items_none fuel more : items fuel more "" = []. Proof. now destruct fuel. Qed.

  (** ** Parsing *)
  Lemma range_element e lo hi k : range e = Some (lo, hi, k) ->
    exists i, element e = Some i /\ parse_ i = numeric lo hi (setter e) /\ String.length (dec hi) = k.
  Proof.
    intros R. destruct e as [[] [] [] [] [] [] [] []]; try discriminate R; cbn in R; injection R as <- <- <-;
      (eexists; split; [reflexivity|]; split; reflexivity).
  Qed.
  Lemma readable_element k e : readable k (El e) -> exists i, element e = Some i /\ available k i = true /\
    (e = "p"%char /\ parse_ i = p_ampm \/ exists r, range e = Some r).
  Proof.
    intros [[K H]|[K H]]; cbn [In] in H; repeat (destruct H as [<-|H]; [eexists; split; [reflexivity|]; split;
      [destruct k; try reflexivity; congruence | try (right; eexists; reflexivity); left; split; reflexivity]|]); destruct H.
  Qed.
  Definition half_of (toks : list (ascii * string)) : option bool :=
    match find (fun p => Ascii.eqb (fst p) "p") toks with Some p => Some (negb (String.eqb (lower (snd p)) "am")) | None => None end.
  Definition mem (c : ascii) (ps : list piece) : bool := existsb (fun p => match p with El e => Ascii.eqb e c | Ch _ => false end) ps.

  Lemma half_other e w toks : e <> "p"%char -> half_of ((e, w) :: toks) = half_of toks.
  Proof. intros H. unfold half_of. cbn [find fst]. apply Ascii.eqb_neq in H. now rewrite H. Qed.
  Lemma lower_letter up low c : (nat_of_ascii up >= 65)%nat -> (nat_of_ascii up <= 90)%nat -> low = ascii_of_nat (nat_of_ascii up + 32) ->
    (lower_ascii c = low <-> letter up low c).
  Proof.
    intros U1 U2 ->. unfold lower_ascii, letter. set (n := nat_of_ascii c).
    assert (N : nat_of_ascii (ascii_of_nat (nat_of_ascii up + 32)) = (nat_of_ascii up + 32)%nat) by (apply nat_ascii_embedding; lia).
    destruct ((65 <=? n) && (n <=? 90))%nat eqn:B.
    - apply andb_true_iff in B as [B1 B2]. apply Nat.leb_le in B1, B2. split.
      + intros E. left. assert (nat_of_ascii (ascii_of_nat (n + 32)) = (n + 32)%nat) by (apply nat_ascii_embedding; lia).
        rewrite E, N in H. assert (n = nat_of_ascii up) by lia. rewrite <- (ascii_nat_embedding c), <- (ascii_nat_embedding up). f_equal. exact H0.
      + intros [->| ->]; [reflexivity|]. unfold n in B2. rewrite N in B2. lia.
    - split; [now right|]. intros [-> | ->]; [|reflexivity]. fold n in U1, U2. apply andb_false_iff in B as [B|B]; apply Nat.leb_gt in B; lia.
  Qed.
  Lemma ampm_word (pm : bool) a b : ((if pm then letter "P" "p" a else letter "A" "a" a) /\ letter "M" "m" b) <->
    lower (String a (String b "")) = (if pm then "pm" else "am").
  Proof.
    rewrite <- (lower_letter "M" "m" b) by (cbn; auto; lia). destruct pm.
    - rewrite <- (lower_letter "P" "p" a) by (cbn; auto; lia). cbn [lower]. split; [intros [-> ->]; reflexivity | intros E; split; congruence].
    - rewrite <- (lower_letter "A" "a" a) by (cbn; auto; lia). cbn [lower]. split; [intros [-> ->]; reflexivity | intros E; split; congruence].
  Qed.
  Lemma ampm_parse s t n t' : p_ampm s t = Some (n, t') <->
    t' = t /\ n = 2%nat /\ exists (pm : bool) a b r, s = String a (String b r) /\ lower (String a (String b "")) = (if pm then "pm" else "am").
  Proof.
    unfold p_ampm. split.
    - intros H. assert (E : lower (substring 0 2 s) = "am" \/ lower (substring 0 2 s) = "pm").
      { destruct (String.eqb_spec (lower (substring 0 2 s)) "am"), (String.eqb_spec (lower (substring 0 2 s)) "pm"); auto. discriminate. }
      assert (exists a b r, s = String a (String b r)) as (a & b & r & ->).
      { destruct s as [|a [|b r]]; [| |eauto]; destruct E as [E|E]; discriminate. }
      change (substring 0 2 (String a (String b r))) with (String a (String b (substring 0 0 r))) in *.
      assert (substring 0 0 r = "") as Z0 by now destruct r. rewrite Z0 in *.
      destruct (String.eqb_spec (lower (String a (String b ""))) "am"), (String.eqb_spec (lower (String a (String b ""))) "pm"); cbn [orb] in H;
        try (injection H as <- <-); try discriminate; repeat split; auto; [exists false | exists false | exists true]; eauto.
    - intros (-> & -> & pm & a & b & r & -> & E). change (substring 0 2 (String a (String b r))) with (String a (String b (substring 0 0 r))).
      replace (substring 0 0 r) with "" by now destruct r. rewrite E. now destruct pm.
  Qed.
  Lemma half_p (pm : bool) a b toks : lower (String a (String b "")) = (if pm then "pm" else "am") ->
    half_of (("p"%char, String a (String b "")) :: toks) = Some pm.
  Proof. intros H. unfold half_of. cbn [find fst snd Ascii.eqb Bool.eqb]. rewrite H. now destruct pm. Qed.

  Lemma skip_blanks_spec s : exists k, s = blanks k ++ skip_blanks s /\ forall r, skip_blanks s <> String " " r.
  Proof.
    induction s as [|c s (k & E & N)]; [exists O; split; [reflexivity | discriminate]|].
    destruct (ascii_dec c " ") as [->|C].
    - exists (S k). split; [cbn [blanks append skip_blanks]; congruence | exact N].
    - exists O. assert (X : skip_blanks (String c s) = String c s).
      { destruct c as [[] [] [] [] [] [] [] []]; try reflexivity. congruence. }
      rewrite X. split; [reflexivity | congruence].
  Qed.
  Lemma skip_blanks_blanks k s : (forall r, s <> String " " r) -> skip_blanks (blanks k ++ s) = s.
  Proof.
    intros N. induction k as [|k IH]; [|exact IH]. cbn [blanks append]. destruct s as [|c s]; [reflexivity|].
    destruct c as [[] [] [] [] [] [] [] []]; try reflexivity. exfalso. now apply (N s).
  Qed.
  Lemma range_p e r : range e = Some r -> e <> "p"%char. Proof. intros H ->. discriminate. Qed.

  Lemma tok_mem c e w toks ps : has_tok ((e, w) :: toks) c || mem c ps = has_tok toks c || mem c (El e :: ps).
  Proof.
    change (has_tok ((e, w) :: toks) c) with (Ascii.eqb e c || has_tok toks c). change (mem c (El e :: ps)) with (Ascii.eqb e c || mem c ps).
    now destruct (Ascii.eqb e c), (has_tok toks c).
  Qed.
  Notation toks_ok toks toks' ps := (forall c, has_tok toks' c = has_tok toks c || mem c ps).
  Lemma reads_parse k l : forall ps s w toks tail w' h', Forall (readable k) ps -> reads ps s w (half_of toks) tail w' h' ->
    exists toks', parse_items k (map item_of ps ++ l) (Some s) (Tm w utc) toks = parse_items k l (Some tail) (Tm w' utc) toks' /\
      half_of toks' = h' /\ toks_ok toks toks' ps.
  Proof.
    intros ps s w toks tail w' h' F R. remember (half_of toks) as h eqn:Hh. revert toks Hh F.
    induction R as [s w h|c x ps s w h t w' h' C R IH|n ps s w h t w' h' N R IH|e lo hi n word v ps s w w1 h t w' h' Rg Nu B P R IH|pm a b ps s w h t w' h' La Lb R IH];
      intros toks Hh F.
    - exists toks. repeat split; auto. intros c. cbn. now rewrite orb_false_r.
    - inversion F; subst. destruct (IH toks eq_refl H2) as (toks' & E & Hf & T). exists toks'. split; [|auto].
      cbn [map item_of app parse_items]. apply Ascii.eqb_neq in C. rewrite C. exact E.
    - inversion F; subst. destruct (IH toks eq_refl H2) as (toks' & E & Hf & T). exists toks'. split; [|auto].
      cbn [map item_of app parse_items Ascii.eqb Bool.eqb option_map]. rewrite skip_blanks_blanks by exact N. exact E.
    - inversion F; subst. destruct (readable_element _ _ H1) as (i & Ei & Av & _). destruct (range_element _ _ _ _ Rg) as (i' & Ei' & Pi & Len).
      assert (i' = i) by congruence. subst i'.
      assert (Pa : parse_ i (word ++ s) (Tm w utc) = Some (String.length word, Tm w1 utc)).
      { rewrite Pi. unfold numeric. rewrite (proj2 (number_iff lo hi (word ++ s) (String.length word) v)).
        - f_equal. f_equal. now apply (put_iff e v w w1 lo hi n).
        - exists word, s. rewrite Len. auto. }
      destruct (IH ((e, word) :: toks)) as (toks' & E & Hf & T); auto.
      { symmetry. apply half_other. eapply range_p; eauto. }
      exists toks'. split.
      + cbn [map item_of app parse_items]. rewrite Ei, Av.
        destruct Nu as (_ & L1 & _). remember (word ++ s) as ws eqn:Ew. destruct ws as [|y ys].
        { destruct word; [cbn in L1; lia | discriminate]. }
        rewrite Pa, Ew, drop_app, substring_app. exact E.
      + split; auto. intros c. rewrite T. apply tok_mem.
    - inversion F; subst. assert (Lw := proj1 (ampm_word pm a b) (conj La Lb)).
      destruct (readable_element _ _ H1) as (i & Ei & Av & [[_ Pi]|[r Hr]]); [|discriminate].
      destruct (IH (("p"%char, String a (String b "")) :: toks)) as (toks' & E & Hf & T); auto.
      { symmetry. now apply half_p. }
      exists toks'. split.
      + cbn [map item_of app parse_items]. rewrite Ei, Av, Pi.
        rewrite (proj2 (ampm_parse (String a (String b s)) (Tm w utc) 2 (Tm w utc))) by (repeat split; exists pm, a, b, s; auto).
        change (substring 0 2 (String a (String b s))) with (String a (String b (substring 0 0 s))).
        replace (substring 0 0 s) with "" by now destruct s. cbn [drop]. exact E.
      + split; auto. intros c. rewrite T. apply tok_mem.
  Qed.

  Lemma parse_reads k : forall ps s w toks tail t' toks', Forall (readable k) ps ->
    parse_items k (map item_of ps) (Some s) (Tm w utc) toks = Some (Some tail, t', toks') ->
    exists w', t' = Tm w' utc /\ reads ps s w (half_of toks) tail w' (half_of toks') /\ toks_ok toks toks' ps.
  Proof.
    induction ps as [|p ps IH]; intros s w toks tail t' toks' F H.
    - cbn in H. injection H as -> <- <-. exists w. repeat split; [constructor|]. intros c. cbn. now rewrite orb_false_r.
    - inversion F as [|? ? Fp Fr]; subst. destruct p as [e|c].
      + destruct (readable_element _ _ Fp) as (i & Ei & Av & Hi). cbn [map item_of parse_items] in H. rewrite Ei, Av in H.
        destruct s as [|a s]; [discriminate|]. destruct Hi as [[-> Pi]|[[[lo hi] n] Rg]].
        * rewrite Pi in H. destruct (p_ampm (String a s) (Tm w utc)) as [[m t1]|] eqn:Pa; [|discriminate].
          apply ampm_parse in Pa as (-> & -> & pm & a' & b & r & Es & Lw). assert (a' = a) by congruence. subst a'. assert (s = String b r) as -> by congruence.
          change (substring 0 2 (String a (String b r))) with (String a (String b (substring 0 0 r))) in H.
          replace (substring 0 0 r) with "" in H by now destruct r. cbn [drop] in H.
          destruct (IH _ _ _ _ _ _ Fr H) as (w' & -> & R & T). exists w'. split; [reflexivity|]. rewrite (half_p pm) in R by exact Lw.
          apply ampm_word in Lw as [La Lb]. split; [eapply reads_half; eauto|].
          intros c. rewrite T. apply tok_mem.
        * destruct (range_element _ _ _ _ Rg) as (i' & Ei' & Pi & Len). assert (i' = i) by congruence. subst i'. rewrite Pi in H. unfold numeric in H.
          destruct (number lo hi (String a s)) as [[m v]|] eqn:Nu; [|discriminate].
          apply number_iff in Nu as (word & behind & Es & Nu & -> & B). rewrite Len in Nu. rewrite Es, drop_app, substring_app in H.
          destruct (setter e v (Tm w utc)) as [w1 pl] eqn:Se. assert (pl = utc) as -> by (pose proof (setter_utc e v (Tm w utc) eq_refl) as X; rewrite Se in X; exact X).
          destruct (IH _ _ _ _ _ _ Fr H) as (w' & -> & R & T). exists w'. split; [reflexivity|].
          rewrite half_other in R by (eapply range_p; eauto). split.
          { rewrite Es. eapply reads_number; eauto. now apply (put_iff e v w w1 lo hi n). }
          intros c. rewrite T. apply tok_mem.
      + cbn [map item_of parse_items] in H. destruct (ascii_dec c " ") as [->|C].
        * cbn [Ascii.eqb Bool.eqb option_map] in H. destruct (skip_blanks_spec s) as (n & Es & N).
          destruct (IH _ _ _ _ _ _ Fr H) as (w' & -> & R & T). exists w'. split; [reflexivity|]. split; [|exact T].
          rewrite Es. now constructor.
        * destruct (Ascii.eqb_spec c " ") as [->|_]; [congruence|]. destruct s as [|x s].
          -- exfalso. clear -H Fr. revert H Fr. generalize (Tm w utc) as t. induction ps as [|p ps IH]; intros t H Fr; [discriminate|].
             inversion Fr; subst. destruct p as [e|c']; cbn [map item_of parse_items] in H.
             ++ destruct (readable_element _ _ H2) as (i & Ei & Av & _). rewrite Ei, Av in H. discriminate.
             ++ destruct (Ascii.eqb c' " "); cbn [option_map] in H; eapply IH; eauto.
          -- destruct (IH _ _ _ _ _ _ Fr H) as (w' & -> & R & T). exists w'. split; [reflexivity|]. split; [now constructor | exact T].
  Qed.

  Lemma reads_cons p ps s w h tl w1 h1 t w' h' : reads [p] s w h tl w1 h1 -> reads ps tl w1 h1 t w' h' -> reads (p :: ps) s w h t w' h'.
  Proof.
    intros R1 R. inversion R1; subst; match goal with H : reads [] _ _ _ _ _ _ |- _ => inversion H; subst end.
    - now constructor.
    - now constructor.
    - eapply reads_number; eauto.
    - eapply reads_half; eauto.
  Qed.
  (** Beyond the end of the text *)
  Lemma parse_beyond k : forall ps t toks x, Forall (readable k) ps ->
    parse_items k (map item_of ps) None t toks = Some x -> x = (None, t, toks) /\ Forall (fun p => exists c, p = Ch c) ps.
  Proof.
    induction ps as [|p ps IH]; intros t toks x F H; [injection H as <-; auto|]. inversion F; subst. destruct p as [e|c]; cbn [map item_of parse_items] in H.
    - destruct (readable_element _ _ H2) as (i & Ei & Av & _). rewrite Ei, Av in H. discriminate.
    - assert (parse_items k (map item_of ps) None t toks = Some x) as H' by (destruct (Ascii.eqb c " "); exact H).
      destruct (IH _ _ _ H3 H'). split; auto. constructor; eauto.
  Qed.
  Lemma chars_beyond k : forall ps t toks, Forall (fun p => exists c, p = Ch c) ps ->
    parse_items k (map item_of ps) None t toks = Some (None, t, toks).
  Proof.
    induction ps as [|p ps IH]; intros t toks F; [reflexivity|]. inversion F as [|? ? [c ->] Fr]; subst. cbn [map item_of parse_items].
    destruct (Ascii.eqb c " "); cbn [option_map]; auto.
  Qed.
  Lemma parse_overrun k : forall ps s w toks, Forall (readable k) ps ->
    ((exists t' toks', parse_items k (map item_of ps) (Some s) (Tm w utc) toks = Some (None, t', toks')) <->
     exists ps1 c ps2 w' h', ps = (ps1 ++ Ch c :: ps2)%list /\ reads ps1 s w (half_of toks) "" w' h' /\ c <> " "%char /\ Forall (fun p => exists c, p = Ch c) ps2).
  Proof.
    intros ps s w toks F. split.
    - revert s w toks F. induction ps as [|p ps IH]; intros s w toks F (t' & toks' & H); [discriminate|]. inversion F as [|? ? Fp Fr]; subst. destruct p as [e|c].
      + destruct (readable_element _ _ Fp) as (i & Ei & Av & Hi). cbn [map item_of parse_items] in H. rewrite Ei, Av in H.
        destruct s as [|a s]; [discriminate|]. destruct (parse_ i (String a s) (Tm w utc)) as [[m t1]|] eqn:Pa; [|discriminate].
        assert (X : exists tl w1 h1, reads [El e] (String a s) w (half_of toks) tl w1 h1 /\ tl = drop m (String a s) /\ t1 = Tm w1 utc /\ h1 = half_of ((e, substring 0 m (String a s)) :: toks)).
        { destruct (parse_reads k [El e] (String a s) w toks (drop m (String a s)) t1 ((e, substring 0 m (String a s)) :: toks)) as (w1 & -> & R & _).
          - now constructor.
          - cbn [map item_of parse_items]. now rewrite Ei, Av, Pa.
          - exists (drop m (String a s)), w1, (half_of ((e, substring 0 m (String a s)) :: toks)). auto. }
        destruct X as (tl & w1 & h1 & R1 & -> & -> & ->).
        destruct (IH _ _ _ Fr (ex_intro _ t' (ex_intro _ toks' H))) as (ps1 & c & ps2 & w' & h' & -> & R & C & Cs).
        exists (El e :: ps1), c, ps2, w', h'. repeat split; auto. exact (reads_cons _ _ _ _ _ _ _ _ _ _ _ R1 R).
      + cbn [map item_of parse_items] in H. destruct (ascii_dec c " ") as [->|C].
        * cbn [Ascii.eqb Bool.eqb option_map] in H. destruct (skip_blanks_spec s) as (n & Es & N).
          destruct (IH _ _ _ Fr (ex_intro _ t' (ex_intro _ toks' H))) as (ps1 & c & ps2 & w' & h' & -> & R & C & Cs).
          exists (Ch " " :: ps1), c, ps2, w', h'. repeat split; auto. rewrite Es. now constructor.
        * destruct (Ascii.eqb_spec c " ") as [->|_]; [congruence|]. destruct s as [|x s].
          -- apply parse_beyond in H as [_ Cs]; auto. exists [], c, ps, w, (half_of toks). repeat split; auto. constructor.
          -- destruct (IH _ _ _ Fr (ex_intro _ t' (ex_intro _ toks' H))) as (ps1 & d & ps2 & w' & h' & -> & R & C' & Cs).
             exists (Ch c :: ps1), d, ps2, w', h'. repeat split; auto. now constructor.
    - intros (ps1 & c & ps2 & w' & h' & -> & R & C & Cs). apply Forall_app in F as [F1 F2]. rewrite map_app.
      destruct (reads_parse k (map item_of (Ch c :: ps2)) ps1 s w toks "" w' h' F1 R) as (toks' & E & _). rewrite E.
      cbn [map item_of parse_items]. apply Ascii.eqb_neq in C. rewrite C. exists (Tm w' utc), toks'. now apply chars_beyond.
  Qed.

  (** ** parseTimeFormat *)
  Lemma mem_in c ps : mem c ps = true <-> In (El c) ps.
  Proof.
    unfold mem. rewrite existsb_exists. split.
    - intros (p & I & E). destruct p as [e|]; [|discriminate]. apply Ascii.eqb_eq in E. now subst.
    - intros I. exists (El c). split; auto. apply Ascii.eqb_refl.
  Qed.
  Lemma mem_not c ps : mem c ps = false <-> ~ In (El c) ps.
  Proof. rewrite <- mem_in. destruct (mem c ps); split; congruence. Qed.
  Lemma readable_items k ps : Forall (readable k) ps -> items (String.length (pattern ps)) 0 (pattern ps) = map item_of ps.
  Proof.
    intros F. destruct (items_pattern 0 ps "" (String.length (pattern ps))) as (f & E & _).
    - intros p I. rewrite Forall_forall in F. specialize (F p I). destruct p as [e|c]; [|exact F]. destruct (readable_element k e F) as (i & -> & _). congruence.
    - rewrite app_empty. lia.
    - rewrite app_empty in E. rewrite E, items_none. apply app_nil_r.
  Qed.
  Lemma set_hour_at x w : set_hour x (Tm w utc) = Tm (day_no w * D + x * 3600000000000 + ((minute w * 60 + second w) * 1000000000 + nanosecond w)) utc.
  Proof.
    unfold set_hour, t_year, t_month, t_day, t_minute, t_second, t_nano. rewrite utc_date, utc_wall, go_time_clock by reflexivity. f_equal. lia.
  Qed.
  Definition final (toks : list (ascii * string)) (t : tm) : tm :=
    match find (fun p => Ascii.eqb (fst p) "p") toks with
    | Some (_, w) => if wants_ampm toks then ampm w t else t
    | None => t
    end.
  Lemma not_mem k ps c : Forall (readable k) ps -> ~ In c ["Y"; "m"; "d"; "H"; "I"; "M"; "S"; "p"]%char -> mem c ps = false.
  Proof.
    intros F N. apply mem_not. intros I. rewrite Forall_forall in F. specialize (F _ I). apply N. cbn [readable In] in F |- *. tauto.
  Qed.
  Lemma final_settled k ps toks w : Forall (readable k) ps -> (forall c, has_tok toks c = mem c ps) ->
    forall w', settled ps (half_of toks) w w' <-> final toks (Tm w utc) = Tm w' utc.
  Proof.
    intros F T w'. assert (Wa : wants_ampm toks = negb (mem "H" ps) && mem "I" ps).
    { unfold wants_ampm. cbn [existsb]. rewrite !T. rewrite (not_mem k ps "X"), (not_mem k ps "T"), (not_mem k ps "R"), (not_mem k ps "k"), (not_mem k ps "l") by (auto; intros N; cbn in N; repeat destruct N as [N|N]; try discriminate; auto).
      cbn [orb]. now rewrite !orb_false_r. }
    unfold final, half_of. destruct (find (fun p => Ascii.eqb (fst p) "p") toks) as [[e wd]|].
    - cbn [snd]. rewrite Wa. set (pm := negb (String.eqb (lower wd) "am")).
      destruct (negb (mem "H" ps) && mem "I" ps) eqn:B.
      + apply andb_true_iff in B as [B1 B2]. apply negb_true_iff in B1. apply mem_not in B1. apply mem_in in B2.
        assert (E : ampm wd (Tm w utc) = Tm (day_no w * D + (if pm then if hour w <? 12 then hour w + 12 else hour w else hour w mod 12) * 3600000000000 + ((minute w * 60 + second w) * 1000000000 + nanosecond w)) utc).
        { unfold ampm. fold pm. replace (String.eqb (lower wd) "am") with (negb pm) by (unfold pm; apply negb_involutive).
          unfold t_hour. rewrite utc_wall, set_hour_at. destruct pm; reflexivity. }
        rewrite E. pose proof (field_ranges w) as (R1 & R2 & R3 & R4 & _). pose proof (wall_fields w) as Fw. split.
        * intros S0. inversion S0; subst; [tauto|]. match goal with A : 0 <= ?h <= 23, C : 0 <= ?c < 3600000000000 |- context [day_no (?n * D + ?h * 3600000000000 + ?c)] => destruct (hour_at n h c A C) as (A1 & A2 & A3); rewrite A1, A2, A3 end. reflexivity.
        * intros E'. injection E' as <-. rewrite Fw at 1.
          replace (day_no w * D + (hour w * 3600 + minute w * 60 + second w) * 1000000000 + nanosecond w) with
            (day_no w * D + hour w * 3600000000000 + ((minute w * 60 + second w) * 1000000000 + nanosecond w)) by lia.
          apply settled_12; auto; lia.
      + assert (Hx : In (El "H") ps \/ ~ In (El "I") ps).
        { apply andb_false_iff in B as [B|B]; [left; apply negb_false_iff in B; now apply mem_in | right; now apply mem_not]. }
        split; [|intros E; injection E as <-; now constructor]. intros S0. inversion S0; subst; [reflexivity | tauto].
    - split; [intros S0; inversion S0; subst; reflexivity | intros E; injection E as <-; constructor].
  Qed.

  Theorem parse_ok k ps s t : Forall (readable k) ps ->
    (parse_time_format k (pattern ps) s = Ok t <->
     exists w h w', reads ps s 0 None "" w h /\ settled ps h w w' /\ t = Tm w' utc).
  Proof.
    intros F. unfold TimeFmtModel.parse_time_format. rewrite (readable_items k ps F). split.
    - destruct (parse_items k (map item_of ps) (Some s) (Tm 0 utc) []) as [[[[[|x r]|] t'] toks]|] eqn:E; try discriminate.
      intros H. fold (final toks t') in H. assert (t = final toks t') as -> by congruence. clear H.
      destruct (parse_reads k ps s 0 [] "" t' toks F E) as (w & -> & R & T). cbn [has_tok existsb orb] in T.
      destruct (final toks (Tm w utc)) as [w' pl] eqn:Fi. assert (pl = utc) as ->.
      { unfold final in Fi. destruct (find _ toks) as [[? ?]|]; [destruct (wants_ampm toks)|]; try (injection Fi; congruence). }
      exists w, (half_of toks), w'. split; [exact R|]. split; [|reflexivity]. now apply (final_settled k ps toks w F T).
    - intros (w & h & w' & R & S0 & ->). destruct (reads_parse k [] ps s 0 [] "" w h F R) as (toks & E & Hf & T). rewrite app_nil_r in E. rewrite E.
      cbn [parse_items]. fold (final toks (Tm w utc)). f_equal. cbn [has_tok existsb orb] in T. rewrite <- Hf in S0. now apply (final_settled k ps toks w F T).
  Qed.
  Theorem parse_panics k ps s : Forall (readable k) ps ->
    (parse_time_format k (pattern ps) s = GoPanic <->
     exists ps1 c ps2 w h, ps = (ps1 ++ Ch c :: ps2)%list /\ reads ps1 s 0 None "" w h /\ c <> " "%char /\ Forall (fun p => exists c, p = Ch c) ps2).
  Proof.
    intros F. rewrite <- (parse_overrun k ps s 0 [] F). unfold TimeFmtModel.parse_time_format. rewrite (readable_items k ps F). split.
    - destruct (parse_items k (map item_of ps) (Some s) (Tm 0 utc) []) as [[[[[|x r]|] t'] toks]|] eqn:E; try discriminate. eauto.
    - intros (t' & toks & ->). reflexivity.
  Qed.
End Parse.

(** ** Printing *)
Lemma udec_length w n : (0 < w)%nat -> 10 ^ Z.of_nat (w - 1) <= n < 10 ^ Z.of_nat w \/ (w = 1%nat /\ n = 0) -> String.length (udec n) = w.
Proof.
  intros W H. assert (N : 0 <= n) by (destruct H; [pose proof (Z.pow_nonneg 10 (Z.of_nat (w - 1))); lia | lia]).
  assert (U : (String.length (udec n) <= w)%nat).
  { assert (X : 0 <= n < 10 ^ Z.of_nat w).
    { destruct H; [lia|]. destruct H as [-> ->]. cbn. lia. }
    pose proof (pad_length w n W X) as P. unfold pad in P. rewrite length_zeros in P. lia. }
  assert (L : (1 <= String.length (udec n))%nat) by (pose proof (udec_nonempty n); destruct (udec n); [congruence | cbn; lia]).
  destruct H as [H|[-> _]]; [|lia].
  pose proof (read_udec n N) as R. unfold read_nat in R. destruct (udec n) as [|c r] eqn:E; [discriminate|]. rewrite read_positional in R.
  destruct (positional (String c r)) as [v|] eqn:P; [|discriminate]. cbn in R. assert (v = n) by congruence. subst v.
  apply positional_nonneg in P. destruct (Nat.le_gt_cases w (String.length (String c r))) as [|Lt]; [lia|].
  assert (10 ^ Z.of_nat (String.length (String c r)) <= 10 ^ Z.of_nat (w - 1)) by (apply Z.pow_le_mono_r; lia). lia.
Qed.
Lemma udec_pad w n : (0 < w)%nat -> 10 ^ Z.of_nat (w - 1) <= n < 10 ^ Z.of_nat w \/ (w = 1%nat /\ n = 0) -> udec n = pad w n.
Proof. intros W H. unfold pad. now rewrite (udec_length w n W H), Nat.sub_diag. Qed.
Lemma positional_three n : 0 <= n < 1000 -> positional (three n) = Some n.
Proof.
  intros H. unfold three. change (String (digit (n / 100)) (two (n mod 100))) with (String (digit (n / 100)) "" ++ two (n mod 100)).
  pose proof (Z.mod_pos_bound n 100 ltac:(lia)). pose proof (Z.div_mod n 100 ltac:(lia)). assert (0 <= n / 100 < 10) by (split; [apply Z.div_pos | apply Z.div_lt_upper_bound]; lia).
  rewrite (positional_app _ _ (n / 100) (n mod 100)).
  - cbn [String.length two]. f_equal. lia.
  - apply digits_value_iff. change (String (digit (n / 100)) "") with ("" ++ String (digit (n / 100)) "").
    replace (n / 100) with (10 * 0 + n / 100) at 2 by lia. now constructor; [|constructor].
  - now apply positional_two.
Qed.
Lemma pad_three n : 0 <= n < 1000 -> pad 3 n = three n.
Proof.
  intros H. apply positional_inj with (v := n); [|apply positional_pad; lia | now apply positional_three].
  rewrite pad_length by (cbn; lia). reflexivity.
Qed.
Lemma pad_one n : 0 <= n < 10 -> pad 1 n = String (digit n) "".
Proof.
  intros H. apply positional_inj with (v := n); [|apply positional_pad; lia |].
  - rewrite pad_length by (cbn; lia). reflexivity.
  - apply digits_value_iff. change (String (digit n) "") with ("" ++ String (digit n) ""). replace n with (10 * 0 + n) at 2 by lia. now constructor; [|constructor].
Qed.
Lemma dec_text n : 0 <= n <= 9999 -> dec n = year_text n.
Proof.
  intros H. unfold dec, year_text. destruct (Z.ltb_spec n 0); [lia|].
  destruct (Z.ltb_spec n 10). { rewrite (udec_pad 1) by (cbn; lia). apply pad_one. lia. }
  destruct (Z.ltb_spec n 100). { rewrite (udec_pad 2) by (cbn; lia). apply pad_two. lia. }
  destruct (Z.ltb_spec n 1000). { rewrite (udec_pad 3) by (cbn; lia). apply pad_three. lia. }
  rewrite (udec_pad 4) by (cbn; lia). apply pad_four. lia.
Qed.

(** The fields of a civil time *)
Lemma fields_at v : good_time v -> let w := wall_at v in day_no w = day_of v /\ year (day_no w) = cy v /\ month (day_no w) = cm v /\ day (day_no w) = cd v /\
  hour w = ch v /\ minute w = cmi v /\ second w = cs v /\ nanosecond w = cns v.
Proof.
  intros (V & H1 & H2 & H3 & H4) w.
  assert (Dn : day_no w = day_of v).
  { unfold w, wall_at, day_of. rewrite <- Z.add_assoc. apply day_no_eq. lia. }
  pose proof (wall_fields w) as F. pose proof (field_ranges w) as (R1 & R2 & R3 & R4 & _). rewrite Dn in F. unfold w in F at 1. unfold wall_at in F. fold (day_of v) in F.
  assert (hour w = ch v) by lia. assert (minute w = cmi v) by lia. assert (second w = cs v) by lia. assert (nanosecond w = cns v) by lia.
  rewrite Dn. unfold day_of. rewrite year_days_of, month_days_of, day_days_of by auto. auto 10.
Qed.

Lemma thursday_eq v : thursday_of v = thursday (day_of v).
Proof.
  unfold thursday_of, thursday, weekday_of. rewrite Zplus_mod_idemp_l.
  replace (day_of v + 4 + 6) with (day_of v + 3 + 1 * 7) by lia. rewrite Z.mod_add by lia. lia.
Qed.
Lemma thursday_mono a b : a <= b -> thursday a <= thursday b.
Proof.
  intros H. unfold thursday. pose proof (Z.div_mod (a + 3) 7 ltac:(lia)). pose proof (Z.div_mod (b + 3) 7 ltac:(lia)).
  pose proof (Z.div_le_mono (a + 3) (b + 3) 7 ltac:(lia) ltac:(lia)). lia.
Qed.
Lemma day_of_mono y m d : 1000 <= y <= 9999 -> valid_date y m d -> -354285 <= days_of y m d <= 2932896.
Proof.
  intros Y V. pose proof (year_days_of _ _ _ V) as E. split.
  - destruct (Z.le_gt_cases (-354285) (days_of y m d)) as [|L]; [auto|]. exfalso.
    assert (year (days_of y m d) <= year (-354286)) as X by (apply year_mono; lia). rewrite E in X. change (year (-354286)) with 999 in X. lia.
  - destruct (Z.le_gt_cases (days_of y m d) 2932896) as [|L]; [auto|]. exfalso.
    assert (year 2932897 <= year (days_of y m d)) as X by (apply year_mono; lia). rewrite E in X. change (year 2932897) with 10000 in X. lia.
Qed.
Lemma isoyear_range v : 1000 <= cy v <= 9999 -> good_time v -> 1000 <= isoyear_of v <= 9999.
Proof.
  intros Y (V & _). unfold isoyear_of. rewrite thursday_eq. pose proof (day_of_mono _ _ _ Y V) as [L U]. fold (day_of v) in L, U.
  pose proof (year_mono _ _ (thursday_mono _ _ L)) as A. pose proof (year_mono _ _ (thursday_mono _ _ U)) as B.
  change (year (thursday (-354285))) with 1000 in A. change (year (thursday 2932896)) with 9999 in B. lia.
Qed.

Section Print.
  Variable local : loc.
  Variable read_ansic : string -> option Z.
  Variable ansic_text : Z -> string.
  Variable zone_name : tm -> string.
  Notation element := (element local read_ansic ansic_text zone_name).
  Notation items := (items local read_ansic ansic_text zone_name).
  Notation item_of := (item_of local read_ansic ansic_text zone_name).
  Notation format_time := (format_time local read_ansic ansic_text zone_name).

  Lemma name_of_day i : 0 <= i < 7 -> name_of day_names i = day_name i.
  Proof. intros H. assert (C : i = 0 \/ i = 1 \/ i = 2 \/ i = 3 \/ i = 4 \/ i = 5 \/ i = 6) by lia. repeat destruct C as [->|C]; subst; reflexivity. Qed.
  Lemma name_of_month m : 1 <= m <= 12 -> name_of month_names (m - 1) = month_name m.
  Proof. intros H. revert m H. apply month_cases; reflexivity. Qed.
  Lemma short_day i : 0 <= i < 7 -> short (day_name i) = three_letters (day_name i).
  Proof. intros H. assert (C : i = 0 \/ i = 1 \/ i = 2 \/ i = 3 \/ i = 4 \/ i = 5 \/ i = 6) by lia. repeat destruct C as [->|C]; subst; reflexivity. Qed.
  Lemma short_month m : 1 <= m <= 12 -> short (month_name m) = three_letters (month_name m).
  Proof. intros H. revert m H. apply month_cases; reflexivity. Qed.
  Lemma four_parts y : 1000 <= y <= 9999 -> dec y = four y.
  Proof. intros H. rewrite dec_text by lia. unfold year_text. destruct (Z.ltb_spec y 10), (Z.ltb_spec y 100), (Z.ltb_spec y 1000); try lia. reflexivity. Qed.
  Lemma blank_text n : 0 <= n <= 99 -> (if (String.length (dec n) =? 1)%nat then String " " (dec n) else dec n) = blank_two n.
  Proof.
    intros H. rewrite dec_text by lia. unfold year_text, blank_two. destruct (Z.ltb_spec n 10); [reflexivity|]. destruct (Z.ltb_spec n 100); [reflexivity | lia].
  Qed.
  Lemma unix_at v t l : wall l t = wall_at v -> unix t = wall_at v / 1000000000 - l (unix t).
  Proof.
    unfold wall, unix, ns_per_sec. intros <-. rewrite Z.div_add by lia. lia.
  Qed.
  Definition has_kind (k : kind) (e : ascii) : bool := match element e with Some i => available k i | None => false end.
  Lemma has_kind_iff k e : documented e (Civil 0 0 0 0 0 0 0) 0 <> None -> (has_kind k e = true <-> has_element k e).
  Proof.
    intros H. split.
    - intros A. destruct e as [[] [] [] [] [] [] [] []]; try (exfalso; apply H; reflexivity); clear H; unfold has_element, other_elements, date_elements, clock_elements; cbn [In];
        destruct k; try discriminate A; auto 50.
    - intros A. unfold has_element, other_elements, date_elements, clock_elements in A. cbn [In] in A.
      destruct k; repeat match goal with H : _ \/ _ |- _ => destruct H end; subst; try contradiction; reflexivity.
  Qed.
  Lemma right_prints e v l t : 1000 <= cy v <= 9999 -> good_time v -> wall l t = wall_at v -> In e right_elements ->
    exists i s, element e = Some i /\ documented e v (l (unix t)) = Some s /\ format_ i (Tm t l) = Ok s.
  Proof.
    intros Y G W I. destruct (fields_at v G) as (Fn & Fy & Fm & Fd & Fh & Fmi & Fs & Fns). assert (G' := G). destruct G' as (V & Gh & Gmi & Gs & Gns).
    pose proof (day_range (day_no (wall_at v))) as Dr. pose proof (dim_range (year (day_no (wall_at v))) (month (day_no (wall_at v)))) as Dm. rewrite Fd in Dr.
    assert (Mr : 1 <= cm v <= 12) by (destruct V; lia).
    assert (Wd : 0 <= weekday_of v < 7) by (apply Z.mod_pos_bound; lia).
    assert (Ty : t_year (Tm t l) = cy v) by (unfold t_year, wall_of; cbn [at_ place]; now rewrite W).
    assert (Tmo : t_month (Tm t l) = cm v) by (unfold t_month, wall_of; cbn [at_ place]; now rewrite W).
    assert (Td : t_day (Tm t l) = cd v) by (unfold t_day, wall_of; cbn [at_ place]; now rewrite W).
    assert (Th : t_hour (Tm t l) = ch v) by (unfold t_hour, wall_of; cbn [at_ place]; now rewrite W).
    assert (Tmi : t_minute (Tm t l) = cmi v) by (unfold t_minute, wall_of; cbn [at_ place]; now rewrite W).
    assert (Ts : t_second (Tm t l) = cs v) by (unfold t_second, wall_of; cbn [at_ place]; now rewrite W).
    assert (Tw : weekday (day_no (wall_of (Tm t l))) = weekday_of v) by (unfold wall_of; cbn [at_ place]; rewrite W, Fn; reflexivity).
    assert (Ti : t_iso_year (Tm t l) = isoyear_of v) by (unfold t_iso_year, wall_of; cbn [at_ place]; rewrite W, Fn; unfold isoyear_of; now rewrite thursday_eq).
    pose proof (isoyear_range v Y G) as Ir.
    pose proof (hundred (cy v) ltac:(lia)) as (C1 & C2 & C3).
    unfold right_elements in I. cbn [In] in I.
    repeat (destruct I as [<-|I]; [eexists; eexists; split; [reflexivity|]; split; [reflexivity|]; cbn [snd format_];
      unfold f_weekday, f_short_weekday, f_month_name, f_short_month, f_century, f_mdy, two_digits, plain, spaced, constant, f_ampm, f_ymd, f_hm, f_hms, f_short_year;
      rewrite ?Ty, ?Tmo, ?Td, ?Th, ?Tmi, ?Ts, ?Tw, ?Ti, ?four_parts by lia; rewrite ?name_of_day, ?name_of_month, ?short_day, ?short_month by lia;
      rewrite ?pad_two, ?pad_four, ?blank_text by lia; try reflexivity|]).
    - cbn [at_]. f_equal. f_equal. exact (unix_at v t l W).
    - destruct I.
  Qed.

  (** A piece whose text is known *)
  Definition prints (k : kind) (t : tm) (txt : piece -> string) (p : piece) : Prop :=
    match p with
    | Ch c => c <> "%"%char /\ txt (Ch c) = String c ""
    | El e => exists i, element e = Some i /\ available k i = true /\ format_ i t = Ok (txt (El e))
    end.
  Lemma format_pieces k t txt l : forall ps, Forall (prints k t txt) ps ->
    format_items k (map item_of ps ++ l) t = bind (format_items k l t) (fun s => Ok (joined txt ps ++ s)).
  Proof.
    induction ps as [|p ps IH]; intros F; [cbn; now destruct (format_items k l t)|]. inversion F as [|? ? Fp Fr]; subst. specialize (IH Fr). destruct p as [e|c].
    - destruct Fp as (i & E & A & P). cbn [map TimeFmtProofs.item_of app format_items joined]. rewrite E, A, P, IH. cbn [bind].
      destruct (format_items k l t); cbn [bind]; auto. now rewrite string_app_assoc.
    - destruct Fp as (C & E). cbn [map TimeFmtProofs.item_of app format_items joined]. rewrite IH, E. destruct (format_items k l t); reflexivity.
  Qed.
  Lemma prints_items k t txt more ps f fuel : Forall (prints k t txt) ps -> (String.length (pattern ps ++ f) <= fuel)%nat ->
    exists fuel', items fuel more (pattern ps ++ f) = (map item_of ps ++ items fuel' more f)%list /\ (String.length f <= fuel')%nat.
  Proof.
    intros F L. apply items_pattern; auto. intros p I. rewrite Forall_forall in F. specialize (F p I). destruct p as [e|c]; cbn [prints] in F.
    - destruct F as (i & -> & _). congruence.
    - tauto.
  Qed.
  Lemma format_pattern k t txt ps : Forall (prints k t txt) ps -> format_time k (pattern ps) t = Ok (joined txt ps).
  Proof.
    intros F. unfold TimeFmtModel.format_time. destruct (prints_items k t txt 1 ps "" (String.length (pattern ps)) F) as (fuel & E & _); [rewrite app_empty; lia|].
    rewrite app_empty in E. rewrite E, items_none, (format_pieces k t txt [] ps F). cbn [format_items bind]. now rewrite app_empty.
  Qed.
End Print.

(** ** What is printed can be read *)
Definition value (v : civil_time) (e : ascii) : Z :=
  match e with
  | "Y"%char => cy v | "m"%char => cm v | "d"%char => cd v | "H"%char => ch v | "I"%char => hour12 (ch v) | "M"%char => cmi v | _ => cs v
  end.
(** The states along a format *)
Inductive steps (v : civil_time) : list piece -> Z -> Z -> Prop :=
| steps_end : forall w, steps v [] w w
| steps_char : forall c ps w w', steps v ps w w' -> steps v (Ch c :: ps) w w'
| steps_half : forall ps w w', steps v ps w w' -> steps v (El "p" :: ps) w w'
| steps_put : forall e r ps w w1 w', range e = Some r -> put e (value v e) w w1 -> steps v ps w1 w' -> steps v (El e :: ps) w w'.
Lemma steps_app v ps qs : forall w w1 w', steps v ps w w1 -> steps v qs w1 w' -> steps v (ps ++ qs) w w'.
Proof. intros w w1 w' A B. induction A; cbn [app]; auto; econstructor; eauto. Qed.
Definition half_after (v : civil_time) (ps : list piece) (h : option bool) : option bool := if mem "p" ps then Some (negb (ch v <? 12)) else h.

Lemma half_after_p v ps h : half_after v ps (Some (negb (ch v <? 12))) = half_after v (El "p" :: ps) h.
Proof. unfold half_after. change (mem "p" (El "p" :: ps)) with true. now destruct (mem "p" ps). Qed.
Lemma half_after_other v e ps h : e <> "p"%char -> half_after v (El e :: ps) h = half_after v ps h.
Proof. intros N. unfold half_after. change (mem "p" (El e :: ps)) with (Ascii.eqb e "p" || mem "p" ps). apply Ascii.eqb_neq in N. now rewrite N. Qed.
Lemma value_two n : 0 <= n <= 99 -> digits_value (two n) n.
Proof. intros H. apply digits_value_iff. apply positional_two. lia. Qed.
Lemma value_year y : 1 <= y <= 9999 -> digits_value (year_text y) y /\ (1 <= String.length (year_text y) <= 4)%nat /\ (1000 <= y -> String.length (year_text y) = 4%nat).
Proof.
  intros H. rewrite <- dec_text by lia. unfold dec. destruct (Z.ltb_spec y 0); [lia|]. split.
  - apply read_value; [apply udec_nonempty | apply read_udec; lia].
  - destruct (Z.ltb_spec y 10). { rewrite (udec_length 1) by (cbn; lia). lia. }
    destruct (Z.ltb_spec y 100). { rewrite (udec_length 2) by (cbn; lia). lia. }
    destruct (Z.ltb_spec y 1000). { rewrite (udec_length 3) by (cbn; lia). lia. }
    rewrite (udec_length 4) by (cbn; lia). lia.
Qed.
Lemma hour12_range h : 1 <= hour12 h <= 12.
Proof. unfold hour12. pose proof (Z.mod_pos_bound (h + 11) 12 ltac:(lia)). lia. Qed.
Lemma word_shown v e lo hi k behind : good_time v -> 1 <= cy v <= 9999 -> range e = Some (lo, hi, k) ->
  (e = "Y"%char -> 1000 <= cy v \/ ~ begins_digit behind) ->
  numeral k (shown v (El e)) (value v e) behind /\ lo <= value v e <= hi.
Proof.
  intros (V & Gh & Gmi & Gs & _) Y R B. assert (Mr : 1 <= cm v <= 12) by (destruct V; lia).
  assert (Dr : 1 <= cd v <= 31) by (destruct V; pose proof (dim_range (cy v) (cm v)); lia). pose proof (hour12_range (ch v)) as Hr.
  destruct e as [[] [] [] [] [] [] [] []]; try discriminate R; cbn in R; injection R as <- <- <-; cbn [shown value]; unfold numeral;
    try (split; [|lia]; split; [apply value_two; lia|]; split; [cbn; lia | now left]).
  destruct (value_year _ Y) as (A1 & A2 & A3). split; [|lia]. repeat split; auto; try lia. destruct (B eq_refl); [left; auto | now right].
Qed.
Lemma digits_head word x : digits_value word x -> (1 <= String.length word)%nat -> begins_digit word.
Proof.
  intros V L. apply value_digits in V. destruct word as [|c r]; [cbn in L; lia|]. apply is_digit_begins. cbn [all_digits] in V.
  apply andb_true_iff in V as [V _]. unfold is_digit in V. destruct (digit_val c); congruence.
Qed.
Lemma begins_app a b : a <> "" -> (begins_digit (a ++ b) <-> begins_digit a).
Proof.
  destruct a as [|c a]; [congruence|]. intros _. cbn [append]. rewrite <- !is_digit_begins. tauto.
Qed.
Lemma skip_other s : (forall r, s <> String " " r) -> skip_blanks s = s.
Proof. intros N. exact (skip_blanks_blanks 0 s N). Qed.

Lemma reads_shown v k tail : good_time v -> 1 <= cy v <= 9999 -> ~ begins_digit tail -> (forall r, tail <> String " " r) ->
  forall ps w w' h, Forall (readable k) ps -> 1000 <= cy v \/ year_ends ps -> steps v ps w w' ->
    reads ps (joined (shown v) ps ++ tail) w h tail w' (half_after v ps h).
Proof.
  intros G Y T1 T2.
  assert (Main : forall ps w w' h, Forall (readable k) ps -> 1000 <= cy v \/ year_ends ps -> steps v ps w w' ->
    reads ps (joined (shown v) ps ++ tail) w h tail w' (half_after v ps h) /\ reads ps (skip_blanks (joined (shown v) ps ++ tail)) w h tail w' (half_after v ps h)).
  2: { intros ps w w' h F C S0. now apply Main. }
  induction ps as [|p ps IH]; intros w w' h F C S0.
  - inversion S0; subst. cbn [joined append]. rewrite skip_other by exact T2. split; constructor.
  - inversion F as [|? ? Fp Fr]; subst. assert (C' : 1000 <= cy v \/ year_ends ps).
    { destruct C as [C|C]; [now left|right]. destruct p as [e|c]; [|exact C]. destruct e as [[] [] [] [] [] [] [] []]; try exact C. exact (proj2 C). }
    destruct p as [e|c].
    + assert (Hd : forall r, joined (shown v) (El e :: ps) ++ tail <> String " " r ->
        reads (El e :: ps) (joined (shown v) (El e :: ps) ++ tail) w h tail w' (half_after v (El e :: ps) h)).
      { intros _ _. inversion S0 as [| |? ? ? S1|? r ? ? w1 ? Rg P S1]; subst.
        - change (joined (shown v) (El "p" :: ps) ++ tail) with (((if ch v <? 12 then "AM" else "PM") ++ joined (shown v) ps) ++ tail). rewrite <- string_app_assoc.
          replace (half_after v (El "p" :: ps) h) with (half_after v ps (Some (negb (ch v <? 12)))) by apply half_after_p.
          destruct (IH w w' (Some (negb (ch v <? 12))) Fr C' S1) as [R _].
          destruct (ch v <? 12); cbn [append negb] in *; (eapply reads_half; [| |exact R]; unfold letter; auto).
        - destruct r as [[lo hi] n].
          assert (Bd : e = "Y"%char -> 1000 <= cy v \/ ~ begins_digit (joined (shown v) ps ++ tail)).
          { intros ->. destruct C as [C|[C _]]; [now left | right]. destruct ps as [|[e'|c'] ps']; [exact T1 | contradiction|].
            cbn [joined shown append]. rewrite <- is_digit_begins. rewrite <- is_digit_begins in C. exact C. }
          destruct (word_shown v e lo hi n (joined (shown v) ps ++ tail) G Y Rg Bd) as (Nu & B).
          change (joined (shown v) (El e :: ps) ++ tail) with ((shown v (El e) ++ joined (shown v) ps) ++ tail). rewrite <- string_app_assoc.
          replace (half_after v (El e :: ps) h) with (half_after v ps h).
          2: { symmetry. apply half_after_other. intros ->. discriminate. }
          eapply reads_number; eauto. apply IH; auto. }
      assert (Nb : forall r, joined (shown v) (El e :: ps) ++ tail <> String " " r).
      { intros r. change (joined (shown v) (El e :: ps) ++ tail) with ((shown v (El e) ++ joined (shown v) ps) ++ tail).
        inversion S0 as [| |? ? ? S1|? [[lo hi] n] ? ? w1 ? Rg P S1]; subst.
        - cbn [shown]. destruct (ch v <? 12); discriminate.
        - destruct (word_shown v e lo hi n "" G Y Rg) as ((Dv & L & _) & _); [right; intros (d & r' & _ & E); discriminate|].
          destruct (digits_head _ _ Dv ltac:(lia)) as (d & r' & Hd' & ->). cbn [append]. intros E. injection E as E _. now apply (digit_not_blank d Hd'). }
      rewrite skip_other by exact Nb. split; apply (Hd "" (Nb "")).
    + inversion S0 as [|? ? ? ? S1| |]; subst. destruct (IH w w' h Fr C' S1) as [A B].
      change (half_after v (Ch c :: ps) h) with (half_after v ps h). change (joined (shown v) (Ch c :: ps) ++ tail) with (String c (joined (shown v) ps ++ tail)).
      destruct (ascii_dec c " ") as [->|Nc].
      * cbn [skip_blanks]. split.
        -- destruct (skip_blanks_spec (joined (shown v) ps ++ tail)) as (n & E & N). rewrite E. change (String " " (blanks n ++ ?s)) with (blanks (S n) ++ s).
           now constructor.
        -- destruct (skip_blanks_spec (joined (shown v) ps ++ tail)) as (n & E & N).
           apply (reads_blanks 0 ps (skip_blanks (joined (shown v) ps ++ tail))); auto.
      * rewrite skip_other by congruence. split; now constructor.
Qed.

(** The fields read so far *)
Definition set_y x (u : civil_time) := Civil x (cm u) (cd u) (ch u) (cmi u) (cs u) (cns u).
Definition set_m x (u : civil_time) := Civil (cy u) x (cd u) (ch u) (cmi u) (cs u) (cns u).
Definition set_d x (u : civil_time) := Civil (cy u) (cm u) x (ch u) (cmi u) (cs u) (cns u).
Definition set_h x (u : civil_time) := Civil (cy u) (cm u) (cd u) x (cmi u) (cs u) (cns u).
Definition set_mi x (u : civil_time) := Civil (cy u) (cm u) (cd u) (ch u) x (cs u) (cns u).
Definition set_s x (u : civil_time) := Civil (cy u) (cm u) (cd u) (ch u) (cmi u) x (cns u).
Definition step (v : civil_time) (u : civil_time) (p : piece) : civil_time :=
  match p with
  | El "Y"%char => set_y (cy v) u | El "m"%char => set_m (cm v) u | El "d"%char => set_d (cd v) u
  | El "H"%char => set_h (ch v) u | El "I"%char => set_h (hour12 (ch v)) u | El "M"%char => set_mi (cmi v) u | El "S"%char => set_s (cs v) u
  | _ => u
  end.
Definition walk (v : civil_time) (ps : list piece) (u : civil_time) : civil_time := fold_left (step v) ps u.
Lemma put_step v u e r : good_time u -> range e = Some r -> put e (value v e) (wall_at u) (wall_at (step v u (El e))).
Proof.
  intros (V & Gh & Gmi & Gs & Gns) R.
  destruct e as [[] [] [] [] [] [] [] []]; try discriminate R; cbn [value step]; unfold wall_at, set_y, set_m, set_d, set_h, set_mi, set_s; cbn [cy cm cd ch cmi cs cns];
    rewrite <- !Z.add_assoc.
  all: match goal with
    | |- put ?e ?x _ _ => first
       [ match e with "Y"%char => apply put_Y with (y := cy u) | "m"%char => apply put_m with (m := cm u) | "d"%char => apply put_d with (d := cd u) end; [split; auto | lia]
       | idtac ]
    end.
  - (* S *)
    replace (days_of (cy u) (cm u) (cd u) * D + ((ch u * 3600 + (cmi u * 60 + cs u)) * 1000000000 + cns u)) with
      ((days_of (cy u) (cm u) (cd u) * 1440 + ch u * 60 + cmi u) * 60000000000 + cs u * 1000000000 + cns u) by lia.
    replace (days_of (cy u) (cm u) (cd u) * D + ((ch u * 3600 + (cmi u * 60 + cs v)) * 1000000000 + cns u)) with
      ((days_of (cy u) (cm u) (cd u) * 1440 + ch u * 60 + cmi u) * 60000000000 + cs v * 1000000000 + cns u) by lia.
    apply put_S; lia.
  - (* M *)
    replace (days_of (cy u) (cm u) (cd u) * D + ((ch u * 3600 + (cmi u * 60 + cs u)) * 1000000000 + cns u)) with
      ((days_of (cy u) (cm u) (cd u) * 24 + ch u) * 3600000000000 + cmi u * 60000000000 + (cs u * 1000000000 + cns u)) by lia.
    replace (days_of (cy u) (cm u) (cd u) * D + ((ch u * 3600 + (cmi v * 60 + cs u)) * 1000000000 + cns u)) with
      ((days_of (cy u) (cm u) (cd u) * 24 + ch u) * 3600000000000 + cmi v * 60000000000 + (cs u * 1000000000 + cns u)) by lia.
    apply put_M; lia.
  - (* I *)
    replace (days_of (cy u) (cm u) (cd u) * D + ((ch u * 3600 + (cmi u * 60 + cs u)) * 1000000000 + cns u)) with
      (days_of (cy u) (cm u) (cd u) * D + ch u * 3600000000000 + ((cmi u * 60 + cs u) * 1000000000 + cns u)) by lia.
    replace (days_of (cy u) (cm u) (cd u) * D + ((hour12 (ch v) * 3600 + (cmi u * 60 + cs u)) * 1000000000 + cns u)) with
      (days_of (cy u) (cm u) (cd u) * D + hour12 (ch v) * 3600000000000 + ((cmi u * 60 + cs u) * 1000000000 + cns u)) by lia.
    apply put_H; auto; lia.
  - (* H *)
    replace (days_of (cy u) (cm u) (cd u) * D + ((ch u * 3600 + (cmi u * 60 + cs u)) * 1000000000 + cns u)) with
      (days_of (cy u) (cm u) (cd u) * D + ch u * 3600000000000 + ((cmi u * 60 + cs u) * 1000000000 + cns u)) by lia.
    replace (days_of (cy u) (cm u) (cd u) * D + ((ch v * 3600 + (cmi u * 60 + cs u)) * 1000000000 + cns u)) with
      (days_of (cy u) (cm u) (cd u) * D + ch v * 3600000000000 + ((cmi u * 60 + cs u) * 1000000000 + cns u)) by lia.
    apply put_H; auto; lia.
Qed.
Lemma readable_range k e : readable k (El e) -> e = "p"%char \/ exists r, range e = Some r.
Proof. intros [[K H]|[K H]]; cbn [In] in H; repeat (destruct H as [<-|H]; [try (right; eexists; reflexivity); now left|]); destruct H. Qed.
Lemma steps_walk v k : forall ps u, Forall (readable k) ps ->
  (forall a p b, ps = (a ++ p :: b)%list -> good_time (walk v a u)) -> steps v ps (wall_at u) (wall_at (walk v ps u)).
Proof.
  induction ps as [|p ps IH]; intros u F H; [constructor|]. inversion F as [|? ? Fp Fr]; subst.
  assert (H' : forall a q b, ps = (a ++ q :: b)%list -> good_time (walk v a (step v u p))) by (intros a q b ->; exact (H (p :: a) q b eq_refl)).
  specialize (IH (step v u p) Fr H'). change (walk v (p :: ps) u) with (walk v ps (step v u p)). destruct p as [e|c].
  - destruct (readable_range k e Fp) as [->|[r R]]; [now constructor|]. eapply steps_put; eauto. apply (put_step v u e r); auto. exact (H [] (El e) ps eq_refl).
  - now constructor.
Qed.

(** The fields after a walk *)
Lemma walk_app v a b u : walk v (a ++ b) u = walk v b (walk v a u).
Proof. unfold walk. apply fold_left_app. Qed.
Ltac walk_field := intros v ps; induction ps as [|p ps IH]; intros u; [reflexivity|];
  match goal with |- context [walk v (p :: ps) u] => change (walk v (p :: ps) u) with (walk v ps (step v u p)) end; rewrite IH;
  destruct p as [e|c]; [|reflexivity];
  match goal with |- context [mem ?x (El e :: ps)] => change (mem x (El e :: ps)) with (Ascii.eqb e x || mem x ps);
    destruct (mem x ps); [now rewrite orb_true_r|]; rewrite orb_false_r; destruct e as [[] [] [] [] [] [] [] []]; reflexivity end.
Lemma walk_y : forall v ps u, cy (walk v ps u) = if mem "Y" ps then cy v else cy u. Proof. walk_field. Qed.
Lemma walk_m : forall v ps u, cm (walk v ps u) = if mem "m" ps then cm v else cm u. Proof. walk_field. Qed.
Lemma walk_d : forall v ps u, cd (walk v ps u) = if mem "d" ps then cd v else cd u. Proof. walk_field. Qed.
Lemma walk_mi : forall v ps u, cmi (walk v ps u) = if mem "M" ps then cmi v else cmi u. Proof. walk_field. Qed.
Lemma walk_s : forall v ps u, cs (walk v ps u) = if mem "S" ps then cs v else cs u. Proof. walk_field. Qed.
Lemma walk_ns : forall v ps u, cns (walk v ps u) = cns u.
Proof.
  intros v ps; induction ps as [|p ps IH]; intros u; [reflexivity|]. change (walk v (p :: ps) u) with (walk v ps (step v u p)). rewrite IH.
  destruct p as [e|c]; [|reflexivity]. destruct e as [[] [] [] [] [] [] [] []]; reflexivity.
Qed.
Lemma walk_h24 : forall v ps u, mem "I" ps = false -> ch (walk v ps u) = if mem "H" ps then ch v else ch u.
Proof.
  intros v ps; induction ps as [|p ps IH]; intros u N; [reflexivity|]. change (walk v (p :: ps) u) with (walk v ps (step v u p)).
  destruct p as [e|c]; [|apply IH; exact N].
  change (mem "I" (El e :: ps)) with (Ascii.eqb e "I" || mem "I" ps) in N. apply orb_false_iff in N as [N1 N2]. rewrite (IH _ N2).
  change (mem "H" (El e :: ps)) with (Ascii.eqb e "H" || mem "H" ps). destruct (mem "H" ps); [now rewrite orb_true_r|]. rewrite orb_false_r.
  destruct e as [[] [] [] [] [] [] [] []]; try reflexivity. discriminate N1.
Qed.
Lemma walk_h12 : forall v ps u, mem "H" ps = false -> ch (walk v ps u) = if mem "I" ps then hour12 (ch v) else ch u.
Proof.
  intros v ps; induction ps as [|p ps IH]; intros u N; [reflexivity|]. change (walk v (p :: ps) u) with (walk v ps (step v u p)).
  destruct p as [e|c]; [|apply IH; exact N].
  change (mem "H" (El e :: ps)) with (Ascii.eqb e "H" || mem "H" ps) in N. apply orb_false_iff in N as [N1 N2]. rewrite (IH _ N2).
  change (mem "I" (El e :: ps)) with (Ascii.eqb e "I" || mem "I" ps). destruct (mem "I" ps); [now rewrite orb_true_r|]. rewrite orb_false_r.
  destruct e as [[] [] [] [] [] [] [] []]; try reflexivity. discriminate N1.
Qed.
Lemma walk_h_range v ps : good_time v -> forall u, 0 <= ch u <= 23 -> 0 <= ch (walk v ps u) <= 23.
Proof.
  intros (_ & G & _). induction ps as [|p ps IH]; intros u H; [exact H|]. change (walk v (p :: ps) u) with (walk v ps (step v u p)). apply IH.
  destruct p as [e|c]; [|exact H]. pose proof (hour12_range (ch v)). destruct e as [[] [] [] [] [] [] [] []]; cbn [step set_h set_y set_m set_d set_mi set_s ch]; lia.
Qed.

Definition epoch : civil_time := Civil 1970 1 1 0 0 0 0.
Lemma wall_epoch : wall_at epoch = 0. Proof. reflexivity. Qed.
(** 29 February with the year still to come *)
Definition lost (v : civil_time) (a : list piece) : Prop := In (El "m") a /\ In (El "d") a /\ ~ In (El "Y") a /\ cm v = 2 /\ cd v = 29.
Lemma feb_1970 m d y : valid_date y m d -> ~ (m = 2 /\ d = 29) -> valid_date 1970 m d.
Proof.
  intros [M B] N. split; [exact M|]. revert B N. revert m M. apply (month_cases (fun m => 1 <= d <= days_in_month y m -> ~ (m = 2 /\ d = 29) -> 1 <= d <= days_in_month 1970 m));
    cbn [days_in_month]; try lia. change (leap 1970) with false. destruct (leap y); lia.
Qed.
Lemma good_walk v a : good_time v -> ~ lost v a -> good_time (walk v a epoch).
Proof.
  intros G N. assert (G' := G). destruct G' as (V & Gh & Gmi & Gs & Gns). unfold good_time. rewrite walk_y, walk_m, walk_d, walk_mi, walk_s, walk_ns.
  split; [|repeat split; try (apply walk_h_range; auto; cbn; lia); cbn [epoch cmi cs cns]; try destruct (mem "M" a); try destruct (mem "S" a); lia].
  cbn [epoch cy cm cd]. pose proof (dim_range (cy v) (cm v)) as Dm.
  destruct (mem "m" a) eqn:Em; [destruct (mem "d" a) eqn:Ed|].
  - destruct (mem "Y" a) eqn:Ey; [exact V|]. apply feb_1970 with (y := cy v); [exact V|]. intros [A B]. apply N.
    apply mem_in in Em, Ed. apply mem_not in Ey. unfold lost. auto.
  - destruct V as [V1 V2]. split; [exact V1|]. pose proof (dim_range (if mem "Y" a then cy v else 1970) (cm v)). lia.
  - split; [lia|]. destruct V as [V1 V2]. cbn [days_in_month]. destruct (mem "d" a); lia.
Qed.
Lemma reads_walk v k ps tail : good_time v -> 1 <= cy v <= 9999 -> ~ begins_digit tail -> (forall r, tail <> String " " r) -> Forall (readable k) ps ->
  1000 <= cy v \/ year_ends ps -> (forall a p b, ps = (a ++ p :: b)%list -> ~ lost v a) ->
  reads ps (joined (shown v) ps ++ tail) 0 None tail (wall_at (walk v ps epoch)) (half_after v ps None).
Proof.
  intros G Y T1 T2 F C N. apply (reads_shown v k tail G Y T1 T2 ps); auto. rewrite <- wall_epoch. apply (steps_walk v k); auto.
  intros a p b E. apply good_walk; eauto.
Qed.
Lemma not_lost v ps : ~ (cm v = 2 /\ cd v = 29) \/ year_first ps \/ ~ In (El "m") ps \/ ~ In (El "d") ps -> forall a p b, ps = (a ++ p :: b)%list -> ~ lost v a.
Proof.
  intros H a p b E (L1 & L2 & L3 & L4). destruct H as [H|[(a' & b' & E' & H)|[H|H]]]; [tauto| | |].
  - assert (X : exists c, a = (a' ++ El "Y" :: c)%list \/ a' = (a ++ c)%list).
    { rewrite E in E'. clear -E'. revert a' E'. induction a as [|x a IH]; intros a' E; [exists a'; now right|]. destruct a' as [|y a'].
      - cbn in E. injection E as -> E. exists a. now left.
      - cbn in E. injection E as <- E. destruct (IH a' E) as (c & [->| ->]); exists c; [now left | now right]. }
    destruct X as (c & [->| ->]).
    + apply L3, in_or_app. right. now left.
    + apply H. split; apply in_or_app; now left.
  - apply H. subst. apply in_or_app. now left.
  - apply H. subst. apply in_or_app. now left.
Qed.

Section Round.
  Variable local : loc.
  Variable read_ansic : string -> option Z.
  Variable ansic_text : Z -> string.
  Variable zone_name : tm -> string.
  Notation element := (element local read_ansic ansic_text zone_name).
  Notation prints := (prints local read_ansic ansic_text zone_name).
  Notation format_time := (format_time local read_ansic ansic_text zone_name).
  Notation parse_time_format := (parse_time_format local read_ansic ansic_text zone_name).

  Lemma prints_shown k v t l p : good_time v -> (k <> KTime -> 1 <= cy v <= 9999) -> wall l t = wall_at v -> readable k p -> p <> El "I" -> prints k (Tm t l) (shown v) p.
  Proof.
    intros G Y W R N. destruct p as [e|c]; [|now split]. destruct (readable_element local read_ansic ansic_text zone_name k e R) as (i & Ei & Av & _). exists i. split; [exact Ei|]. split; [exact Av|].
    destruct (fields_at v G) as (Fn & Fy & Fm & Fd & Fh & Fmi & Fs & Fns). destruct G as (V & Gh & Gmi & Gs & Gns).
    assert (Mr : 1 <= cm v <= 12) by (destruct V; lia). assert (Dr : 1 <= cd v <= 31) by (destruct V; pose proof (dim_range (cy v) (cm v)); lia).
    assert (C : In e ["Y"; "m"; "d"; "H"; "M"; "S"; "p"]%char).
    { cbn [readable] in R. cbn [In] in R |- *. assert (e <> "I"%char) by congruence. intuition congruence. }
    assert (Yr : e = "Y"%char -> 1 <= cy v <= 9999).
    { intros ->. apply Y. intros ->. cbn [readable In] in R. intuition congruence. }
    cbn [In] in C. repeat (destruct C as [<-|C]; [injection Ei as <-; try specialize (Yr eq_refl); cbn [snd format_ shown]; unfold two_digits, plain, f_ampm, t_year, t_month, t_day, t_hour, t_minute, t_second, wall_of; cbn [at_ place];
      rewrite W, ?Fy, ?Fm, ?Fd, ?Fh, ?Fmi, ?Fs, ?pad_two, ?dec_text by lia; reflexivity|]). destruct C.
  Qed.
  Lemma format_shown k v t l ps : good_time v -> (k <> KTime -> 1 <= cy v <= 9999) -> wall l t = wall_at v -> Forall (readable k) ps -> ~ In (El "I") ps ->
    format_time k (pattern ps) (Tm t l) = Ok (joined (shown v) ps).
  Proof.
    intros G Y W F N. apply format_pattern. rewrite Forall_forall in *. intros p I. apply prints_shown; auto. now intros ->.
  Qed.
  Lemma settled_hours v ps w : ~ In (El "I") ps -> settled ps (half_after v ps None) w w.
  Proof. intros N. unfold half_after. destruct (mem "p" ps); constructor. now right. Qed.
  Lemma parse_shown k v ps : good_time v -> 1 <= cy v <= 9999 -> Forall (readable k) ps -> 1000 <= cy v \/ year_ends ps -> (forall a p b, ps = (a ++ p :: b)%list -> ~ lost v a) ->
    ~ In (El "I") ps -> parse_time_format k (pattern ps) (joined (shown v) ps) = Ok (Tm (wall_at (walk v ps epoch)) utc).
  Proof.
    intros G Y F C N NI. apply parse_ok; auto. exists (wall_at (walk v ps epoch)), (half_after v ps None), (wall_at (walk v ps epoch)).
    split; [|split; [now apply settled_hours | reflexivity]].
    rewrite <- (app_empty (joined (shown v) ps)) at 1. apply (reads_walk v k ps ""); auto; [intros (d & r & _ & E); discriminate | discriminate].
  Qed.
  Lemma walk_all v ps : ~ In (El "I") ps -> cns v = 0 -> (In (El "Y") ps /\ In (El "m") ps /\ In (El "d") ps) -> (In (El "H") ps /\ In (El "M") ps /\ In (El "S") ps) ->
    walk v ps epoch = v.
  Proof.
    intros NI Ns (A1 & A2 & A3) (A4 & A5 & A6). apply mem_in in A1, A2, A3, A4, A5, A6. apply mem_not in NI.
    pose proof (walk_y v ps epoch) as E1. pose proof (walk_m v ps epoch) as E2. pose proof (walk_d v ps epoch) as E3. pose proof (walk_h24 v ps epoch NI) as E4.
    pose proof (walk_mi v ps epoch) as E5. pose proof (walk_s v ps epoch) as E6. pose proof (walk_ns v ps epoch) as E7.
    rewrite A1 in E1. rewrite A2 in E2. rewrite A3 in E3. rewrite A4 in E4. rewrite A5 in E5. rewrite A6 in E6. cbn [epoch cns] in E7.
    destruct (walk v ps epoch) as [y m d h mi s ns], v as [y' m' d' h' mi' s' ns']. cbn in *. congruence.
  Qed.
  Lemma walk_date v ps : (In (El "Y") ps /\ In (El "m") ps /\ In (El "d") ps) -> day_of (walk v ps epoch) = day_of v.
  Proof.
    intros (A1 & A2 & A3). apply mem_in in A1, A2, A3. unfold day_of. rewrite walk_y, walk_m, walk_d, A1, A2, A3. reflexivity.
  Qed.
  (** Civil times of a day and of a wall clock *)
  Lemma good_day y m d : valid_date y m d -> good_time (Civil y m d 0 0 0 0).
  Proof. intros V. repeat split; cbn; try apply V; lia. Qed.
  Definition civil_of (w : Z) : civil_time := Civil (year (day_no w)) (month (day_no w)) (day (day_no w)) (hour w) (minute w) (second w) (nanosecond w).
  Lemma good_civil w : good_time (civil_of w) /\ wall_at (civil_of w) = w.
  Proof.
    pose proof (field_ranges w) as (R1 & R2 & R3 & R4 & _). pose proof (wall_fields w) as F. split.
    - split; [apply civil_is_valid|]. cbn [civil_of ch cmi cs cns]. lia.
    - unfold wall_at. cbn [civil_of cy cm cd ch cmi cs cns]. rewrite days_of_civil. lia.
  Qed.
  Lemma day_no_walk v : good_time v -> day_no (wall_at v) = day_of v.
  Proof. intros G. apply (fields_at v G). Qed.
End Round.

(** ** 29 February with the year behind the month and the day *)
Lemma once_split p a b : once p (a ++ b) -> In p a -> once p a /\ ~ In p b.
Proof.
  intros (c & d & E & N1 & N2) I. revert c E N1. induction a as [|x a IH]; intros c E N1; [destruct I|].
  destruct c as [|y c].
  - cbn in E. injection E as -> E. split; [|intros X; apply N2; rewrite <- E; apply in_or_app; now right].
    exists [], a. split; [reflexivity|]. split; [auto|]. intros X. apply N2. rewrite <- E. apply in_or_app. now left.
  - cbn in E. injection E as -> E. destruct I as [->|I]; [exfalso; apply N1; now left|].
    destruct (IH I c E) as ((a1 & b1 & -> & M1 & M2) & M3); [intros X; apply N1; now right|]. split; [|exact M3].
    exists (y :: a1), b1. split; [reflexivity|]. split; [|exact M2]. intros [->|X]; [apply N1; now left | now apply M1].
Qed.
Lemma piece_dec (p q : piece) : {p = q} + {p <> q}. Proof. decide equality; apply ascii_dec. Qed.
Lemma second_of a : once (El "m") a -> once (El "d") a ->
  exists a1 p a2, a = (a1 ++ p :: a2)%list /\ ((p = El "m" /\ In (El "d") a1 /\ ~ In (El "m") a1) \/ (p = El "d" /\ In (El "m") a1 /\ ~ In (El "d") a1)) /\
    ~ In (El "m") a2 /\ ~ In (El "d") a2.
Proof.
  intros (b & c & E & B1 & B2) Od. assert (Od' := Od). rewrite E in Od'. destruct (in_dec piece_dec (El "d") b) as [I|I].
  - destruct (once_split _ _ _ Od' I) as [_ N]. exists b, (El "m"), c. split; [exact E|]. split; [now left|]. split; [exact B2|].
    intros X. apply N. now right.
  - assert (Ic : In (El "d") c).
    { destruct Od as (x & y & E' & _ & _). assert (In (El "d") a) by (rewrite E'; apply in_or_app; right; now left). rewrite E in H. apply in_app_or in H as [H|[H|H]]; [tauto | discriminate | exact H]. }
    apply in_split in Ic as (c1 & c2 & ->). exists (b ++ El "m" :: c1)%list, (El "d"), c2. split; [rewrite E, <- app_assoc; reflexivity|].
    destruct Od' as (x & y & E' & N1 & N2).
    assert (N : ~ In (El "d") (b ++ El "m" :: c1) /\ ~ In (El "d") c2).
    { assert (E2 : ((b ++ El "m" :: c1) ++ El "d" :: c2 = x ++ El "d" :: y)%list) by (rewrite <- E', <- app_assoc; reflexivity).
      clear -E2 N1 N2. revert x E2 N1. generalize (b ++ El "m" :: c1)%list as l. induction l as [|q l IH]; intros x E N1.
      - destruct x as [|z x]; cbn in E; [injection E as E2; subst; auto|]. injection E as E1 E2; subst. exfalso. apply N1. now left.
      - destruct x as [|z x]; cbn in E; injection E as E1 E2; subst; [exfalso; apply N2; apply in_or_app; right; now left|].
        destruct (IH x E2) as [A B]; [intros X; apply N1; now right|]. split; [|exact B]. intros [->|X]; [apply N1; now left | now apply A]. }
    split; [right; split; [reflexivity|]; split; [apply in_or_app; right; now left | apply N]|]. split; [|apply N].
    intros X. apply B2. apply in_or_app. right. now right.
Qed.
Lemma wall_march u : cy u = 1970 -> cm u = 2 -> cd u = 29 -> wall_at u = wall_at (set_d 1 (set_m 3 u)).
Proof. intros E1 E2 E3. unfold wall_at, set_d, set_m. cbn [cy cm cd ch cmi cs cns]. rewrite E1, E2, E3. reflexivity. Qed.
Lemma good_march v u c : good_time v -> good_time u -> cm u = 3 -> cd u = 1 -> ~ In (El "m") c -> ~ In (El "d") c -> good_time (walk v c u).
Proof.
  intros (V & Gh & Gmi & Gs & Gns) (U & Uh & Umi & Us & Uns) M Dd N1 N2. apply mem_not in N1, N2. unfold good_time.
  rewrite walk_y, walk_m, walk_d, walk_mi, walk_s, walk_ns, N1, N2, M, Dd. split.
  - split; [lia|]. pose proof (dim_range (if mem "Y" c then cy v else cy u) 3). lia.
  - repeat split; try (apply walk_h_range; [split; [exact V|]; auto | lia]); try destruct (mem "M" c); try destruct (mem "S" c); lia.
Qed.
Lemma steps_march v k ps : good_time v -> cm v = 2 -> cd v = 29 -> Forall (readable k) ps -> once (El "Y") ps -> once (El "m") ps -> once (El "d") ps -> year_last ps ->
  exists u, good_time u /\ steps v ps 0 (wall_at u) /\ day_of u = days_of (cy v) 3 1.
Proof.
  intros G M Dd F Oy Om Od (a & b & -> & Im & Id). apply Forall_app in F as [Fa Fb].
  destruct (once_split _ _ _ Om Im) as [Oma Nmb]. destruct (once_split _ _ _ Od Id) as [Oda Ndb].
  assert (Ny : ~ In (El "Y") a).
  { intros X. destruct (once_split _ _ _ Oy X) as [_ N]. apply N. now left. }
  destruct (second_of a Oma Oda) as (a1 & p & a2 & -> & Hp & N1 & N2). apply Forall_app in Fa as [Fa1 Fa2]. inversion Fa2 as [|? ? Fp Fa2']; subst.
  assert (L1 : forall x, (exists y, a1 = (x ++ y)%list) -> ~ lost v x).
  { intros x (y & Ey) (X1 & X2 & _). destruct Hp as [(_ & _ & Nx)|(_ & _ & Nx)]; apply Nx; rewrite Ey; apply in_or_app; now left. }
  assert (G1 : good_time (walk v a1 epoch)) by (apply good_walk; auto; apply L1; exists []; now rewrite app_nil_r).
  assert (S1 : steps v a1 0 (wall_at (walk v a1 epoch))).
  { rewrite <- wall_epoch. apply (steps_walk v k); auto. intros x q y E. apply good_walk; auto. apply L1. exists (q :: y). exact E. }
  set (u1 := step v (walk v a1 epoch) p).
  assert (Y1 : mem "Y" a1 = false) by (apply mem_not; intros X; apply Ny; apply in_or_app; now left).
  assert (U1 : cy u1 = 1970 /\ cm u1 = 2 /\ cd u1 = 29 /\ exists e r, p = El e /\ range e = Some r).
  { unfold u1. destruct Hp as [(-> & I1 & I2)|(-> & I1 & I2)]; cbn [step set_m set_d cy cm cd]; rewrite ?walk_y, ?walk_m, ?walk_d, Y1.
    - apply mem_in in I1. rewrite I1. split; [reflexivity|]. split; [auto|]. split; [auto|]. exists "m"%char. eexists. split; reflexivity.
    - apply mem_in in I1. rewrite I1. split; [reflexivity|]. split; [auto|]. split; [auto|]. exists "d"%char. eexists. split; reflexivity. }
  destruct U1 as (U1y & U1m & U1d & e & r & Pe & Re).
  assert (S2 : steps v [p] (wall_at (walk v a1 epoch)) (wall_at u1)).
  { rewrite Pe. eapply steps_put; [exact Re| |constructor]. unfold u1. rewrite Pe. apply (put_step v _ e r G1 Re). }
  set (u2 := set_d 1 (set_m 3 u1)).
  assert (G2 : good_time u2).
  { destruct G1 as (V1 & H1 & H2 & H3 & H4). unfold u2, u1. split; [split; cbn [set_d set_m cy cm cd]; [lia|]; pose proof (dim_range (cy (step v (walk v a1 epoch) p)) 3); lia|].
    rewrite Pe. destruct G as (_ & Gh & Gmi & Gs & Gns). pose proof (hour12_range (ch v)).
    destruct e as [[] [] [] [] [] [] [] []]; cbn [step set_y set_m set_d set_h set_mi set_s ch cmi cs cns]; repeat split; lia. }
  set (c := (a2 ++ El "Y" :: b)%list).
  assert (Nc : ~ In (El "m") c /\ ~ In (El "d") c).
  { unfold c. split; intros X; apply in_app_or in X as [X|[X|X]]; try discriminate; try tauto; [apply Nmb | apply Ndb]; now right. }
  assert (S3 : steps v c (wall_at u2) (wall_at (walk v c u2))).
  { apply (steps_walk v k); [apply Forall_app; auto|]. intros x q y E. apply good_march; auto; intros X; [apply (proj1 Nc) | apply (proj2 Nc)]; rewrite E; apply in_or_app; now left. }
  exists (walk v c u2). split; [apply good_march; tauto || auto|]. split.
  - replace ((a1 ++ p :: a2) ++ El "Y" :: b)%list with (a1 ++ ([p] ++ c))%list by (unfold c; rewrite <- app_assoc; reflexivity).
    apply (steps_app _ _ _ _ _ _ S1). apply (steps_app _ _ _ _ _ _ S2). rewrite (wall_march u1 U1y U1m U1d). exact S3.
  - unfold day_of. rewrite walk_y, walk_m, walk_d. destruct Nc as [N3 N4]. apply mem_not in N3, N4. rewrite N3, N4.
    assert (mem "Y" c = true) as -> by (apply mem_in; unfold c; apply in_or_app; right; now left). reflexivity.
Qed.

Section More.
  Variable local : loc.
  Variable read_ansic : string -> option Z.
  Variable ansic_text : Z -> string.
  Variable zone_name : tm -> string.
  Notation element := (element local read_ansic ansic_text zone_name).
  Notation items := (items local read_ansic ansic_text zone_name).
  Notation item_of := (item_of local read_ansic ansic_text zone_name).
  Notation prints := (prints local read_ansic ansic_text zone_name).
  Notation format_time := (format_time local read_ansic ansic_text zone_name).
  Notation parse_time_format := (parse_time_format local read_ansic ansic_text zone_name).

  Lemma drop_length n : forall s, (String.length (drop n s) <= String.length s)%nat.
  Proof. induction n as [|n IH]; intros s; [now destruct s|]. destruct s as [|c s]; [cbn; lia|]. cbn [drop String.length]. specialize (IH s). lia. Qed.
  Lemma items_fuel more : forall n m f, (String.length f <= n)%nat -> (String.length f <= m)%nat -> items n more f = items m more f.
  Proof.
    induction n as [|n IH]; intros m f A B.
    - destruct f; [now rewrite !items_none | cbn in A; lia].
    - destruct m as [|m]; [destruct f; [now rewrite !items_none | cbn in B; lia]|].
      destruct f as [|c r]; [reflexivity|]. cbn [String.length] in A, B. cbn [TimeFmtModel.items]. destruct (Ascii.eqb c "%").
      + destruct r as [|e r']; [reflexivity|]. cbn [String.length] in A, B. destruct (Ascii.eqb e "E").
        * destruct (combination r') as [[i k]|]; [|reflexivity]. f_equal. apply IH; pose proof (drop_length (k + more) r'); lia.
        * destruct (element e); [|reflexivity]. f_equal. apply IH; lia.
      + f_equal. apply IH; lia.
  Qed.
  Lemma combo_element k e v off s l t : combo k e v off s -> good_time v -> 0 <= cy v <= 9999 -> off mod 60 = 0 -> Z.abs off < 360000 ->
    wall l t = wall_at v -> l (unix t) = off ->
    exists i, (forall rest, combination (e ++ rest) = Some (i, String.length e)) /\ available k i = true /\ format_ i (Tm t l) = Ok s.
  Proof.
    intros C G Y O1 O2 W Lo. destruct (fields_at v G) as (Fn & Fy & Fm & Fd & Fh & Fmi & Fs & Fns). destruct G as (V & Gh & Gmi & Gs & Gns).
    destruct C as [k v off K|v off|k n v off ds K N Dv Ln].
    - eexists. split; [intros rest; reflexivity|]. split; [destruct k; try reflexivity; congruence|].
      cbn [format_]. unfold t_year, wall_of. cbn [at_ place]. now rewrite W, Fy, pad_four by lia.
    - eexists. split; [intros rest; reflexivity|]. split; [reflexivity|]. cbn [format_]. unfold f_offset, t_offset. cbn [at_ place]. rewrite Lo.
      unfold zone_digits. set (q := off / 60). assert (E : off = q * 60) by (unfold q; pose proof (Z.div_mod off 60 ltac:(lia)); lia).
      rewrite E. rewrite Z.quot_mul by lia. rewrite Z.abs_mul. change (Z.abs 60) with 60.
      assert (Q : Z.abs q < 6000) by lia. rewrite Z.div_mul by lia. replace (Z.abs q * 60 / 3600) with (Z.abs q / 60) by (change 3600 with (60 * 60); now rewrite Z.div_mul_cancel_r by lia).
      pose proof (Z.mod_pos_bound (Z.abs q) 60 ltac:(lia)). assert (0 <= Z.abs q / 60 < 100) by (split; [apply Z.div_pos | apply Z.div_lt_upper_bound]; lia).
      rewrite !pad_two by lia. destruct (Z.ltb_spec q 0), (Z.ltb_spec (q * 60) 0); try lia; reflexivity.
    - assert (Hn : forall i, i = Info clocks (p_precision (Z.to_nat n)) (f_precision (Z.to_nat n)) ->
        (forall rest, combination (String (digit n) (String "S" rest)) = Some (i, 2%nat))).
      { intros i -> rest. assert (C : n = 1 \/ n = 2 \/ n = 3 \/ n = 4 \/ n = 5 \/ n = 6) by lia. repeat destruct C as [->|C]; subst; reflexivity. }
      eexists. split; [exact (Hn _ eq_refl)|]. split; [destruct k; try reflexivity; congruence|]. cbn [format_]. unfold f_precision, t_second, t_nano, wall_of. cbn [at_ place].
      rewrite W, Fs, Fns, pad_two by lia. rewrite Z2Nat.id by lia. do 4 f_equal.
      assert (P : 0 <= cns v / 10 ^ (9 - n) < 10 ^ n).
      { pose proof (Z.pow_pos_nonneg 10 (9 - n) ltac:(lia) ltac:(lia)). split; [apply Z.div_pos; lia|]. apply Z.div_lt_upper_bound; [lia|].
        rewrite <- Z.pow_add_r by lia. replace (9 - n + n) with 9 by lia. change (10 ^ 9) with 1000000000. lia. }
      apply positional_inj with (v := cns v / 10 ^ (9 - n)).
      + rewrite Ln. apply pad_length; [lia|]. rewrite Z2Nat.id by lia. exact P.
      + apply positional_pad. lia.
      + now apply digits_value_iff.
  Qed.
  Lemma length_prefix (a b : string) : String.length (a ++ b) = (String.length a + String.length b)%nat.
  Proof. apply length_app_s. Qed.
  Lemma items_E n more r : items (S n) more (String "%" (String "E" r)) =
    match combination r with Some (i, k) => Elem "E" i :: items n more (drop (k + more) r) | None => [Bad] end.
  Proof. reflexivity. Qed.
  Lemma format_combo k i e c f t : (forall rest, combination (e ++ rest) = Some (i, String.length e)) -> available k i = true ->
    format_time k ("%E" ++ e ++ String c f) t = bind (format_ i t) (fun a => bind (format_time k f t) (fun s => Ok (a ++ s))).
  Proof.
    intros C A. unfold TimeFmtModel.format_time. change ("%E" ++ e ++ String c f) with (String "%" (String "E" (e ++ String c f))).
    cbn [String.length]. rewrite items_E, C. cbn [format_items]. rewrite A.
    replace (drop (String.length e + 1) (e ++ String c f)) with f.
    2: { rewrite Nat.add_comm. clear. induction e as [|x e IH]; [now destruct f | exact IH]. }
    match goal with |- context [TimeFmtModel.items _ _ _ _ ?n 1 f] =>
      lazymatch n with String.length f => fail | _ => rewrite (items_fuel 1 n (String.length f) f); [reflexivity| |lia] end end.
    rewrite length_prefix. cbn [String.length]. lia.
  Qed.
  Lemma format_combo_end k i e t : (forall rest, combination (e ++ rest) = Some (i, String.length e)) -> available k i = true ->
    format_time k ("%E" ++ e) t = format_ i t.
  Proof.
    intros C A. unfold TimeFmtModel.format_time. change ("%E" ++ e) with (String "%" (String "E" e)).
    specialize (C ""). rewrite app_empty in C. cbn [String.length]. rewrite items_E, C. cbn [format_items]. rewrite A.
    replace (drop (String.length e + 1) e) with "". { rewrite items_none. cbn [format_items bind]. destruct (format_ i t); cbn [bind]; auto. now rewrite app_empty. }
    rewrite Nat.add_comm. clear. induction e as [|x e IH]; [reflexivity | exact IH].
  Qed.

  (** One element *)
  Lemma format_one k e i t : element e = Some i -> available k i = true -> format_time k (String "%" (String e "")) t = format_ i t.
  Proof.
    intros E A. unfold TimeFmtModel.format_time. cbn [String.length TimeFmtModel.items Ascii.eqb Bool.eqb].
    assert (Ascii.eqb e "E" = false) as ->. { apply Ascii.eqb_neq. intros ->. discriminate. }
    rewrite E. cbn [format_items]. rewrite A. destruct (format_ i t); cbn [bind]; auto. now rewrite app_empty.
  Qed.

  (** A character of the format outside the elements is not looked at *)
  Lemma parse_items_lit k c d l2 : c <> " "%char -> d <> " "%char -> forall l1 r t toks,
    parse_items k (l1 ++ Lit c :: l2) r t toks = parse_items k (l1 ++ Lit d :: l2) r t toks.
  Proof.
    intros C Dd. apply Ascii.eqb_neq in C, Dd. induction l1 as [|x l1 IH]; intros r t toks.
    - cbn [app parse_items]. now rewrite C, Dd.
    - cbn [app parse_items]. destruct x as [a|a i|]; [|destruct (available k i); [|reflexivity]|reflexivity].
      + destruct (Ascii.eqb a " "); apply IH.
      + destruct r as [[|x s]|]; try reflexivity. destruct (parse_ i (String x s) t) as [[n t']|]; [apply IH | reflexivity].
  Qed.
  Lemma parse_lit k ps1 c d ps2 s : c <> " "%char -> d <> " "%char -> c <> "%"%char -> d <> "%"%char -> Forall (readable k) (ps1 ++ ps2) ->
    parse_time_format k (pattern (ps1 ++ Ch c :: ps2)) s = parse_time_format k (pattern (ps1 ++ Ch d :: ps2)) s.
  Proof.
    intros C1 D1 C2 D2 F. apply (proj1 (Forall_app _ _ _)) in F as [F1 F2]. unfold TimeFmtModel.parse_time_format.
    rewrite !(readable_items local read_ansic ansic_text zone_name k) by (apply Forall_app; split; auto; constructor; auto).
    rewrite !map_app. cbn [map TimeFmtProofs.item_of]. now rewrite (parse_items_lit k c d).
  Qed.

  (** ** Crashes *)
  Lemma dec_short y : 0 <= y <= 9999 -> (2 <=? String.length (dec y))%nat = negb (y <? 10).
  Proof.
    intros H. rewrite dec_text by lia. unfold year_text. destruct (Z.ltb_spec y 10); [reflexivity|]. destruct (y <? 100); [reflexivity|]. now destruct (y <? 1000).
  Qed.
  Definition fragile (e : ascii) : bool := existsb (Ascii.eqb e) ["C"; "D"; "x"]%char.
  Lemma element_outcome e i t : element e = Some i -> 0 <= t_year t <= 9999 ->
    if fragile e && (t_year t <? 10) then format_ i t = GoPanic else exists s, format_ i t = Ok s.
  Proof.
    intros E Y.
    assert (K : In e (map fst (elements local read_ansic ansic_text zone_name))).
    { unfold TimeFmtModel.element in E. destruct (find _ _) as [[e' i']|] eqn:Fi; [|discriminate]. apply find_some in Fi as [I X]. cbn [fst] in X. apply Ascii.eqb_eq in X. subst e'.
      change e with (fst (e, i')). now apply in_map. }
    cbn [elements map fst In] in K. pose proof (dec_short _ Y) as Ds.
    repeat (destruct K as [<-|K]; [injection E as <-; cbn [fragile existsb Ascii.eqb Bool.eqb orb andb snd format_];
      unfold f_century, f_mdy, cut_to, cut_from; try (rewrite Ds; destruct (t_year t <? 10); cbn [negb bind]); eauto; eexists; reflexivity|]).
    destruct K.
  Qed.
  Lemma format_panics k t : 0 <= t_year t <= 9999 -> forall ps,
    (forall p, In p ps -> match p with Ch c => c <> "%"%char | El e => has_kind local read_ansic ansic_text zone_name k e = true end) ->
    (format_time k (pattern ps) t = GoPanic <-> t_year t < 10 /\ exists e, In (El e) ps /\ fragile e = true).
  Proof.
    intros Y ps H. unfold TimeFmtModel.format_time. destruct (items_pattern local read_ansic ansic_text zone_name 1 ps "" (String.length (pattern ps))) as (fu & E & _).
    { intros p I. specialize (H p I). destruct p as [e|c]; [|exact H]. unfold has_kind in H. intros N. rewrite N in H. discriminate. }
    { rewrite app_empty. lia. }
    rewrite app_empty in E. rewrite E, items_none, app_nil_r. clear E fu.
    assert (X : (format_items k (map item_of ps) t = GoPanic /\ t_year t < 10 /\ (exists e, In (El e) ps /\ fragile e = true)) \/
      ((exists s, format_items k (map item_of ps) t = Ok s) /\ ~ (t_year t < 10 /\ exists e, In (El e) ps /\ fragile e = true))).
    { induction ps as [|p ps IH]; [right; split; [eexists; reflexivity | intros (_ & e & [] & _)]|].
      assert (Hp := H p (or_introl eq_refl)). assert (Hr : forall q, In q ps -> match q with Ch c => c <> "%"%char | El e => has_kind local read_ansic ansic_text zone_name k e = true end) by (intros; apply H; now right).
      specialize (IH Hr). destruct p as [e|c].
      - unfold has_kind in Hp. destruct (element e) as [i|] eqn:Ei; [|discriminate]. pose proof (element_outcome e i t Ei Y) as O.
        cbn [map TimeFmtProofs.item_of format_items]. rewrite Ei, Hp. destruct (fragile e && (t_year t <? 10)) eqn:Fr.
        + left. rewrite O. cbn [bind]. apply andb_true_iff in Fr as [F1 F2]. apply Z.ltb_lt in F2. split; [reflexivity|]. split; [exact F2|]. exists e. split; [now left | exact F1].
        + destruct O as [a O]. rewrite O. cbn [bind]. destruct IH as [(A & B & e' & C1 & C2)|((s & A) & B)]; rewrite A; cbn [bind].
          * left. split; [reflexivity|]. split; [exact B|]. exists e'. split; [now right | exact C2].
          * right. split; [eexists; reflexivity|]. intros (Lt & e' & [Ee|I] & F'); [|apply B; eauto]. injection Ee as ->. rewrite F' in Fr. cbn in Fr. apply Z.ltb_ge in Fr. lia.
      - cbn [map TimeFmtProofs.item_of format_items]. destruct IH as [(A & B & e' & C1 & C2)|((s & A) & B)]; rewrite A; cbn [bind].
        * left. split; [reflexivity|]. split; [exact B|]. exists e'. split; [now right | exact C2].
        * right. split; [eexists; reflexivity|]. intros (Lt & e' & [Ee|I] & F'); [discriminate | apply B; eauto]. }
    destruct X as [(A & B)|((s & A) & B)]; rewrite A; split; try tauto; try discriminate.
  Qed.
End More.

(** ** %Ez *)
Lemma digit_colon d : 0 <= d < 10 -> Ascii.eqb (digit d) ":" = false.
Proof. intros H. assert (C : d = 0 \/ d = 1 \/ d = 2 \/ d = 3 \/ d = 4 \/ d = 5 \/ d = 6 \/ d = 7 \/ d = 8 \/ d = 9) by lia. repeat destruct C as [->|C]; subst; reflexivity. Qed.
Lemma parse_two n : 0 <= n <= 99 -> parse_int (two n) = Some n.
Proof.
  intros H. destruct (ten n ltac:(lia)) as (T1 & T2 & T3). unfold parse_int, two.
  destruct (digit_not_sign (digit (n / 10))) as [S1 S2]; [unfold is_digit; now rewrite digit_val_digit|]. rewrite S1, S2.
  unfold read_nat. cbn [read_digits]. rewrite !digit_val_digit by lia. replace (10 * (10 * 0 + n / 10) + n mod 10) with n by lia.
  rewrite in64b_true; [reflexivity|]. unfold in64, two63. lia.
Qed.
Lemma p_offset_text off t : off mod 60 = 0 -> Z.abs off < 360000 -> p_offset (zone_digits ":" off) t = Some (6%nat, in_zone off t).
Proof.
  intros O1 O2. unfold zone_digits. set (a := Z.abs off / 3600). set (b := Z.abs off / 60 mod 60).
  assert (A : 0 <= a <= 99) by (unfold a; split; [apply Z.div_pos; lia | assert (Z.abs off / 3600 < 100) by (apply Z.div_lt_upper_bound; lia); lia]).
  assert (B : 0 <= b < 60) by (apply Z.mod_pos_bound; lia).
  assert (E : a * 60 * 60 + b * 60 = Z.abs off).
  { unfold a, b. assert (Z.abs off mod 60 = 0) by (destruct (Z.abs_spec off) as [[_ ->]|[_ ->]]; [exact O1 | rewrite Z.mod_opp_l_z; lia]).
    pose proof (Z.div_mod (Z.abs off) 60 ltac:(lia)). pose proof (Z.div_mod (Z.abs off / 60) 60 ltac:(lia)).
    replace (Z.abs off / 3600) with (Z.abs off / 60 / 60) by (rewrite Z.div_div by lia; reflexivity). lia. }
  destruct (ten a ltac:(lia)) as (A1 & A2 & _). destruct (ten b ltac:(lia)) as (B1 & B2 & _).
  assert (Sp : split1 ":" (two a ++ ":" ++ two b) = [two a; two b]).
  { unfold two. cbn [append split1]. rewrite !digit_colon by lia. reflexivity. }
  assert (Ln : (String.length (two a ++ ":" ++ two b) =? 5)%nat = true) by reflexivity.
  destruct (Z.ltb_spec off 0).
  - change ("-" ++ two a ++ ":" ++ two b) with (String "-" (two a ++ ":" ++ two b)). unfold p_offset. cbn [Ascii.eqb Bool.eqb orb].
    rewrite Ln, Sp. cbn [String.length two Nat.eqb andb]. fold (two a). fold (two b). rewrite !parse_two by lia.
    replace (- (a * 60 * 60 + b * 60)) with off by lia. reflexivity.
  - change ("+" ++ two a ++ ":" ++ two b) with (String "+" (two a ++ ":" ++ two b)). unfold p_offset. cbn [Ascii.eqb Bool.eqb orb].
    rewrite Ln, Sp. cbn [String.length two Nat.eqb andb]. fold (two a). fold (two b). rewrite !parse_two by lia.
    replace (a * 60 * 60 + b * 60) with off by lia. reflexivity.
Qed.
Lemma in_zone_utc off w : in_zone off (Tm w utc) = Tm (w - off * 1000000000) (fixed off).
Proof.
  unfold in_zone, date_in. cbn [place]. unfold t_year, t_month, t_day, t_hour, t_minute, t_second, t_nano. rewrite utc_wall, go_time_clock.
  f_equal. rewrite from_wall_fixed. pose proof (wall_fields w). lia.
Qed.
Section Zone.
  Variable local : loc.
  Variable read_ansic : string -> option Z.
  Variable ansic_text : Z -> string.
  Variable zone_name : tm -> string.
  Notation format_time := (format_time local read_ansic ansic_text zone_name).
  Notation parse_time_format := (parse_time_format local read_ansic ansic_text zone_name).
  Lemma zone_round v ps l t off : good_time v -> 1000 <= cy v <= 9999 -> cns v = 0 -> Forall (readable KTimestamp) ps -> dated ps -> timed ps -> ~ In (El "I") ps ->
    ~ (cm v = 2 /\ cd v = 29) \/ year_first ps -> off mod 60 = 0 -> Z.abs off < 360000 -> wall l t = wall_at v -> l (unix t) = off ->
    let s := joined (shown v) ps ++ zone_digits ":" off in
    format_time KTimestamp (pattern ps ++ "%Ez") (Tm t l) = Ok s /\ parse_time_format KTimestamp (pattern ps ++ "%Ez") s = Ok (Tm t (fixed off)).
  Proof.
    intros G Y Ns F Da Ti NI N O1 O2 W Lo s.
    destruct (combo_element KTimestamp "z" v off (zone_digits ":" off) l t (combo_zone v off) G ltac:(lia) O1 O2 W Lo) as (i & Ci & Av & Fi).
    assert (Pr : Forall (prints local read_ansic ansic_text zone_name KTimestamp (Tm t l) (shown v)) ps).
    { rewrite Forall_forall in *. intros p I. apply prints_shown; auto; [intros _; lia|]. now intros ->. }
    split.
    - unfold TimeFmtModel.format_time. destruct (prints_items local read_ansic ansic_text zone_name _ _ _ 1 ps "%Ez" (String.length (pattern ps ++ "%Ez")) Pr ltac:(lia)) as (fu & E & L).
      rewrite E, (format_pieces local read_ansic ansic_text zone_name _ _ _ _ ps Pr).
      destruct fu as [|fu]; [cbn in L; lia|]. change "%Ez" with (String "%" (String "E" "z")). rewrite items_E. rewrite (Ci "" : combination "z" = _). cbn [String.length Nat.add drop]. rewrite items_none.
      cbn [format_items]. rewrite Av, Fi. cbn [bind]. now rewrite app_empty.
    - unfold TimeFmtModel.parse_time_format. destruct (prints_items local read_ansic ansic_text zone_name _ _ _ 0 ps "%Ez" (String.length (pattern ps ++ "%Ez")) Pr ltac:(lia)) as (fu & E & L).
      rewrite E. destruct fu as [|fu]; [cbn in L; lia|]. change "%Ez" with (String "%" (String "E" "z")). rewrite items_E. rewrite (Ci "" : combination "z" = _). cbn [String.length Nat.add drop]. rewrite items_none.
      assert (Hz : exists x r, zone_digits ":" off = String x r /\ ~ begins_digit (String x r) /\ x <> " "%char).
      { unfold zone_digits. destruct (off <? 0); eexists; eexists; (split; [reflexivity|]; split; [rewrite <- is_digit_begins; intros X; apply X; reflexivity | discriminate]). }
      destruct Hz as (x & r & Ez & Hd & Hb).
      assert (R : reads ps s 0 (half_of []) (zone_digits ":" off) (wall_at (walk v ps epoch)) (half_after v ps None)).
      { apply (reads_walk v KTimestamp ps); auto; try lia; try (rewrite Ez; exact Hd); try (intros q; rewrite Ez; congruence); try (apply not_lost; tauto). }
      destruct (reads_parse local read_ansic ansic_text zone_name KTimestamp [Elem "E" i] ps s 0 [] _ _ _ F R) as (toks & P & _ & T).
      rewrite P, Ez. cbn [parse_items]. rewrite Av.
      assert (Pi : parse_ i = p_offset) by (pose proof (Ci "") as X; cbn in X; injection X as <-; reflexivity). rewrite Pi, <- Ez, p_offset_text by auto.
      assert (drop 6 (zone_digits ":" off) = "") as -> by (unfold zone_digits; now destruct (off <? 0)).
      assert (wall_at (walk v ps epoch) = wall_at v) as ->.
      { f_equal. apply walk_all; auto. }
      rewrite in_zone_utc.
      assert (wall_at v - off * 1000000000 = t) as ->.
      { rewrite <- W. unfold wall. rewrite Lo. unfold ns_per_sec. lia. }
      destruct (find _ _) as [[? w]|]; [|reflexivity].
      assert (wants_ampm (("E"%char, substring 0 6 (zone_digits ":" off)) :: toks) = false) as ->; [|reflexivity].
      unfold wants_ampm. assert (Hh : has_tok (("E"%char, substring 0 6 (zone_digits ":" off)) :: toks) "H" = true).
      { change (has_tok toks "H" = true). rewrite T. apply orb_true_iff. right. apply mem_in. apply Ti. }
      cbn [existsb]. rewrite Hh. rewrite !orb_true_r. reflexivity.
  Qed.
End Zone.

Local Transparent days_of.
Lemma days_of_eq y m d : days_of y m d = year_start y + days_before y m + (d - 1).
Proof. reflexivity. Qed.
Local Opaque days_of.

(** ** Texts of numbers *)
Lemma positional_dec n : 0 <= n -> positional (dec n) = Some n.
Proof. intros H. unfold dec. destruct (Z.ltb_spec n 0); [lia|]. now apply positional_udec. Qed.
Lemma dec_two a b : 0 <= a <= 9999 -> 0 <= b <= 99 -> (dec a = two b <-> a = b /\ 10 <= a).
Proof.
  intros A B. split.
  - intros E. assert (positional (dec a) = positional (two b)) by now rewrite E. rewrite positional_dec, positional_two in H by lia. assert (a = b) by congruence. split; [exact H0|].
    destruct (Z.lt_ge_cases a 10); [|lia]. rewrite dec_text in E by lia. unfold year_text in E. destruct (Z.ltb_spec a 10); [discriminate | lia].
  - intros [<- H]. rewrite dec_text by lia. unfold year_text. destruct (Z.ltb_spec a 10), (Z.ltb_spec a 100); try lia. reflexivity.
Qed.
Lemma dec_three a b : 0 <= a <= 9999 -> 0 <= b <= 999 -> (dec a = three b <-> a = b /\ 100 <= a).
Proof.
  intros A B. split.
  - intros E. assert (positional (dec a) = positional (three b)) by now rewrite E. rewrite positional_dec, positional_three in H by lia. assert (a = b) by congruence. split; [exact H0|].
    destruct (Z.lt_ge_cases a 100); [|lia]. rewrite dec_text in E by lia. unfold year_text in E. destruct (Z.ltb_spec a 10); [discriminate|]. destruct (Z.ltb_spec a 100); [discriminate | lia].
  - intros [<- H]. rewrite dec_text by lia. unfold year_text. destruct (Z.ltb_spec a 10), (Z.ltb_spec a 100), (Z.ltb_spec a 1000); try lia. reflexivity.
Qed.
Lemma positional_one b : 0 <= b <= 9 -> positional (String (digit b) "") = Some b.
Proof. intros H. rewrite <- pad_one by lia. apply positional_pad. lia. Qed.
Lemma dec_one a b : 0 <= a <= 9999 -> 0 <= b <= 9 -> (dec a = String (digit b) "" <-> a = b).
Proof.
  intros A B. split.
  - intros E. assert (positional (dec a) = positional (String (digit b) "")) by now rewrite E. rewrite positional_dec, positional_one in H by lia. congruence.
  - intros <-. rewrite dec_text by lia. unfold year_text. destruct (Z.ltb_spec a 10); [reflexivity | lia].
Qed.
Lemma two_same a b : 0 <= a <= 99 -> 0 <= b <= 99 -> (two a = two b <-> a = b).
Proof.
  intros A B. split; [|congruence]. intros E. assert (positional (two a) = positional (two b)) by now rewrite E. rewrite !positional_two in H by lia. congruence.
Qed.
Lemma two_blank a : 0 <= a <= 99 -> (two a = blank_two a <-> 10 <= a).
Proof.
  intros A. unfold blank_two. destruct (Z.ltb_spec a 10); split; try lia; auto. unfold two. rewrite Z.div_small by lia. discriminate.
Qed.
Lemma blank_same a b : 0 <= a <= 99 -> 0 <= b <= 99 -> (blank_two a = blank_two b <-> a = b).
Proof.
  intros A B. split; [|congruence]. unfold blank_two. destruct (Z.ltb_spec a 10), (Z.ltb_spec b 10).
  - intros E. assert (String (digit a) "" = String (digit b) "") by congruence. assert (positional (String (digit a) "") = positional (String (digit b) "")) by now rewrite H1.
    rewrite !positional_one in H2 by lia. congruence.
  - intros E. exfalso. assert (X : " "%char = digit (b / 10)) by (unfold two in E; congruence). pose proof (digit_val_digit (b / 10) ltac:(split; [apply Z.div_pos | apply Z.div_lt_upper_bound]; lia)) as Y. rewrite <- X in Y. discriminate.
  - intros E. exfalso. assert (X : " "%char = digit (a / 10)) by (unfold two in E; congruence). pose proof (digit_val_digit (a / 10) ltac:(split; [apply Z.div_pos | apply Z.div_lt_upper_bound]; lia)) as Y. rewrite <- X in Y. discriminate.
  - apply two_same; lia.
Qed.
(** The ISO week and the day of the year *)
Lemma yearday_at v : good_time v -> yearday_of v = yearday (day_of v) /\ 1 <= yearday_of v <= 366.
Proof.
  intros G. destruct (fields_at v G) as (Fn & Fy & _). assert (E : yearday_of v = yearday (day_of v)).
  { unfold yearday_of, yearday. rewrite <- Fn, Fy. rewrite Fn, (days_of_eq (cy v) 1 1). change (days_before (cy v) 1) with 0. lia. }
  split; [exact E|]. rewrite E. apply yearday_range.
Qed.
Lemma isoweek_at v : isoweek_of v = iso_week (day_of v) /\ 1 <= isoweek_of v <= 53.
Proof.
  assert (E : isoweek_of v = iso_week (day_of v)).
  { unfold isoweek_of, isoyear_of, iso_week, yearday. rewrite thursday_eq, days_of_eq. change (days_before (year (thursday (day_of v))) 1) with 0.
    f_equal. f_equal. lia. }
  split; [exact E|]. rewrite E. unfold iso_week. pose proof (yearday_range (thursday (day_of v))).
  assert (0 <= (yearday (thursday (day_of v)) - 1) / 7 <= 52); [|lia]. split; [apply Z.div_pos; lia|]. assert ((yearday (thursday (day_of v)) - 1) / 7 < 53) by (apply Z.div_lt_upper_bound; lia). lia.
Qed.
Section Wrong.
  Variable local : loc.
  Variable read_ansic : string -> option Z.
  Variable ansic_text : Z -> string.
  Variable zone_name : tm -> string.
  Notation format_time := (format_time local read_ansic ansic_text zone_name).
  Notation element := (element local read_ansic ansic_text zone_name).
  Lemma agrees_iff e v i s s' : element e = Some i -> available KDatetime i = true -> documented e v 0 = Some s -> format_ i (Tm (wall_at v) utc) = Ok s' ->
    ((exists x, documented e v 0 = Some x /\ format_time KDatetime (String "%" (String e "")) (Tm (wall_at v) utc) = Ok x) <-> s' = s).
  Proof.
    intros E A Do Fo. rewrite (format_one local read_ansic ansic_text zone_name KDatetime e i _ E A), Fo, Do. split.
    - intros (x & X1 & X2). congruence.
    - intros ->. exists s. auto.
  Qed.
  Lemma hour12_same h : 0 <= h <= 23 -> (h = hour12 h <-> 1 <= h <= 12).
  Proof.
    intros H. unfold hour12. destruct (Z.eq_dec h 0) as [->|]; [cbn; lia|]. destruct (Z.le_gt_cases h 12).
    - replace (h + 11) with (h - 1 + 1 * 12) by lia. rewrite Z.mod_add, Z.mod_small by lia. lia.
    - replace (h + 11) with (h - 13 + 2 * 12) by lia. rewrite Z.mod_add, Z.mod_small by lia. lia.
  Qed.
  Lemma hour12_mod h : 0 <= h <= 23 -> (h mod 12 = hour12 h <-> h mod 12 <> 0).
  Proof.
    intros H. assert (Q : (h + 11) mod 12 = if h mod 12 =? 0 then 11 else h mod 12 - 1).
    { destruct (Z.lt_ge_cases h 12).
      - rewrite (Z.mod_small h) by lia. destruct (Z.eqb_spec h 0) as [->|]; [reflexivity|]. replace (h + 11) with (h - 1 + 1 * 12) by lia. rewrite Z.mod_add, Z.mod_small by lia. lia.
      - replace (h mod 12) with (h - 12) by (replace h with (h - 12 + 1 * 12) at 2 by lia; rewrite Z.mod_add, Z.mod_small by lia; lia).
        destruct (Z.eqb_spec (h - 12) 0). { assert (h = 12) by lia. subst h. reflexivity. } replace (h + 11) with (h - 13 + 2 * 12) by lia. rewrite Z.mod_add, Z.mod_small by lia. lia. }
    unfold hour12. rewrite Q. destruct (Z.eqb_spec (h mod 12) 0); lia.
  Qed.
  Lemma hour12_bounds h : 1 <= hour12 h <= 12.
  Proof. unfold hour12. pose proof (Z.mod_pos_bound (h + 11) 12 ltac:(lia)). lia. Qed.
  Lemma quarter_text v : good_time v -> let d := yearday_of v in
    ((if d <? 90 then "1" else if d <? 180 then "2" else if d <? 270 then "3" else "4") = String (digit ((cm v + 2) / 3)) "" <->
    ~ (cm v = 3 /\ 90 <= d) /\ ~ (cm v = 6 /\ 180 <= d) /\ ~ (cm v = 9 /\ 270 <= d)).
  Proof.
    intros (V & _) d. assert (E : d = days_before (cy v) (cm v) + cd v) by (unfold d, yearday_of, day_of; rewrite !days_of_eq; change (days_before (cy v) 1) with 0; lia).
    clearbody d. destruct V as [M B]. revert B E. revert M. generalize (cm v) as m, (cd v) as dd. intros m dd M.
    revert m M. apply (month_cases (fun m => 1 <= dd <= days_in_month (cy v) m -> d = days_before (cy v) m + dd ->
      ((if d <? 90 then "1" else if d <? 180 then "2" else if d <? 270 then "3" else "4") = String (digit ((m + 2) / 3)) "" <->
      ~ (m = 3 /\ 90 <= d) /\ ~ (m = 6 /\ 180 <= d) /\ ~ (m = 9 /\ 270 <= d))));
      intros; cbn [days_in_month] in *; match goal with H : d = days_before (cy v) ?m + dd |- _ => cbn [days_before] in H end; destruct (leap (cy v));
      destruct (Z.ltb_spec d 90), (Z.ltb_spec d 180), (Z.ltb_spec d 270); try lia; cbn; split; try lia; try discriminate; auto; intros; try lia; try (split; [|split]; lia).
  Qed.
  Lemma agreement_ok e v P : good_time v -> 1000 <= cy v <= 9999 -> agreement e v = Some P ->
    ((exists x, documented e v 0 = Some x /\ format_time KDatetime (String "%" (String e "")) (Tm (wall_at v) utc) = Ok x) <-> P).
  Proof.
    intros G Y Ag. destruct (fields_at v G) as (Fn & Fy & Fm & Fd & Fh & Fmi & Fs & Fns). assert (G' := G). destruct G' as (V & Gh & Gmi & Gs & Gns).
    pose proof (yearday_at v G) as [Ye Yr]. pose proof (isoweek_at v) as [We Wr]. pose proof (isoyear_range v Y G) as Iy.
    assert (Iye : iso_year (day_of v) = isoyear_of v) by (unfold isoyear_of; rewrite thursday_eq; reflexivity).
    assert (Mr : 1 <= cm v <= 12) by (destruct V; lia). assert (Dr : 1 <= cd v <= 31) by (destruct V; pose proof (dim_range (cy v) (cm v)); lia).
    assert (Wd : 0 <= weekday_of v < 7) by (apply Z.mod_pos_bound; lia). pose proof (Z.mod_pos_bound (weekday_of v + 6) 7 ltac:(lia)) as Wd'. pose proof (hour12_bounds (ch v)) as Hb.
    pose proof (Z.mod_pos_bound (ch v) 12 ltac:(lia)) as Hm.
    assert (Wu : wall utc (wall_at v) = wall_at v) by exact (utc_wall (wall_at v)).
    destruct e as [[] [] [] [] [] [] [] []]; try discriminate Ag; injection Ag as <-;
      (eapply iff_trans; [eapply agrees_iff; [reflexivity | reflexivity | reflexivity | cbn [snd format_]; unfold plain, two_digits, spaced, f_quarter, t_iso_year, t_iso_week, t_hour, t_day, wall_of; cbn [at_ place];
        reflexivity]|]).
    all: rewrite ?Wu, ?Fd, ?Fn, ?Fh, <- ?Ye, <- ?We, ?Iye.
    all: rewrite ?blank_text, ?pad_two by lia.
    all: try (apply hour12_same || (rewrite two_same by lia; now apply hour12_same)).
    all: try (rewrite dec_three by lia; lia).
    all: try (rewrite dec_two by (try lia; match goal with |- _ <= ?a / 7 <= _ => split; [apply Z.div_pos; lia | assert (a / 7 < 60) by (apply Z.div_lt_upper_bound; lia); lia] end); lia).
    all: try (rewrite dec_one by lia; lia).
    all: try (rewrite blank_same by lia; now apply hour12_mod).
    all: try (rewrite two_blank by lia; lia).
    all: try (now apply quarter_text).
    all: rewrite four_parts by lia; split; [discriminate | intros []].
  Qed.
End Wrong.
