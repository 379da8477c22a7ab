(** GENERATE_TIMESTAMP_ARRAY and EXTRACT from an INTERVAL: C280-C283. *)
From Coq Require Import Ascii String List ZArith Lia Bool.
From Verif Require Import GoBase GoBaseFacts InstantModel ArrayFnModel ArrayFnSpec ArrayFnProofs IntervalModel IntervalSpec TsArrayModel TsArraySpec TsArrayProofs.
Import ListNotations.
Local Open Scope string_scope.
Open Scope Z_scope.

Lemma in64_wrap : forall z, in64 z -> wrap64 z = z.
Proof. intros z [A B]. unfold wrap64. rewrite Z.mod_small; unfold two63, two64 in *; lia. Qed.
(** The call returns the array / the call never returns. *)
Definition series (part : string) (a b s : Z) (l : list Z) : Prop :=
  returns (fun f => bind_ts_array f (Some a) (Some b) (Some s) part) (Ok (Some l)).
Definition hangs (part : string) (a b s : Z) : Prop :=
  diverges (fun f => bind_ts_array f (Some a) (Some b) (Some s) part).
Lemma series_gen : forall part u, In (part, u) timestamp_parts -> forall a b s l, s <> 0 ->
  series part a b s l <-> returns (fun f => gen_array Z.leb (fun x => x + wrap64 (s * u)) (0 <? s) f a b) l.
Proof.
  intros part u H a b s l N. unfold series, returns. split; intros [f R]; exists f.
  - rewrite (ts_array_gen part u H) in R by auto. destruct (gen_array _ _ _ _ _ _); [|discriminate].
    cbn in R. congruence.
  - rewrite (ts_array_gen part u H) by auto. now rewrite R.
Qed.
Lemma hangs_gen : forall part u, In (part, u) timestamp_parts -> forall a b s, s <> 0 ->
  hangs part a b s <-> diverges (fun f => gen_array Z.leb (fun x => x + wrap64 (s * u)) (0 <? s) f a b).
Proof.
  intros part u H a b s N. unfold hangs, diverges. split; intros D f; specialize (D f).
  - rewrite (ts_array_gen part u H) in D by auto. destruct (gen_array _ _ _ _ _ _); [discriminate|auto].
  - rewrite (ts_array_gen part u H) by auto. now rewrite D.
Qed.

Lemma wrapped_up : forall a b w, 0 < w -> a <= b ->
  exists l, returns (fun f => gen_array Z.leb (fun x => x + w) true f a b) l /\ progression a b w l.
Proof. intros. apply gen_array_up; auto. Qed.
Lemma wrapped_down : forall a b w, w < 0 -> b < a ->
  exists l, returns (fun f => gen_array Z.leb (fun x => x + w) false f a b) l /\ progression a b w l.
Proof. intros. apply gen_array_down; auto. Qed.
Lemma hang_up : forall a b w, w <= 0 -> a <= b -> diverges (fun f => gen_array Z.leb (fun x => x + w) true f a b).
Proof.
  intros a b w W L f. unfold gen_array. assert (a <=? b = true) as -> by (apply Z.leb_le; lia). cbn [andb negb].
  apply (gen_loop_diverges _ _ _ (fun x => x <= b)); auto. intros x X. split; [apply Z.leb_le|]; lia.
Qed.
Lemma hang_down : forall a b w, 0 <= w -> b < a -> diverges (fun f => gen_array Z.leb (fun x => x + w) false f a b).
Proof.
  intros a b w W L f. unfold gen_array. assert (a <=? b = false) as -> by (apply Z.leb_gt; lia). cbn [andb negb].
  apply (gen_loop_diverges _ _ _ (fun x => b <= x)); auto; [lia|]. intros x X. split; [apply Z.leb_le|]; lia.
Qed.
Lemma returns_not_diverges : forall A (run : nat -> option A) r, returns run r -> ~ diverges run.
Proof. intros A run r [f R] D. rewrite D in R. discriminate. Qed.

(** ** C280: the elements *)
(** Steps of less than 292 years (those whose nanoseconds fit 64 bits) give the documented
    array, in either direction, except when both ends are equal and the step is negative. *)
Theorem c280_series_partial : forall part u a b s, In (part, u) timestamp_parts -> s <> 0 -> in64 (s * u) -> (s < 0 -> a <> b) ->
  exists l, series part a b s l /\ progression a b (s * u) l.
Proof.
  intros part u a b s H N I NE. pose proof (unit_pos _ _ H) as U.
  assert (E : forall l, series part a b s l <-> returns (fun f => gen_array Z.leb (fun x => x + s * u) (0 <? s) f a b) l).
  { intros l. rewrite (series_gen part u H) by auto. rewrite in64_wrap by exact I. reflexivity. }
  destruct (Z.lt_ge_cases 0 s) as [P|P].
  - assert (0 <? s = true) as F by (apply Z.ltb_lt; lia). destruct (Z.le_gt_cases a b) as [L|L].
    + destruct (wrapped_up a b (s * u)) as (l & R & G); [nia|auto|]. exists l. rewrite E, F. auto.
    + exists []. rewrite E, F. split; [|apply progression_empty; intros; nia].
      exists 0%nat. unfold gen_array. assert (a <=? b = false) as -> by (apply Z.leb_gt; lia). reflexivity.
  - assert (0 <? s = false) as F by (apply Z.ltb_ge; lia). destruct (Z.le_gt_cases a b) as [L|L].
    + assert (a <> b) by (apply NE; lia). exists []. rewrite E, F. split; [|apply progression_empty; intros; nia].
      exists 0%nat. unfold gen_array. assert (a <=? b = true) as -> by (apply Z.leb_le; lia). reflexivity.
    + destruct (wrapped_down a b (s * u)) as (l & R & G); [nia|auto|]. exists l. rewrite E, F. auto.
Qed.
Print Assumptions c280_series_partial.
(** Longer steps: right exactly when the wrapped step happens to leave the range at once. *)
Theorem c280_long_refuted : forall part u a b s, In (part, u) timestamp_parts -> 0 < s -> a <= b -> ~ in64 (s * u) ->
  ((exists l, series part a b s l /\ progression a b (s * u) l) <-> 0 < wrap64 (s * u) /\ b < a + wrap64 (s * u)).
Proof.
  intros part u a b s H P L NI. pose proof (unit_pos _ _ H) as U.
  assert (F : 0 <? s = true) by (apply Z.ltb_lt; lia).
  pose proof (wrap64_range (s * u)) as WR.
  assert (NW : wrap64 (s * u) <> s * u) by (intros K; rewrite K in WR; auto).
  split.
  - intros (l & R & G). rewrite (series_gen part u H), F in R by lia.
    destruct (Z.lt_ge_cases 0 (wrap64 (s * u))) as [W|W].
    + split; auto. destruct (wrapped_up a b _ W L) as (l' & R' & G').
      pose proof (gen_array_unique _ _ _ _ _ _ _ _ R R') as <-.
      destruct (Z.lt_ge_cases b (a + wrap64 (s * u))) as [|K]; auto. exfalso.
      destruct G as (G1 & _ & _). destruct G' as (G1' & G2' & _). destruct (G2' W) as [_ LL].
      assert (2 <= length l)%nat by nia.
      specialize (G1 1%nat ltac:(lia)). specialize (G1' 1%nat ltac:(lia)). rewrite G1 in G1'.
      assert (a + Z.of_nat 1 * (s * u) = a + Z.of_nat 1 * wrap64 (s * u)) by congruence. lia.
    + exfalso. exact (returns_not_diverges _ _ _ R (hang_up a b _ W L)).
  - intros [W K]. exists [a]. rewrite (series_gen part u H), F by lia. split.
    + exists 1%nat. unfold gen_array. assert (a <=? b = true) as -> by (apply Z.leb_le; lia). cbn [andb negb gen_loop].
      assert (a + wrap64 (s * u) <=? b = false) as -> by (apply Z.leb_gt; lia). reflexivity.
    + assert (0 < s * u) by nia.
      assert (two63 <= s * u) by (unfold in64 in NI; unfold two63 in *; lia).
      unfold in64 in WR. split; [|split].
      * intros [|k] Hk; cbn in Hk; [cbn; f_equal; lia|lia].
      * intros _. cbn [length]. split; [intros k Hk; replace k with 0%nat by lia; lia | lia].
      * lia.
Qed.
Print Assumptions c280_long_refuted.
(** Both ends the same and a negative step: nothing, where the documented array has the
    one element. *)
Theorem c280_same_refuted : forall part u a s, In (part, u) timestamp_parts -> s < 0 ->
  series part a a s [] /\ progression a a (s * u) [a] /\ ~ progression a a (s * u) [].
Proof.
  intros part u a s H N. pose proof (unit_pos _ _ H) as U. assert (s * u < 0) by nia. split; [|split].
  - exists 0%nat. cbn. rewrite Z.leb_refl. assert (s =? 0 = false) as -> by (apply Z.eqb_neq; lia).
    assert (0 <? s = false) as -> by (apply Z.ltb_ge; lia). reflexivity.
  - split; [|split].
    + intros [|k] Hk; cbn in Hk; [cbn; f_equal; lia|lia].
    + lia.
    + intros _. cbn [length]. split; [intros k Hk; replace k with 0%nat by lia; lia | lia].
  - intros (_ & _ & G). specialize (G H0). cbn [length] in G. lia.
Qed.
Print Assumptions c280_same_refuted.
Example c280_ex :
  (* every 6 hours of a day; backwards; a step of 300 years in hours, from 1970 to 1975 *)
  In ("HOUR", 3600 * 1000000000) timestamp_parts /\ in64 (6 * (3600 * 1000000000)) /\
  series "HOUR" 0 86400000000000 6 [0; 21600000000000; 43200000000000; 64800000000000; 86400000000000] /\
  series "DAY" 86400000000000 0 (-1) [86400000000000; 0] /\
  ~ in64 (2629800 * (3600 * 1000000000)).
Proof.
  split; [cbn; tauto|]. split; [unfold in64, two63; lia|]. split; [exists 6%nat; vm_compute; reflexivity|].
  split; [exists 3%nat; vm_compute; reflexivity|]. unfold in64, two63. lia.
Qed.

(** ** C281: the call returns *)
(** The exact condition, for every part, range and step. *)
Theorem c281_returns_partial : forall part u a b s, In (part, u) timestamp_parts -> in64 (s * u) ->
  exists r, returns (fun f => bind_ts_array f (Some a) (Some b) (Some s) part) (Ok r).
Proof.
  intros part u a b s H I. destruct (Z.eq_dec s 0) as [->|N].
  - exists None, 0%nat. reflexivity.
  - destruct (Z.eq_dec a b) as [->|NE].
    + destruct (Z.lt_ge_cases s 0) as [Neg|Pos].
      * exists (Some []). apply (c280_same_refuted part u); auto.
      * destruct (c280_series_partial part u b b s) as (l & R & _); auto; try lia. now exists (Some l).
    + destruct (c280_series_partial part u a b s) as (l & R & _); auto. now exists (Some l).
Qed.
Print Assumptions c281_returns_partial.
Theorem c281_hangs_refuted : forall part u a b s, In (part, u) timestamp_parts ->
  (hangs part a b s <-> (0 < s /\ a <= b /\ wrap64 (s * u) <= 0) \/ (s < 0 /\ b < a /\ 0 <= wrap64 (s * u))).
Proof.
  intros part u a b s H. destruct (Z.eq_dec s 0) as [->|N].
  - split; [|lia]. intros D. specialize (D 0%nat). discriminate D.
  - rewrite (hangs_gen part u H) by auto. split.
    + intros D. destruct (Z.lt_ge_cases 0 s) as [P|P].
      * assert (0 <? s = true) as F by (apply Z.ltb_lt; lia). rewrite F in D. left. split; auto.
        destruct (Z.le_gt_cases a b) as [L|L].
        -- split; auto. destruct (Z.lt_ge_cases 0 (wrap64 (s * u))) as [W|W]; auto.
           destruct (wrapped_up a b _ W L) as (l & R & _). destruct (returns_not_diverges _ _ _ R D).
        -- specialize (D 0%nat). unfold gen_array in D. assert (a <=? b = false) as E by (apply Z.leb_gt; lia). rewrite E in D. discriminate D.
      * assert (0 <? s = false) as F by (apply Z.ltb_ge; lia). rewrite F in D. right. split; [lia|].
        destruct (Z.le_gt_cases a b) as [L|L].
        -- specialize (D 0%nat). unfold gen_array in D. assert (a <=? b = true) as E by (apply Z.leb_le; lia). rewrite E in D. discriminate D.
        -- split; auto. destruct (Z.le_gt_cases 0 (wrap64 (s * u))) as [W|W]; auto.
           destruct (wrapped_down a b _ W L) as (l & R & _). destruct (returns_not_diverges _ _ _ R D).
    + intros [(P & L & W)|(P & L & W)].
      * assert (0 <? s = true) as -> by (apply Z.ltb_lt; lia). now apply hang_up.
      * assert (0 <? s = false) as -> by (apply Z.ltb_ge; lia). now apply hang_down.
Qed.
Print Assumptions c281_hangs_refuted.
(** INTERVAL 150000 DAY, about 410 years, between any two times in order. *)
Example c281_ex : forall a b, a <= b -> hangs "DAY" a b 150000.
Proof.
  intros a b L. apply (c281_hangs_refuted "DAY" (86400 * 1000000000)); [cbn; tauto|]. left.
  split; [lia|]. split; auto. vm_compute. congruence.
Qed.

(** ** C282: NULL and zero *)
Theorem c282_null_partial : forall part a b s, a = None \/ b = None ->
  forall f, bind_ts_array f a b (Some s) part = Some (Ok None).
Proof. intros part a b s [-> | ->] f; cbn; [|destruct a]; reflexivity. Qed.
Print Assumptions c282_null_partial.
Theorem c282_null_step_refuted : forall part a b f, bind_ts_array f a b None part = Some GoPanic.
Proof. reflexivity. Qed.
Print Assumptions c282_null_step_refuted.
Theorem c282_zero_refuted : forall part a b f, bind_ts_array f (Some a) (Some b) (Some 0) part = Some (Ok None).
Proof. reflexivity. Qed.
Print Assumptions c282_zero_refuted.

(** ** C283: EXTRACT from an INTERVAL *)
Definition amount_of (v : interval) : amount := Amount (month_count v) (days v) (clock_count v).
Theorem c283_extract : forall v part,
  under 12 (months v) -> under 60 (minutes v) -> under 60 (seconds v) -> under 1000000000 (nanos v) ->
  one_sign [years v; months v] -> one_sign [hours v; minutes v; seconds v; nanos v] ->
  forall n, In (part, n) (interval_digits (amount_of v)) <-> extract_interval v part = Ok n.
Proof.
  intros v part M MI SE NA S1 S2 n.
  assert (T : forall x y, one_sign [hours v; minutes v; seconds v; nanos v] ->
    (x = hours v /\ y = minutes v * 60 * second_ns + seconds v * second_ns + nanos v) \/
    (x = hours v * 60 + minutes v /\ y = seconds v * second_ns + nanos v) \/
    (x = (hours v * 60 + minutes v) * 60 + seconds v /\ y = nanos v) \/
    (x = minutes v /\ y = seconds v * second_ns + nanos v) \/
    (x = seconds v /\ y = nanos v) -> one_sign [x; y]).
  { intros x y [F|F] C; inversion F as [|? ? F1 F2]; inversion F2 as [|? ? F3 F4]; inversion F4 as [|? ? F5 F6]; inversion F6 as [|? ? F7 F8]; subst;
      [left|right]; repeat constructor; unfold second_ns in *; lia. }
  unfold under in *.
  assert (C : clock_count v = hours v * (3600 * second_ns) + (minutes v * 60 * second_ns + seconds v * second_ns + nanos v))
    by (unfold clock_count, second_ns; lia).
  assert (C2 : clock_count v = (hours v * 60 + minutes v) * (60 * second_ns) + (seconds v * second_ns + nanos v))
    by (unfold clock_count, second_ns; lia).
  assert (C3 : clock_count v = ((hours v * 60 + minutes v) * 60 + seconds v) * second_ns + nanos v)
    by (unfold clock_count, second_ns; lia).
  destruct (quot_digit (years v) (months v) 12) as [D1 D2]; [lia|lia|auto|].
  destruct (quot_digit (hours v) (minutes v * 60 * second_ns + seconds v * second_ns + nanos v) (3600 * second_ns)) as [D3 D4];
    [unfold second_ns; lia|unfold second_ns; lia|apply T; auto|].
  destruct (quot_digit (minutes v) (seconds v * second_ns + nanos v) (60 * second_ns)) as [D5 _];
    [unfold second_ns; lia|unfold second_ns; lia|apply T; auto 6|].
  destruct (quot_digit (hours v * 60 + minutes v) (seconds v * second_ns + nanos v) (60 * second_ns)) as [_ D6];
    [unfold second_ns; lia|unfold second_ns; lia|apply T; auto|].
  destruct (quot_digit (seconds v) (nanos v) second_ns) as [D7 _];
    [unfold second_ns; lia|unfold second_ns; lia|apply T; auto 7|].
  destruct (quot_digit ((hours v * 60 + minutes v) * 60 + seconds v) (nanos v) second_ns) as [_ D8];
    [unfold second_ns; lia|unfold second_ns; lia|apply T; auto|].
  assert (DG : interval_digits (amount_of v) =
    [("YEAR", years v); ("MONTH", months v); ("DAY", days v); ("HOUR", hours v); ("MINUTE", minutes v); ("SECOND", seconds v);
     ("MILLISECOND", Z.quot (nanos v) 1000000); ("MICROSECOND", Z.quot (nanos v) 1000)]).
  { unfold interval_digits, amount_of, digit. cbn [in_months in_days in_nanos].
    rewrite <- C in D3, D4. rewrite <- C2 in D6. rewrite <- C3 in D8.
    replace (years v * 12 + months v) with (month_count v) in D1, D2 by (unfold month_count; lia).
    rewrite D1, D2, D3, D4, D6, D8.
    replace (minutes v * 60 * second_ns + seconds v * second_ns + nanos v) with (minutes v * (60 * second_ns) + (seconds v * second_ns + nanos v)) by lia.
    rewrite D5, D7, Z.quot_1_r. reflexivity. }
  rewrite DG. unfold extract_interval. split.
  - intros I. cbn [In] in I. repeat (destruct I as [I|I]; [injection I as <- <-; reflexivity|]). contradiction.
  - intros E.
    repeat match type of E with (if String.eqb part ?x then _ else _) = _ => destruct (String.eqb_spec part x) as [->|?];
      [assert (n = n) by reflexivity; match type of E with Ok ?y = Ok _ => assert (y = n) as <- by congruence end; cbn [In]; tauto|] end.
    discriminate.
Qed.
Print Assumptions c283_extract.
Example c283_ex :
  (* INTERVAL '-1-2 3 -4:5:6.789' YEAR TO SECOND *)
  let v := IV (-1) (-2) 3 (-4) (-5) (-6) (-789000000) in
  one_sign [years v; months v] /\ one_sign [hours v; minutes v; seconds v; nanos v] /\
  extract_interval v "MICROSECOND" = Ok (-789000) /\ extract_interval v "MONTH" = Ok (-2) /\ extract_interval v "WEEK" = Err /\
  in_months (amount_of v) = -14.
Proof. split; [right; repeat constructor; cbn; lia|]. split; [right; repeat constructor; cbn; lia|]. repeat split. Qed.
