(** Properties C45-C47 and C92: GENERATE_ARRAY, subscripts, array laws,
    GENERATE_DATE_ARRAY. *)
From Coq Require Import Ascii String List ZArith Lia Bool.
From Verif Require Import GoBase GoBaseFacts ValueModel FloatFacts LogicModel CalendarModel CalendarFacts DateModel DateSpec DateProofs ArrayFnModel ArrayFnSpec ArrayFnProofs.
Import ListNotations.
Local Open Scope string_scope.
Open Scope Z_scope.
Local Opaque civil year_start leap.

(** C45.  [last a b s] is the last element of the progression. *)
Definition last (a b s : Z) : Z := a + (b - a) / s * s.
Lemma in64_wrap : forall z, - two63 <= z < two63 -> wrap64 z = z.
Proof. intros. now apply wrap64_fits. Qed.

Theorem c45_up_partial : forall a b s, in64 a -> in64 b -> in64 s -> 0 < s -> (a <= b -> last a b s + s < two63) ->
  exists l, returns (fun f => generate_array f a b s) l /\ progression a b s l.
Proof.
  intros a b s Ha Hb Hs P F. unfold generate_array. assert (0 <? s = true) as -> by (apply Z.ltb_lt; lia).
  destruct (Z.le_gt_cases a b) as [L|L].
  - specialize (F L). destruct (prog_up a b s P L) as (PR & A1 & A2).
    set (n := Z.to_nat ((b - a) / s)) in *.
    assert (Q : Z.of_nat n = (b - a) / s) by (unfold n; rewrite Z2Nat.id; auto; apply Z.div_pos; lia).
    exists (prog a s (S n)). split; auto. exists (S n). unfold gen_array.
    assert (a <=? b = true) as -> by (apply Z.leb_le; lia). cbn [andb negb].
    apply gen_loop_prog.
    + intros k Hk. unfold in64, last in *. rewrite in64_wrap; [lia|].
      specialize (A1 k Hk). assert (Z.of_nat k <= (b - a) / s) by lia. nia.
    + intros k Hk. apply Z.leb_le. apply A1. lia.
    + apply Z.leb_gt. exact A2.
  - exists []. split; [|apply progression_empty; lia].
    exists 0%nat. unfold gen_array. assert (a <=? b = false) as -> by (apply Z.leb_gt; lia). reflexivity.
Qed.
Print Assumptions c45_up_partial.
Theorem c45_down_partial : forall a b s, in64 a -> in64 b -> in64 s -> s < 0 -> a <> b ->
  (b < a -> - two63 <= last a b s + s) ->
  exists l, returns (fun f => generate_array f a b s) l /\ progression a b s l.
Proof.
  intros a b s Ha Hb Hs P NE F. unfold generate_array. assert (0 <? s = false) as -> by (apply Z.ltb_ge; lia).
  destruct (Z.le_gt_cases a b) as [L|L].
  - exists []. split; [|apply progression_empty; lia].
    exists 0%nat. unfold gen_array. assert (a <=? b = true) as -> by (apply Z.leb_le; lia). reflexivity.
  - specialize (F ltac:(lia)). destruct (prog_down a b s P ltac:(lia)) as (PR & A1 & A2).
    set (n := Z.to_nat ((a - b) / - s)) in *.
    assert (Q : Z.of_nat n = (a - b) / - s) by (unfold n; rewrite Z2Nat.id; auto; apply Z.div_pos; lia).
    assert (D : (b - a) / s = (a - b) / - s).
    { rewrite <- (Z.div_opp_opp (b - a) s) by lia. f_equal; lia. }
    exists (prog a s (S n)). split; auto. exists (S n). unfold gen_array.
    assert (a <=? b = false) as -> by (apply Z.leb_gt; lia). cbn [andb negb].
    apply gen_loop_prog.
    + intros k Hk. unfold in64, last in *. rewrite D in F. rewrite in64_wrap; [lia|].
      specialize (A1 k Hk). assert (Z.of_nat k <= (a - b) / - s) by lia. nia.
    + intros k Hk. apply Z.leb_le. apply A1. lia.
    + apply Z.leb_gt. exact A2.
Qed.
Print Assumptions c45_down_partial.
(** When the element after the last does not fit in int64, the sum wraps round and
    the array is wrong or the call never returns. *)
Theorem c45_overflow_refuted : forall a b s, in64 a -> in64 b -> in64 s -> 0 < s -> a <= b -> two63 <= last a b s + s ->
  forall l, returns (fun f => generate_array f a b s) l -> ~ progression a b s l.
Proof.
  intros a b s Ha Hb Hs P L F l [f R] [N [U _]]. specialize (U P). destruct U as [U1 U2].
  unfold generate_array, gen_array in R. assert (0 <? s = true) as E1 by (apply Z.ltb_lt; lia). rewrite E1 in R.
  assert (a <=? b = true) as E2 by (apply Z.leb_le; lia). rewrite E2 in R. cbn [andb negb] in R.
  assert (Q : forall k, (k < length l)%nat -> a + Z.of_nat k * s <= b) by exact U1.
  (* the last element of l is [last] and the loop cannot have stopped there *)
  destruct l as [|x l].
  - cbn in U2. lia.
  - assert (Len : Z.of_nat (length l) = (b - a) / s).
    { pose proof (Q (length l) ltac:(cbn; lia)) as Q1. cbn [length] in U2. rewrite Nat2Z.inj_succ in U2.
      apply (Z.div_unique (b - a) s (Z.of_nat (length l)) (b - a - Z.of_nat (length l) * s)); nia. }
    assert (Stop : forall g c r, gen_loop (fun x => wrap64 (x + s)) (fun x => x <=? b) g c = Some r ->
      exists y, nth_error r (length r - 1) = Some y /\ b < wrap64 (y + s)).
    { clear. induction g as [|g IH]; intros c r E; [discriminate|]. cbn [gen_loop] in E.
      destruct (Z.leb_spec (wrap64 (c + s)) b) as [Hle|Hgt].
      - destruct (gen_loop _ _ g _) as [r'|] eqn:E'; [|discriminate]. cbn in E. injection E as <-.
        destruct (IH _ _ E') as (y & Y1 & Y2). exists y. split; auto. cbn [length].
        destruct r' as [|z r']; [discriminate|]. cbn [length] in *. replace (S (S (length r')) - 1)%nat with (S (S (length r') - 1)) by lia. exact Y1.
      - injection E as <-. exists c. split; auto. }
    destruct (Stop _ _ _ R) as (y & Y1 & Y2).
    rewrite N in Y1 by (cbn; lia). injection Y1 as <-. 
    cbn [length Nat.sub] in Y2. rewrite Nat.sub_0_r in Y2.
    unfold last in F. rewrite <- Len in F.
    set (w := a + Z.of_nat (length l) * s) in *.
    assert (W : w <= b) by (apply Q; cbn; lia).
    unfold in64 in *.
    assert (wrap64 (w + s) = w + s - two64) as E.
    { replace (w + s) with (w + s - two64 + 1 * two64) by lia. rewrite wrap64_add_two64. rewrite in64_wrap; unfold two64, two63 in *; lia. }
    rewrite E in Y2. unfold two64, two63 in *. lia.
Qed.
Print Assumptions c45_overflow_refuted.
Theorem c45_max_refuted : forall a s, in64 a -> in64 s -> 0 < s -> diverges (fun f => generate_array f a (two63 - 1) s).
Proof.
  intros a s Ha Hs P f. unfold generate_array, gen_array. unfold in64 in *.
  assert (0 <? s = true) as -> by (apply Z.ltb_lt; lia). assert (a <=? two63 - 1 = true) as -> by (apply Z.leb_le; lia).
  cbn [andb negb]. apply (gen_loop_diverges _ _ _ (fun _ => True)); auto.
  intros x _. split; auto. apply Z.leb_le. pose proof (wrap64_range (x + s)). unfold in64 in *. lia.
Qed.
Print Assumptions c45_max_refuted.
(** Step 0: the empty array, or no answer at all. *)
Theorem c45_zero_refuted : forall a b, in64 a ->
  (a <= b -> returns (fun f => generate_array f a b 0) []) /\
  (b < a -> diverges (fun f => generate_array f a b 0)).
Proof.
  intros a b Ha. unfold generate_array, gen_array. cbn [Z.ltb Z.compare]. split; intros L.
  - exists 0%nat. assert (a <=? b = true) as -> by (apply Z.leb_le; lia). reflexivity.
  - intros f. assert (a <=? b = false) as -> by (apply Z.leb_gt; lia). cbn [andb negb].
    apply (gen_loop_diverges _ _ _ (fun x => x = a)); auto.
    intros x ->. rewrite Z.add_0_r, in64_wrap by exact Ha. split; auto. apply Z.leb_le. lia.
Qed.
Print Assumptions c45_zero_refuted.
(** Start = stop with a negative step: empty, though [a] is the progression. *)
Theorem c45_same_refuted : forall a s, s < 0 -> 
  returns (fun f => generate_array f a a s) [] /\ ~ progression a a s [] /\ progression a a s [a].
Proof.
  intros a s H. split; [|split].
  - exists 0%nat. unfold generate_array, gen_array. rewrite Z.leb_refl. assert (0 <? s = false) as -> by (apply Z.ltb_ge; lia). reflexivity.
  - intros [_ [_ K]]. specialize (K H). cbn in K. lia.
  - split; [|split].
    + intros k Hk. cbn in Hk. replace k with 0%nat by lia. cbn. f_equal. lia.
    + lia.
    + intros _. cbn [length]. split; [|lia]. intros k Hk. replace k with 0%nat by lia. lia.
Qed.
Print Assumptions c45_same_refuted.
Theorem c45_unique : forall a b s l l', returns (fun f => generate_array f a b s) l -> returns (fun f => generate_array f a b s) l' -> l = l'.
Proof. intros a b s l l'. apply gen_array_unique. Qed.
Example c45_example :
  returns (fun f => generate_array f 1 10 3) [1; 4; 7; 10] /\
  returns (fun f => generate_array f 10 0 (-4)) [10; 6; 2] /\
  returns (fun f => generate_array f 5 1 1) [] /\
  last 1 10 3 + 3 < two63 /\ two63 <= last 5 (two63 - 1) 2 + 2.
Proof.
  split; [exists 9%nat; reflexivity|]. split; [exists 9%nat; reflexivity|]. split; [exists 9%nat; reflexivity|].
  split; vm_compute; [reflexivity|discriminate].
Qed.

(** C46.  The functions themselves, for every array and subscript. *)
Theorem c46_offset_partial : forall l i v,
  (array_at_offset (Some (VArray l)) (Some (VInt i)) = Ok v <-> 0 <= i /\ nth_error l (Z.to_nat i) = Some v) /\
  (array_at_offset (Some (VArray l)) (Some (VInt i)) = Err <-> ~ 0 <= i < zlen l).
Proof.
  intros l i v. unfold array_at_offset, subscript. rewrite Z.sub_0_r.
  assert (I : forall w, index l i = Some w <-> 0 <= i < zlen l /\ nth_error l (Z.to_nat i) = Some w) by (intros; apply index_spec).
  assert (Lt : 0 <= i -> nth_error l (Z.to_nat i) = Some v -> i < zlen l).
  { intros H0 E. assert (Z.to_nat i < length l)%nat by (apply nth_error_Some; congruence). unfold zlen. lia. }
  destruct (index l i) as [w|] eqn:E.
  - destruct (proj1 (I w) eq_refl) as [B N]. split; split; intros K.
    + injection K as <-. split; [lia|auto].
    + destruct K as [K1 K2]. pose proof (eq_trans (eq_sym N) K2) as X. injection X as ->. reflexivity.
    + discriminate.
    + contradiction.
  - apply index_none in E. split; split; intros K; auto; try discriminate.
    destruct K as [K1 K2]. exfalso. apply E. split; auto.
Qed.
Print Assumptions c46_offset_partial.
Theorem c46_ordinal_partial : forall a i, array_at_ordinal a (Some (VInt i)) = array_at_offset a (Some (VInt (i - 1))) /\
  safe_array_at_ordinal a (Some (VInt i)) = safe_array_at_offset a (Some (VInt (i - 1))).
Proof. intros [[]|] i; split; cbn; rewrite ?Z.sub_0_r; reflexivity. Qed.
Print Assumptions c46_ordinal_partial.
Theorem c46_safe_partial : forall l i,
  safe_array_at_offset (Some (VArray l)) (Some (VInt i)) =
    match array_at_offset (Some (VArray l)) (Some (VInt i)) with Ok v => Ok v | _ => Ok None end.
Proof. intros l i. cbn. destruct (index l (i - 0)); reflexivity. Qed.
Print Assumptions c46_safe_partial.
Theorem c46_null_partial : forall a i, a = None \/ i = None ->
  array_at_offset a i = Ok None /\ safe_array_at_offset a i = Ok None /\
  array_at_ordinal a i = Ok None /\ safe_array_at_ordinal a i = Ok None.
Proof. intros a i [-> | ->]; [|destruct a as [[]|]]; repeat split. Qed.
Print Assumptions c46_null_partial.
(** Over an INT64 array as it comes out of SQLite: right below 2^53, and
    refuted above. *)
Theorem c46_int64_partial : forall l i z, (forall y, In y l -> Z.abs y < 2 ^ 53) ->
  0 <= i -> nth_error l (Z.to_nat i) = Some z ->
  exists f, array_at_offset (Some (VArray (map (fun y => decoded_elem (Some (VInt y))) l))) (Some (VInt i)) = Ok (Some (VFloat f)) /\
    int_of_float f = z.
Proof.
  intros l i z B H0 E. exists (float_of_int z). split.
  - apply c46_offset_partial. split; auto. rewrite nth_error_map, E. reflexivity.
  - apply float_of_int_back. apply B. eapply nth_error_In; eauto.
Qed.
Print Assumptions c46_int64_partial.
Theorem c46_large_refuted : exists z f, in64 z /\
  array_at_offset (Some (VArray [decoded_elem (Some (VInt z))])) (Some (VInt 0)) = Ok (Some (VFloat f)) /\ int_of_float f <> z.
Proof.
  exists 9007199254740993. eexists. split; [|split; [reflexivity|vm_compute; discriminate]]. unfold in64, two63. lia.
Qed.
Print Assumptions c46_large_refuted.
Example c46_example :
  array_at_offset (Some (VArray [Some (VStr "a"); None; Some (VStr "c")])) (Some (VInt 2)) = Ok (Some (VStr "c")) /\
  array_at_offset (Some (VArray [Some (VStr "a")])) (Some (VInt 1)) = Err /\
  safe_array_at_ordinal (Some (VArray [Some (VStr "a")])) (Some (VInt 0)) = Ok None /\
  array_at_ordinal (Some (VArray [Some (VStr "a")])) (Some (VInt 1)) = Ok (Some (VStr "a")).
Proof. repeat split. Qed.

(** C47 *)
Theorem c47_reverse : forall l, bind_array_reverse (Some (VArray l)) = Ok (Some (VArray (rev l))) /\
  (forall k, (k < length l)%nat -> nth_error (rev l) k = nth_error l (length l - 1 - k)) /\
  bind (bind_array_reverse (Some (VArray l))) bind_array_reverse = Ok (Some (VArray l)) /\
  bind (bind_array_reverse (Some (VArray l))) bind_array_length = bind_array_length (Some (VArray l)).
Proof.
  intros l. unfold bind_array_reverse. cbn [to_array bind]. rewrite reverse_loop_all.
  split; auto. split; [|split].
  - intros k Hk. destruct l as [|d l0] eqn:El; [cbn in Hk; lia|]. rewrite <- El in *. clear El.
    rewrite (nth_error_nth' (rev l) d) by (rewrite rev_length; lia).
    rewrite (nth_error_nth' l d) by lia. rewrite rev_nth by lia. do 2 f_equal. lia.
  - cbn [bind to_array]. rewrite reverse_loop_all. now rewrite rev_involutive.
  - cbn [bind to_array]. unfold bind_array_length. cbn [to_array bind]. unfold zlen. now rewrite rev_length.
Qed.
Print Assumptions c47_reverse.
Theorem c47_concat : forall ls, ls <> [] ->
  bind_array_concat (map (fun l => Some (VArray l)) ls) = Ok (Some (VArray (concat ls))).
Proof.
  intros ls H. unfold bind_array_concat. destruct ls as [|l ls]; [contradiction|]. cbn [map].
  change (Some (VArray l) :: map (fun l => Some (VArray l)) ls) with (map (fun l => Some (VArray l)) (l :: ls)).
  rewrite concat_loop_spec. reflexivity.
Qed.
Print Assumptions c47_concat.
Theorem c47_length : forall l, bind_array_length (Some (VArray l)) = Ok (Some (VInt (zlen l))) /\
  forall m, bind (bind_array_concat [Some (VArray l); Some (VArray m)]) bind_array_length = Ok (Some (VInt (zlen l + zlen m))).
Proof. intros l. split; auto. intros m. cbn. unfold bind_array_length. cbn. unfold zlen. rewrite app_length, Nat2Z.inj_add. reflexivity. Qed.
Print Assumptions c47_length.
Example c47_example :
  bind_array_concat [Some (VArray [Some (VInt 1)]); Some (VArray []); Some (VArray [None; Some (VInt 2)])] = Ok (Some (VArray [Some (VInt 1); None; Some (VInt 2)])) /\
  bind_array_reverse (Some (VArray [Some (VInt 1); None; Some (VInt 2)])) = Ok (Some (VArray [Some (VInt 2); None; Some (VInt 1)])).
Proof. split; reflexivity. Qed.

(** C92 *)
Definition returns_dates (part : string) (a b s : Z) (l : list Z) : Prop :=
  returns (fun f => generate_date_array f a b s part) (Some l).
Lemma returns_dates_of : forall part a b s l, s <> 0 ->
  returns (fun f => gen_array Z.leb (fun d => add_date_with_interval d s part) (0 <? s) f a b) l -> returns_dates part a b s l.
Proof.
  intros part a b s l H [f R]. exists f. unfold generate_date_array. apply Z.eqb_neq in H. rewrite H, R. reflexivity.
Qed.
Theorem c92_days_partial : forall a b s, s <> 0 -> (s < 0 -> a <> b) ->
  exists l, returns_dates "DAY" a b s l /\ dates "DAY" a b s l.
Proof.
  intros a b s H0 Hne.
  destruct (dates_gen "DAY" (fun d => add_date_with_interval d s "DAY") a b s (fun k => a + Z.of_nat k * s)) as (l & R & D); auto; try lia.
  - intros k. cbn -[add_date Z.of_nat]. rewrite add_date_days. lia.
  - intros k r. cbn -[Z.of_nat Z.mul]. lia.
  - exists l. split; auto. now apply returns_dates_of.
Qed.
Print Assumptions c92_days_partial.
Theorem c92_weeks_partial : forall a b s, s <> 0 -> (s < 0 -> a <> b) -> - two63 <= 7 * s < two63 ->
  exists l, returns_dates "WEEK" a b s l /\ dates "WEEK" a b s l.
Proof.
  intros a b s H0 Hne F.
  destruct (dates_gen "WEEK" (fun d => add_date_with_interval d s "WEEK") a b s (fun k => a + Z.of_nat k * (7 * s))) as (l & R & D); auto; try lia.
  - intros k. cbn -[add_date Z.of_nat wrap64 Z.mul]. rewrite add_date_days, in64_wrap by lia. lia.
  - intros k r. cbn -[Z.of_nat Z.mul]. lia.
  - exists l. split; auto. now apply returns_dates_of.
Qed.
Print Assumptions c92_weeks_partial.
(** MONTH and YEAR steps from a day every month has. *)
Theorem c92_months_partial : forall part u a b s, (part = "MONTH" /\ u = 1) \/ (part = "YEAR" /\ u = 12) ->
  day a <= 28 -> s <> 0 -> (s < 0 -> a <> b) ->
  exists l, returns_dates part a b s l /\ dates part a b s l.
Proof.
  intros part u a b s Hp Hd H0 Hne.
  destruct (dates_gen part (fun d => add_date_with_interval d s part) a b s (fun k => mstart (mix a + u * (Z.of_nat k * s)) + (day a - 1))) as (l & R & D); auto.
  - replace (mix a + u * (Z.of_nat 0 * s)) with (mix a) by lia. symmetry. apply mix_spec.
  - intros k. destruct (month_step a (u * (Z.of_nat k * s)) Hd) as [M1 M2].
    set (d := mstart (mix a + u * (Z.of_nat k * s)) + (day a - 1)) in *.
    destruct Hp as [[-> ->]|[-> ->]]; cbn -[add_date Z.of_nat wrap64 Z.mul d]; rewrite add_date_mix, M1, M2;
    (replace (day a + 0 - 1) with (day a - 1) by lia); f_equal; f_equal; lia.
  - intros Hs k.
    assert (X : mix a + u * (Z.of_nat (S k) * s) = mix a + u * (Z.of_nat k * s) + u * s) by lia. rewrite X.
    pose proof (mstart_lower (mix a + u * (Z.of_nat k * s)) (u * s) ltac:(destruct Hp as [[_ ->]|[_ ->]]; lia)).
    assert (0 < u) by (destruct Hp as [[_ ->]|[_ ->]]; lia). nia.
  - intros Hs k.
    assert (X : mix a + u * (Z.of_nat k * s) = mix a + u * (Z.of_nat (S k) * s) + u * - s) by lia. rewrite X.
    pose proof (mstart_lower (mix a + u * (Z.of_nat (S k) * s)) (u * - s) ltac:(destruct Hp as [[_ ->]|[_ ->]]; lia)).
    assert (0 < u) by (destruct Hp as [[_ ->]|[_ ->]]; lia). nia.
  - intros k r. destruct Hp as [[-> ->]|[-> ->]]; cbn -[Z.of_nat Z.mul]; rewrite later_month28 by exact Hd.
    + rewrite Z.mul_1_l. reflexivity.
    + reflexivity.
  - exists l. split; auto. now apply returns_dates_of.
Qed.
Print Assumptions c92_months_partial.
(** From the 31st the MONTH steps drift: 2023-01-31, 2023-03-03, 2023-04-03. *)
Theorem c92_month_end_refuted :
  returns_dates "MONTH" 19388 19477 1 [19388; 19419; 19450] /\
  civil 19388 = (2023, 1, 31) /\ civil 19419 = (2023, 3, 3) /\ civil 19450 = (2023, 4, 3) /\
  ~ dates "MONTH" 19388 19477 1 [19388; 19419; 19450].
Proof.
  Local Transparent civil year_start leap.
  split; [exists 5%nat; vm_compute; reflexivity|]. split; [vm_compute; reflexivity|]. split; [vm_compute; reflexivity|]. split; [vm_compute; reflexivity|].
  intros [D _]. specialize (D 1%nat 19419 eq_refl). destruct D as [D _]. vm_compute in D. discriminate.
Qed.
Print Assumptions c92_month_end_refuted.
Local Opaque civil year_start leap.
(** QUARTER steps are days: every array of two or more dates is wrong. *)
Theorem c92_quarter_refuted : forall a b s, 0 < s -> a + s <= b ->
  forall l, returns_dates "QUARTER" a b s l -> ~ dates "QUARTER" a b s l.
Proof.
  intros a b s Hs Hb l [f R] D. unfold generate_date_array in R.
  assert (s =? 0 = false) as E0 by (apply Z.eqb_neq; lia). rewrite E0 in R.
  unfold gen_array in R. assert (a <=? b = true) as E1 by (apply Z.leb_le; lia). assert (0 <? s = true) as E2 by (apply Z.ltb_lt; lia).
  rewrite E1, E2 in R. cbn [andb negb] in R.
  destruct f as [|f]; [discriminate|]. cbn [gen_loop] in R.
  change (add_date_with_interval a s "QUARTER") with (add_date a 0 0 s) in R. rewrite add_date_days in R.
  assert (a + s <=? b = true) as E3 by (apply Z.leb_le; lia). rewrite E3 in R.
  destruct (gen_loop _ _ f (a + s)) as [r|] eqn:E; [|discriminate]. cbn [option_map] in R. injection R as <-.
  assert (exists r', r = (a + s) :: r') as [r' ->].
  { destruct f as [|f]; [discriminate|]. cbn [gen_loop] in E. destruct (_ <=? _) in E.
    - destruct (gen_loop _ _ f _) in E; [|discriminate]. injection E as <-. eexists; reflexivity.
    - injection E as <-. eexists; reflexivity. }
  destruct D as [D _]. specialize (D 1%nat (a + s) eq_refl). cbn -[Z.mul] in D.
  destruct D as [D _].
  assert (M : mix (a + s) = mix a + 3 * s) by (unfold mix, mindex; lia).
  destruct (mix_spec (a + s)) as [[L _] _]. rewrite M in L.
  pose proof (mstart_lower (mix a) (3 * s) ltac:(lia)). destruct (mix_spec a) as [[_ U] _]. pose proof (mlen_range (mix a)). lia.
Qed.
Print Assumptions c92_quarter_refuted.
Theorem c92_zero_refuted : forall a b part f, generate_date_array f a b 0 part = Some None.
Proof. reflexivity. Qed.
Print Assumptions c92_zero_refuted.
Theorem c92_same_refuted : forall a s part, s < 0 -> returns_dates part a a s [] /\ ~ dates part a a s [].
Proof.
  intros a s part H. split.
  - exists 0%nat. unfold generate_date_array, gen_array. assert (s =? 0 = false) as -> by (apply Z.eqb_neq; lia).
    rewrite Z.leb_refl. assert (0 <? s = false) as -> by (apply Z.ltb_ge; lia). reflexivity.
  - intros [_ [_ D]]. assert (K : later part a 0 a).
    { unfold later. assert (months_later a 0 a).
      { split; [lia|]. rewrite Z.min_l; auto. apply day_range. }
      destruct (String.eqb part "DAY"); [lia|]. destruct (String.eqb part "WEEK"); [lia|].
      destruct (String.eqb part "MONTH"); auto. destruct (String.eqb part "QUARTER"); auto. }
    cbn -[later] in D. specialize (D a K). lia.
Qed.
Print Assumptions c92_same_refuted.
Example c92_example :
  returns_dates "DAY" 0 5 2 [0; 2; 4] /\ returns_dates "MONTH" 0 100 1 [0; 31; 59; 90] /\ day 0 = 1 /\ returns_dates "QUARTER" 0 1 1 [0; 1].
Proof.
  Local Transparent civil year_start leap.
  split; [exists 9%nat; vm_compute; reflexivity|]. split; [exists 9%nat; vm_compute; reflexivity|]. split; [reflexivity|exists 9%nat; vm_compute; reflexivity].
Qed.
