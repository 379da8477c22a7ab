(** Properties C216 - C222: CURRENT_DATE, CURRENT_DATETIME, CURRENT_TIME and CURRENT_TIMESTAMP. *)
From Coq Require Import Ascii String List ZArith Lia Bool.
From Verif Require Import GoBase DecModel DecFacts InstantModel ClockTextModel ZoneModel PartModel CastModel NowModel NowSpec NowProofs.
Import ListNotations.
Open Scope Z_scope.

(** Noon of 2024-01-01, and of 2300-01-01 *)
Definition in_2024 : Z := 1704110400 * ns_per_sec.
Definition in_2300 : Z := 10413835200 * ns_per_sec.
Definition tokyo : loc := fixed (9 * 3600).
Definition some_load (z : string) : option loc :=
  if (z =? "")%string then Some utc else if (z =? "Asia/Tokyo")%string then Some tokyo else None.
Definition nothing : defs := fun _ => None.

Section Now.
Variable load : string -> option loc.
Variable local : loc.

(** C216: with WithCurrentTime, CURRENT_TIMESTAMP() is that time exactly when an int64 of
    nanoseconds can hold it. *)
Theorem c216_now_iff_partial : forall ds t clock,
  query load local ds (Some t) clock (Current CTimestamp None) = Ok (VShown (ATimestamp t)) <-> representable t.
Proof.
  intros ds t clock. unfold query. cbn [format app run fst current bind show]. unfold unix_nano. rewrite wrap_id. split; intros H; [congruence|now rewrite H].
Qed.
(** Any other time is shown as one that is a multiple of 584 years away. *)
Theorem c216_far_refuted : forall ds t clock, ~ representable t ->
  exists k, k <> 0 /\ query load local ds (Some t) clock (Current CTimestamp None) = Ok (VShown (ATimestamp (t + k * 2 ^ 64))).
Proof.
  intros ds t clock H. unfold query. cbn [format app run fst current bind show]. unfold unix_nano.
  exists (- ((t + two63) / two64)). split.
  - intros E. apply H. unfold representable. change (2 ^ 63) with two63. assert (T : two64 = 2 * two63) by reflexivity.
    assert (P : 0 < two63) by reflexivity. pose proof (Z.div_mod (t + two63) two64 ltac:(lia)). pose proof (Z.mod_pos_bound (t + two63) two64 ltac:(lia)).
    assert ((t + two63) / two64 = 0) as D by lia. rewrite D in *. lia.
  - do 3 f_equal. unfold wrap64. change (2 ^ 64) with two64. rewrite Z.mod_eq by discriminate. ring.
Qed.

(** C217: a query under WithCurrentTime gives the same result whenever it runs; *)
Theorem c217_no_clock : forall ds t clock clock' e, own e ->
  query load local ds (Some t) clock e = query load local ds (Some t) clock' e.
Proof.
  intros ds t clock clock' e O. unfold query. destruct (format_own ds (Some t) e O) as [s F]. rewrite F. now apply run_fixed with (ds := ds) (t := t) (e := e).
Qed.
(** and all its calls without a zone show one instant in one zone: the time that was given. *)
Theorem c217_one_instant : forall ds t clock zone e, plain e -> representable t ->
  exists v, query load local ds (Some t) clock e = Ok v /\ at_time local zone t e = Some v /\ forall x, In x (instants v) -> x = t.
Proof.
  intros ds t clock zone e P R. destruct (format_own ds (Some t) e (plain_own e P)) as [s F].
  destruct (run_plain load local ds t clock zone e s O P F) as [v [j [E A]]]. exists v. unfold query. rewrite F, E. split; [reflexivity|].
  apply wrap_id in R. rewrite R in A. split; [assumption|].
  clear -A P. revert v A. induction e as [f z|n|a IHa b IHb|w]; cbn [at_time plain] in *; intros v A x X.
  - destruct z; [contradiction|]. assert (v = VShown (clock_in local f t)) as -> by congruence. destruct f; cbn in X; try contradiction. now destruct X as [X|[]].
  - assert (v = VConst n) as -> by congruence. contradiction.
  - destruct P as [Pa Pb]. destruct (at_time local zone t a) as [va|]; [|discriminate]. destruct (at_time local zone t b) as [vb|]; [|discriminate].
    assert (v = VBoth va vb) as -> by congruence. cbn [instants] in X. apply in_app_iff in X as [X|X]; [exact (IHa Pa va eq_refl x X)|exact (IHb Pb vb eq_refl x X)].
  - contradiction.
Qed.

(** C218: without WithCurrentTime a call without a zone is in UTC; *)
Theorem c218_clock_partial : forall ds clock f, load ""%string = Some utc ->
  query load local ds None clock (Current f None) = Ok (VShown (face f 0 (clock O))).
Proof. intros ds clock f U. unfold query. cbn [format app run fst current]. rewrite locate_default by assumption. cbn [bind]. now rewrite show_face. Qed.
(** with it, the wall clock of UTC is shown exactly when the process is in UTC at that time. *)
Theorem c218_context_iff_partial : forall ds t clock, representable t ->
  query load local ds (Some t) clock (Current CDatetime None) = Ok (VShown (ADatetime t)) <-> local (unix t) = 0.
Proof.
  intros ds t clock R. apply wrap_id in R. unfold query. cbn [format app run fst current bind show]. unfold unix_nano. rewrite R. unfold wall.
  assert (P : 0 < ns_per_sec) by reflexivity. split; intros H.
  - assert (t + local (unix t) * ns_per_sec = t) as E by congruence. nia.
  - rewrite H. do 3 f_equal. ring.
Qed.

(** C219: without WithCurrentTime a call with a zone is in that zone, and a name that is no
    zone is an error; *)
Theorem c219_clock_partial : forall ds clock f z,
  query load local ds None clock (Current f (Some z)) =
  match locate load z with Ok l => Ok (VShown (clock_in l f (clock O))) | _ => Err end.
Proof.
  intros ds clock f z. unfold query. cbn [format app run fst current]. pose proof (locate_no_panic load z). destruct (locate load z); [cbn [bind]; now rewrite show_face|reflexivity|contradiction].
Qed.
(** with it, every call with a zone fails, whatever the zone: *)
Theorem c219_context_refuted : forall ds t clock f z, 0 <= t < 2 ^ 63 -> load (dec t) = None ->
  query load local ds (Some t) clock (Current f (Some z)) = Err.
Proof.
  intros ds t clock f z T L. assert (W : wrap64 t = t) by (apply wrap_id; unfold representable; lia).
  unfold query. cbn [format app run fst current to_int to_text]. unfold unix_nano. rewrite W, locate_digits, L by lia.
  pose proof (cast_no_panic z). now destruct (cast_string_int64 z).
Qed.
(** and so it does for every time if the name of the zone is not a number. *)
Theorem c219_name_refuted : forall ds t clock f z, cast_string_int64 z = Err ->
  query load local ds (Some t) clock (Current f (Some z)) = Err.
Proof. intros ds t clock f z C. unfold query. cbn [format app run fst current to_int]. now rewrite C. Qed.

(** C220: if the clock stands still during the query, all calls agree. *)
Theorem c220_still_partial : forall ds t clock zone e, load ""%string = Some utc ->
  (forall z, zone z = match locate load z with Ok l => Some l | _ => None end) -> (forall i, clock i = t) -> own e ->
  query load local ds None clock e = match at_time utc zone t e with Some v => Ok v | None => Err end.
Proof.
  intros ds t clock zone e U Z C O. unfold query. destruct (format_own ds None e O) as [s F]. rewrite F.
  pose proof (run_still load local ds t zone U Z e s 0%nat clock C O F) as H. destruct (at_time utc zone t e); destruct H as [j ->]; reflexivity.
Qed.

(** C221: without WithCurrentTime the instants that are shown are readings of the clock made
    during the query, *)
Theorem c221_within : forall ds clock e v, own e -> forward clock -> query load local ds None clock e = Ok v ->
  forall x, In x (instants v) -> clock O <= x <= clock (calls e - 1)%nat.
Proof.
  intros ds clock e v O W Q x X. unfold query in Q. destruct (format_own ds None e O) as [s F]. rewrite F in Q.
  destruct (run load local clock s 0) as [r j] eqn:R. cbn [fst] in Q. subst r.
  destruct (run_readings load local ds clock e s 0%nat v j O F R) as [ks [I [B _]]]. rewrite I in X. apply in_map_iff in X as [k [<- K]].
  specialize (B k K). split; apply W; lia.
Qed.
(** and a call further to the right never shows an earlier one. *)
Theorem c221_ordered : forall ds clock e v, own e -> forward clock -> query load local ds None clock e = Ok v -> ordered (instants v).
Proof.
  intros ds clock e v O W Q p q x y L P R. unfold query in Q. destruct (format_own ds None e O) as [s F]. rewrite F in Q.
  destruct (run load local clock s 0) as [r j] eqn:E. cbn [fst] in Q. subst r.
  destruct (run_readings load local ds clock e s 0%nat v j O F E) as [ks [I [_ S]]]. rewrite I in P, R.
  rewrite nth_error_map in P, R. destruct (nth_error ks p) as [a|] eqn:Ea; [|discriminate]. destruct (nth_error ks q) as [b|] eqn:Eb; [|discriminate].
  cbn in P, R. specialize (S p q a b L Ea Eb). assert (x = clock a) as -> by congruence. assert (y = clock b) as -> by congruence. now apply W.
Qed.

(** C222: a view or a function reads the time of the statement that created it, *)
Theorem c222_created_partial : forall ds created cur clock v e,
  query load local (create ds created v e) cur clock (Defined v) = query load local ds created clock e.
Proof. intros. unfold query, create. cbn [format]. now rewrite Nat.eqb_refl. Qed.
(** which is right if it is the time of the query or if the body does not ask for the time. *)
Theorem c222_timeless_partial : forall ds created cur clock v e, timeless e \/ created = cur ->
  query load local (create ds created v e) cur clock (Defined v) = query load local ds cur clock e.
Proof.
  intros ds created cur clock v e [T|E]; [|subst; apply c222_created_partial]. rewrite c222_created_partial. unfold query.
  assert (F : format ds created e = format ds cur e); [|now rewrite F].
  revert T. clear. induction e as [f z|n|a IHa b IHb|w]; cbn [timeless format]; intros T; [contradiction|reflexivity| |contradiction].
  destruct T as [A B]. now rewrite (IHa A), (IHb B).
Qed.
(** Under WithCurrentTime a view that was created without it shows whatever the clock says, *)
Theorem c222_view_refuted : forall ds t v, load ""%string = Some utc -> exists clock,
  query load local (create ds None v (Current CTimestamp None)) (Some t) clock (Defined v) <> Ok (VShown (ATimestamp t)).
Proof.
  intros ds t v U. exists (fun _ => t + 1). rewrite c222_created_partial, c218_clock_partial by assumption. cbn [face].
  intros E. assert (t + 1 = t) by congruence. lia.
Qed.
(** and one that was created with another time shows that time. *)
Theorem c222_other_time_refuted : forall ds t u cur clock v, representable u -> t <> u ->
  query load local (create ds (Some u) v (Current CTimestamp None)) cur clock (Defined v) <> Ok (VShown (ATimestamp t)).
Proof.
  intros ds t u cur clock v R N. rewrite c222_created_partial. rewrite (proj2 (c216_now_iff_partial ds u clock) R). congruence.
Qed.
(** A prepared statement shows the time of PrepareContext. *)
Theorem c222_prepared_refuted : forall ds t u clock, representable u -> t <> u ->
  prepared_query load local ds (Some u) (Some t) clock (Current CTimestamp None) <> Ok (VShown (ATimestamp t)).
Proof.
  intros ds t u clock R N. unfold prepared_query. change (query load local ds (Some u) clock (Current CTimestamp None) <> Ok (VShown (ATimestamp t))).
  rewrite (proj2 (c216_now_iff_partial ds u clock) R). congruence.
Qed.
End Now.

Example c216_example : query some_load tokyo nothing (Some in_2024) (fun _ => 0) (Current CTimestamp None) = Ok (VShown (ATimestamp in_2024)).
Proof. apply c216_now_iff_partial. unfold representable, in_2024, ns_per_sec. lia. Qed.
Example c216_far_example : ~ representable in_2300.
Proof. unfold representable, in_2300, ns_per_sec. lia. Qed.
Example c217_example : plain (Both (Current CDate None) (Both (Current CTimestamp None) (Const 1))) /\ representable in_2024 /\
  query some_load tokyo nothing (Some in_2024) (fun i => Z.of_nat i) (Both (Current CDate None) (Both (Current CTimestamp None) (Const 1))) =
  Ok (VBoth (VShown (ADate 19723)) (VBoth (VShown (ATimestamp in_2024)) (VConst 1))).
Proof. split; [cbn; tauto|]. split; [unfold representable, in_2024, ns_per_sec; lia|vm_compute; reflexivity]. Qed.

(** C218: in a process whose zone is not UTC. *)
Theorem c218_local_refuted : exists load local ds t clock, representable t /\ load ""%string = Some utc /\
  query load local ds (Some t) clock (Current CDate None) <> Ok (VShown (face CDate 0 t)).
Proof.
  exists some_load, tokyo, nothing, (in_2024 + 6 * 3600 * ns_per_sec), (fun _ => 0).
  split; [unfold representable, in_2024, ns_per_sec; lia|]. split; [reflexivity|]. vm_compute. discriminate.
Qed.
Example c218_example : query some_load tokyo nothing None (fun _ => in_2024) (Current CDate None) = Ok (VShown (ADate 19723)).
Proof. rewrite c218_clock_partial by reflexivity. vm_compute. reflexivity. Qed.

Example c219_example : cast_string_int64 "Asia/Tokyo" = Err /\ some_load (dec in_2024) = None /\
  query some_load tokyo nothing (Some in_2024) (fun _ => 0) (Current CDatetime (Some "Asia/Tokyo"%string)) = Err /\
  query some_load tokyo nothing None (fun _ => in_2024) (Current CDatetime (Some "Asia/Tokyo"%string)) = Ok (VShown (ADatetime (in_2024 + 9 * 3600 * ns_per_sec))).
Proof. repeat split; vm_compute; reflexivity. Qed.

(** C220: two calls in one query, with midnight between their readings: the date of the one
    is not the date of the other. *)
Theorem c220_agree_refuted : exists load local ds clock e v, own e /\ load ""%string = Some utc /\ forward clock /\
  query load local ds None clock e = Ok v /\ forall zone t, at_time utc zone t e <> Some v.
Proof.
  exists some_load, utc, nothing, (fun i => match i with O => ns_per_day - 1 | _ => ns_per_day end), (Both (Current CDate None) (Current CTimestamp None)),
    (VBoth (VShown (ADate 0)) (VShown (ATimestamp ns_per_day))).
  split; [cbn; tauto|]. split; [reflexivity|]. split.
  { intros i j L. destruct i, j; try lia. }
  split; [vm_compute; reflexivity|]. intros zone t. cbn [at_time]. unfold clock_in. cbn [face]. intros E.
  assert ((t + utc (t / 1000000000) * 1000000000) / 86400000000000 = 0) as A by congruence. assert (t = ns_per_day) as -> by congruence. vm_compute in A. discriminate.
Qed.
Example c221_example : forward (fun i => Z.of_nat i) /\ own (Both (Current CTimestamp None) (Current CTimestamp (Some "Asia/Tokyo"%string))) /\
  query some_load utc nothing None (fun i => Z.of_nat i) (Both (Current CTimestamp None) (Current CTimestamp (Some "Asia/Tokyo"%string))) =
  Ok (VBoth (VShown (ATimestamp 0)) (VShown (ATimestamp 1))).
Proof. split; [intros i j L; lia|]. split; [cbn; tauto|vm_compute; reflexivity]. Qed.
Example c222_example : query some_load utc (create nothing None 7 (Both (Const 1) (Current CTimestamp None))) (Some in_2024) (fun _ => 5) (Defined 7) =
  Ok (VBoth (VConst 1) (VShown (ATimestamp 5))).
Proof. reflexivity. Qed.

Print Assumptions c216_now_iff_partial.
Print Assumptions c216_far_refuted.
Print Assumptions c217_no_clock.
Print Assumptions c217_one_instant.
Print Assumptions c218_clock_partial.
Print Assumptions c218_context_iff_partial.
Print Assumptions c219_clock_partial.
Print Assumptions c219_context_refuted.
Print Assumptions c219_name_refuted.
Print Assumptions c220_still_partial.
Print Assumptions c221_within.
Print Assumptions c221_ordered.
Print Assumptions c222_created_partial.
Print Assumptions c222_timeless_partial.
Print Assumptions c222_view_refuted.
Print Assumptions c222_other_time_refuted.
Print Assumptions c222_prepared_refuted.
Print Assumptions c218_local_refuted.
Print Assumptions c220_agree_refuted.
