From Coq Require Import ZArith Lia Bool.
From Verif Require Import GoBase CalendarModel CalendarFacts InstantModel.
Open Scope Z_scope.

Definition valid_clock (h mi s : Z) : Prop := 0 <= h < 24 /\ 0 <= mi < 60 /\ 0 <= s < 60.

Lemma go_time_split : forall y m d h mi s ns, 0 <= ns < ns_per_sec -> valid_clock h mi s ->
  let t := go_time y m d h mi s ns in
  day_no t = godate y m d /\ clock t = h * 3600 + mi * 60 + s /\ nanosecond t = ns.
Proof.
  intros y m d h mi s ns Hn (Hh & Hm & Hs) t. unfold t, go_time, day_no, clock, nanosecond, ns_per_day.
  set (g := godate y m d). set (c := h * 3600 + mi * 60 + s).
  assert (0 <= c < 86400) by (unfold c; lia).
  replace (g * 86400 + h * 3600 + mi * 60 + s) with (g * 86400 + c) by (unfold c; lia).
  assert (D : ((g * 86400 + c) * ns_per_sec + ns) / ns_per_sec = g * 86400 + c).
  { unfold ns_per_sec in *. rewrite Z.div_add_l by lia. rewrite Z.div_small; lia. }
  split; [|split].
  - rewrite (Z.mul_comm 86400), <- Z.div_div by (unfold ns_per_sec; lia). rewrite D.
    rewrite Z.div_add_l by lia. rewrite Z.div_small; lia.
  - rewrite D, Z.add_comm, Z.mod_add by lia. apply Z.mod_small. lia.
  - rewrite Z.add_comm, Z.mod_add by (unfold ns_per_sec; lia). apply Z.mod_small. lia.
Qed.
Lemma clock_fields : forall t h mi s, clock t = h * 3600 + mi * 60 + s -> valid_clock h mi s ->
  hour t = h /\ minute t = mi /\ second t = s.
Proof.
  intros t h mi s E (Hh & Hm & Hs). unfold hour, minute, second. rewrite E. split; [|split].
  - rewrite <- Z.add_assoc, Z.div_add_l by lia. rewrite Z.div_small; lia.
  - replace (h * 3600 + mi * 60 + s) with ((h * 60 + mi) * 60 + s) by lia. rewrite Z.div_add_l, (Z.div_small s) by lia.
    rewrite Z.add_0_r, Z.add_comm, Z.mod_add by lia. apply Z.mod_small. lia.
  - replace (h * 3600 + mi * 60 + s) with (s + (h * 60 + mi) * 60) by lia. rewrite Z.mod_add by lia. apply Z.mod_small. lia.
Qed.
Lemma clock_range : forall t, 0 <= clock t < 86400.
Proof. intros. apply Z.mod_pos_bound. lia. Qed.
Lemma time_of_fields : forall t, valid_clock (hour t) (minute t) (second t) /\ 0 <= nanosecond t < ns_per_sec /\
  clock t = hour t * 3600 + minute t * 60 + second t /\
  t = (day_no t * 86400 + clock t) * ns_per_sec + nanosecond t.
Proof.
  intros t. pose proof (clock_range t) as C.
  assert (N : 0 <= nanosecond t < ns_per_sec) by (apply Z.mod_pos_bound; unfold ns_per_sec; lia).
  assert (K : clock t = hour t * 3600 + minute t * 60 + second t).
  { unfold hour, minute, second. pose proof (Z.div_mod (clock t) 60 ltac:(lia)). pose proof (Z.div_mod (clock t / 60) 60 ltac:(lia)).
    rewrite (Z.div_div (clock t) 60 60) in H0 by lia. change (60 * 60) with 3600 in H0. lia. }
  split; [|split; [exact N|split; [exact K|]]].
  - unfold valid_clock. split; [|split].
    + unfold hour. split; [apply Z.div_pos; lia|apply Z.div_lt_upper_bound; lia].
    + apply Z.mod_pos_bound. lia.
    + apply Z.mod_pos_bound. lia.
  - unfold day_no, clock, nanosecond, ns_per_day. unfold ns_per_sec in *.
    rewrite (Z.mul_comm 86400), <- Z.div_div by lia.
    pose proof (Z.div_mod t 1000000000 ltac:(lia)). pose proof (Z.div_mod (t / 1000000000) 86400 ltac:(lia)). lia.
Qed.

Lemma unix_micro_floor : forall t, unix_micro t = t / 1000.
Proof.
  intros t. unfold unix_micro, unix, nanosecond, ns_per_sec.
  pose proof (Z.div_mod t 1000000000 ltac:(lia)) as E. rewrite E at 3.
  replace (1000000000 * (t / 1000000000) + t mod 1000000000) with (t mod 1000000000 + (1000000 * (t / 1000000000)) * 1000) by lia.
  rewrite Z.div_add by lia. lia.
Qed.
Lemma unix_milli_floor : forall t, unix_milli t = t / 1000000.
Proof.
  intros t. unfold unix_milli, unix, nanosecond, ns_per_sec.
  pose proof (Z.div_mod t 1000000000 ltac:(lia)) as E. rewrite E at 3.
  replace (1000000000 * (t / 1000000000) + t mod 1000000000) with (t mod 1000000000 + (1000 * (t / 1000000000)) * 1000000) by lia.
  rewrite Z.div_add by lia. lia.
Qed.
