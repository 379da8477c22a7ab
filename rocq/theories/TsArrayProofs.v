From Coq Require Import Ascii String List ZArith Lia Bool.
From Verif Require Import GoBase GoBaseFacts InstantModel ArrayFnModel ArrayFnSpec ArrayFnProofs IntervalModel IntervalSpec TsArrayModel TsArraySpec.
Import ListNotations.
Local Open Scope string_scope.
Open Scope Z_scope.

Lemma wrap64_cong : forall z, exists k, wrap64 z = z + k * two64.
Proof.
  intros z. exists (- ((z + two63) / two64)). unfold wrap64.
  pose proof (Z.div_mod (z + two63) two64 ltac:(unfold two64; lia)) as D. lia.
Qed.
Lemma wrap64_same : forall a b k, a = b + k * two64 -> wrap64 a = wrap64 b.
Proof.
  intros a b k ->. unfold wrap64. replace (b + k * two64 + two63) with (b + two63 + k * two64) by lia.
  rewrite Z.mod_add by (unfold two64; lia). reflexivity.
Qed.
Lemma wrap64_mul : forall a b, wrap64 (wrap64 a * b) = wrap64 (a * b).
Proof. intros a b. destruct (wrap64_cong a) as [k ->]. apply (wrap64_same _ _ (k * b)). lia. Qed.

Lemma add_part_known : forall part u t v, In (part, u) timestamp_parts -> add_part t v part = Ok (t + wrap64 (v * u)).
Proof.
  intros part u t v H. cbn in H.
  repeat (destruct H as [H|H]; [injection H as <- <-; cbn -[wrap64 Z.mul Z.add]; rewrite ?wrap64_mul; do 3 f_equal; lia|]).
  contradiction.
Qed.
Lemma unit_pos : forall part u, In (part, u) timestamp_parts -> 0 < u.
Proof. intros part u H. cbn in H. repeat (destruct H as [H|H]; [injection H as <- <-; lia|]). contradiction. Qed.

Lemma ts_loop_gen : forall part u, In (part, u) timestamp_parts -> forall fuel up stop step cur,
  ts_loop fuel up stop step part cur =
  option_map Ok (gen_loop (fun x => x + wrap64 (step * u)) (fun x => if up then x <=? stop else stop <=? x) fuel cur).
Proof.
  intros part u H fuel. induction fuel as [|f IH]; intros up stop step cur; auto. cbn [ts_loop gen_loop].
  rewrite (add_part_known part u) by auto. destruct (if up then _ else _); auto. rewrite IH.
  destruct (gen_loop _ _ f _); reflexivity.
Qed.
Lemma ts_array_gen : forall part u, In (part, u) timestamp_parts -> forall fuel a b step, step <> 0 ->
  bind_ts_array fuel (Some a) (Some b) (Some step) part =
  option_map (fun l => Ok (Some l)) (gen_array Z.leb (fun x => x + wrap64 (step * u)) (0 <? step) fuel a b).
Proof.
  intros part u H fuel a b step N. unfold bind_ts_array, ts_array, gen_array. apply Z.eqb_neq in N. rewrite N.
  destruct (a <=? b), (0 <? step); cbn [andb negb]; auto; rewrite (ts_loop_gen part u) by auto; destruct (gen_loop _ _ _ _); reflexivity.
Qed.

Lemma quot_digit : forall hi lo k, 0 < k -> - k < lo < k -> one_sign [hi; lo] -> Z.quot (hi * k + lo) k = hi /\ Z.rem (hi * k + lo) k = lo.
Proof.
  intros hi lo k K B S1.
  assert (P : forall h l, 0 <= h -> 0 <= l < k -> Z.quot (h * k + l) k = h /\ Z.rem (h * k + l) k = l).
  { intros h l H L. split; symmetry.
    - apply (Z.quot_unique _ _ h l); nia.
    - apply (Z.rem_unique _ _ h l); nia. }
  destruct S1 as [F|F]; inversion F as [|? ? F1 F2]; inversion F2; subst.
  - apply P; lia.
  - destruct (P (- hi) (- lo)) as [Q R]; [lia|lia|].
    replace (- hi * k + - lo) with (- (hi * k + lo)) in * by lia.
    rewrite Z.quot_opp_l in Q by lia. rewrite Z.rem_opp_l in R by lia. lia.
Qed.
