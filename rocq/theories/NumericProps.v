(** Property C34: NUMERIC operands. *)
From Coq Require Import List ZArith QArith Lia Bool.
From Verif Require Import GoBase CastModel NumericModel NumericProofs.
Import ListNotations.
Open Scope Z_scope.

(** Evaluating any expression gives the arithmetical value and leaves every cell that
    anybody held before as it was. *)
Theorem c34_scalar_partial : forall env e h v h', evalh env h e = Ok (v, h') ->
  eval_pure env e = Ok v /\ forall a, (a < length h)%nat -> get h' a = get h a.
Proof.
  intros env e h v h' E. pose proof (evalh_pure env e h) as P. rewrite E in P. destruct P as (A & _ & B). auto.
Qed.
Print Assumptions c34_scalar_partial.
Theorem c34_scalar_error_partial : forall env e h, evalh env h e = Err <-> eval_pure env e = Err.
Proof.
  intros env e h. pose proof (evalh_pure env e h) as P. destruct (evalh env h e) as [[v h']| |].
  - destruct P as [-> _]. split; discriminate.
  - tauto.
  - rewrite P. split; discriminate.
Qed.
Print Assumptions c34_scalar_error_partial.
(** Aggregates over the same rows, interleaved in any order: every SUM is the sum of
    its own arguments, every kept value is the argument. *)
Theorem c34_aggregates_partial : forall kind evs i, let '(h, s) := agg_run kind evs in
  map (get h) (held s i) = match kind i with ASum => total (fed evs i) | AKeep => fed evs i end.
Proof.
  intros kind evs i. pose proof (agg_run_inv kind evs) as I. destruct (agg_run kind evs) as [h s]. apply I.
Qed.
Print Assumptions c34_aggregates_partial.
(** GENERATE_ARRAY returns one value repeated. *)
Theorem c34_generate_refuted : forall f a b s l, generate_numeric f a b s = Some l -> forall x y, In x l -> In y l -> x = y.
Proof.
  intros f a b s l E x y Ix Iy. unfold generate_numeric in E. cbn [decode] in E.
  destruct (Qle_bool a b && negb (negb (Qle_bool s 0))); [injection E as <-; destruct Ix|].
  destruct (negb (Qle_bool a b) && negb (Qle_bool s 0)); [injection E as <-; destruct Ix|].
  destruct (num_loop f _ _ s b _) as [[h2 cells]|] eqn:L; [|discriminate]. cbn in E. injection E as <-.
  apply in_map_iff in Ix, Iy. destruct Ix as (p & <- & Ip). destruct Iy as (q & <- & Iq).
  rewrite (num_loop_alias _ _ _ _ _ _ _ _ L p Ip), (num_loop_alias _ _ _ _ _ _ _ _ L q Iq). reflexivity.
Qed.
Print Assumptions c34_generate_refuted.
(** RANGE BETWEEN p PRECEDING AND q FOLLOWING: a later row whose key lies within q of
    the current key, but not within q - p, is left out. *)
Theorem c34_range_refuted : forall h keys cur p q k a,
  (forall i j b c, nth_error keys i = Some b -> nth_error keys j = Some c -> (i <= j)%nat -> (get h b <= get h c)%Q) ->
  (cur < length h)%nat -> nth_error keys k = Some a ->
  (get h cur < get h a)%Q -> (get h cur - p + q < get h a)%Q -> (get h a <= get h cur + q)%Q ->
  snd (range_frame h keys cur p q) < Z.of_nat k.
Proof.
  intros h keys cur p q k a Sorted Bc Nk L1 L2 _. unfold range_frame. cbn [snd]. unfold lookup_max. apply last_index_below.
  intros j b Nb Le. rewrite !get_put_same by (rewrite ?length_put; assumption).
  pose proof (Sorted _ _ _ _ Nk Nb Le) as S1.
  assert (cur <> b). { intros <-. apply (Qlt_not_le _ _ L1). exact S1. }
  rewrite !get_put_other by assumption.
  destruct (Qle_bool (get h b) _) eqn:E; auto. exfalso. apply Qle_bool_iff in E.
  unfold num_add, num_sub, norm in E. rewrite Qred_correct in E.
  assert (E2 : (get h b <= get h cur - p + q)%Q).
  { eapply Qle_trans; [exact E|]. rewrite Qred_correct. apply Qle_refl. }
  apply (Qlt_not_le _ _ L2). eapply Qle_trans; eauto.
Qed.
Print Assumptions c34_range_refuted.
(** GENERATE_ARRAY(1, 3, 1) is [4, 4, 4]; keys 0, 1, 2 with one on either side of the
    middle row: rows 0 to 1 instead of 0 to 2. *)
Example c34_example :
  evalh [2; 3]%Q [7]%Q (NBin NAdd (NBin NMul (NCol 0) (NCol 1)) (NCol 0)) = Ok (8, [7; 6; 3; 8; 2])%Q /\
  generate_numeric 10 1 3 1 = Some [4; 4; 4]%Q /\
  range_frame [0; 1; 2]%Q [0; 1; 2]%nat 1%nat 1 1 = (0, 1) /\
  lookup_max [0; 1; 2]%Q [0; 1; 2]%nat (1 + 1) = 2 /\
  agg_run (fun i => if Nat.eqb i 0 then ASum else AKeep) [(0%nat, 5%Q); (1%nat, 5%Q); (0%nat, 6%Q); (1%nat, 6%Q)] =
    ([11; 5; 6; 6]%Q, [(0, [0]); (1, [1; 3])]%nat).
Proof. repeat split. Qed.
