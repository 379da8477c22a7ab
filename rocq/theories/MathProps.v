(** C297-C307: the FLOAT64 functions and operators. *)
From Coq Require Import List ZArith QArith Lia Bool SpecFloat.
From Verif Require Import GoBase ValueModel ValueFacts CompareSpec FloatFacts MathModel MathSpec MathProofs.
Import ListNotations.
Open Scope Z_scope.

(** In the theorems the functions of the mathematical libraries, the conversions of
    values of other types and the sign of NaN are arbitrary. *)
Section Any.
  Variable lib : lib1 -> float -> float.
  Variable libb : lib2 -> float -> float -> float.
  Variable scalar_round : float -> Z -> float.
  Variable nan_sign : bool.
  Variable other_float : val -> res float.
  Variable other_int : val -> res Z.
  Let run := call lib libb scalar_round nan_sign other_float other_int.
  Let F (f : float) : option val := Some (VFloat f).
  Let I (z : Z) : option val := Some (VInt z).

Lemma null_seen : forall args, exists_null args = true <-> In None args.
Proof.
  intros args. unfold exists_null. rewrite existsb_exists. split.
  - intros ([v|] & J & E); [discriminate|exact J].
  - intros J. now exists None.
Qed.
Lemma strict_null : forall k args, In None args -> strict k args = Ok None.
Proof. intros k args J. unfold strict. apply null_seen in J. now rewrite J. Qed.

(** ** C297: NULL goes in, NULL comes out *)
Theorem c297_null : forall fn args, fn <> F_ROUND -> In None args -> run fn args = Ok None.
Proof. intros fn args N J. unfold run. destruct fn; try congruence; cbn [call]; unfold by_lib, by_lib2, bind_log; now apply strict_null. Qed.
Theorem c297_round : forall n, run F_ROUND [None] = Ok None /\ run F_ROUND [None; I n] = Ok None.
Proof. intros. split; reflexivity. Qed.
(** Without NULL among the arguments the only NULL is SAFE_DIVIDE's for a zero divisor. *)
Lemma shape : forall fn args, well_typed fn args -> exists_null args = false ->
  (exists x, args = [F x]) \/ (exists x y, args = [F x; F y]) \/ ((fn = F_ROUND \/ fn = F_TRUNC) /\ exists x n, args = [F x; I n]).
Proof.
  intros fn args [T A] E.
  assert (L : length args = 1%nat \/ length args = 2%nat) by (destruct fn; cbn in T; tauto).
  destruct args as [|a [|b [|c r]]]; cbn in L; try (exfalso; lia); clear L.
  - left. assert (G : float_arg a) by (destruct fn; cbn in A; now apply Forall_inv in A).
    destruct a as [[]|]; try destruct G; [|discriminate]. eexists. reflexivity.
  - right. destruct a as [v|]; [|discriminate]. destruct b as [w|]; [|discriminate].
    destruct fn; cbn in T; try discriminate;
      try (left; cbn in A; pose proof (Forall_inv A) as G; apply Forall_inv_tail, Forall_inv in A; destruct v; try destruct G; destruct w; try destruct A; now eexists; eexists);
      (right; split; [tauto|]; cbn in A; destruct A as [G A]; destruct v; try destruct G; destruct w; try destruct A; now eexists; eexists).
Qed.
Theorem c297_only : forall fn args, well_typed fn args -> ~ In None args ->
  (run fn args = Ok None <-> fn = F_SAFE_DIVIDE /\ exists x s, args = [F x; F (S754_zero s)]).
Proof.
  intros fn args W N. assert (E : exists_null args = false) by (destruct (exists_null args) eqn:E; [now apply null_seen in E|reflexivity]).
  destruct (shape fn args W E) as [(x & ->)|[(x & y & ->)|[[-> | ->] (x & n & ->)]]].
  - split; [|intros (_ & x' & s & H); discriminate]. unfold run. destruct W as [T _].
    destruct fn; cbn in T; try discriminate; intros H; discriminate H.
  - unfold run. destruct W as [T _]. destruct fn; cbn in T; try discriminate; try (exfalso; lia);
      try (split; [intros H; discriminate H|intros (H & _); discriminate H]).
    + cbn. destruct y as [s|s| |s m e]; cbn; (split; [intros H; try discriminate H|intros (_ & x' & s' & H)]); try (inversion H; fail); try reflexivity.
      split; [reflexivity|]. exists x, s. reflexivity.
    + cbn. destruct (eq0 y); (split; [intros H; discriminate H|intros (H & _); discriminate H]).
  - split; [intros H; discriminate H|intros (H & _); discriminate H].
  - split; [intros H; discriminate H|intros (H & _); discriminate H].
Qed.

(** ** C298: ROUND with a NULL precision *)
Theorem c298_round_refuted : forall x, run F_ROUND [x; None] = GoPanic.
Proof. reflexivity. Qed.

(** ** C299: LOG with a base *)
Theorem c299_one_partial : forall x, run F_LOG [x] = run F_LN [x].
Proof. intros [v|]; reflexivity. Qed.
Theorem c299_base_refuted : forall x y y', run F_LOG [Some x; Some y] = run F_LOG [Some x; Some y'].
Proof. reflexivity. Qed.
(** LOG(8, 2) is not 3 but 8 * 2^8. *)
Theorem c299_value_refuted : forall y, run F_LOG [F (float_of_int 8); Some y] = Ok (F (float_of_int 2048)).
Proof. reflexivity. Qed.

(** ** C300: TRUNC *)
Theorem c300_one_partial : forall x, finite x -> exists r z, run F_TRUNC [F x] = Ok (F r) /\ is_integer r z /\
  Z.abs z * unit1 <= Z.abs (float_scaled x) < (Z.abs z + 1) * unit1 /\ 0 <= z * float_scaled x.
Proof. intros x Fx. destruct (trunc_spec x Fx) as (z & H). exists (go_trunc x), z. split; [reflexivity|exact H]. Qed.
Theorem c300_places_refuted : forall x n, run F_TRUNC [Some x; Some n] = run F_TRUNC [Some x].
Proof. reflexivity. Qed.

(** ** C301: CEIL and FLOOR *)
Theorem c301_floor : forall x, finite x -> exists r z, run F_FLOOR [F x] = Ok (F r) /\ is_integer r z /\
  z * unit1 <= float_scaled x < (z + 1) * unit1.
Proof. intros x Fx. destruct (floor_spec x Fx) as (z & H). exists (go_floor x), z. split; [reflexivity|exact H]. Qed.
Theorem c301_ceil : forall x, finite x -> exists r z, run F_CEIL [F x] = Ok (F r) /\ run F_CEILING [F x] = Ok (F r) /\ is_integer r z /\
  (z - 1) * unit1 < float_scaled x <= z * unit1.
Proof. intros x Fx. destruct (ceil_spec x Fx) as (z & H). exists (go_ceil x), z. split; [reflexivity|]. split; [reflexivity|exact H]. Qed.
(** The infinities and NaN are left as they are. *)
Theorem c301_special : forall x fn, ~ finite x -> valid_binary prec64 emax64 x = true -> In fn [F_FLOOR; F_CEIL; F_CEILING; F_TRUNC] ->
  run fn [F x] = Ok (F x).
Proof.
  intros x fn N V [<-|[<-|[<-|[<-|[]]]]]; destruct x as [s|s| |s m e]; try (exfalso; apply N; split; [exact V|exact Logic.I]); try destruct s; reflexivity.
Qed.

(** ** C302: SIGN *)
Theorem c302_nonzero_partial : forall x, real_float x -> float_scaled x <> 0 ->
  run F_SIGN [F x] = Ok (I (Z.sgn (float_scaled x))).
Proof.
  intros x [V N] Z0. unfold run. destruct x as [s|s| |s m e].
  - now destruct s.
  - assert (P : 0 < 2 ^ 2098) by (apply Z.pow_pos_nonneg; lia).
    assert (E : Z.sgn (float_scaled (S754_infinity s)) = if s then -1 else 1) by (destruct s; unfold float_scaled; [apply Z.sgn_neg|apply Z.sgn_pos]; lia).
    rewrite E. destruct s; reflexivity.
  - discriminate.
  - pose proof (finite_scaled_pos m e (canonical_of s m e V)) as P.
    assert (E : Z.sgn (float_scaled (S754_finite s m e)) = if s then -1 else 1) by (destruct s; unfold float_scaled; [apply Z.sgn_neg|apply Z.sgn_pos]; lia).
    rewrite E. destruct s; reflexivity.
Qed.
Theorem c302_zero_partial : run F_SIGN [F (S754_zero false)] = Ok (I 0).
Proof. reflexivity. Qed.
Theorem c302_negative_zero_refuted : run F_SIGN [F (S754_zero true)] = Ok (I (-1)).
Proof. reflexivity. Qed.
Theorem c302_nan_refuted : exists z, z <> 0 /\ run F_SIGN [F S754_nan] = Ok (I z).
Proof. exists (if nan_sign then -1 else 1). split; [destruct nan_sign; discriminate|]. unfold run. cbn. now destruct nan_sign. Qed.

(** ** C303: IEEE_DIVIDE *)
Definition finite_nonzero (x : float) : Prop := match x with S754_finite _ _ _ => True | _ => False end.
Lemma pow_not_opp : 2 ^ 2098 <> - 2 ^ 2098.
Proof. assert (0 < 2 ^ 2098) by (apply Z.pow_pos_nonneg; lia). lia. Qed.
Theorem c303_quotient_partial : forall x y, exists r, run F_IEEE_DIVIDE [F x; F y] = Ok (F r) /\
  (same_number r (fdiv x y) <-> ~ (finite_nonzero x /\ y = S754_zero true)).
Proof.
  intros x y. exists (ieee_divide x y). split; [reflexivity|].
  destruct x as [sx|sx| |sx mx ex]; destruct y as [sy|sy| |sy my ey];
    try (split; [intros _ (H & _); exact H|intros _]; split; [reflexivity|]; try reflexivity; destruct sx, sy; reflexivity).
  - destruct sy.
    + split; [|intros H; exfalso; apply H; split; [exact Logic.I|reflexivity]].
      intros (_ & H). exfalso. destruct sx; change (float_scaled (S754_infinity true) = float_scaled (S754_infinity false)) in H
        || change (float_scaled (S754_infinity false) = float_scaled (S754_infinity true)) in H; unfold float_scaled in H; [symmetry in H|]; exact (pow_not_opp H).
    + split; [intros _ (_ & H); discriminate H|intros _]. destruct sx; split; reflexivity.
  - split; [intros _ (_ & H); discriminate H|intros _]. split; reflexivity.
  - split; [intros _ (_ & H); discriminate H|intros _]. split; reflexivity.
  - split; [intros _ (_ & H); discriminate H|intros _]. split; reflexivity.
Qed.
(** A positive number divided by -0.0 is +inf, a negative one -inf: both with the wrong
    sign. *)
Theorem c303_negative_zero_refuted : forall s m e,
  run F_IEEE_DIVIDE [F (S754_finite s m e); F (S754_zero true)] = Ok (F (S754_infinity s)) /\
  fdiv (S754_finite s m e) (S754_zero true) = S754_infinity (negb s).
Proof. intros s m e. destruct s; split; reflexivity. Qed.

(** ** C304: ABS, SAFE_NEGATE, IS_INF, IS_NAN *)
Theorem c304_abs : forall x, exists r, run F_ABS [F x] = Ok (F r) /\
  is_nan r = is_nan x /\ float_scaled r = Z.abs (float_scaled x).
Proof. intros x. exists (SFabs x). split; [reflexivity|]. split; [now destruct x|apply abs_scaled]. Qed.
Theorem c304_negate : forall x, exists r, run F_SAFE_NEGATE [F x] = Ok (F r) /\
  is_nan r = is_nan x /\ float_scaled r = - float_scaled x.
Proof. intros x. exists (SFopp x). split; [reflexivity|]. split; [now destruct x|apply opp_scaled]. Qed.
Theorem c304_is_inf : forall x, valid_binary prec64 emax64 x = true -> exists b, run F_IS_INF [F x] = Ok (Some (VBool b)) /\
  (b = true <-> forall g, finite g -> Z.abs (float_scaled g) < Z.abs (float_scaled x)).
Proof.
  intros x V. exists (is_inf x). split; [reflexivity|]. split.
  - intros E g Fg. destruct x as [s|s| |s m e]; try discriminate. apply finite_below in Fg.
    replace (Z.abs (float_scaled (S754_infinity s))) with (2 ^ 2098); [exact Fg|].
    assert (0 < 2 ^ 2098) by (apply Z.pow_pos_nonneg; lia).
    destruct s; unfold float_scaled; rewrite ?Z.abs_opp, Z.abs_eq by lia; reflexivity.
  - intros H. destruct x as [s|s| |s m e]; [|reflexivity| |].
    + specialize (H (S754_zero false) (conj eq_refl Logic.I)). destruct s; cbn in H; lia.
    + specialize (H (S754_zero false) (conj eq_refl Logic.I)). cbn in H. lia.
    + specialize (H _ (conj V Logic.I)). lia.
Qed.
(** IS_NAN(x) is TRUE exactly where x = x is FALSE. *)
Theorem c304_is_nan : forall x, valid_binary prec64 emax64 x = true -> exists b, run F_IS_NAN [F x] = Ok (Some (VBool b)) /\
  cmp EQ (VFloat x) (VFloat x) = Ok (negb b).
Proof.
  intros x V. exists (is_nan x). split; [reflexivity|]. destruct x as [s|s| |s m e]; try (destruct s; reflexivity); try reflexivity.
  cbn. destruct s; rewrite ?Z.compare_refl; cbn; rewrite ?Pos.compare_cont_refl; reflexivity.
Qed.

(** ** C305: overflow *)
Lemma total2 : forall op x y, In op [O_ADD; O_SUB; O_MUL; F_SAFE_ADD; F_SAFE_SUBTRACT; F_SAFE_MULTIPLY] -> exists r, run op [F x; F y] = Ok (F r).
Proof. intros op x y J. cbn in J. unfold run. repeat (destruct J as [<-|J]; [eexists; reflexivity|]). destruct J. Qed.
Definition max_float : float := S754_finite false 9007199254740991 971.
Theorem c305_operator_refuted : (forall op x y, In op [O_ADD; O_SUB; O_MUL] -> exists r, run op [F x; F y] = Ok (F r)) /\
  run O_ADD [F max_float; F max_float] = Ok (F (S754_infinity false)) /\
  run O_SUB [F (SFopp max_float); F max_float] = Ok (F (S754_infinity true)) /\
  run O_MUL [F max_float; F max_float] = Ok (F (S754_infinity false)) /\ finite max_float.
Proof.
  split; [intros op x y J; apply total2; cbn in J; cbn; tauto|]. split; [reflexivity|]. split; [reflexivity|]. split; [reflexivity|].
  split; [reflexivity|exact Logic.I].
Qed.
Theorem c305_safe_refuted : (forall op x y, In op [F_SAFE_ADD; F_SAFE_SUBTRACT; F_SAFE_MULTIPLY] -> exists r, run op [F x; F y] = Ok (F r)) /\
  run F_SAFE_ADD [F max_float; F max_float] = Ok (F (S754_infinity false)) /\
  run F_SAFE_MULTIPLY [F max_float; F max_float] = Ok (F (S754_infinity false)).
Proof. split; [intros op x y J; apply total2; cbn in J; cbn; tauto|]. split; reflexivity. Qed.

(** ** C306: arguments outside a function's domain *)
Theorem c306_value_partial : (forall fn f x, named1 fn = Some f -> run fn [F x] = Ok (F (lib f x))) /\
  (forall fn f x y, named2 fn = Some f -> run fn [F x; F y] = Ok (F (libb f x y))).
Proof.
  split; intros fn f x; [intros E|intros y E]; destruct fn; try discriminate; cbn in E; assert (X : f = f) by reflexivity; clear X; unfold run;
    match type of E with Some ?a = Some _ => assert (a = f) by congruence end; subst f; reflexivity.
Qed.
Theorem c306_domain_refuted : forall fn args, fn <> O_DIV -> (forall a, In a args -> exists x, a = F x) -> takes fn (length args) ->
  exists v, run fn args = Ok v.
Proof.
  intros fn args ND A T.
  assert (L : length args = 1%nat \/ length args = 2%nat) by (destruct fn; cbn in T; tauto).
  destruct args as [|a [|b [|c r]]]; cbn in L; try (exfalso; lia); clear L.
  - destruct (A a (or_introl eq_refl)) as (x & ->). unfold run. destruct fn; cbn in T; try discriminate; try congruence; eexists; reflexivity.
  - destruct (A a (or_introl eq_refl)) as (x & ->). destruct (A b (or_intror (or_introl eq_refl))) as (y & ->). unfold run.
    destruct fn; cbn in T; try discriminate; try congruence; try (eexists; reflexivity).
    cbn. destruct (eq0 y); eexists; reflexivity.
Qed.

(** ** C307: the SAFE_ functions and the operators they guard *)
Theorem c307_safe : forall op safe x y, safe_form op = Some safe ->
  run safe [F x; F y] = match run op [F x; F y] with Err => Ok None | r => r end.
Proof.
  intros op safe x y E. unfold run. destruct op; try discriminate; cbn in E;
    match type of E with Some ?a = Some _ => assert (a = safe) by congruence end; subst safe; try reflexivity.
  cbn. destruct (eq0 y); reflexivity.
Qed.
(** Division fails exactly for a zero divisor. *)
Theorem c307_division : forall x y, valid_binary prec64 emax64 y = true -> (run O_DIV [F x; F y] = Err <-> is_nan y = false /\ float_scaled y = 0).
Proof.
  intros x y V. unfold run. destruct y as [s|s| |s m e]; cbn -[float_scaled].
  - split; [intros _; now destruct s|reflexivity].
  - split; [discriminate|]. intros (_ & H). exfalso. assert (0 < 2 ^ 2098) by (apply Z.pow_pos_nonneg; lia). destruct s; unfold float_scaled in H; lia.
  - split; [discriminate|]. intros (H & _). discriminate.
  - split; [discriminate|]. intros (_ & H). exfalso. destruct s; unfold float_scaled in H; pose proof (finite_scaled_pos m e (canonical_of _ m e V)); lia.
Qed.

(** ** C327: exact types pass through FLOAT64 *)
(** Full property: ABS and SAFE_NEGATE of an INT64, and ABS, FLOOR, CEIL and TRUNC of a NUMERIC that is an
    integer, are that integer without its sign, or that integer. *)
Theorem c327_abs_partial : forall z, Z.abs z < 2 ^ 53 -> exists r, run F_ABS [I z] = Ok (F r) /\ is_integer r (Z.abs z).
Proof.
  intros z B. exists (SFabs (float_of_int z)). split; [reflexivity|]. destruct (float_of_int_finite z B) as [Fi E]. split.
  - destruct Fi as [V N]. destruct (float_of_int z); split; try exact V; try exact N.
  - rewrite abs_scaled, E, Z.abs_mul, (Z.abs_eq unit1) by (apply Z.pow_nonneg; lia). reflexivity.
Qed.
Theorem c327_abs_refuted : forall z, Z.odd z = true -> 2 ^ 53 <= Z.abs z ->
  (exists r, run F_ABS [I z] = Ok (F r) /\ ~ is_integer r (Z.abs z)) /\
  (exists r, run F_SAFE_NEGATE [I z] = Ok (F r) /\ ~ is_integer r (- z)).
Proof.
  intros z O B. split; [exists (SFabs (float_of_int z))|exists (SFopp (float_of_int z))]; (split; [reflexivity|]); intros H; apply odd_integer_small in H; try lia.
  - destruct (Z.abs_spec z) as [[_ ->]|[_ ->]]; [exact O|now rewrite Z.odd_opp].
  - now rewrite Z.odd_opp.
Qed.
Theorem c327_numeric_refuted : forall z fn v, Z.odd z = true -> 2 ^ 53 <= Z.abs z -> In fn [F_ABS; F_FLOOR; F_CEIL; F_CEILING; F_TRUNC] ->
  run fn [Some (VNum (inject_Z z))] = Ok v -> exists r, v = F r /\ ~ is_integer r (match fn with F_ABS => Z.abs z | _ => z end).
Proof.
  intros z fn v O B J H.
  assert (K : exists r, v = F r). { destruct J as [<-|[<-|[<-|[<-|[<-|[]]]]]]; cbv [run call strict exists_null existsb orb arg1 one to_f] in H; destruct (other_float (VNum (inject_Z z))); cbn [bind] in H; try discriminate; eexists; assert (E : v = v) by reflexivity; symmetry; inversion H; reflexivity. }
  destruct K as (r & ->). exists r. split; [reflexivity|]. intros X. apply odd_integer_small in X; destruct fn; try lia; try exact O; destruct (Z.abs_spec z) as [[_ ->]|[_ ->]]; try exact O; now rewrite Z.odd_opp.
Qed.
End Any.
Example c327_example : Z.odd (2 ^ 53 + 1) = true /\ 2 ^ 53 <= Z.abs (2 ^ 53 + 1).
Proof. split; [reflexivity|lia]. Qed.

(** ** Examples *)
Definition x_run := call (fun _ f => f) (fun _ f _ => f) (fun f _ => f) false (fun _ => Err) (fun _ => Err).
Definition f7_4 : float := S754_finite false 7881299347898368 (-52).   (* 1.75 *)
Definition fm5_2 : float := S754_finite true 5629499534213120 (-51).   (* -2.5 *)
Example c297_example : well_typed F_SAFE_DIVIDE [Some (VFloat f7_4); Some (VFloat (S754_zero true))] /\
  x_run F_SAFE_DIVIDE [Some (VFloat f7_4); Some (VFloat (S754_zero true))] = Ok None /\
  x_run F_ATAN2 [Some (VFloat f7_4); None] = Ok None.
Proof. split; [split; [reflexivity|]; repeat (apply Forall_cons; [exact I|]); constructor|]. split; reflexivity. Qed.
Example c298_example : x_run F_ROUND [Some (VFloat f7_4); None] = GoPanic.
Proof. reflexivity. Qed.
Example c299_example : x_run F_LOG [Some (VFloat (float_of_int 8)); Some (VFloat (float_of_int 2))] = Ok (Some (VFloat (float_of_int 2048))).
Proof. reflexivity. Qed.
(** TRUNC(1.75, 1) is 1 rather than 1.7; TRUNC(-2.5) is -2. *)
Example c300_example : finite fm5_2 /\ x_run F_TRUNC [Some (VFloat f7_4); Some (VInt 1)] = Ok (Some (VFloat (float_of_int 1))) /\
  x_run F_TRUNC [Some (VFloat fm5_2)] = Ok (Some (VFloat (float_of_int (-2)))).
Proof. split; [split; [reflexivity|exact I]|]. split; reflexivity. Qed.
Example c301_example : x_run F_FLOOR [Some (VFloat fm5_2)] = Ok (Some (VFloat (float_of_int (-3)))) /\
  x_run F_CEIL [Some (VFloat fm5_2)] = Ok (Some (VFloat (float_of_int (-2)))) /\
  x_run F_CEILING [Some (VFloat f7_4)] = Ok (Some (VFloat (float_of_int 2))) /\ finite f7_4.
Proof. split; [reflexivity|]. split; [reflexivity|]. split; [reflexivity|]. split; [reflexivity|exact I]. Qed.
Example c302_example : real_float fm5_2 /\ x_run F_SIGN [Some (VFloat fm5_2)] = Ok (Some (VInt (-1))) /\ x_run F_SIGN [Some (VFloat f7_4)] = Ok (Some (VInt 1)).
Proof. split; [split; reflexivity|]. split; reflexivity. Qed.
Example c303_example : x_run F_IEEE_DIVIDE [Some (VFloat fm5_2); Some (VFloat (float_of_int 2))] = Ok (Some (VFloat (S754_finite true 5629499534213120 (-52)))) /\
  x_run F_IEEE_DIVIDE [Some (VFloat fm5_2); Some (VFloat (S754_zero false))] = Ok (Some (VFloat (S754_infinity true))).
Proof. split; reflexivity. Qed.
Example c304_example : x_run F_ABS [Some (VFloat fm5_2)] = Ok (Some (VFloat (S754_finite false 5629499534213120 (-51)))) /\
  x_run F_IS_INF [Some (VFloat (S754_infinity true))] = Ok (Some (VBool true)) /\ x_run F_IS_NAN [Some (VFloat f7_4)] = Ok (Some (VBool false)).
Proof. split; [reflexivity|]. split; reflexivity. Qed.
Example c306_example : named1 F_SQRT = Some MSqrt /\ x_run F_SQRT [Some (VFloat fm5_2)] = Ok (Some (VFloat fm5_2)).
Proof. split; reflexivity. Qed.
Example c307_example : safe_form O_DIV = Some F_SAFE_DIVIDE /\ x_run O_DIV [Some (VFloat f7_4); Some (VFloat (S754_zero false))] = Err /\
  x_run F_SAFE_DIVIDE [Some (VFloat f7_4); Some (VFloat (S754_zero false))] = Ok None.
Proof. split; [reflexivity|]. split; reflexivity. Qed.

Print Assumptions c297_null.
Print Assumptions c297_round.
Print Assumptions c297_only.
Print Assumptions c298_round_refuted.
Print Assumptions c299_one_partial.
Print Assumptions c299_base_refuted.
Print Assumptions c299_value_refuted.
Print Assumptions c300_one_partial.
Print Assumptions c300_places_refuted.
Print Assumptions c301_floor.
Print Assumptions c301_ceil.
Print Assumptions c301_special.
Print Assumptions c302_nonzero_partial.
Print Assumptions c302_zero_partial.
Print Assumptions c302_negative_zero_refuted.
Print Assumptions c302_nan_refuted.
Print Assumptions c303_quotient_partial.
Print Assumptions c303_negative_zero_refuted.
Print Assumptions c304_abs.
Print Assumptions c304_negate.
Print Assumptions c304_is_inf.
Print Assumptions c304_is_nan.
Print Assumptions c305_operator_refuted.
Print Assumptions c305_safe_refuted.
Print Assumptions c306_value_partial.
Print Assumptions c306_domain_refuted.
Print Assumptions c307_safe.
Print Assumptions c307_division.
Print Assumptions c327_abs_partial.
Print Assumptions c327_abs_refuted.
Print Assumptions c327_numeric_refuted.
