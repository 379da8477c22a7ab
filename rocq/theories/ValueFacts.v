(** Facts about the comparison of scalars. *)
From Coq Require Import Ascii String List ZArith QArith Lia Bool SpecFloat.
From Verif Require Import GoBase GoBaseFacts ValueModel.
Import ListNotations.
Open Scope Z_scope.

(** ** Bytes *)

Lemma bytes_compare_refl : forall s, bytes_compare s s = Eq.
Proof. induction s as [|a s IH]; simpl; auto. now rewrite N.compare_refl. Qed.

Lemma bytes_compare_eq : forall a b, bytes_compare a b = Eq -> a = b.
Proof.
  induction a as [|x a IH]; intros [|y b] E; simpl in E; try discriminate; auto.
  destruct (N.compare (N_of_ascii x) (N_of_ascii y)) eqn:C; try discriminate.
  apply N.compare_eq in C.
  assert (x = y) by (rewrite <- (ascii_N_embedding x), <- (ascii_N_embedding y); congruence).
  subst. f_equal. auto.
Qed.

Lemma bytes_compare_antisym : forall a b, bytes_compare b a = CompOpp (bytes_compare a b).
Proof.
  induction a as [|x a IH]; intros [|y b]; simpl; auto.
  rewrite (N.compare_antisym (N_of_ascii x) (N_of_ascii y)).
  destruct (N.compare (N_of_ascii x) (N_of_ascii y)); simpl; auto.
Qed.

Lemma bytes_compare_trans : forall a b c,
  bytes_compare a b = Lt -> bytes_compare b c = Lt -> bytes_compare a c = Lt.
Proof.
  induction a as [|x a IH]; intros [|y b] [|z c] E F; simpl in *; try discriminate; auto.
  destruct (N.compare (N_of_ascii x) (N_of_ascii y)) eqn:C; try discriminate;
    destruct (N.compare (N_of_ascii y) (N_of_ascii z)) eqn:D; try discriminate.
  - apply N.compare_eq in C. apply N.compare_eq in D. rewrite C, D, N.compare_refl. eauto.
  - apply N.compare_eq in C. rewrite C, D. reflexivity.
  - apply N.compare_eq in D. rewrite <- D, C. reflexivity.
  - rewrite N.compare_lt_iff in C, D. 
    assert (N.compare (N_of_ascii x) (N_of_ascii z) = Lt) by (rewrite N.compare_lt_iff; lia).
    now rewrite H.
Qed.

(** ** Floats: the order is lexicographic in sign, exponent and mantissa *)

Definition fkey (f : float) : Z * Z * Z :=
  match f with
  | S754_infinity true => (-2, 0, 0)
  | S754_finite true m e => (-1, - e, - Zpos m)
  | S754_zero _ => (0, 0, 0)
  | S754_finite false m e => (1, e, Zpos m)
  | S754_infinity false => (2, 0, 0)
  | S754_nan => (3, 0, 0)
  end.

Definition lex (c d : comparison) : comparison := match c with Eq => d | _ => c end.
Definition key_compare (k l : Z * Z * Z) : comparison :=
  match k, l with
  | (a, b, c), (a', b', c') => lex (a ?= a') (lex (b ?= b') (c ?= c'))
  end.

Lemma SFcompare_key : forall f g, is_nan f = false -> is_nan g = false ->
  SFcompare f g = Some (key_compare (fkey f) (fkey g)).
Proof.
  intros f g Nf Ng.
  destruct f as [[]|[]| |[] m e]; destruct g as [[]|[]| |[] m' e']; try discriminate;
    try reflexivity; cbn -[Z.compare]; rewrite ?Z.compare_opp;
    try rewrite (Z.compare_antisym e' e); try (destruct (e ?= e'); cbn; auto);
    try (destruct (e' ?= e); cbn; auto).
Qed.

Lemma key_compare_antisym : forall k l, key_compare l k = CompOpp (key_compare k l).
Proof.
  intros [[a b] c] [[a' b'] c']. cbn [key_compare].
  rewrite (Z.compare_antisym a a'), (Z.compare_antisym b b'), (Z.compare_antisym c c').
  destruct (a ?= a'); cbn; auto. destruct (b ?= b'); cbn; auto.
Qed.

Lemma key_compare_eq : forall k l, key_compare k l = Eq <-> k = l.
Proof.
  intros [[a b] c] [[a' b'] c']. cbn [key_compare]. split.
  - destruct (Z.compare_spec a a'); cbn; try discriminate.
    destruct (Z.compare_spec b b'); cbn; try discriminate.
    destruct (Z.compare_spec c c'); cbn; try discriminate. congruence.
  - intros E. injection E as <- <- <-. now rewrite !Z.compare_refl.
Qed.

Lemma key_compare_lt : forall a b c a' b' c',
  key_compare (a, b, c) (a', b', c') = Lt <-> a < a' \/ a = a' /\ (b < b' \/ b = b' /\ c < c').
Proof.
  intros. cbn [key_compare].
  destruct (Z.compare_spec a a'); cbn; [|split; [left; lia|auto]|split; [discriminate|lia]].
  destruct (Z.compare_spec b b'); cbn; [|split; [right; lia|auto]|split; [discriminate|lia]].
  destruct (Z.compare_spec c c'); cbn; split; try discriminate; try lia; auto.
Qed.

Lemma key_compare_trans : forall k l m,
  key_compare k l = Lt -> key_compare l m = Lt -> key_compare k m = Lt.
Proof.
  intros [[a b] c] [[a' b'] c'] [[a'' b''] c'']. rewrite !key_compare_lt. lia.
Qed.

(** ** The value of a valid float, scaled to an integer *)

Lemma digits2_pos_spec : forall m, 2 ^ (Zpos (digits2_pos m) - 1) <= Zpos m < 2 ^ Zpos (digits2_pos m).
Proof.
  induction m as [m IH|m IH|]; cbn [digits2_pos].
  - rewrite Pos2Z.inj_succ. replace (Z.succ (Z.pos (digits2_pos m)) - 1) with (Z.succ (Z.pos (digits2_pos m) - 1)) by lia.
    rewrite !Z.pow_succ_r by lia. lia.
  - rewrite Pos2Z.inj_succ. replace (Z.succ (Z.pos (digits2_pos m)) - 1) with (Z.succ (Z.pos (digits2_pos m) - 1)) by lia.
    rewrite !Z.pow_succ_r by lia. lia.
  - cbn. lia.
Qed.

Definition canonical (m : positive) (e : Z) : Prop := valid_binary prec64 emax64 (S754_finite false m e) = true.

Lemma canonical_bounds : forall m e, canonical m e ->
  -1074 <= e <= 971 /\ Zpos m < 2 ^ 53 /\ (-1074 < e -> 2 ^ 52 <= Zpos m).
Proof.
  unfold canonical, valid_binary, bounded, canonical_mantissa, SpecFloat.fexp, SpecFloat.emin, prec64, emax64.
  intros m e H. apply andb_prop in H as [C B].
  apply Zeq_bool_eq in C. apply Zle_bool_imp_le in B.
  pose proof (digits2_pos_spec m) as [L U].
  set (d := Z.pos (digits2_pos m)) in *.
  split; [lia|]. split.
  - apply Z.lt_le_trans with (2 ^ d); auto. apply Z.pow_le_mono_r; lia.
  - intros. assert (d = 53) by lia. rewrite H0 in L. exact L.
Qed.

Definition scaled (m : positive) (e : Z) : Z := Zpos m * 2 ^ (e + 1074).

Lemma scaled_lt : forall m e m' e', canonical m e -> canonical m' e' -> e < e' -> scaled m e < scaled m' e'.
Proof.
  unfold scaled. intros m e m' e' C C' L.
  apply canonical_bounds in C as (B1 & B2 & _). apply canonical_bounds in C' as (B1' & B2' & B3').
  specialize (B3' ltac:(lia)).
  assert (E : 2 ^ (e' + 1074) = 2 ^ (e' - e - 1) * (2 * 2 ^ (e + 1074))).
  { rewrite <- Z.pow_succ_r by lia. rewrite <- Z.pow_add_r by lia. f_equal. lia. }
  rewrite E.
  assert (0 < 2 ^ (e' - e - 1)) by (apply Z.pow_pos_nonneg; lia).
  assert (0 < 2 ^ (e + 1074)) by (apply Z.pow_pos_nonneg; lia).
  change (2 ^ 53) with (2 * 2 ^ 52) in B2.
  set (p := 2 ^ 52) in *. clearbody p. nia.
Qed.

Lemma scaled_compare : forall m e m' e', canonical m e -> canonical m' e' ->
  (scaled m e ?= scaled m' e') = lex (e ?= e') (Zpos m ?= Zpos m').
Proof.
  intros m e m' e' C C'. destruct (Z.compare_spec e e') as [E|L|G]; cbn [lex].
  - subst e'. unfold scaled. assert (0 < 2 ^ (e + 1074)).
    { apply canonical_bounds in C. apply Z.pow_pos_nonneg; lia. }
    destruct (Z.compare_spec (Zpos m) (Zpos m')) as [E|L|L].
    + rewrite E. apply Z.compare_refl.
    + apply Z.compare_lt_iff. nia.
    + apply Z.compare_gt_iff. nia.
  - apply Z.compare_lt_iff. now apply scaled_lt.
  - apply Z.compare_gt_iff. now apply scaled_lt.
Qed.

Lemma scaled_bound : forall m e, canonical m e -> 0 < scaled m e < 2 ^ 2098.
Proof.
  unfold scaled. intros m e C. apply canonical_bounds in C as (B1 & B2 & _).
  assert (0 < 2 ^ (e + 1074)) by (apply Z.pow_pos_nonneg; lia).
  split; [nia|].
  apply Z.lt_le_trans with (2 ^ 53 * 2 ^ (e + 1074)); [nia|].
  rewrite <- Z.pow_add_r by lia. apply Z.pow_le_mono_r; lia.
Qed.
