From Coq Require Import ZArith Lia Bool SpecFloat.
From Verif Require Import GoBase GoBaseFacts ValueModel ValueFacts FloatFacts IntModel.
Open Scope Z_scope.

Lemma rnd_small : forall z, Z.abs z < 2 ^ 53 -> rnd z = z.
Proof. intros z H. unfold rnd. now rewrite float_of_int_trunc. Qed.

Lemma as_int64_id : forall z, in64 z -> as_int64 z = z.
Proof.
  intros z [H1 H2]. unfold as_int64, in64b.
  apply Z.leb_le in H1. apply Z.ltb_lt in H2. now rewrite H1, H2.
Qed.

Lemma small_in64 : forall z, Z.abs z < 2 ^ 53 -> in64 z.
Proof. intros z H. change (2 ^ 53) with 9007199254740992 in H. unfold in64, two63. lia. Qed.

Lemma as_int64_rnd : forall z, Z.abs z < 2 ^ 53 -> as_int64 (rnd z) = z.
Proof. intros z H. rewrite rnd_small by assumption. apply as_int64_id. now apply small_in64. Qed.

Lemma wrap64_changes : forall z, ~ in64 z -> wrap64 z <> z.
Proof. intros z H E. apply H. rewrite <- E. apply wrap64_range. Qed.
