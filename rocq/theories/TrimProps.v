(** C102, C103: TRIM, LTRIM, RTRIM. *)
From Coq Require Import Ascii String List ZArith Lia Bool.
From Verif Require Import GoBase Utf8Model Utf8Facts StrModel EncModel TrimModel TrimSpec.
Import ListNotations.
Open Scope Z_scope.

Lemma existsb_In : forall r cut, existsb (Z.eqb r) cut = true <-> In r cut.
Proof.
  intros r cut. rewrite existsb_exists. split.
  - intros (x & I & E). apply Z.eqb_eq in E. now subst.
  - intros I. exists r. split; [exact I|apply Z.eqb_refl].
Qed.
Lemma drop_in_spec : forall cut rs, left_trimmed (fun c => In c cut) rs (drop_in cut rs).
Proof.
  intros cut. induction rs as [|r rs (p & E & F & H)]; cbn [drop_in].
  - exists []. auto.
  - destruct (existsb (Z.eqb r) cut) eqn:X.
    + apply existsb_In in X. exists (r :: p). cbn [app]. split; [now f_equal|]. split; [now constructor|exact H].
    + exists []. split; [reflexivity|]. split; [constructor|]. intros I. apply existsb_In in I. congruence.
Qed.
Lemma drop_end_spec : forall cut rs, right_trimmed (fun c => In c cut) rs (drop_end cut rs).
Proof.
  intros cut rs. destruct (drop_in_spec cut (rev rs)) as (p & E & F & H). unfold drop_end. exists (rev p).
  rewrite rev_involutive. split; [|split].
  - rewrite <- (rev_involutive rs), E at 1. now rewrite rev_app_distr.
  - now apply Forall_rev.
  - exact H.
Qed.
(** The result of trimming is determined. *)
Lemma left_trimmed_unique {A} (cut : A -> Prop) : forall w r r', left_trimmed cut w r -> left_trimmed cut w r' -> r = r'.
Proof.
  intros w r r' (p & -> & F & H) (q & E & G & K). revert q E G. induction F as [|c p Hc F IH]; intros q E G.
  - destruct G as [|d q Hd G]; [exact E|]. cbn [app] in E. subst r. contradiction.
  - destruct G as [|d q Hd G]; cbn [app] in E.
    + subst r'. contradiction.
    + injection E as -> E. eapply IH; eauto.
Qed.
Lemma Forall_part {A} (P : A -> Prop) a b : Forall P (a ++ b) -> Forall P a /\ Forall P b.
Proof. apply Forall_app. Qed.

Section Str.
Variables (w cut : list Z).
Hypothesis (W : Forall scalar w) (C : Forall scalar cut).
Let member := fun c => In c cut.
Lemma drop_in_scalar : forall rs, Forall scalar rs -> Forall scalar (drop_in cut rs).
Proof. intros rs H. destruct (drop_in_spec cut rs) as (p & E & _). rewrite E in H. now apply Forall_part in H. Qed.

(** C102: on strings, with a set of characters to remove given as a string: the result is
    the text without its leading (trailing, leading and then trailing) characters of the
    set, however many, and nothing else is removed. *)
Theorem c102_ltrim : exists r, ltrim (Str (encode w)) (Some (Str (encode cut))) = Str (encode r) /\ left_trimmed member w r.
Proof.
  exists (drop_in cut w). unfold ltrim, cut_to_string, trim_left. rewrite !decode_encode by assumption.
  split; [reflexivity|]. apply drop_in_spec.
Qed.
Theorem c102_rtrim : exists r, rtrim (Str (encode w)) (Some (Str (encode cut))) = Str (encode r) /\ right_trimmed member w r.
Proof.
  exists (drop_end cut w). unfold rtrim, cut_to_string, trim_right. rewrite !decode_encode by assumption.
  split; [reflexivity|]. apply drop_end_spec.
Qed.
Theorem c102_trim : exists m r, trim (Str (encode w)) (Some (Str (encode cut))) = Str (encode r) /\
  left_trimmed member w m /\ right_trimmed member m r.
Proof.
  exists (drop_in cut w), (drop_end cut (drop_in cut w)). unfold trim, cut_to_bytes, trim_both. rewrite !decode_encode by assumption.
  split; [reflexivity|]. split; [apply drop_in_spec|apply drop_end_spec].
Qed.
End Str.
Example c102_ex : ltrim (Str (ascii_text "xyxabx")) (Some (Str (ascii_text "yx"))) = Str (ascii_text "abx") /\
  rtrim (Str (ascii_text "xyxabx")) (Some (Str (ascii_text "yx"))) = Str (ascii_text "xyxab") /\
  trim (Str (ascii_text "xyxabx")) (Some (Str (ascii_text "yx"))) = Str (ascii_text "ab").
Proof. repeat split; reflexivity. Qed.

(** C103, the TRIM part: with a set of bytes below 128, TRIM of bytes below 128 removes
    exactly the leading and trailing members of the set.  Missing: bytes above 127, and
    the two refutations below. *)
Theorem c103_trim_bytes_partial : forall b cut, ascii_only b -> ascii_only cut ->
  exists m r, trim (Byt b) (Some (Byt cut)) = Byt r /\
    left_trimmed (fun c => In c cut) b m /\ right_trimmed (fun c => In c cut) m r.
Proof.
  intros b cut B C.
  assert (X : forall x l, In (b2z x) (map b2z l) <-> In x l).
  { intros x l. rewrite in_map_iff. split; [intros (y & E & I); apply b2z_inj in E; now subst|eauto]. }
  assert (D : forall l, exists l', drop_in (map b2z cut) (map b2z l) = map b2z l' /\ left_trimmed (fun c => In c cut) l l').
  { induction l as [|x l (l' & E & p & P & F & H)]; cbn [drop_in map].
    - exists []. split; [reflexivity|]. exists []. auto.
    - destruct (existsb (Z.eqb (b2z x)) (map b2z cut)) eqn:K.
      + apply existsb_In, X in K. exists l'. split; [exact E|]. exists (x :: p). cbn [app]. split; [now f_equal|]. split; [now constructor|exact H].
      + exists (x :: l). split; [reflexivity|]. exists []. split; [reflexivity|]. split; [constructor|].
        intros I. apply X, existsb_In in I. congruence. }
  destruct (D b) as (m & Em & Lm). destruct (D (rev m)) as (r' & Er & p & P & F & H). exists m, (rev r').
  assert (Am : ascii_only (rev r')).
  { destruct Lm as (q & Q & _). unfold ascii_only in *. rewrite Q in B. apply Forall_app in B. destruct B as [_ B].
    apply Forall_rev in B. rewrite P in B. apply Forall_app in B. now apply Forall_rev. }
  split; [|split].
  - unfold trim, cut_to_bytes, trim_both, drop_end. rewrite !decode_ascii by assumption. rewrite Em, <- map_rev, Er, <- map_rev.
    now rewrite encode_ascii.
  - exact Lm.
  - exists (rev p). rewrite <- rev_app_distr, <- P, !rev_involutive. split; [reflexivity|]. split; [now apply Forall_rev|exact H].
Qed.
Example c103_ex : trim (Byt (ascii_text "xxabx")) (Some (Byt (ascii_text "x"))) = Byt (ascii_text "ab").
Proof. reflexivity. Qed.
(** Refuted for LTRIM and RTRIM of BYTES: the set used is the base64 text of the set given,
    so that LTRIM(b'ab', b'a') removes nothing and LTRIM(b'Yab', b'a') removes Y. *)
Theorem c103_ltrim_rtrim_bytes_refuted :
  (forall b cut, ltrim (Byt b) (Some (Byt cut)) = ltrim (Byt b) (Some (Str (to_base64 cut))) /\
                 rtrim (Byt b) (Some (Byt cut)) = rtrim (Byt b) (Some (Str (to_base64 cut)))) /\
  ltrim (Byt (ascii_text "ab")) (Some (Byt (ascii_text "a"))) = Byt (ascii_text "ab") /\
  ltrim (Byt (ascii_text "Yab")) (Some (Byt (ascii_text "a"))) = Byt (ascii_text "ab") /\
  rtrim (Byt (ascii_text "ba")) (Some (Byt (ascii_text "a"))) = Byt (ascii_text "ba").
Proof. repeat split; reflexivity. Qed.
(** Refuted for the default set: only the space is removed, not the other white space. *)
Theorem c103_default_set_refuted : forall v, ltrim v None = ltrim v (Some (Str space)) /\ rtrim v None = rtrim v (Some (Str space)) /\
  trim v None = trim v (Some (Str space)) /\
  trim (Str ("009"%char :: ascii_text "a")) None = Str ("009"%char :: ascii_text "a").
Proof. intros v. repeat split; reflexivity. Qed.

Print Assumptions c102_ltrim.
Print Assumptions c102_rtrim.
Print Assumptions c102_trim.
Print Assumptions c103_trim_bytes_partial.
Print Assumptions c103_ltrim_rtrim_bytes_refuted.
Print Assumptions c103_default_set_refuted.
