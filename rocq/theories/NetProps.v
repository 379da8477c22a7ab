(** C48, C49, C104, C105: the NET functions on addresses. *)
From Coq Require Import Ascii String List ZArith Lia Bool.
From Verif Require Import GoBase GoBaseFacts DecModel DecFacts CalendarFacts NetModel.
Import ListNotations.
Local Open Scope string_scope.
Open Scope Z_scope.

Definition byte (b : Z) : Prop := 0 <= b < 256.

(** ** C48, C104: integers *)
Lemma from_int64_bytes : forall v, Forall byte (ipv4_from_int64 v).
Proof. intros v. unfold ipv4_from_int64. repeat constructor; apply Z.mod_pos_bound; lia. Qed.
Lemma be_round : forall u, 0 <= u < 2 ^ 32 ->
  u / 2 ^ 24 mod 256 * 2 ^ 24 + u / 2 ^ 16 mod 256 * 2 ^ 16 + u / 2 ^ 8 mod 256 * 2 ^ 8 + u mod 256 = u.
Proof.
  intros u H. change (2 ^ 24) with (256 * 256 * 256). change (2 ^ 16) with (256 * 256). change (2 ^ 8) with 256. change (2 ^ 32) with 4294967296 in H.
  rewrite <- !Z.div_div by lia. pose proof (Z.div_mod u 256 ltac:(lia)). set (q := u / 256) in *.
  pose proof (Z.div_mod q 256 ltac:(lia)). set (r := q / 256) in *. pose proof (Z.div_mod r 256 ltac:(lia)).
  assert (0 <= q) by (apply Z.div_pos; lia). assert (0 <= r) by (apply Z.div_pos; lia).
  assert (0 <= r / 256 < 256).
  { split; [apply Z.div_pos; lia|]. apply Z.div_lt_upper_bound; [lia|]. apply Z.div_lt_upper_bound; [lia|]. apply Z.div_lt_upper_bound; lia. }
  rewrite (Z.mod_small (r / 256)) by lia. lia.
Qed.
(** C48 where it holds.  Missing: the other integers, which are not errors (below). *)
Theorem c48_ipv4_int_round_trip_partial : forall n, 0 <= n < 2 ^ 32 ->
  ipv4_to_int64 (ipv4_from_int64 n) = Ok n /\ List.length (ipv4_from_int64 n) = 4%nat /\
  exists a b c d, ipv4_from_int64 n = [a; b; c; d] /\ Forall byte [a; b; c; d] /\ n = a * 2 ^ 24 + b * 2 ^ 16 + c * 2 ^ 8 + d.
Proof.
  intros n H. pose proof (from_int64_bytes n) as B. unfold ipv4_from_int64, ipv4_to_int64 in *. rewrite (Z.mod_small n) in * by lia.
  pose proof (be_round n H) as R. split; [now rewrite R|]. split; [reflexivity|]. do 4 eexists. split; [reflexivity|]. split; [exact B|]. now rewrite R.
Qed.
(** Refuted: no integer is an error; it is taken modulo 2^32. *)
Theorem c48_out_of_range_refuted : forall n, ipv4_to_int64 (ipv4_from_int64 n) = Ok (n mod 2 ^ 32).
Proof.
  intros n. unfold ipv4_from_int64, ipv4_to_int64. f_equal. apply be_round. apply Z.mod_pos_bound. lia.
Qed.
Example c48_ex : ipv4_from_int64 3232235777 = [192; 168; 1; 1] /\ ipv4_to_int64 [192; 168; 1; 1] = Ok 3232235777 /\
  ipv4_from_int64 (2 ^ 32 + 1) = [0; 0; 0; 1].
Proof. repeat split; reflexivity. Qed.
(** C104: NET.IPV4_TO_INT64 is defined exactly on 4 bytes, is at most 2^32 - 1, and
    NET.IPV4_FROM_INT64 undoes it. *)
Theorem c104_ipv4_bytes_round_trip : forall b, Forall byte b ->
  (List.length b = 4%nat -> exists n, ipv4_to_int64 b = Ok n /\ 0 <= n < 2 ^ 32 /\ ipv4_from_int64 n = b) /\
  (List.length b <> 4%nat -> ipv4_to_int64 b = Err).
Proof.
  intros b F. split; intros L.
  - destruct b as [|x [|y [|z [|w [|? ?]]]]]; try discriminate. inversion F as [|? ? X F1]; subst. inversion F1 as [|? ? Y F2]; subst.
    inversion F2 as [|? ? Z' F3]; subst. inversion F3 as [|? ? W _]; subst. unfold byte in *.
    set (n := x * 2 ^ 24 + y * 2 ^ 16 + z * 2 ^ 8 + w). assert (R : 0 <= n < 2 ^ 32) by (unfold n; lia).
    exists n. split; [reflexivity|]. split; [exact R|]. unfold ipv4_from_int64. rewrite (Z.mod_small n) by lia.
    assert (D : forall k q r, 0 < k -> 0 <= r < k -> n = q * k + r -> n / k = q).
    { intros k q r K Rr E. rewrite E, Z.div_add_l by lia. rewrite Z.div_small; lia. }
    assert (M : forall q r, 0 <= r < 256 -> (q * 256 + r) mod 256 = r).
    { intros q r Rr. rewrite Z.add_comm, Z.mod_add by lia. apply Z.mod_small. lia. }
    rewrite (D (2 ^ 24) x (y * 2 ^ 16 + z * 2 ^ 8 + w)) by (unfold n; lia).
    rewrite (D (2 ^ 16) (x * 256 + y) (z * 2 ^ 8 + w)) by (unfold n; lia).
    rewrite (D (2 ^ 8) ((x * 256 + y) * 256 + z) w) by (unfold n; lia).
    replace n with ((((x * 256 + y) * 256) + z) * 256 + w) by (unfold n; lia).
    rewrite !M by lia. rewrite Z.mod_small by lia. reflexivity.
  - destruct b as [|x [|y [|z [|w [|? ?]]]]]; try reflexivity. now destruct L.
Qed.
Example c104_ex : Forall byte [10; 0; 0; 255] /\ ipv4_to_int64 [10; 0; 0; 255] = Ok 167772415.
Proof. split; [repeat constructor; unfold byte; lia|reflexivity]. Qed.

(** ** C49: prefixes *)
(** Bit i of an address, from the left. *)
Definition bit (b : list Z) (i : Z) : bool := Z.testbit (nth (Z.to_nat (i / 8)) b 0) (7 - i mod 8).
Lemma mask_length : forall k n, List.length (mask_loop k n) = k.
Proof. induction k as [|k IH]; intros n; [reflexivity|]. cbn [mask_loop]. destruct (8 <=? n); cbn; now rewrite IH. Qed.
Lemma bit_cons : forall x b i, 0 <= i -> bit (x :: b) i = if i <? 8 then Z.testbit x (7 - i) else bit b (i - 8).
Proof.
  intros x b i H. unfold bit. destruct (Z.ltb_spec i 8) as [L|L].
  - rewrite Z.div_small, Z.mod_small by lia. reflexivity.
  - assert (E : i = (i - 8) + 1 * 8) by lia. rewrite E at 1 2. rewrite Z.div_add, Z.mod_add by lia.
    assert (0 <= (i - 8) / 8) by (apply Z.div_pos; lia).
    replace (Z.to_nat ((i - 8) / 8 + 1)) with (S (Z.to_nat ((i - 8) / 8))) by lia. reflexivity.
Qed.
Lemma mask_byte : forall n i, 0 <= n < 8 -> 0 <= i < 8 -> Z.testbit (255 - Z.shiftr 255 n) (7 - i) = (i <? n).
Proof.
  intros n i Hn Hi.
  assert (F : upto 8 0 (fun n => upto 8 0 (fun i => Bool.eqb (Z.testbit (255 - Z.shiftr 255 n) (7 - i)) (i <? n))) = true) by reflexivity.
  pose proof (upto_spec _ _ _ F n ltac:(lia)) as G. cbv beta in G. pose proof (upto_spec _ _ _ G i ltac:(lia)) as K. now apply eqb_prop in K.
Qed.
Lemma ones_byte : forall i, 0 <= i < 8 -> Z.testbit 255 (7 - i) = true.
Proof.
  intros i Hi. assert (F : upto 8 0 (fun i => Z.testbit 255 (7 - i)) = true) by reflexivity. exact (upto_spec _ _ _ F i ltac:(lia)).
Qed.
Lemma mask_bit : forall k n i, 0 <= n -> 0 <= i < 8 * Z.of_nat k -> bit (mask_loop k n) i = (i <? n).
Proof.
  induction k as [|k IH]; intros n i Hn Hi; [lia|]. cbn [mask_loop]. destruct (Z.leb_spec 8 n) as [L|L]; rewrite bit_cons by lia.
  - destruct (Z.ltb_spec i 8).
    + rewrite ones_byte by lia. symmetry. apply Z.ltb_lt. lia.
    + rewrite IH by lia. destruct (Z.ltb_spec (i - 8) (n - 8)), (Z.ltb_spec i n); auto; lia.
  - destruct (Z.ltb_spec i 8).
    + apply mask_byte; lia.
    + rewrite IH by lia. destruct (Z.ltb_spec (i - 8) 0), (Z.ltb_spec i n); auto; lia.
Qed.
Lemma and_length : forall a m, List.length a = List.length m -> List.length (and_all a m) = List.length a.
Proof. induction a as [|x a IH]; intros [|y m] L; try discriminate; [reflexivity|]. cbn in *. now rewrite IH by lia. Qed.
Lemma and_bit : forall a m i, List.length a = List.length m -> 0 <= i -> bit (and_all a m) i = bit a i && bit m i.
Proof.
  induction a as [|x a IH]; intros [|y m] i L H; try discriminate.
  - unfold bit. cbn [and_all]. destruct (Z.to_nat (i / 8)); cbn; now rewrite Z.testbit_0_l.
  - cbn [and_all]. rewrite !bit_cons by lia. destruct (Z.ltb_spec i 8); [apply Z.land_spec|]. apply IH; [cbn in L; lia|lia].
Qed.
(** For every address of 4 or 16 bytes and every n: an error exactly when n is not between
    0 and the number of bits; otherwise the first n bits are kept and the others cleared. *)
Theorem c49_ip_trunc : forall v n, List.length v = 4%nat \/ List.length v = 16%nat ->
  (n < 0 \/ 8 * zlen v < n -> ip_trunc v n = Err) /\
  (0 <= n <= 8 * zlen v -> exists r, ip_trunc v n = Ok r /\ List.length r = List.length v /\
     forall i, 0 <= i < 8 * zlen v -> bit r i = if i <? n then bit v i else false).
Proof.
  intros v n L. unfold ip_trunc, zlen.
  assert (N : negb (Z.of_nat (List.length v) =? 4) && negb (Z.of_nat (List.length v) =? 16) = false) by (destruct L as [-> | ->]; reflexivity).
  rewrite N. split.
  - intros H. destruct (Z.ltb_spec n 0); [reflexivity|]. destruct (Z.ltb_spec (Z.of_nat (List.length v) * 8) n); [reflexivity|lia].
  - intros H. destruct (Z.ltb_spec n 0); [lia|]. destruct (Z.ltb_spec (Z.of_nat (List.length v) * 8) n); [lia|]. cbn [orb].
    assert (M : cidr_mask n (Z.of_nat (List.length v) * 8) = Some (mask_loop (List.length v) n)).
    { unfold cidr_mask. assert (Q : (Z.of_nat (List.length v) * 8 =? 32) || (Z.of_nat (List.length v) * 8 =? 128) = true) by (destruct L as [-> | ->]; reflexivity).
      rewrite Q. cbn [negb]. destruct (Z.ltb_spec n 0); [lia|]. destruct (Z.ltb_spec (Z.of_nat (List.length v) * 8) n); [lia|]. cbn [orb].
      rewrite Z.div_mul by lia. now rewrite Nat2Z.id. }
    rewrite M. unfold ip_mask. rewrite mask_length, Nat.eqb_refl. eexists. split; [reflexivity|].
    split; [apply and_length; now rewrite mask_length|]. intros i Hi.
    rewrite and_bit by (rewrite ?mask_length; auto; lia). rewrite mask_bit by lia. destruct (i <? n); [apply andb_true_r|apply andb_false_r].
Qed.
Theorem c49_other_lengths_are_errors : forall v n, List.length v <> 4%nat -> List.length v <> 16%nat -> ip_trunc v n = Err.
Proof.
  intros v n A B. unfold ip_trunc, zlen. destruct (Z.eqb_spec (Z.of_nat (List.length v)) 4); [lia|]. destruct (Z.eqb_spec (Z.of_nat (List.length v)) 16); [lia|]. reflexivity.
Qed.
(** NET.IP_NET_MASK: n ones, then zeroes. *)
Theorem c49_net_mask : forall w n, 0 <= n <= 8 * w -> w = 4 \/ w = 16 ->
  exists m, ip_net_mask w n = Ok m /\ zlen m = w /\ forall i, 0 <= i < 8 * w -> bit m i = (i <? n).
Proof.
  intros w n H W. assert (E : ip_net_mask w n = Ok (mask_loop (Z.to_nat w) n)).
  { unfold ip_net_mask, cidr_mask. destruct (Z.ltb_spec n 0); [lia|]. destruct (Z.ltb_spec (w * 8) n); [lia|]. cbn [orb].
    rewrite Z.div_mul by lia. destruct W as [-> | ->]; reflexivity. }
  exists (mask_loop (Z.to_nat w) n). split; [exact E|]. unfold zlen. rewrite mask_length. split; [lia|].
  intros i Hi. apply mask_bit; lia.
Qed.
Lemma bits_eq : forall a b, Forall byte a -> Forall byte b -> List.length a = List.length b ->
  (forall i, 0 <= i < 8 * zlen a -> bit a i = bit b i) -> a = b.
Proof.
  induction a as [|x a IH]; intros [|y b] A B L E; try discriminate; [reflexivity|].
  inversion A as [|? ? X A']; subst. inversion B as [|? ? Y B']; subst. unfold zlen in E. cbn [List.length] in *. f_equal.
  - apply Z.bits_inj'. intros k K. destruct (Z.le_gt_cases 8 k).
    + unfold byte in *. rewrite !Z.bits_above_log2; auto; try lia.
      * destruct (Z.eq_dec y 0) as [->|]; [cbn; lia|]. apply Z.log2_lt_pow2; [lia|]. assert (2 ^ 8 <= 2 ^ k) by (apply Z.pow_le_mono_r; lia). lia.
      * destruct (Z.eq_dec x 0) as [->|]; [cbn; lia|]. apply Z.log2_lt_pow2; [lia|]. assert (2 ^ 8 <= 2 ^ k) by (apply Z.pow_le_mono_r; lia). lia.
    + specialize (E (7 - k) ltac:(lia)). rewrite !bit_cons in E by lia. destruct (Z.ltb_spec (7 - k) 8); [|lia].
      now replace (7 - (7 - k)) with k in E by lia.
  - apply IH; auto. intros i Hi. unfold zlen in Hi. specialize (E (i + 8) ltac:(lia)). rewrite !bit_cons in E by lia.
    destruct (Z.ltb_spec (i + 8) 8); [lia|]. now replace (i + 8 - 8) with i in E by lia.
Qed.
Lemma and_bytes : forall a m, Forall byte a -> Forall byte (and_all a m).
Proof.
  induction a as [|x a IH]; intros [|y m] F; cbn [and_all]; try constructor.
  - inversion F as [|? ? X F']; subst. unfold byte in *. split; [apply Z.land_nonneg; lia|].
    destruct (Z.eq_dec (Z.land x y) 0) as [->|]; [lia|]. apply Z.log2_lt_pow2 with (b := 8); [|].
    + assert (0 <= Z.land x y) by (apply Z.land_nonneg; lia). lia.
    + destruct (Z.eq_dec x 0) as [->|]; [now rewrite Z.land_0_l in *|].
      assert (0 <= Z.land x y) by (apply Z.land_nonneg; lia).
      apply Z.nle_gt. intros G. assert (T : Z.testbit (Z.land x y) (Z.log2 (Z.land x y)) = true) by (apply Z.bit_log2; lia).
      rewrite Z.land_spec, andb_true_iff in T. destruct T as [T _].
      rewrite Z.bits_above_log2 in T; [discriminate|lia|]. assert (Z.log2 x < 8) by (apply Z.log2_lt_pow2; lia). lia.
  - inversion F; subst. auto.
Qed.
(** Truncating twice truncates to the shorter prefix; in particular it is idempotent. *)
Theorem c49_truncation_composes : forall v n k r, Forall byte v -> ip_trunc v n = Ok r -> 0 <= k <= 8 * zlen v ->
  ip_trunc r k = ip_trunc v (Z.min n k) /\ ip_trunc r n = Ok r.
Proof.
  intros v n k r F E K.
  assert (L : List.length v = 4%nat \/ List.length v = 16%nat).
  { destruct (Nat.eq_dec (List.length v) 4); [auto|]. destruct (Nat.eq_dec (List.length v) 16); [auto|]. now rewrite c49_other_lengths_are_errors in E. }
  assert (N : 0 <= n <= 8 * zlen v).
  { destruct (c49_ip_trunc v n L) as [B _]. destruct (Z.le_gt_cases 0 n), (Z.le_gt_cases n (8 * zlen v)); try lia; rewrite B in E by lia; discriminate. }
  assert (BY : forall w j q, Forall byte w -> ip_trunc w j = Ok q -> Forall byte q).
  { intros w j q W Q. unfold ip_trunc in Q. repeat destruct (_ : bool) in Q; try discriminate.
    assert (X : ip_mask w (match cidr_mask j (zlen w * 8) with Some m => m | None => [] end) = q) by congruence. rewrite <- X.
    unfold ip_mask. destruct (Nat.eqb _ _); [now apply and_bytes|constructor]. }
  destruct (c49_ip_trunc v n L) as [_ T]. destruct (T N) as (r' & E' & Lr & B). assert (r' = r) by congruence. subst r'.
  assert (Lr' : List.length r = 4%nat \/ List.length r = 16%nat) by (rewrite Lr; exact L).
  assert (Zr : zlen r = zlen v) by (unfold zlen; now rewrite Lr).
  assert (G : forall j, 0 <= j <= 8 * zlen v -> ip_trunc r j = ip_trunc v (Z.min n j)).
  { intros j J. destruct (c49_ip_trunc r j Lr') as [_ T1]. rewrite Zr in T1. destruct (T1 J) as (q & Eq & Lq & Bq).
    destruct (c49_ip_trunc v (Z.min n j) L) as [_ T2]. destruct (T2 ltac:(lia)) as (p & Ep & Lp & Bp). rewrite Eq, Ep. f_equal.
    apply bits_eq; [eapply BY; [|exact Eq]; eapply BY; eauto|eapply BY; eauto|congruence|].
    intros i Hi. unfold zlen in Hi. rewrite Lq, Lr in Hi. fold (zlen v) in Hi. rewrite Bq, Bp, B by lia.
    destruct (Z.ltb_spec i j), (Z.ltb_spec i n), (Z.ltb_spec i (Z.min n j)); auto; lia. }
  split; [now apply G|]. rewrite (G n N), Z.min_id. exact E.
Qed.
Example c49_ex : ip_trunc [170; 187; 204; 221] 11 = Ok [170; 160; 0; 0] /\ ip_trunc [170; 187; 204; 221] 33 = Err /\
  ip_net_mask 4 20 = Ok [255; 255; 240; 0] /\ ip_trunc [1; 2; 3] 8 = Err.
Proof. repeat split; reflexivity. Qed.

(** ** C105: IPv4 texts *)
Definition short (v : Z) : string :=
  if v <? 10 then String (digit v) "" else if v <? 100 then String (digit (v / 10)) (String (digit (v mod 10)) "")
  else String (digit (v / 100)) (String (digit (v / 10 mod 10)) (String (digit (v mod 10)) "")).
Lemma udec_short : forall v, byte v -> udec v = short v.
Proof.
  intros v H. unfold byte in H. assert (F : upto 256 0 (fun v => String.eqb (udec v) (short v)) = true) by (vm_compute; reflexivity).
  apply String.eqb_eq. exact (upto_spec _ _ _ F v ltac:(lia)).
Qed.
Definition tail_ok (r : string) : Prop := match r with String c _ => c = "."%char | EmptyString => True end.
Lemma parse4_field : forall v r fs, byte v -> exists len, 0 < len /\ parse4 (udec v ++ r) 0 0 fs = parse4 r v len fs.
Proof.
  intros v r fs H. rewrite udec_short by exact H. unfold short, byte in *. destruct (Z.ltb_spec v 10) as [L|L].
  - exists 1. split; [lia|]. cbn [append parse4]. rewrite digit_val_digit by lia. cbn [Z.eqb andb]. change (0 * 10 + v) with v.
    destruct (Z.ltb_spec 255 v); [lia|]. reflexivity.
  - destruct (Z.ltb_spec v 100) as [M|M].
    + exists 2. split; [lia|]. assert (0 < v / 10 < 10) by (split; [apply Z.div_str_pos; lia|apply Z.div_lt_upper_bound; lia]).
      pose proof (Z.mod_pos_bound v 10 ltac:(lia)). pose proof (Z.div_mod v 10 ltac:(lia)).
      cbn [append parse4]. rewrite !digit_val_digit by lia. change (0 =? 1) with false. cbn [andb]. change (0 * 10 + v / 10) with (v / 10).
      destruct (Z.ltb_spec 255 (v / 10)); [lia|]. destruct (Z.eqb_spec (v / 10) 0); [lia|]. rewrite andb_false_r.
      replace (v / 10 * 10 + v mod 10) with v by lia. destruct (Z.ltb_spec 255 v); [lia|]. reflexivity.
    + exists 3. split; [lia|].
      assert (0 < v / 10 / 10 < 10) by (rewrite Z.div_div by lia; change (10 * 10) with 100; split; [apply Z.div_str_pos; lia|apply Z.div_lt_upper_bound; lia]).
      pose proof (Z.mod_pos_bound v 10 ltac:(lia)). pose proof (Z.div_mod v 10 ltac:(lia)).
      pose proof (Z.mod_pos_bound (v / 10) 10 ltac:(lia)). pose proof (Z.div_mod (v / 10) 10 ltac:(lia)).
      assert (Q : v / 100 = v / 10 / 10) by (rewrite Z.div_div by lia; reflexivity). rewrite Q.
      set (q := v / 10) in *. set (p := q / 10) in *.
      cbn [append parse4]. rewrite !digit_val_digit by lia. change (0 =? 1) with false. cbn [andb]. change (0 * 10 + p) with p.
      destruct (Z.ltb_spec 255 p); [lia|]. destruct (Z.eqb_spec p 0); [lia|]. rewrite andb_false_r.
      replace (p * 10 + q mod 10) with q by lia. destruct (Z.ltb_spec 255 q); [lia|]. change (0 + 1 + 1 =? 1) with false. cbn [andb].
      replace (q * 10 + v mod 10) with v by lia. destruct (Z.ltb_spec 255 v); [lia|]. reflexivity.
Qed.
Lemma udec_head : forall v, 0 <= v -> exists c r, udec v = String c r.
Proof. intros v H. pose proof (udec_nonempty v). destruct (udec v); [contradiction|eauto]. Qed.
Lemma parse4_dot : forall v w r fs len, 0 < len -> 0 <= w -> zlen fs < 3 ->
  parse4 (String "." (udec w ++ r)) v len fs = parse4 (udec w ++ r) 0 0 (fs ++ [v]).
Proof.
  intros v w r fs len L W F. cbn [parse4]. change (digit_val ".") with (@None Z). cbn iota. change (Ascii.eqb "." ".") with true. cbn iota.
  destruct (Z.eqb_spec len 0); [lia|]. destruct (Z.eqb_spec (zlen fs) 3); [lia|]. destruct (udec_head w W) as (c & q & E). rewrite E. reflexivity.
Qed.
(** The texts that are read: what was read before, the field being read, and the rest. *)
Fixpoint dots (l : list Z) : string := match l with [] => "" | v :: r => String "." (udec v ++ dots r) end.
Definition seen (v len : Z) : string := if len =? 0 then "" else udec v.
Lemma udec_snoc : forall v d, 0 < v -> v * 10 + d < 256 -> 0 <= d < 10 -> udec v ++ String (digit d) "" = udec (v * 10 + d).
Proof.
  intros v d V B D.
  assert (F : upto 25 1 (fun v => upto 10 0 (fun d => String.eqb (udec v ++ String (digit d) "") (udec (v * 10 + d)))) = true) by (vm_compute; reflexivity).
  pose proof (upto_spec _ _ _ F v ltac:(lia)) as G. cbv beta in G. apply String.eqb_eq. exact (upto_spec _ _ _ G d ltac:(lia)).
Qed.
Lemma parse4_inv : forall s v len fs out, 0 <= v < 256 -> 0 <= len -> (len = 0 -> v = 0) -> zlen fs <= 3 -> (len = 0 -> s <> "" \/ zlen fs < 3) ->
  (1 < len -> 0 < v) -> parse4 s v len fs = Some out ->
  exists w l, byte w /\ Forall byte l /\ out = (fs ++ w :: l)%list /\ zlen out = 4 /\ seen v len ++ s = udec w ++ dots l.
Proof.
  induction s as [|c s IH]; intros v len fs out V LN Z0 F NE LV H; cbn [parse4] in H.
  - destruct (Z.ltb_spec (zlen fs) 3); [discriminate|]. assert (fs ++ [v] = out)%list by congruence. subst out.
    exists v, []. split; [exact V|]. split; [constructor|]. split; [reflexivity|]. split; [unfold zlen in *; rewrite app_length; cbn; lia|].
    unfold seen. destruct (Z.eqb_spec len 0); [destruct NE as [E|E]; [auto|now destruct E|lia]|reflexivity].
  - destruct (digit_val c) as [d|] eqn:D.
    + pose proof (digit_val_range _ _ D) as Rd. apply digit_val_inj in D.
      destruct ((len =? 1) && (v =? 0)) eqn:LZ; [discriminate|]. destruct (Z.ltb_spec 255 (v * 10 + d)); [discriminate|].
      assert (VL : len = 0 \/ 0 < v).
      { apply andb_false_iff in LZ. rewrite !Z.eqb_neq in LZ. destruct (Z.eq_dec len 0); [auto|]. destruct (Z.eq_dec len 1); [|lia]. lia. }
      apply IH in H; try lia.
      destruct H as (w & l & W & L & O & N & S). exists w, l. repeat split; auto; try apply W. rewrite <- S. unfold seen.
      destruct (Z.eqb_spec (len + 1) 0); [lia|]. subst c. destruct (Z.eqb_spec len 0) as [E|E].
      * rewrite (Z0 E). change (0 * 10 + d) with d. rewrite (udec_short d) by (unfold byte; lia). unfold short. destruct (Z.ltb_spec d 10); [reflexivity|lia].
      * rewrite <- udec_snoc by lia. rewrite <- string_app_assoc. reflexivity.
    + destruct (Ascii.eqb_spec c "."); [|discriminate]. subst c. destruct (Z.eqb_spec len 0) as [|LN0]; [discriminate|]. cbn [orb] in H.
      destruct s as [|c' s']; [discriminate|]. destruct (Z.eqb_spec (zlen fs) 3); [discriminate|].
      apply IH in H; try lia; [|unfold zlen in *; rewrite app_length; cbn; lia|intros _; left; discriminate].
      destruct H as (w & l & W & L & O & N & S). exists v, (w :: l). split; [exact V|]. split; [now constructor|].
      split; [rewrite O, <- app_assoc; reflexivity|]. split; [exact N|]. cbn [dots]. rewrite <- S. unfold seen. cbn [Z.eqb append].
      destruct (Z.eqb_spec len 0); [lia|]. reflexivity.
Qed.
Lemma digits_then_dot : forall s r, all_digits s = true -> is_v4 (s ++ String "." r) = true.
Proof.
  induction s as [|c s IH]; intros r H; [reflexivity|]. cbn [all_digits] in H. apply andb_true_iff in H. destruct H as [Hc Hs].
  cbn [append is_v4]. destruct (Ascii.eqb c "."); [reflexivity|].
  assert (N : Ascii.eqb c ":" || Ascii.eqb c "%" = false).
  { apply orb_false_iff. rewrite !Ascii.eqb_neq. split; intros ->; discriminate. }
  rewrite N. now apply IH.
Qed.
(** C105: the IPv4 addresses are read from exactly the texts they are printed as. *)
Theorem c105_ipv4_text_iff : forall s b, ipv4_from_text s = Some b <-> Forall byte b /\ ipv4_text b = Some s.
Proof.
  intros s b. unfold ipv4_from_text. split.
  - intros H. destruct (is_v4 s); [|discriminate]. apply parse4_inv in H; try lia; [|try (intros _; right); cbn; lia..].
    destruct H as (w & l & W & L & O & N & S). subst b. cbn [app] in *. split; [now constructor|].
    unfold zlen in N. cbn [List.length] in N. destruct l as [|x [|y [|z [|? ?]]]]; cbn [List.length] in N; try lia.
    change (seen 0 0 ++ s) with s in S. rewrite S. cbn [ipv4_text dots]. f_equal. cbn [append].
    assert (E : forall t, t ++ "" = t) by (induction t; cbn; congruence). now rewrite E.
  - intros [F T]. destruct b as [|x [|y [|z [|w [|? ?]]]]]; try discriminate. cbn [ipv4_text] in T.
    assert (E : s = udec x ++ "." ++ udec y ++ "." ++ udec z ++ "." ++ udec w) by congruence. subst s. clear T.
    inversion F as [|? ? X F1]; subst. inversion F1 as [|? ? Y F2]; subst. inversion F2 as [|? ? Zz F3]; subst. inversion F3 as [|? ? W _]; subst.
    unfold byte in *. cbn [append]. rewrite digits_then_dot by (apply udec_all_digits; lia).
    destruct (parse4_field x (String "." (udec y ++ String "." (udec z ++ String "." (udec w)))) [] X) as (l1 & L1 & ->).
    rewrite parse4_dot by (cbn; lia).
    destruct (parse4_field y (String "." (udec z ++ String "." (udec w))) ([] ++ [x]) Y) as (l2 & L2 & ->).
    rewrite parse4_dot by (cbn; lia).
    destruct (parse4_field z (String "." (udec w)) (([] ++ [x]) ++ [y]) Zz) as (l3 & L3 & ->).
    assert (E : udec w = udec w ++ "") by (induction (udec w); cbn; congruence). rewrite E at 1. rewrite parse4_dot by (cbn; lia).
    destruct (parse4_field w "" ((([] ++ [x]) ++ [y]) ++ [z]) W) as (l4 & L4 & ->). reflexivity.
Qed.
Example c105_ex : ipv4_from_text "192.168.0.1" = Some [192; 168; 0; 1] /\ ipv4_text [192; 168; 0; 1] = Some "192.168.0.1" /\
  ipv4_from_text "192.168.00.1" = None /\ ipv4_from_text "1.2.3" = None /\ ipv4_from_text "256.1.1.1" = None /\ ipv4_from_text "1.2.3.4.5" = None.
Proof. repeat split; reflexivity. Qed.

Print Assumptions c48_ipv4_int_round_trip_partial.
Print Assumptions c48_out_of_range_refuted.
Print Assumptions c104_ipv4_bytes_round_trip.
Print Assumptions c49_ip_trunc.
Print Assumptions c49_other_lengths_are_errors.
Print Assumptions c49_net_mask.
Print Assumptions c49_truncation_composes.
Print Assumptions c105_ipv4_text_iff.
