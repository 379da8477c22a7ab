(** Proofs about aggregates over window frames. *)
From Coq Require Import Ascii String List ZArith QArith Lia Bool SpecFloat Permutation Sorting.Sorted.
From Verif Require Import GoBase GoBaseFacts ValueModel ValueFacts FloatFacts CompareSpec CompareProofs AggModel AggSpec AggProofs WindowModel WindowSpec WindowProofs WinAggModel WinAggSpec.
Import ListNotations.
Local Open Scope string_scope.
Open Scope Z_scope.

Lemma foldr_res : forall A B (f : A -> B -> res A) l a, foldr f a l = fold_res f a l.
Proof. induction l as [|x l IH]; intros a; cbn [foldr fold_res]; [reflexivity|]. destruct (f a x); cbn [bind]; auto. Qed.
Lemma not_null_nonnull : forall l, not_null l = nonnull l.
Proof. induction l as [|[v|] l IH]; cbn; [reflexivity| |exact IH]. f_equal. exact IH. Qed.
Lemma around_proper : forall s e, around s e -> proper s e.
Proof. intros s e Ar. unfold proper. destruct Ar as [[K|[K|K]] [J|[J|J]]]; rewrite K; try rewrite J; exact I. Qed.

Lemma sum_ints : forall z zs, in64 z -> foldr sum_step None (map VInt (z :: zs)) = Ok (Some (VInt (wrap64 (sum_z (z :: zs))))).
Proof.
  intros z zs I. cbn [map foldr sum_step bind]. rewrite foldr_res. pose proof (sum_int_fold zs z) as S. rewrite (wrap64_id z) in S by exact I. exact S.
Qed.
Lemma sum_nums : forall q qs, Qred q = q -> foldr sum_step None (map VNum (q :: qs)) = Ok (Some (VNum (Qred (sum_q (q :: qs))))).
Proof.
  intros q qs R. cbn [map foldr sum_step bind]. rewrite foldr_res. destruct (sum_num_fold qs q R) as (x & E & F). unfold sum_step. rewrite E, F. reflexivity.
Qed.
Lemma countif_foldr : forall bs n, foldr countif_step n (map (fun b : bool => VInt (if b then 1 else 0)) bs) = Ok (n + zlen (filter (fun b => b) bs)).
Proof.
  induction bs as [|[|] bs IH]; intros n; cbn [map foldr].
  - f_equal. cbn. lia.
  - change (countif_step n (VInt 1)) with (Ok (n + 1)). cbn [bind]. rewrite IH. f_equal. cbn [filter]. unfold zlen. cbn [List.length]. lia.
  - change (countif_step n (VInt 0)) with (Ok n). cbn [bind]. rewrite IH. reflexivity.
Qed.
Lemma kept_distinct : forall text l seen, told_apart text (not_null l) ->
  exists ks, kept text true seen l = Ok ks /\ NoDup ks /\
    forall v, In v ks <-> In v (not_null l) /\ forall t, text v = Ok t -> ~ In t seen.
Proof.
  intros text. induction l as [|[v|] l IH]; intros seen [T U].
  - exists []. split; [reflexivity|]. split; [constructor|]. cbn. tauto.
  - assert (TA : told_apart text (not_null l)) by (split; [intros; apply T; now right|intros; apply U; try (now right); assumption]).
    destruct (T v (or_introl eq_refl)) as (t & Tv). cbn [kept]. rewrite Tv. cbn [bind].
    destruct (existsb (String.eqb t) seen) eqn:E.
    + apply existsb_exists in E. destruct E as (t' & I & Q). apply String.eqb_eq in Q. subst t'.
      destruct (IH seen TA) as (ks & K & N & M). exists ks. split; [exact K|]. split; [exact N|]. intros w. rewrite M. cbn [not_null flat_map app In].
      split; [intros [A B]; split; [now right|exact B]|]. intros [[<-|A] B]; [exfalso; exact (B t Tv I)|]. split; [exact A|exact B].
    + destruct (IH (t :: seen) TA) as (ks & K & N & M). exists (v :: ks). rewrite K. cbn [bind]. split; [reflexivity|].
      assert (Nt : ~ In t seen). { intros I. assert (existsb (String.eqb t) seen = true) by (apply existsb_exists; exists t; split; [exact I|apply String.eqb_refl]). congruence. }
      split.
      * constructor; [|exact N]. rewrite M. intros [_ B]. apply (B t Tv). now left.
      * intros w. cbn [In not_null flat_map app]. fold (not_null l). rewrite M. split.
        -- intros [<-|[A B]]; [split; [now left|intros t' E'; assert (t' = t) by congruence; now subst]|]. split; [now right|]. intros t' E' I. apply (B t' E'). now right.
        -- intros [[<-|A] B]; [now left|]. destruct (T w (or_intror A)) as (tw & Tw). destruct (String.eqb_spec tw t) as [->|D].
           ++ left. apply U; [now left|now right|congruence].
           ++ right. split; [exact A|]. intros t' E' [Q|I]; [congruence|]. exact (B t' E' I).
  - cbn [kept]. destruct (IH seen) as (ks & K & N & M); [split; [intros; apply T; assumption|intros; apply U; assumption]|]. exists ks. auto.
Qed.
Lemma distinct_values : forall text l, told_apart text (not_null l) -> exists ks, kept text true [] l = Ok ks /\ each_once (not_null l) ks.
Proof.
  intros text l T. destruct (kept_distinct text l [] T) as (ks & K & N & M). exists ks. split; [exact K|]. split; [exact N|].
  intros v. rewrite M. cbn. split; [tauto|]. intros A. split; [exact A|auto].
Qed.
Lemma extreme_foldr : forall op, op = GT \/ op = LT -> forall vs, (forall x y, In x vs -> In y vs -> comparable x y) ->
  match vs with
  | [] => foldr (extreme_step op) None vs = Ok None
  | _ => exists b, foldr (extreme_step op) None vs = Ok (Some b) /\ In b vs /\ forall x, In x vs -> ~ after op x b
  end.
Proof.
  intros op O [|m l] C; [reflexivity|]. cbn [foldr extreme_step bind]. rewrite foldr_res. exact (extreme_fold op O l m C).
Qed.

(** ** Floats *)
Lemma cmp_float_int : forall op f z, cmp op (VFloat f) (VInt z) = cmp op (VFloat f) (VFloat (float_of_int z)).
Proof. reflexivity. Qed.
Lemma cmp_floats : forall op f g, real_float f -> real_float g -> (holds (cmp op (VFloat f) (VFloat g)) = true <-> means op (VFloat f) (VFloat g)).
Proof. intros op f g F G. destruct (cmp_scalar op (VFloat f) (VFloat g) (conj F G)) as (b & E & M). rewrite E. exact M. Qed.
Lemma cmp_floats_false : forall op f g, real_float f -> real_float g -> ~ means op (VFloat f) (VFloat g) -> holds (cmp op (VFloat f) (VFloat g)) = false.
Proof. intros op f g F G N. destruct (holds _) eqn:E; [|reflexivity]. apply cmp_floats in E; tauto. Qed.
Lemma SFltb_scaled : forall f g, real_float f -> real_float g -> (SFltb f g = true <-> float_scaled f < float_scaled g).
Proof.
  intros f g F G. pose proof (cmp_floats LT f g F G) as C. cbn [means before] in C. rewrite <- C.
  change (holds (cmp LT (VFloat f) (VFloat g))) with (decide LT (SFcompare f g)). unfold SFltb, decide. destruct (SFcompare f g) as [[| |]|]; tauto.
Qed.
Lemma percentile_ok : forall f, a_percentile f -> percentile (Some (Some (VFloat f))) = Ok f.
Proof.
  intros f [R B]. unfold percentile. destruct (float_of_int_scaled 0 ltac:(lia)) as [R0 S0]. destruct (float_of_int_scaled 1 ltac:(lia)) as [R1 S1].
  rewrite !cmp_float_int. rewrite cmp_floats_false; auto; [|cbn [means before]; rewrite S0; lia].
  rewrite cmp_floats_false; auto. cbn [means before]. rewrite S1. lia.
Qed.
Lemma is_zero_scaled : forall q, real_float q -> (holds (cmp EQ (VFloat q) (VInt 0)) = true <-> float_scaled q = 0).
Proof.
  intros q R. rewrite cmp_float_int. destruct (float_of_int_scaled 0 ltac:(lia)) as [R0 S0]. rewrite cmp_floats by assumption. cbn [means alike]. rewrite S0. lia.
Qed.
Lemma trunc_scaled : forall q, real_float q -> 0 <= float_scaled q -> float_scaled q < 2 ^ 53 * 2 ^ 1074 -> int_of_float q = float_scaled q / 2 ^ 1074.
Proof.
  intros q [V N] P U. assert (P74 : 0 < 2 ^ 1074) by (apply Z.pow_pos_nonneg; lia).
  assert (U' : float_scaled q / 2 ^ 1074 < 2 ^ 53) by (apply Z.div_lt_upper_bound; [exact P74|rewrite Z.mul_comm; exact U]).
  assert (L' : 0 <= float_scaled q / 2 ^ 1074) by (apply Z.div_pos; lia).
  assert (E : trunc_float q = Some (float_scaled q / 2 ^ 1074)).
  { destruct q as [s|s| |s m e]; [cbn [trunc_float float_scaled]; now rewrite Z.div_0_l by lia| |discriminate|].
    - exfalso. destruct s; cbn [float_scaled] in P, U; [assert (0 < 2 ^ 2098) by (apply Z.pow_pos_nonneg; lia); lia|].
      rewrite <- Z.pow_add_r in U by lia. apply Z.pow_lt_mono_r_iff in U; lia.
    - destruct s; [cbn [float_scaled] in P; exfalso|].
      + assert (0 < 2 ^ (e + 1074)).
        { apply Z.pow_pos_nonneg; [lia|]. assert (C : canonical m e) by exact V. apply canonical_bounds in C. lia. }
        pose proof (Pos2Z.is_pos m). nia.
      + assert (C : canonical m e) by exact V. apply canonical_bounds in C. cbn [trunc_float float_scaled]. f_equal.
        destruct (Z.leb_spec 0 e).
        * rewrite Z.pow_add_r, Z.mul_assoc, Z.div_mul by lia. reflexivity.
        * replace (2 ^ 1074) with (2 ^ (- e) * 2 ^ (e + 1074)) by (rewrite <- Z.pow_add_r by lia; f_equal; lia).
          rewrite Z.div_mul_cancel_r; [reflexivity| |]; apply Z.pow_nonzero; lia. }
  unfold int_of_float. rewrite E. assert (in64b (float_scaled q / 2 ^ 1074) = true) as ->; [|reflexivity].
  set (x := float_scaled q / 2 ^ 1074) in *. clearbody x. unfold in64b, two63. change (2 ^ 53) with 9007199254740992 in U'.
  apply andb_true_intro. split; [apply Z.leb_le|apply Z.ltb_lt]; lia.
Qed.
Lemma disc_index_at : forall q k, real_float q -> 1 <= k < 2 ^ 53 -> rounds_up_to q k -> disc_index q = k - 1.
Proof.
  intros q k R K [L U]. assert (P74 : 0 < 2 ^ 1074) by (apply Z.pow_pos_nonneg; lia).
  assert (T : int_of_float q = float_scaled q / 2 ^ 1074).
  { apply trunc_scaled; [exact R|nia|]. change (2 ^ 53) with 9007199254740992 in *. nia. }
  unfold disc_index. rewrite T. clear T. set (x := float_scaled q) in *. set (b := 2 ^ 1074) in *. cbv zeta.
  assert (B : 0 <= x / b < 2 ^ 53).
  { split; [apply Z.div_pos; nia|]. apply Z.div_lt_upper_bound; [exact P74|]. change (2 ^ 53) with 9007199254740992 in *. nia. }
  destruct (float_of_int_scaled (x / b)) as [Ri Si]; [lia|]. fold b in Si.
  assert (W : forall z, 0 <= z <= 2 ^ 53 -> wrap64 z = z) by (intros z Hz; apply wrap64_id; unfold in64, two63; change (2 ^ 53) with 9007199254740992 in *; lia).
  pose proof (Z.div_mod x b ltac:(lia)) as DM. pose proof (Z.mod_pos_bound x b P74) as MB.
  destruct (SFltb (float_of_int (x / b)) q) eqn:E.
  - apply SFltb_scaled in E; [|exact Ri|exact R]. rewrite Si in E. fold x in E.
    assert (x / b = k - 1) by nia. rewrite H. replace (k - 1 + 1) with k by lia. rewrite (W k), W by lia. reflexivity.
  - assert (~ (x / b * b < x)). { intros C. rewrite <- Si in C. apply SFltb_scaled in C; [congruence|exact Ri|exact R]. }
    assert (x / b = k) by nia. rewrite H0, (W k), W by lia. reflexivity.
Qed.

(** ** Order statistics *)
Definition vbefore (a b : val) : bool := holds (cmp LT a b).
Lemma vbefore_spec : forall a b, comparable a b -> (vbefore a b = true <-> before a b).
Proof. intros a b C. unfold vbefore. destruct (cmp_scalar LT a b C) as (x & E & M). rewrite E. exact M. Qed.
Lemma filter_length_perm : forall A (p : A -> bool) l m, Permutation l m -> zlen (filter p l) = zlen (filter p m).
Proof.
  intros A p l m H. unfold zlen. f_equal. induction H as [|x l m H IH|x y l|l m k H1 IH1 H2 IH2]; cbn [filter]; [reflexivity| | |congruence].
  - destruct (p x); cbn [List.length]; congruence.
  - destruct (p x), (p y); reflexivity.
Qed.
Lemma zlen_filter_le : forall A (p : A -> bool) l, zlen (filter p l) <= zlen l.
Proof. intros A p l. unfold zlen. induction l as [|x l IH]; cbn [filter List.length]; [lia|]. destruct (p x); cbn [List.length]; lia. Qed.
Lemma filter_none : forall A (p : A -> bool) l, (forall x, In x l -> p x = false) -> filter p l = [].
Proof. intros A p l H. induction l as [|x l IH]; [reflexivity|]. cbn [filter]. rewrite (H x (or_introl eq_refl)). apply IH. intros. apply H. now right. Qed.
Lemma filter_every : forall A (p : A -> bool) l, (forall x, In x l -> p x = true) -> filter p l = l.
Proof. intros A p l H. induction l as [|x l IH]; [reflexivity|]. cbn [filter]. rewrite (H x (or_introl eq_refl)). f_equal. apply IH. intros. apply H. now right. Qed.
Lemma SS_split : forall A (R : A -> A -> Prop) l1 x l2, StronglySorted R (l1 ++ x :: l2)%list -> (forall y, In y l1 -> R y x) /\ (forall y, In y l2 -> R x y).
Proof.
  intros A R. induction l1 as [|a l1 IH]; intros x l2 S; cbn [app] in S; inversion S as [|? ? S1 F]; subst; rewrite Forall_forall in F.
  - split; [intros y []|exact F].
  - destruct (IH x l2 S1) as [I J]. split; [|exact J]. intros y [<-|Y]; [apply F; apply in_or_app; right; now left|now apply I].
Qed.
Lemma kth_sorted : forall vs sorted k v, (forall x y, In x vs -> In y vs -> comparable x y) -> Permutation vs sorted ->
  StronglySorted (fun a b => vbefore b a = false) sorted -> 1 <= k -> nth_error sorted (Z.to_nat (k - 1)) = Some v -> kth_smallest k vs v.
Proof.
  intros vs sorted k v C P S K N. destruct (nth_error_split _ _ N) as (l1 & l2 & E & L).
  assert (Iv : In v vs) by (apply (Permutation_in v (Permutation_sym P)); rewrite E; apply in_or_app; right; now left).
  assert (Is : forall x, In x sorted -> In x vs) by (intros x X; exact (Permutation_in x (Permutation_sym P) X)).
  rewrite E in S. destruct (SS_split _ _ _ _ _ S) as [B A].
  assert (Z1 : zlen l1 = k - 1) by (unfold zlen; lia).
  assert (Irr : vbefore v v = false).
  { destruct (vbefore v v) eqn:Q; [|reflexivity]. apply vbefore_spec in Q; [now apply before_irrefl in Q|now apply C]. }
  split; [exact Iv|]. split.
  - intros lo H. assert (F : lo = filter (fun x => vbefore x v) vs).
    { eapply keeps_unique; [exact H|]. apply keeps_filter. intros x X. apply vbefore_spec. now apply C. }
    rewrite F, (filter_length_perm _ _ _ _ P), E, filter_app. rewrite zlen_app. cbn [filter]. rewrite Irr.
    rewrite (filter_none _ _ l2) by exact A. pose proof (zlen_filter_le _ (fun x => vbefore x v) l1). change (zlen (@nil val)) with 0. lia.
  - intros hi H. assert (F : hi = filter (fun x => negb (vbefore v x)) vs).
    { eapply keeps_unique; [exact H|]. apply keeps_filter. intros x X. pose proof (vbefore_spec v x (C v x Iv X)) as W.
      destruct (vbefore v x); cbn; split; intros; try discriminate; try reflexivity; intuition congruence. }
    rewrite F, (filter_length_perm _ _ _ _ P), E, filter_app, zlen_app. cbn [filter]. rewrite Irr. cbn [negb].
    rewrite (filter_every _ _ l1) by (intros y Y; cbn; now rewrite (B y Y)).
    unfold zlen at 2. cbn [List.length]. unfold zlen in *. lia.
Qed.

(** ** Percentiles *)
Lemma all_some : forall l : list (option val), filter is_some l = map Some (not_null l).
Proof. induction l as [|[v|] l IH]; cbn; [reflexivity| |exact IH]. f_equal. exact IH. Qed.
Lemma feed_pct : forall d f rows s, (forall r, In r rows -> asks f r) -> (s = None \/ s = Some (Some (VFloat f))) ->
  feed {| Wst := pct_state; winit := None; wstep := pct_step; wdone := d |} s (map r_args rows) =
  Ok (match rows with [] => s | _ => Some (Some (VFloat f)) end, map (fun r => hd None (r_args r)) rows).
Proof.
  intros d f. induction rows as [|r rows IH]; intros s H Hs; [reflexivity|]. cbn [map feed wstep].
  destruct (H r (or_introl eq_refl)) as (x & E). rewrite E. cbn [pct_step].
  assert (Es : (match s with Some p0 => p0 | None => Some (VFloat f) end) = Some (VFloat f)) by (destruct Hs; subst s; reflexivity). rewrite Es. cbn [bind].
  rewrite (IH (Some (Some (VFloat f)))) by (auto; intros; apply H; now right). cbn [bind hd]. destruct rows; reflexivity.
Qed.
Lemma weak_vless : forall vs, (forall x y, In x vs -> In y vs -> comparable x y) -> weak_order vless (map Some vs).
Proof.
  intros vs C. assert (S : forall x, In x (map Some vs) -> exists v, x = Some v /\ In v vs).
  { intros x X. apply in_map_iff in X. destruct X as (v & <- & I). eauto. }
  assert (V : forall a b, In a vs -> In b vs -> (vless (Some a) (Some b) = true <-> before a b)).
  { intros a b A B. cbn [vless]. fold (vbefore a b). apply vbefore_spec. now apply C. }
  assert (V' : forall a b, In a vs -> In b vs -> (vless (Some a) (Some b) = false <-> ~ before a b)).
  { intros a b A B. rewrite <- V by assumption. destruct (vless (Some a) (Some b)); intuition congruence. }
  split; [|split].
  - intros x X. destruct (S x X) as (a & -> & A). apply V'; auto. apply before_irrefl.
  - intros x y z X Y W. destruct (S x X) as (a & -> & A). destruct (S y Y) as (b & -> & B). destruct (S z W) as (c & -> & D).
    rewrite !V by assumption. apply before_trans.
  - intros x y z X Y W. destruct (S x X) as (a & -> & A). destruct (S y Y) as (b & -> & B). destruct (S z W) as (c & -> & D).
    rewrite !V' by assumption. intros N1 N2 H. destruct (trichotomy a b (C a b A B)) as [T|[T|T]]; [now apply N1| |].
    + apply N2. eapply alike_before; [apply alike_sym; exact T|exact H].
    + apply N2. eapply before_trans; eauto.
Qed.
Lemma sorted_values : forall vs out, (forall x y, In x vs -> In y vs -> comparable x y) -> go_sort vless (map Some vs) out ->
  exists ss, out = map Some ss /\ Permutation vs ss /\ StronglySorted (fun a b => vbefore b a = false) ss.
Proof.
  intros vs out C (P & S & _). specialize (S (weak_vless vs C)).
  apply Permutation_sym, Permutation_map_inv in P. destruct P as (ss & -> & P). exists ss. split; [reflexivity|]. split; [exact P|].
  apply SSorted_map_inv in S. exact S.
Qed.
Lemma nth_row_some : forall A (l : list A) k x, 1 <= k -> nth_error l (Z.to_nat (k - 1)) = Some x -> nth_row l k = Ok x.
Proof. intros A l k x K N. unfold nth_row. destruct (Z.ltb_spec k 1); [lia|]. now rewrite N. Qed.

Section Percentiles.
  Variable text : val -> res string.
  Variable loose : string -> option item.
  Variable wloose : string -> option witem.
  Variable sort : (ent -> ent -> bool) -> list ent -> list ent.
  Hypothesis slices : sort_slice sort.
  Variable shp : list kty.
  Variable sho : list (kty * bool).
  Variable rows : list srow.
  Hypothesis so : sound text shp sho rows.
  Variable vsort : (option val -> option val -> bool) -> list (option val) -> list (option val).
  Notation ord := (order_at text sort rows).
  Lemma pct_over : forall d f i p, (forall r, In r rows -> asks f r) -> nth_error (ord i) p = Some i ->
    over text loose wloose sort {| Wst := pct_state; winit := None; wstep := pct_step; wdone := d |} no_frame (map row_of rows) (Z.of_nat i + 1) =
    d (Some (Some (VFloat f))) (opts no_frame) (map (ent_at text rows (map (fun r => hd None (r_args r)) rows)) (ord i)) (Some (Z.of_nat p, Z.of_nat p)).
  Proof.
    intros d f i p A N.
    rewrite (over_none text loose wloose sort slices shp sho rows so {| Wst := pct_state; winit := None; wstep := pct_step; wdone := d |} no_frame (match rows with [] => None | _ => Some (Some (VFloat f)) end) (map (fun r => hd None (r_args r)) rows) i p eq_refl).
    - cbn [wdone]. destruct rows; [|reflexivity]. apply (ord_lt text sort slices []) in N. cbn in N. lia.
    - now apply feed_pct; [|left].
    - exact N.
  Qed.
  Lemma pct_vals : forall i, vals (map (ent_at text rows (map (fun r => hd None (r_args r)) rows)) (ord i)) = map (arg_of rows) (ord i).
  Proof. intros i. unfold vals. rewrite map_map. apply map_ext. intros j. cbn [e_val ent_at]. now apply nth_hd. Qed.
  Lemma disc_over : forall f i p, (forall r, In r rows -> asks f r) -> a_percentile f -> nth_error (ord i) p = Some i ->
    over text loose wloose sort (w_percentile_disc vsort) no_frame (map row_of rows) (Z.of_nat i + 1) =
    disc_pick f (vsort vless (map Some (not_null (map (arg_of rows) (ord i))))).
  Proof.
    intros f i p A F N. unfold w_percentile_disc. rewrite (pct_over _ f i p A N). cbv beta iota. rewrite percentile_ok by exact F. cbn [bind].
    unfold visible. cbn [opts a_ignore no_frame p_respect negb]. now rewrite pct_vals, all_some.
  Qed.
  Lemma cont_over : forall f i p, (forall r, In r rows -> asks f r) -> a_percentile f -> nth_error (ord i) p = Some i ->
    over text loose wloose sort w_percentile_cont no_frame (map row_of rows) (Z.of_nat i + 1) =
    bind (as_ints (map Some (not_null (map (arg_of rows) (ord i))))) (fun vs =>
      match map fst vs with
      | [] => Ok None
      | v :: r => bind (cont_value f (sort_ints (map snd vs))) (fun c => if holds (cmp EQ (greatest v r) (VInt 0)) then Ok (Some (VFloat fzero)) else Ok c)
      end).
  Proof.
    intros f i p A F N. unfold w_percentile_cont. rewrite (pct_over _ f i p A N). cbv beta iota. rewrite percentile_ok by exact F. cbn [bind].
    unfold visible. cbn [opts a_ignore no_frame p_respect negb]. now rewrite pct_vals, all_some.
  Qed.
End Percentiles.

Lemma times_zero : forall f, a_percentile f -> exists s, fmul f (S754_zero false) = S754_zero s.
Proof.
  intros f [[V N] B]. destruct f as [s|s| |s m e]; [eexists; reflexivity| |discriminate|eexists; reflexivity].
  exfalso. destruct s; cbn [float_scaled] in B; [assert (0 < 2 ^ 2098) by (apply Z.pow_pos_nonneg; lia); lia|].
  destruct B as [_ B]. apply Z.pow_le_mono_r_iff in B; lia.
Qed.
Lemma zero_times : forall s n, 0 <= n < 2 ^ 53 -> exists t, fmul (S754_zero s) (float_of_int n) = S754_zero t.
Proof.
  intros s n B. destruct (float_of_int_scaled n ltac:(lia)) as [[V N] S]. destruct (float_of_int n) as [t|t| |t m e]; [eexists; reflexivity| |discriminate|eexists; reflexivity].
  exfalso. destruct t; cbn [float_scaled] in S.
  - assert (0 < 2 ^ 2098) by (apply Z.pow_pos_nonneg; lia). assert (0 < 2 ^ 1074) by (apply Z.pow_pos_nonneg; lia). nia.
  - replace (2 ^ 2098) with (2 ^ 1024 * 2 ^ 1074) in S by (rewrite <- Z.pow_add_r by lia; f_equal; lia).
    apply Z.mul_reg_r in S; [|apply Z.pow_nonzero; lia]. assert (2 ^ 53 < 2 ^ 1024) by (apply Z.pow_lt_mono_r; lia). lia.
Qed.
Lemma cont_first : forall f zs z, (exists t, fmul f (float_of_int (zlen zs - 1)) = S754_zero t) -> nth_error zs 0 = Some z ->
  cont_value f zs = Ok (Some (VFloat (float_of_int z))).
Proof.
  intros f zs z (t & T) N. unfold cont_value, cont_row. rewrite T.
  assert (E : fadd fone (S754_zero t) = fone) by (destruct t; vm_compute; reflexivity). rewrite E.
  assert (Fl : ffloor fone = fone) by (vm_compute; reflexivity). assert (Ce : fceil fone = fone) by (vm_compute; reflexivity). rewrite Fl, Ce.
  unfold cont_at. replace (int_of_float (fsub fone fone) + 1) with 1 by (vm_compute; reflexivity).
  rewrite (nth_row_some _ zs 1 z) by (auto; lia). cbn [bind]. replace (SFeqb fone fone) with true by (vm_compute; reflexivity). reflexivity.
Qed.
Lemma insert_in : forall z l x, In x (insert_int z l) <-> x = z \/ In x l.
Proof. intros z. induction l as [|y l IH]; intros x; cbn [insert_int]; [cbn; intuition congruence|]. destruct (z <=? y); cbn [In]; [intuition congruence|]. rewrite IH. intuition congruence. Qed.
Lemma sort_ints_in : forall l x, In x (sort_ints l) <-> In x l.
Proof. induction l as [|y l IH]; intros x; cbn [sort_ints fold_right]; [reflexivity|]. rewrite insert_in. fold (sort_ints l). rewrite IH. cbn. intuition congruence. Qed.
Lemma insert_length : forall z l, List.length (insert_int z l) = S (List.length l).
Proof. intros z. induction l as [|y l IH]; cbn [insert_int]; [reflexivity|]. destruct (z <=? y); cbn [List.length]; [reflexivity|now rewrite IH]. Qed.
Lemma sort_ints_length : forall l, zlen (sort_ints l) = zlen l.
Proof. intros l. unfold zlen. f_equal. induction l as [|y l IH]; cbn [sort_ints fold_right]; [reflexivity|]. rewrite insert_length. fold (sort_ints l). now rewrite IH. Qed.
Lemma insert_sorted : forall z l, StronglySorted Z.le l -> StronglySorted Z.le (insert_int z l).
Proof.
  intros z. induction l as [|y l IH]; intros S; cbn [insert_int]; [repeat constructor|]. inversion S as [|? ? S1 F]; subst. destruct (Z.leb_spec z y).
  - constructor; [exact S|]. constructor; [lia|]. rewrite Forall_forall in *. intros x X. specialize (F x X). lia.
  - constructor; [now apply IH|]. rewrite Forall_forall in *. intros x X. apply insert_in in X. destruct X as [->|X]; [lia|now apply F].
Qed.
Lemma sort_ints_sorted : forall l, StronglySorted Z.le (sort_ints l).
Proof. induction l as [|y l IH]; cbn [sort_ints fold_right]; [constructor|]. now apply insert_sorted. Qed.
Lemma sort_ints_min : forall z zs, exists m, nth_error (sort_ints (z :: zs)) 0 = Some m /\ In m (z :: zs) /\ forall x, In x (z :: zs) -> m <= x.
Proof.
  intros z zs. pose proof (sort_ints_sorted (z :: zs)) as S. pose proof (sort_ints_in (z :: zs)) as I.
  destruct (sort_ints (z :: zs)) as [|m l] eqn:E; [exfalso; apply (proj2 (I z)); now left|]. exists m. split; [reflexivity|]. split; [apply I; now left|].
  intros x X. apply I in X. destruct X as [<-|X]; [lia|]. inversion S as [|? ? _ F]; subst. rewrite Forall_forall in F. now apply F.
Qed.
Lemma as_ints_ints : forall zs, as_ints (map Some (map VInt zs)) = Ok (map (fun z => (VInt z, z)) zs).
Proof. induction zs as [|z zs IH]; [reflexivity|]. cbn [map as_ints as_int bind]. rewrite IH. reflexivity. Qed.
Lemma greatest_ints : forall zs z, exists m, greatest (VInt z) (map VInt zs) = VInt m /\ In m (z :: zs) /\ forall x, In x (z :: zs) -> x <= m.
Proof.
  induction zs as [|y zs IH]; intros z; [exists z; split; [reflexivity|]; split; [now left|intros x [<-|[]]; lia]|].
  cbn [map]. unfold greatest. cbn [fold_left].
  assert (E : holds (cmp GT (VInt y) (VInt z)) = (z <? y)).
  { change (holds (cmp GT (VInt y) (VInt z))) with (decide GT (Some (y ?= z))). unfold decide, Z.ltb. rewrite (Z.compare_antisym y z). destruct (y ?= z); reflexivity. }
  rewrite E. destruct (Z.ltb_spec z y).
  - destruct (IH y) as (m & G & I & M). exists m. split; [exact G|]. split; [destruct I; cbn; auto|]. intros x [<-|X]; [|now apply M]. specialize (M y (or_introl eq_refl)). lia.
  - destruct (IH z) as (m & G & I & M). exists m. split; [exact G|]. split; [destruct I; cbn; auto|]. intros x [<-|[<-|X]]; [apply M; now left| |apply M; now right]. specialize (M z (or_introl eq_refl)). lia.
Qed.
