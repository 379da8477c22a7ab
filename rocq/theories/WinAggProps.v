(** Properties of aggregates over window frames: C258-C268. *)
From Coq Require Import Ascii String List ZArith QArith Lia Bool SpecFloat Permutation Sorting.Sorted.
From Verif Require Import GoBase GoBaseFacts ValueModel ValueFacts FloatFacts CastModel CodecModel DecModel DecFacts CompareSpec CompareProofs AggModel AggSpec AggProofs WindowModel WindowSpec WindowProofs WindowProps WinAggModel WinAggSpec WinAggProofs.
Import ListNotations.
Local Open Scope string_scope.
Open Scope Z_scope.

Lemma not_null_shorter : forall l, (List.length (not_null l) <= List.length l)%nat.
Proof. intros l. rewrite not_null_nonnull. induction l as [|[v|] l IH]; cbn [nonnull List.length]; lia. Qed.

Section Over.
  Variable text : val -> res string.
  Variable loose : string -> option item.
  Variable wloose : string -> option witem.
  Variable sort : (ent -> ent -> bool) -> list ent -> list ent.
  Hypothesis slices : sort_slice sort.
  Variable shp : list kty.
  Variable sho : list (kty * bool).
  Variable rows : list srow.
  Hypothesis so : sound text shp sho rows.
  Notation ov := (over text loose wloose sort).

(** ** C258: SUM *)
Theorem c258_sum : exists ord, arrangement rows ord /\
  forall s e i p fr, start_bound s -> end_bound e -> around s e -> small rows s -> small rows e ->
    (forall r, In r rows -> has_arg r) -> nth_error (ord i) p = Some i -> rows_frame s e (ord i) p fr ->
    (forall zs, not_null (map (arg_of rows) fr) = map VInt zs -> Forall in64 zs -> in64 (sum_z zs) ->
      ov (w_sum text) (rows_spec s e) (map row_of rows) (Z.of_nat i + 1) = Ok (match zs with [] => None | _ => Some (VInt (sum_z zs)) end)) /\
    (forall qs, not_null (map (arg_of rows) fr) = map VNum qs -> Forall (fun q => Qred q = q) qs ->
      ov (w_sum text) (rows_spec s e) (map row_of rows) (Z.of_nat i + 1) = Ok (match qs with [] => None | _ => Some (VNum (Qred (sum_q qs))) end)).
Proof.
  exists (order_at text sort rows). split; [now apply (ord_arrangement text sort slices shp sho)|].
  intros s e i p fr Hs He Ar Ss Se A N Fr.
  assert (E : ov (w_sum text) (rows_spec s e) (map row_of rows) (Z.of_nat i + 1) = foldr sum_step None (not_null (map (arg_of rows) fr))).
  { unfold w_sum. rewrite (over_rows0 text loose wloose sort slices shp sho rows so _ (rows_spec s e) s e i p fr None
      (fun vs => bind (kept text (a_distinct (opts (rows_spec s e))) [] vs) (fun ks => foldr sum_step None ks)) A eq_refl N Hs He (around_proper s e Ar) Ss Se Fr); auto.
    cbn [opts a_distinct rows_spec p_distinct]. now rewrite kept_all. }
  rewrite E. split.
  - intros zs V F B. rewrite V. destruct zs as [|z zs]; [reflexivity|]. inversion F; subst. rewrite sum_ints by assumption. now rewrite wrap64_id.
  - intros qs V F. rewrite V. destruct qs as [|q qs]; [reflexivity|]. inversion F; subst. now rewrite sum_nums.
Qed.
(** ** C259: a SUM of INT64 out of range *)
Theorem c259_refuted : exists ord, arrangement rows ord /\
  forall s e i p fr z zs, start_bound s -> end_bound e -> around s e -> small rows s -> small rows e ->
    (forall r, In r rows -> has_arg r) -> nth_error (ord i) p = Some i -> rows_frame s e (ord i) p fr ->
    not_null (map (arg_of rows) fr) = map VInt (z :: zs) -> Forall in64 (z :: zs) -> ~ in64 (sum_z (z :: zs)) ->
    exists w, ov (w_sum text) (rows_spec s e) (map row_of rows) (Z.of_nat i + 1) = Ok (Some (VInt w)) /\ w <> sum_z (z :: zs).
Proof.
  exists (order_at text sort rows). split; [now apply (ord_arrangement text sort slices shp sho)|].
  intros s e i p fr z zs Hs He Ar Ss Se A N Fr V F B.
  assert (E : ov (w_sum text) (rows_spec s e) (map row_of rows) (Z.of_nat i + 1) = foldr sum_step None (not_null (map (arg_of rows) fr))).
  { unfold w_sum. rewrite (over_rows0 text loose wloose sort slices shp sho rows so _ (rows_spec s e) s e i p fr None
      (fun vs => bind (kept text (a_distinct (opts (rows_spec s e))) [] vs) (fun ks => foldr sum_step None ks)) A eq_refl N Hs He (around_proper s e Ar) Ss Se Fr); auto.
    cbn [opts a_distinct rows_spec p_distinct]. now rewrite kept_all. }
  inversion F; subst. exists (wrap64 (sum_z (z :: zs))). rewrite E, V, sum_ints by assumption. split; [reflexivity|]. intros W. apply B. rewrite <- W. apply wrap64_range.
Qed.

(** ** C260: MIN and MAX *)
Theorem c260_extremes : exists ord, arrangement rows ord /\
  forall s e i p fr, start_bound s -> end_bound e -> around s e -> small rows s -> small rows e ->
    (forall r, In r rows -> has_arg r) -> nth_error (ord i) p = Some i -> rows_frame s e (ord i) p fr ->
    (forall x y, In x (not_null (map (arg_of rows) fr)) -> In y (not_null (map (arg_of rows) fr)) -> comparable x y) ->
    match not_null (map (arg_of rows) fr) with
    | [] => ov (w_min text) (rows_spec s e) (map row_of rows) (Z.of_nat i + 1) = Ok None /\ ov (w_max text) (rows_spec s e) (map row_of rows) (Z.of_nat i + 1) = Ok None
    | vs => (exists m, ov (w_min text) (rows_spec s e) (map row_of rows) (Z.of_nat i + 1) = Ok (Some m) /\ In m vs /\ forall x, In x vs -> ~ before x m) /\
            (exists m, ov (w_max text) (rows_spec s e) (map row_of rows) (Z.of_nat i + 1) = Ok (Some m) /\ In m vs /\ forall x, In x vs -> ~ before m x)
    end.
Proof.
  exists (order_at text sort rows). split; [now apply (ord_arrangement text sort slices shp sho)|].
  intros s e i p fr Hs He Ar Ss Se A N Fr C.
  assert (E : forall op, ov (w_extreme text op) (rows_spec s e) (map row_of rows) (Z.of_nat i + 1) = foldr (extreme_step op) None (not_null (map (arg_of rows) fr))).
  { intros op. unfold w_extreme. rewrite (over_rows0 text loose wloose sort slices shp sho rows so _ (rows_spec s e) s e i p fr None
      (fun vs => bind (kept text false [] vs) (fun ks => foldr (extreme_step op) None ks)) A eq_refl N Hs He (around_proper s e Ar) Ss Se Fr); auto.
    now rewrite kept_all. }
  unfold w_min, w_max. rewrite !E. pose proof (extreme_foldr LT (or_intror eq_refl) _ C) as L. pose proof (extreme_foldr GT (or_introl eq_refl) _ C) as G.
  destruct (not_null (map (arg_of rows) fr)) as [|v vs]; [tauto|]. split; [exact L|exact G].
Qed.

(** ** C261: COUNTIF *)
Theorem c261_countif : exists ord, arrangement rows ord /\
  forall s e i p fr bs, start_bound s -> end_bound e -> around s e -> small rows s -> small rows e ->
    (forall r, In r rows -> has_arg r) -> nth_error (ord i) p = Some i -> rows_frame s e (ord i) p fr ->
    not_null (map (arg_of rows) fr) = map (fun b : bool => VInt (if b then 1 else 0)) bs ->
    ov (w_countif text) (rows_spec s e) (map row_of rows) (Z.of_nat i + 1) = Ok (Some (VInt (zlen (filter (fun b => b) bs)))).
Proof.
  exists (order_at text sort rows). split; [now apply (ord_arrangement text sort slices shp sho)|].
  intros s e i p fr bs Hs He Ar Ss Se A N Fr V. unfold w_countif.
  rewrite (over_rows0 text loose wloose sort slices shp sho rows so _ (rows_spec s e) s e i p fr (Some (VInt 0))
    (fun vs => bind (kept text false [] vs) (fun ks => bind (foldr countif_step 0 ks) (fun n => Ok (Some (VInt n))))) A eq_refl N Hs He (around_proper s e Ar) Ss Se Fr); auto.
  rewrite kept_all, V. cbn [bind]. rewrite countif_foldr. cbn [bind]. do 3 f_equal. 
Qed.

(** ** C262: STRING_AGG *)
Lemma feed_strings : forall d l st, text (VStr d) = Ok d -> (forall r, In r l -> exists x, r_args r = [x; Some (VStr d)]) ->
  (st = None \/ st = Some (if String.eqb d "" then "," else d)) ->
  feed (w_string_agg text) st (map r_args l) = Ok (match l with [] => st | _ => Some (if String.eqb d "" then "," else d) end, map (fun r => hd None (r_args r)) l).
Proof.
  intros d. induction l as [|r l IH]; intros st T H Hs; [reflexivity|]. cbn [map feed].
  destruct (H r (or_introl eq_refl)) as (x & E). rewrite E. cbn [wstep w_string_agg]. rewrite T. cbn [bind arg0].
  assert (Es : (match st with Some d0 => d0 | None => if String.eqb d "" then "," else d end) = if String.eqb d "" then "," else d) by (destruct Hs; subst st; reflexivity).
  rewrite Es, (IH (Some (if String.eqb d "" then "," else d)) T) by (auto; intros; apply H; now right). cbn [bind hd]. destruct l; reflexivity.
Qed.
Lemma texts_strings : forall ss, (forall s, text (VStr s) = Ok s) -> texts_of text (map VStr ss) = Ok ss.
Proof. induction ss as [|x ss IH]; intros T; [reflexivity|]. cbn [map texts_of]. rewrite T. cbn [bind]. now rewrite IH. Qed.
Lemma string_agg_over : forall s e i p fr d ss, start_bound s -> end_bound e -> around s e -> small rows s -> small rows e ->
    (forall r, In r rows -> exists x, r_args r = [x; Some (VStr d)]) -> nth_error (order_at text sort rows i) p = Some i -> rows_frame s e (order_at text sort rows i) p fr ->
    not_null (map (arg_of rows) fr) = map VStr ss ->
    ov (w_string_agg text) (rows_spec s e) (map row_of rows) (Z.of_nat i + 1) = Ok (match ss with [] => None | _ => Some (VStr (join (if String.eqb d "" then "," else d) ss)) end).
Proof.
  intros s e i p fr d ss Hs He Ar Ss Se A N Fr V. destruct so as [[T _] _].
  rewrite (over_rows text loose wloose sort slices shp sho rows so (w_string_agg text) (rows_spec s e) s e
    (match rows with [] => None | _ => Some (if String.eqb d "" then "," else d) end) (map (fun r => hd None (r_args r)) rows) i p fr None
    (fun vs => bind (kept text false [] vs) (fun ks => bind (texts_of text ks) (fun ts =>
      Ok (match ts with [] => None | _ => Some (VStr (join (match (match rows with [] => None | _ => Some (if String.eqb d "" then "," else d) end) with Some d => d | None => "" end) ts)) end))))
    eq_refl (feed_strings d rows None (T d) A (or_introl eq_refl)) N Hs He (around_proper s e Ar) Ss Se Fr); [|reflexivity|reflexivity].
  replace (map (fun j => nth j (map (fun r => hd None (r_args r)) rows) None) fr) with (map (arg_of rows) fr) by (apply map_ext; intros j; symmetry; now apply nth_hd).
  rewrite kept_all, V. cbn [bind]. rewrite texts_strings by exact T. cbn [bind]. destruct ss as [|x ss]; [reflexivity|].
  destruct rows; [|reflexivity]. apply (ord_lt text sort slices []) in N. cbn in N. lia.
Qed.
Theorem c262_partial : exists ord, arrangement rows ord /\
  forall s e i p fr d ss, start_bound s -> end_bound e -> around s e -> small rows s -> small rows e ->
    (forall r, In r rows -> exists x, r_args r = [x; Some (VStr d)]) -> nth_error (ord i) p = Some i -> rows_frame s e (ord i) p fr ->
    not_null (map (arg_of rows) fr) = map VStr ss -> d <> "" ->
    ov (w_string_agg text) (rows_spec s e) (map row_of rows) (Z.of_nat i + 1) = Ok (match ss with [] => None | _ => Some (VStr (join d ss)) end).
Proof.
  exists (order_at text sort rows). split; [now apply (ord_arrangement text sort slices shp sho)|].
  intros s e i p fr d ss Hs He Ar Ss Se A N Fr V D. rewrite (string_agg_over s e i p fr d ss) by assumption.
  destruct (String.eqb_spec d ""); [contradiction|reflexivity].
Qed.
Theorem c262_refuted : exists ord, arrangement rows ord /\
  forall s e i p fr x y ss, start_bound s -> end_bound e -> around s e -> small rows s -> small rows e ->
    (forall r, In r rows -> exists x, r_args r = [x; Some (VStr "")]) -> nth_error (ord i) p = Some i -> rows_frame s e (ord i) p fr ->
    not_null (map (arg_of rows) fr) = map VStr (x :: y :: ss) ->
    ov (w_string_agg text) (rows_spec s e) (map row_of rows) (Z.of_nat i + 1) = Ok (Some (VStr (join "," (x :: y :: ss)))) /\
    join "," (x :: y :: ss) <> join "" (x :: y :: ss).
Proof.
  exists (order_at text sort rows). split; [now apply (ord_arrangement text sort slices shp sho)|].
  intros s e i p fr x y ss Hs He Ar Ss Se A N Fr V. split; [exact (string_agg_over s e i p fr "" _ Hs He Ar Ss Se A N Fr V)|].
  assert (L : forall a b, String.length (a ++ b) = (String.length a + String.length b)%nat) by (induction a; intros; cbn; auto).
  assert (G : forall l d, String.length (join d l) = (String.length (join "" l) + (List.length l - 1) * String.length d)%nat).
  { clear - L. induction l as [|a l IH]; intros d; [reflexivity|]. destruct l as [|b l]; [cbn; lia|].
    change (join d (a :: b :: l)) with (a ++ d ++ join d (b :: l)). change (join "" (a :: b :: l)) with (a ++ "" ++ join "" (b :: l)).
    rewrite !L, IH. cbn [List.length String.length]. cbn. lia. }
  intros Q. apply (f_equal String.length) in Q. rewrite G in Q. cbn [List.length String.length] in Q. lia.
Qed.

(** ** C263: DISTINCT *)
Theorem c263_distinct : exists ord, arrangement rows ord /\
  forall s e i p fr, start_bound s -> end_bound e -> around s e -> small rows s -> small rows e ->
    (forall r, In r rows -> has_arg r) -> nth_error (ord i) p = Some i -> rows_frame s e (ord i) p fr ->
    told_apart text (not_null (map (arg_of rows) fr)) ->
    exists ks, each_once (not_null (map (arg_of rows) fr)) ks /\
      ov (w_count text) (distinct_spec s e) (map row_of rows) (Z.of_nat i + 1) = Ok (Some (VInt (zlen ks))) /\
      (forall zs, ks = map VInt zs -> Forall in64 zs -> in64 (sum_z zs) ->
        ov (w_sum text) (distinct_spec s e) (map row_of rows) (Z.of_nat i + 1) = Ok (match zs with [] => None | _ => Some (VInt (sum_z zs)) end)) /\
      ((forall r, In r rows -> hd None (r_args r) <> None) ->
        ov (w_array_agg text) (distinct_spec s e) (map row_of rows) (Z.of_nat i + 1) = Ok (Some (VArray (map Some ks)))).
Proof.
  exists (order_at text sort rows). split; [now apply (ord_arrangement text sort slices shp sho)|].
  intros s e i p fr Hs He Ar Ss Se A N Fr T. destruct (distinct_values text _ T) as (ks & K & O). exists ks. split; [exact O|]. repeat split.
  - unfold w_count. rewrite (over_rows0 text loose wloose sort slices shp sho rows so _ (distinct_spec s e) s e i p fr (Some (VInt 0))
      (fun vs => bind (kept text (a_distinct (opts (distinct_spec s e))) [] vs) (fun ks => Ok (Some (VInt (zlen ks))))) A eq_refl N Hs He (around_proper s e Ar) Ss Se Fr); auto.
    cbn [opts a_distinct distinct_spec p_distinct]. now rewrite K.
  - intros zs Z F B. unfold w_sum. rewrite (over_rows0 text loose wloose sort slices shp sho rows so _ (distinct_spec s e) s e i p fr None
      (fun vs => bind (kept text (a_distinct (opts (distinct_spec s e))) [] vs) (fun ks => foldr sum_step None ks)) A eq_refl N Hs He (around_proper s e Ar) Ss Se Fr); auto.
    cbn [opts a_distinct distinct_spec p_distinct]. rewrite K. cbn [bind]. rewrite Z. destruct zs as [|z zs]; [reflexivity|]. inversion F; subst. rewrite sum_ints by assumption. now rewrite wrap64_id.
  - intros H. rewrite (over_rows text loose wloose sort slices shp sho rows so (w_array_agg text) (distinct_spec s e) s e tt (map (fun r => hd None (r_args r)) rows) i p fr (Some (VArray []))
      (fun vs => bind (kept text true [] vs) (fun ks => Ok (Some (VArray (map Some ks))))) eq_refl (feed_array text rows (fun r R => conj (A r R) (H r R))) N Hs He (around_proper s e Ar) Ss Se Fr); [|reflexivity|reflexivity].
    replace (map (fun j => nth j (map (fun r => hd None (r_args r)) rows) None) fr) with (map (arg_of rows) fr) by (apply map_ext; intros j; symmetry; now apply nth_hd).
    now rewrite K.
Qed.
(** AVG(DISTINCT x) divides the sum of the different values by the number of rows. *)
Theorem c264_refuted : exists ord, arrangement rows ord /\
  forall s e i p fr, start_bound s -> end_bound e -> around s e -> small rows s -> small rows e ->
    (forall r, In r rows -> has_arg r) -> nth_error (ord i) p = Some i -> rows_frame s e (ord i) p fr ->
    told_apart text (not_null (map (arg_of rows) fr)) ->
    exists ks, each_once (not_null (map (arg_of rows) fr)) ks /\
      forall f fs, ks = map VFloat (f :: fs) ->
        ov (w_avg text) (distinct_spec s e) (map row_of rows) (Z.of_nat i + 1) = Ok (Some (VFloat (fdiv (fold_left fadd fs f) (float_of_int (zlen fr))))).
Proof.
  exists (order_at text sort rows). split; [now apply (ord_arrangement text sort slices shp sho)|].
  intros s e i p fr Hs He Ar Ss Se A N Fr T. destruct (distinct_values text _ T) as (ks & K & O). exists ks. split; [exact O|].
  intros f fs V. unfold w_avg. rewrite (over_rows0 text loose wloose sort slices shp sho rows so _ (distinct_spec s e) s e i p fr None
    (fun vs => bind (kept text (a_distinct (opts (distinct_spec s e))) [] vs) (fun ks => bind (foldr avg_step None ks) (fun s => Ok (option_map (fun f => VFloat (fdiv f (float_of_int (zlen vs)))) s)))) A eq_refl N Hs He (around_proper s e Ar) Ss Se Fr); auto.
  cbn [opts a_distinct distinct_spec p_distinct]. rewrite K, V. cbn [bind map foldr]. unfold avg_step at 1. cbn [to_float bind]. rewrite avg_floats. cbn [bind option_map].
  unfold zlen. now rewrite map_length.
Qed.

(** ** C265: the whole partition *)
Lemma whole_frame : forall l p fr, rows_frame (the_bound UnboundedPreceding 0) (the_bound UnboundedFollowing 0) l p fr <-> fr = l.
Proof.
  intros l p fr.
  assert (W : forall k, picks (fun i => from_start (the_bound UnboundedPreceding 0) (Z.of_nat i - Z.of_nat p) /\ to_end (the_bound UnboundedFollowing 0) (Z.of_nat i - Z.of_nat p)) k l l).
  { clear fr. induction l as [|x l IH]; intros k; [constructor|]. apply pk_take; [split; exact I|apply IH]. }
  split; [|intros ->; apply W]. intros H. eapply picks_unique; [exact H|apply W].
Qed.
Theorem c265_whole : forall i mine, zlen rows < two63 -> (forall r, In r rows -> has_arg r) -> (i < List.length rows)%nat ->
  NoDup mine -> (forall j, In j mine <-> (j < List.length rows)%nat /\ r_part (at_row rows j) = r_part (at_row rows i)) ->
  call text loose agg_count (rows1 (map (arg_of rows) mine)) (ov (w_count text) everything (map row_of rows) (Z.of_nat i + 1)) /\
  (forall zs, not_null (map (arg_of rows) mine) = map VInt zs -> Forall in64 zs ->
     call text loose agg_sum (rows1 (map (arg_of rows) mine)) (ov (w_sum text) everything (map row_of rows) (Z.of_nat i + 1))) /\
  (forall f g r, (f, g) = (w_max text, agg_max) \/ (f, g) = (w_min text, agg_min) ->
     (forall x y, In x (not_null (map (arg_of rows) mine)) -> In y (not_null (map (arg_of rows) mine)) -> comparable x y) ->
     call text loose g (rows1 (map (arg_of rows) mine)) r ->
     match ov f everything (map row_of rows) (Z.of_nat i + 1), r with
     | Ok (Some m), Ok (Some m') => alike m m'
     | Ok None, Ok None => True
     | _, _ => False
     end).
Proof.
  intros i mine Sm A L Nd M. set (ord := order_at text sort rows).
  pose proof (ord_arrangement text sort slices shp sho rows so i L) as [(ND & MO & _) _]. fold (ord i) in *.
  destruct (position text sort slices rows i L) as (p & N). fold (ord i) in N.
  assert (P : Permutation mine (ord i)) by (apply NoDup_Permutation; auto; intros j; rewrite M, MO; reflexivity).
  assert (PV : Permutation (not_null (map (arg_of rows) mine)) (not_null (map (arg_of rows) (ord i)))).
  { rewrite !not_null_nonnull. apply nonnull_perm. now apply Permutation_map. }
  assert (Or : forall x, In x (nonnull (map (arg_of rows) mine)) -> ordinary text x).
  { intros x X. assert (X' : In (Some x) (map (arg_of rows) mine)).
    { clear - X. induction (map (arg_of rows) mine) as [|[v|] l IH]; cbn in *; [contradiction| |now right; apply IH]. destruct X as [<-|X]; [now left|right; now apply IH]. }
    apply in_map_iff in X'. destruct X' as (j & E & J). apply M in J. destruct J as [J _]. destruct so as [_ S]. destruct (S _ (at_in rows j J)) as (_ & _ & O). apply O.
    unfold arg_of in E. destruct (r_args (at_row rows j)); [discriminate|]. cbn in E. subst. now left. }
  assert (Hs : start_bound (the_bound UnboundedPreceding 0)) by (repeat split; cbn; try congruence; unfold two63; lia).
  assert (He : end_bound (the_bound UnboundedFollowing 0)) by (repeat split; cbn; try congruence; unfold two63; lia).
  assert (Ar : around (the_bound UnboundedPreceding 0) (the_bound UnboundedFollowing 0)) by (split; left; reflexivity).
  assert (Ss : small rows (the_bound UnboundedPreceding 0)) by (unfold small; cbn; lia).
  assert (Se : small rows (the_bound UnboundedFollowing 0)) by (unfold small; cbn; lia).
  pose proof (proj2 (whole_frame (ord i) p (ord i)) eq_refl) as Fr.
  assert (Ov : forall d none K, (forall l x, d (opts everything) l x = in_frame none l x K) -> K [] = Ok none ->
    ov (simple store0 d) everything (map row_of rows) (Z.of_nat i + 1) = K (map (arg_of rows) (ord i))).
  { intros d none K. apply (over_rows0 text loose wloose sort slices shp sho rows so d everything _ _ i p (ord i) none K A eq_refl N Hs He (around_proper _ _ Ar) Ss Se Fr). }
  split; [|split].
  - unfold w_count. rewrite (Ov _ (Some (VInt 0)) (fun vs => bind (kept text (a_distinct (opts everything)) [] vs) (fun ks => Ok (Some (VInt (zlen ks)))))) by reflexivity.
    cbn [opts a_distinct everything rows_spec p_distinct]. rewrite kept_all. cbn [bind]. unfold agg_count. rewrite call_unary by exact Or.
    rewrite <- not_null_nonnull. assert (Q : zlen (not_null (map (arg_of rows) mine)) = zlen (not_null (map (arg_of rows) (ord i)))) by (unfold zlen; f_equal; now apply Permutation_length).
    assert (B : zlen (not_null (map (arg_of rows) mine)) < two63).
    { rewrite Q. unfold zlen. assert (forall l, (List.length (not_null l) <= List.length l)%nat) by exact not_null_shorter.
      specialize (H (map (arg_of rows) (ord i))). rewrite map_length in H. pose proof (ord_length text sort slices rows i). change (order_at text sort rows i) with (ord i) in H0. unfold zlen in Sm. lia. }
    pose proof (count_fold0 _ B) as C. destruct (fold_res _ _ _); cbn [bind] in C; try discriminate. rewrite Q in C. exact (eq_sym C).
  - intros zs V F. unfold w_sum. rewrite (Ov _ None (fun vs => bind (kept text (a_distinct (opts everything)) [] vs) (fun ks => foldr sum_step None ks))) by reflexivity.
    cbn [opts a_distinct everything rows_spec p_distinct]. rewrite kept_all. cbn [bind]. unfold agg_sum. rewrite call_unary by exact Or. rewrite <- not_null_nonnull, V.
    rewrite V in PV. apply Permutation_sym, Permutation_map_inv in PV. destruct PV as (ws & W & PW). rewrite W.
    destruct zs as [|z zs]; [apply Permutation_nil in PW; subst ws; reflexivity|]. destruct ws as [|w ws]; [symmetry in PW; apply Permutation_nil in PW; discriminate|].
    rewrite <- foldr_res. change (fun (s : option val) (v : val) => match s with None => Ok (Some v) | Some t => bind (add t v) (fun u => Ok (Some u)) end) with sum_step.
    assert (Fw : in64 w). { rewrite Forall_forall in F. apply F. apply (Permutation_in w (Permutation_sym PW)). now left. }
    inversion F; subst. rewrite !sum_ints by assumption. rewrite (sum_z_perm _ _ PW). reflexivity.
  - intros f g r FG C H.
    assert (X : exists op, (op = GT \/ op = LT) /\ f = w_extreme text op /\ g = agg_extreme op).
    { destruct FG as [Q|Q]; [exists GT|exists LT]; (split; [auto|]); split; [exact (f_equal fst Q)|exact (f_equal snd Q)|exact (f_equal fst Q)|exact (f_equal snd Q)]. }
    destruct X as (op & Op & -> & ->). clear FG. unfold w_extreme. rewrite (Ov _ None (fun vs => bind (kept text false [] vs) (fun ks => foldr (extreme_step op) None ks))) by reflexivity.
    rewrite kept_all. cbn [bind]. unfold agg_extreme in H. apply call_unary in H; [|exact Or]. rewrite <- not_null_nonnull in H. rewrite <- foldr_res in H.
    change (fun (s : option val) (v : val) => match s with None => Ok (Some v) | Some m => bind (cmp op v m) (fun b => Ok (Some (if b : bool then v else m))) end) with (extreme_step op) in H.
    assert (C' : forall x y, In x (not_null (map (arg_of rows) (ord i))) -> In y (not_null (map (arg_of rows) (ord i))) -> comparable x y).
    { intros x y X Y. apply C; eapply Permutation_in; try (symmetry; exact PV); assumption. }
    pose proof (extreme_foldr op Op _ C) as G. pose proof (extreme_foldr op Op _ C') as G'.
    destruct (not_null (map (arg_of rows) mine)) as [|v vs] eqn:E1.
    + apply Permutation_nil in PV. rewrite PV. rewrite G in H. change (r = Ok None) in H. subst r. exact I.
    + destruct (not_null (map (arg_of rows) (ord i))) as [|w ws] eqn:E2; [symmetry in PV; apply Permutation_nil in PV; discriminate|].
      destruct G as (b & Eb & Ib & Bb). destruct G' as (b' & Eb' & Ib' & Bb'). rewrite Eb in H. change (r = Ok (Some b)) in H. subst r. rewrite Eb'.
      assert (Ib2 : In b (w :: ws)) by (eapply Permutation_in; [exact PV|exact Ib]). assert (Ib3 : In b' (v :: vs)) by (eapply Permutation_in; [symmetry; exact PV|exact Ib']).
      specialize (Bb b' Ib3). specialize (Bb' b Ib2). destruct (trichotomy b' b (C' b' b Ib' Ib2)) as [T|[T|T]]; [exfalso|exact T|exfalso]; destruct Op as [-> | ->]; cbn [after] in *; tauto.
Qed.
End Over.

Section Percentile.
  Variable text : val -> res string.
  Variable loose : string -> option item.
  Variable wloose : string -> option witem.
  Variable sort : (ent -> ent -> bool) -> list ent -> list ent.
  Hypothesis slices : sort_slice sort.
  Variable shp : list kty.
  Variable sho : list (kty * bool).
  Variable rows : list srow.
  Hypothesis so : sound text shp sho rows.
  Variable vsort : (option val -> option val -> bool) -> list (option val) -> list (option val).
  Hypothesis vsorts : forall l, go_sort vless l (vsort vless l).
  Notation ov := (over text loose wloose sort).

(** ** C266: PERCENTILE_DISC *)
Lemma disc_sorted : forall f i p, (forall r, In r rows -> asks f r) -> a_percentile f -> nth_error (order_at text sort rows i) p = Some i ->
  (forall x y, In x (not_null (map (arg_of rows) (order_at text sort rows i))) -> In y (not_null (map (arg_of rows) (order_at text sort rows i))) -> comparable x y) ->
  exists ss, ov (w_percentile_disc vsort) no_frame (map row_of rows) (Z.of_nat i + 1) = disc_pick f (map Some ss) /\
    zlen ss = zlen (not_null (map (arg_of rows) (order_at text sort rows i))) /\
    forall k, 1 <= k <= zlen ss -> exists v, nth_row (map Some ss) k = Ok (Some v) /\ kth_smallest k (not_null (map (arg_of rows) (order_at text sort rows i))) v.
Proof.
  intros f i p A F N C. destruct (sorted_values _ _ C (vsorts _)) as (ss & E & P & S). exists ss.
  split; [rewrite (disc_over text loose wloose sort slices shp sho rows so vsort f i p A F N); now rewrite E|].
  assert (Zl : zlen ss = zlen (not_null (map (arg_of rows) (order_at text sort rows i)))) by (unfold zlen; f_equal; symmetry; now apply Permutation_length).
  split; [exact Zl|]. intros k K. destruct (nth_error ss (Z.to_nat (k - 1))) as [v|] eqn:Nv.
  - exists v. split; [|eapply kth_sorted; eauto; lia]. apply nth_row_some; [lia|]. now rewrite nth_error_map, Nv.
  - apply nth_error_None in Nv. unfold zlen in K. lia.
Qed.
Theorem c266_partial : exists ord, arrangement rows ord /\
  forall f i p, (forall r, In r rows -> asks f r) -> a_percentile f -> nth_error (ord i) p = Some i ->
    forall vs q, vs = not_null (map (arg_of rows) (ord i)) -> vs <> [] -> (forall x y, In x vs -> In y vs -> comparable x y) ->
    q = fmul f (float_of_int (zlen vs)) -> real_float q ->
    (float_scaled q = 0 -> exists v, ov (w_percentile_disc vsort) no_frame (map row_of rows) (Z.of_nat i + 1) = Ok (Some v) /\ kth_smallest 1 vs v) /\
    (forall k, 2 <= k <= zlen vs -> zlen vs < 2 ^ 53 -> rounds_up_to q k ->
      exists v, ov (w_percentile_disc vsort) no_frame (map row_of rows) (Z.of_nat i + 1) = Ok (Some v) /\ kth_smallest k vs v).
Proof.
  exists (order_at text sort rows). split; [now apply (ord_arrangement text sort slices shp sho)|].
  intros f i p A F N vs q -> Ne C -> R. destruct (disc_sorted f i p A F N C) as (ss & E & Zl & K). rewrite E. clear E. rewrite <- Zl in *.
  assert (Zm : zlen (map Some ss) = zlen ss) by (unfold zlen; now rewrite map_length). unfold disc_pick. rewrite Zm. cbv zeta. split.
  - intros Q0. rewrite (proj2 (is_zero_scaled _ R) Q0). destruct (K 1) as (v & E & V); [|exists v; split; [exact E|exact V]].
    split; [lia|]. rewrite Zl. unfold zlen. destruct (not_null _); [congruence|]. cbn [List.length]. lia.
  - intros k Hk B U. destruct (holds (cmp EQ (VFloat (fmul f (float_of_int (zlen ss)))) (VInt 0))) eqn:Q0.
    + apply is_zero_scaled in Q0; [|exact R]. destruct U as [U _]. rewrite Q0 in U. assert (0 < 2 ^ 1074) by (apply Z.pow_pos_nonneg; lia). nia.
    + rewrite (disc_index_at _ k R ltac:(lia) U). destruct (Z.ltb_spec 0 (k - 1)); [|lia]. replace (k - 1 + 1) with k by lia.
      destruct (K k) as (v & E & V); [lia|]. exists v. split; [exact E|exact V].
Qed.
(** When the smallest value is asked for by a percentile other than 0 the result is NULL. *)
Theorem c266_refuted : exists ord, arrangement rows ord /\
  forall f i p, (forall r, In r rows -> asks f r) -> a_percentile f -> nth_error (ord i) p = Some i ->
    forall vs q, vs = not_null (map (arg_of rows) (ord i)) -> vs <> [] -> (forall x y, In x vs -> In y vs -> comparable x y) ->
    q = fmul f (float_of_int (zlen vs)) -> real_float q -> rounds_up_to q 1 ->
    ov (w_percentile_disc vsort) no_frame (map row_of rows) (Z.of_nat i + 1) = Ok None.
Proof.
  exists (order_at text sort rows). split; [now apply (ord_arrangement text sort slices shp sho)|].
  intros f i p A F N vs q -> Ne C -> R U. destruct (disc_sorted f i p A F N C) as (ss & E & Zl & K). rewrite E. clear E. rewrite <- Zl in *.
  assert (Zm : zlen (map Some ss) = zlen ss) by (unfold zlen; now rewrite map_length). unfold disc_pick. rewrite Zm. cbv zeta.
  destruct (holds (cmp EQ (VFloat (fmul f (float_of_int (zlen ss)))) (VInt 0))) eqn:Q0.
  - apply is_zero_scaled in Q0; [|exact R]. destruct U as [U _]. rewrite Q0 in U. lia.
  - rewrite (disc_index_at _ 1 R ltac:(lia) U). reflexivity.
Qed.

(** ** C267: percentiles of nothing *)
Theorem c267_cont_partial : exists ord, arrangement rows ord /\
  forall f i p, (forall r, In r rows -> asks f r) -> a_percentile f -> nth_error (ord i) p = Some i ->
    not_null (map (arg_of rows) (ord i)) = [] ->
    ov w_percentile_cont no_frame (map row_of rows) (Z.of_nat i + 1) = Ok None.
Proof.
  exists (order_at text sort rows). split; [now apply (ord_arrangement text sort slices shp sho)|].
  intros f i p A F N V. rewrite (cont_over text loose wloose sort slices shp sho rows so f i p A F N), V. reflexivity.
Qed.
Theorem c267_disc_refuted : exists ord, arrangement rows ord /\
  forall f i p, (forall r, In r rows -> asks f r) -> a_percentile f -> nth_error (ord i) p = Some i ->
    not_null (map (arg_of rows) (ord i)) = [] ->
    ov (w_percentile_disc vsort) no_frame (map row_of rows) (Z.of_nat i + 1) = GoPanic.
Proof.
  exists (order_at text sort rows). split; [now apply (ord_arrangement text sort slices shp sho)|].
  intros f i p A F N V. rewrite (disc_over text loose wloose sort slices shp sho rows so vsort f i p A F N), V. cbn [map].
  assert (vsort vless [] = []) as ->. { destruct (vsorts []) as (P & _). symmetry in P. apply Permutation_nil. now symmetry. }
  unfold disc_pick. change (zlen (@nil (option val))) with 0. change (float_of_int 0) with (S754_zero false). cbv zeta.
  destruct (times_zero f F) as (t & ->). reflexivity.
Qed.

(** ** C268: PERCENTILE_CONT *)
Theorem c268_partial : exists ord, arrangement rows ord /\
  forall f i p z zs, (forall r, In r rows -> asks f r) -> a_percentile f -> nth_error (ord i) p = Some i ->
    not_null (map (arg_of rows) (ord i)) = map VInt (z :: zs) -> zlen (z :: zs) <= 2 ^ 53 ->
    float_scaled f = 0 \/ zs = [] -> (exists x, In x (z :: zs) /\ 0 < x) \/ (forall x, In x (z :: zs) -> x < 0) ->
    exists m, ov w_percentile_cont no_frame (map row_of rows) (Z.of_nat i + 1) = Ok (Some (VFloat (float_of_int m))) /\
      In m (z :: zs) /\ forall x, In x (z :: zs) -> m <= x.
Proof.
  exists (order_at text sort rows). split; [now apply (ord_arrangement text sort slices shp sho)|].
  intros f i p z zs A F N V B Cs Nz. rewrite (cont_over text loose wloose sort slices shp sho rows so f i p A F N), V, as_ints_ints. cbn [bind].
  rewrite !map_map. cbn [fst snd]. rewrite (map_id (z :: zs)). cbn [map]. change (map (fun x : Z => VInt x) zs) with (map VInt zs).
  destruct (sort_ints_min z zs) as (m & Nm & Im & Mm). exists m. split; [|split; assumption].
  assert (T : exists t, fmul f (float_of_int (zlen (sort_ints (z :: zs)) - 1)) = S754_zero t).
  { rewrite sort_ints_length. destruct Cs as [Z0| ->].
    - destruct F as [[Vf Nf] _]. destruct f as [t|t| |t a e]; [|cbn [float_scaled] in Z0; exfalso|discriminate|exfalso].
      + apply zero_times. unfold zlen in *. cbn [List.length] in *. lia.
      + assert (0 < 2 ^ 2098) by (apply Z.pow_pos_nonneg; lia). destruct t; lia.
      + assert (Ca : canonical a e) by exact Vf. apply scaled_bound in Ca. unfold scaled in Ca. cbn [float_scaled] in Z0. destruct t; lia.
    - change (zlen [z] - 1) with 0. change (float_of_int 0) with (S754_zero false). now apply times_zero. }
  rewrite (cont_first f _ m T Nm). cbn [bind]. destruct (greatest_ints zs z) as (g & G & Ig & Mg). rewrite G.
  change (holds (cmp EQ (VInt g) (VInt 0))) with (decide EQ (Some (g ?= 0))). cbn [decide].
  destruct (Z.compare_spec g 0) as [Eg|Lg|Gg]; try reflexivity. exfalso. subst g.
  destruct Nz as [(x & X & P)|Ng]; [specialize (Mg x X); lia|specialize (Ng 0 Ig); lia].
Qed.
(** When the greatest value is 0 the result is 0. *)
Theorem c268_zero_refuted : exists ord, arrangement rows ord /\
  forall f i p z zs, (forall r, In r rows -> asks f r) -> a_percentile f -> nth_error (ord i) p = Some i ->
    not_null (map (arg_of rows) (ord i)) = map VInt (z :: zs) -> zlen (z :: zs) <= 2 ^ 53 ->
    float_scaled f = 0 -> In 0 (z :: zs) -> (forall x, In x (z :: zs) -> x <= 0) ->
    ov w_percentile_cont no_frame (map row_of rows) (Z.of_nat i + 1) = Ok (Some (VFloat (float_of_int 0))).
Proof.
  exists (order_at text sort rows). split; [now apply (ord_arrangement text sort slices shp sho)|].
  intros f i p z zs A F N V B Z0 I0 M0. rewrite (cont_over text loose wloose sort slices shp sho rows so f i p A F N), V, as_ints_ints. cbn [bind].
  rewrite !map_map. cbn [fst snd]. rewrite (map_id (z :: zs)). cbn [map]. change (map (fun x : Z => VInt x) zs) with (map VInt zs).
  destruct (sort_ints_min z zs) as (m & Nm & Im & Mm).
  assert (T : exists t, fmul f (float_of_int (zlen (sort_ints (z :: zs)) - 1)) = S754_zero t).
  { rewrite sort_ints_length. destruct F as [[Vf Nf] _]. destruct f as [t|t| |t a e]; [|cbn [float_scaled] in Z0; exfalso|discriminate|exfalso].
      + apply zero_times. unfold zlen in *. cbn [List.length] in *. lia.
      + assert (0 < 2 ^ 2098) by (apply Z.pow_pos_nonneg; lia). destruct t; lia.
      + assert (Ca : canonical a e) by exact Vf. apply scaled_bound in Ca. unfold scaled in Ca. cbn [float_scaled] in Z0. destruct t; lia. }
  rewrite (cont_first f _ m T Nm). cbn [bind]. destruct (greatest_ints zs z) as (g & G & Ig & Mg). rewrite G.
  specialize (M0 g Ig). specialize (Mg 0 I0). assert (g = 0) by lia. subst g. reflexivity.
Qed.
(** FLOAT64 values lose their fraction. *)
Theorem c268_fraction_refuted : exists ord, arrangement rows ord /\
  forall f i p g, (forall r, In r rows -> asks f r) -> a_percentile f -> nth_error (ord i) p = Some i ->
    not_null (map (arg_of rows) (ord i)) = [VFloat g] -> real_float g -> float_scaled g <> 0 ->
    ov w_percentile_cont no_frame (map row_of rows) (Z.of_nat i + 1) = Ok (Some (VFloat (float_of_int (int_of_float g)))).
Proof.
  exists (order_at text sort rows). split; [now apply (ord_arrangement text sort slices shp sho)|].
  intros f i p g A F N V R Z0. rewrite (cont_over text loose wloose sort slices shp sho rows so f i p A F N), V. cbn [map as_ints as_int bind fst snd].
  change (sort_ints [int_of_float g]) with [int_of_float g]. rewrite (cont_first f _ (int_of_float g)); [|change (zlen [int_of_float g] - 1) with 0; now apply times_zero|reflexivity].
  cbn [bind greatest fold_left]. destruct (holds (cmp EQ (VFloat g) (VInt 0))) eqn:Q; [|reflexivity]. apply is_zero_scaled in Q; [contradiction|exact R].
Qed.
End Percentile.

(** ** The hypotheses are met *)
Definition numbered_rows (l : list (list (option val))) : list srow :=
  map (fun p => {| r_args := snd p; r_part := []; r_order := [(VInt (Z.of_nat (fst p)), true)] |}) (combine (seq 0 (List.length l)) l).
Definition plain_arg (v : option val) : bool :=
  match v with None | Some (VInt _) | Some (VFloat _) => true | Some (VStr s) => negb (starts_brace s) | _ => false end.
Lemma numbered_sound : forall l, zlen l < 2 ^ 53 -> forallb (forallb plain_arg) l = true -> sound text1 [] [(YInt, true)] (numbered_rows l).
Proof.
  intros l L H. split; [exact text1_prints|]. intros r R. unfold numbered_rows in R. apply in_map_iff in R. destruct R as ([n a] & <- & I). cbn [fst snd r_part r_order].
  split; [constructor|]. split.
  - constructor; [|constructor]. cbn [fst snd]. split; [|reflexivity]. cbn [of_kty]. apply in_combine_l in I. apply in_seq in I.
    unfold zlen in L. lia.
  - intros v V. cbn [r_args] in V. apply in_combine_r in I. rewrite forallb_forall in H. specialize (H a I). rewrite forallb_forall in H. specialize (H _ V).
    destruct v; try discriminate; intros t T; cbn [text1] in T.
    + assert (t = dec z) by congruence. subst. apply dec_ordinary.
    + assert (t = s) by congruence. subst t. cbn [plain_arg] in H. now apply negb_true_iff in H.
    + assert (t = dec (int_of_float f)) by congruence. subst. apply dec_ordinary.
Qed.
Definition half : float := fdiv (float_of_int 1) (float_of_int 2).
Definition up_to_here := rows_spec (the_bound UnboundedPreceding 0) (the_bound CurrentRow 0).
Definition sums : list srow := numbered_rows [[Some (VInt 4)]; [None]; [Some (VInt (2 ^ 62))]; [Some (VInt (2 ^ 62))]].
Example c258_example : sound text1 [] [(YInt, true)] sums /\ around (the_bound UnboundedPreceding 0) (the_bound CurrentRow 0) /\
  over1 (w_sum text1) up_to_here (map row_of sums) 3 = Ok (Some (VInt (2 ^ 62 + 4))) /\
  over1 (w_sum text1) up_to_here (map row_of sums) 4 = Ok (Some (VInt (- 2 ^ 63 + 4))) /\
  over1 (w_min text1) up_to_here (map row_of sums) 4 = Ok (Some (VInt 4)) /\
  over1 (w_max text1) up_to_here (map row_of sums) 4 = Ok (Some (VInt (2 ^ 62))) /\
  over1 (w_min text1) (rows_spec (the_bound CurrentRow 0) (the_bound CurrentRow 0)) (map row_of sums) 2 = Ok None.
Proof. split; [apply numbered_sound; [reflexivity|reflexivity]|]. split; [split; auto|]. repeat split; vm_compute; reflexivity. Qed.
Definition flags : list srow := numbered_rows [[Some (VInt 1)]; [Some (VInt 0)]; [None]; [Some (VInt 1)]].
Example c261_example : sound text1 [] [(YInt, true)] flags /\
  over1 (w_countif text1) up_to_here (map row_of flags) 4 = Ok (Some (VInt 2)) /\
  over1 (w_count text1) (distinct_spec (the_bound UnboundedPreceding 0) (the_bound CurrentRow 0)) (map row_of flags) 4 = Ok (Some (VInt 2)) /\
  told_apart text1 [VInt 1; VInt 0; VInt 1].
Proof.
  split; [apply numbered_sound; [reflexivity|reflexivity]|]. split; [vm_compute; reflexivity|]. split; [vm_compute; reflexivity|]. split.
  - intros v [<-|[<-|[<-|[]]]]; eexists; reflexivity.
  - intros v w [<-|[<-|[<-|[]]]] [<-|[<-|[<-|[]]]] E; try reflexivity; vm_compute in E; discriminate.
Qed.
Definition words (d : string) : list srow := numbered_rows [[Some (VStr "x"); Some (VStr d)]; [None; Some (VStr d)]; [Some (VStr "y"); Some (VStr d)]].
Example c262_example : sound text1 [] [(YInt, true)] (words "-") /\ sound text1 [] [(YInt, true)] (words "") /\
  over1 (w_string_agg text1) up_to_here (map row_of (words "-")) 3 = Ok (Some (VStr "x-y")) /\
  over1 (w_string_agg text1) up_to_here (map row_of (words "")) 3 = Ok (Some (VStr "x,y")).
Proof. split; [|split]; [apply numbered_sound; reflexivity|apply numbered_sound; reflexivity|split; vm_compute; reflexivity]. Qed.
Definition twice : list srow := numbered_rows [[Some (VFloat (float_of_int 3))]; [Some (VFloat (float_of_int 3))]].
Example c264_example : sound text1 [] [(YInt, true)] twice /\
  over1 (w_avg text1) (distinct_spec (the_bound UnboundedPreceding 0) (the_bound CurrentRow 0)) (map row_of twice) 2 = Ok (Some (VFloat (fdiv (float_of_int 3) (float_of_int 2)))).
Proof. split; [apply numbered_sound; [reflexivity|reflexivity]|vm_compute; reflexivity]. Qed.
Example c265_example : over1 (w_sum text1) everything (map row_of table1) 1 = Ok (Some (VInt 130)) /\
  (forall j, In j [4; 0; 2; 3]%nat <-> (j < List.length table1)%nat /\ r_part (at_row table1 j) = r_part (at_row table1 0)).
Proof.
  split; [vm_compute; reflexivity|]. intros j. do 5 (destruct j as [|j]; [cbn; intuition (try lia; try congruence)|]). cbn. intuition lia.
Qed.
Definition asked (f : float) (l : list (option val)) : list srow := numbered_rows (map (fun v => [v; Some (VFloat f)]) l).
Definition insert_values (lt : option val -> option val -> bool) (l : list (option val)) := insertion lt l.
Example c266_example : a_percentile half /\ (forall l, go_sort vless l (insert_values vless l)) /\
  sound text1 [] [(YInt, true)] (asked half (map (fun z => Some (VInt z)) [30; 10; 40; 20])) /\
  rounds_up_to (fmul half (float_of_int 4)) 2 /\ rounds_up_to (fmul half (float_of_int 1)) 1 /\
  over1 (w_percentile_disc insert_values) no_frame (map row_of (asked half (map (fun z => Some (VInt z)) [30; 10; 40; 20]))) 1 = Ok (Some (VInt 20)) /\
  over1 (w_percentile_disc insert_values) no_frame (map row_of (asked half [Some (VInt 30)])) 1 = Ok None /\
  over1 (w_percentile_disc insert_values) no_frame (map row_of (asked half [None])) 1 = GoPanic /\
  over1 w_percentile_cont no_frame (map row_of (asked half [None])) 1 = Ok None.
Proof.
  split; [split; [split; vm_compute; reflexivity|split; vm_compute; congruence]|]. split; [intros l; apply go_sort_possible|].
  split; [apply numbered_sound; [reflexivity|reflexivity]|]. repeat split; try (vm_compute; congruence).
Qed.
Example c268_example : a_percentile fzero /\
  sound text1 [] [(YInt, true)] (asked fzero (map (fun z => Some (VInt z)) [30; 10; 40])) /\
  over1 w_percentile_cont no_frame (map row_of (asked fzero (map (fun z => Some (VInt z)) [30; 10; 40]))) 1 = Ok (Some (VFloat (float_of_int 10))) /\
  over1 w_percentile_cont no_frame (map row_of (asked fzero (map (fun z => Some (VInt z)) [0; -10]))) 1 = Ok (Some (VFloat (float_of_int 0))) /\
  over1 w_percentile_cont no_frame (map row_of (asked fzero [Some (VFloat half)])) 1 = Ok (Some (VFloat (float_of_int 0))) /\
  over1 w_percentile_cont no_frame (map row_of (asked half (map (fun z => Some (VInt z)) [30; 10]))) 1 = Ok (Some (VFloat (float_of_int 20))).
Proof.
  split; [split; [split; reflexivity|cbn [float_scaled fzero]; split; [lia|apply Z.pow_nonneg; lia]]|]. split; [apply numbered_sound; [reflexivity|reflexivity]|].
  repeat split; vm_compute; reflexivity.
Qed.

Print Assumptions c258_sum.
Print Assumptions c259_refuted.
Print Assumptions c260_extremes.
Print Assumptions c261_countif.
Print Assumptions c262_partial.
Print Assumptions c262_refuted.
Print Assumptions c263_distinct.
Print Assumptions c264_refuted.
Print Assumptions c265_whole.
Print Assumptions c266_partial.
Print Assumptions c266_refuted.
Print Assumptions c267_cont_partial.
Print Assumptions c267_disc_refuted.
Print Assumptions c268_partial.
Print Assumptions c268_zero_refuted.
Print Assumptions c268_fraction_refuted.
