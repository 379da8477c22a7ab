(** C336 to C341: statistics over window frames. *)
From Coq Require Import Ascii String List ZArith QArith Lia Bool SpecFloat Permutation.
From Verif Require Import GoBase GoBaseFacts ValueModel ValueFacts AggModel AggSpec AggProofs ApproxSpec ApproxProps WindowModel WindowSpec WindowProofs WindowProps WinAggSpec WinAggProps WinStatModel WinStatSpec WinStatProofs.
Import ListNotations.
Local Open Scope string_scope.
Open Scope Z_scope.

(** In the theorems the functions of the statistics library are arbitrary. *)
Section Over.
  Variable text : val -> res string.
  Variable loose : string -> option item.
  Variable wloose : string -> option witem.
  Variable sort : (ent -> ent -> bool) -> list ent -> list ent.
  Hypothesis slices : sort_slice sort.
  Variable shp : list kty.
  Variable sho : list (kty * bool).
  Variable rows : list srow.
  Hypothesis so : sound text shp sho rows.
  Notation ov := (over text loose wloose sort).
  Notation ord_ok := (ord_arrangement text sort slices shp sho rows so).

  Lemma frame_args fr ns : Forall2 (fun j n => gives (at_row rows j) n) fr ns -> map (arg_of rows) fr = map (option_map num_val) ns.
  Proof. induction 1 as [|j n fr ns G _ IH]; [reflexivity|]. cbn [map]. rewrite IH. f_equal. unfold arg_of. now rewrite G. Qed.
  Lemma one_frame stat sp s e i p fr ns : (forall r, In r rows -> has_arg r) -> p_frame sp = Some (URows, s, e) ->
    start_bound s -> end_bound e -> proper s e -> small rows s -> small rows e ->
    nth_error (order_at text sort rows i) p = Some i -> rows_frame s e (order_at text sort rows i) p fr -> 2 <= zlen (order_at text sort rows i) ->
    Forall2 (fun j n => gives (at_row rows j) (Some n)) fr ns ->
    ov (w_one stat) sp (map row_of rows) (Z.of_nat i + 1) = Ok (statistic stat num_float ns).
  Proof.
    intros A Sp Hs He Pr Ss Se N Fr L G. rewrite (one_over text loose wloose sort slices shp sho rows so stat sp s e i p fr) by assumption.
    assert (E : map (arg_of rows) fr = map (fun n => Some (num_val n)) ns).
    { clear -G. induction G as [|j n fr ns G _ IH]; [reflexivity|]. cbn [map]. rewrite IH. f_equal. unfold arg_of. now rewrite G. }
    unfold finish_read. rewrite E, floats_nums. cbn [bind]. now destruct ns.
  Qed.

(** ** C336: frames without NULL *)
Theorem c336_one : exists ord, arrangement rows ord /\
  forall popMeanStdDev stdDev popMeanVariance variance s e i p fr ns,
    start_bound s -> end_bound e -> proper s e -> small rows s -> small rows e ->
    (forall r, In r rows -> has_arg r) -> nth_error (ord i) p = Some i -> rows_frame s e (ord i) p fr -> 2 <= zlen (ord i) ->
    Forall2 (fun j n => gives (at_row rows j) (Some n)) fr ns ->
    let r f := ov f (rows_spec s e) (map row_of rows) (Z.of_nat i + 1) in
    r (w_stddev_pop popMeanStdDev) = Ok (statistic (fun l => snd (popMeanStdDev l)) num_float ns) /\
    r (w_stddev_samp stdDev) = Ok (statistic stdDev num_float ns) /\
    r (w_var_pop popMeanVariance) = Ok (statistic (fun l => snd (popMeanVariance l)) num_float ns) /\
    r (w_var_samp variance) = Ok (statistic variance num_float ns).
Proof.
  exists (order_at text sort rows). split; [exact ord_ok|]. intros a b c d s e i p fr ns Hs He Pr Ss Se A N Fr L G r. unfold r.
  refine (conj _ (conj _ (conj _ _))); now apply (one_frame _ _ s e i p fr).
Qed.
Theorem c336_pairs : exists ord, arrangement rows ord /\
  forall correlation covariance covariance' s e i p fr ps,
    start_bound s -> end_bound e -> proper s e -> small rows s -> small rows e ->
    (forall r, In r rows -> exists a b, r_args r = [Some a; Some b]) -> nth_error (ord i) p = Some i -> rows_frame s e (ord i) p fr -> 2 <= zlen (ord i) ->
    Forall2 (fun j q => gives2 (at_row rows j) (Some (fst q), Some (snd q))) fr ps ->
    let r f := ov f (rows_spec s e) (map row_of rows) (Z.of_nat i + 1) in
    r (w_corr correlation) = Ok (statistic correlation pair_float ps) /\
    r (w_covar_pop covariance) = Ok (statistic covariance pair_float ps) /\
    r (w_covar_samp covariance') = Ok (statistic covariance' pair_float ps).
Proof.
  exists (order_at text sort rows). split; [exact ord_ok|]. intros a b c s e i p fr ps Hs He Pr Ss Se A N Fr L G r. unfold r.
  refine (conj _ (conj _ _)); now apply (pair_over text loose wloose sort slices shp sho rows so _ _ s e i p fr ps).
Qed.

(** ** C337: NULL in the frame *)
(** The process panics when there is one. *)
Theorem c337_null_refuted : exists ord, arrangement rows ord /\
  forall popMeanStdDev stdDev popMeanVariance variance s e i p fr ns,
    start_bound s -> end_bound e -> proper s e -> small rows s -> small rows e ->
    (forall r, In r rows -> has_arg r) -> nth_error (ord i) p = Some i -> rows_frame s e (ord i) p fr -> 2 <= zlen (ord i) ->
    Forall2 (fun j n => gives (at_row rows j) n) fr ns -> In None ns ->
    let r f := ov f (rows_spec s e) (map row_of rows) (Z.of_nat i + 1) in
    r (w_stddev_pop popMeanStdDev) = GoPanic /\ r (w_stddev_samp stdDev) = GoPanic /\
    r (w_var_pop popMeanVariance) = GoPanic /\ r (w_var_samp variance) = GoPanic.
Proof.
  exists (order_at text sort rows). split; [exact ord_ok|]. intros a b c d s e i p fr ns Hs He Pr Ss Se A N Fr L G I r.
  assert (E : forall stat, r (w_one stat) = GoPanic).
  { intros stat. unfold r. rewrite (one_over text loose wloose sort slices shp sho rows so stat _ s e i p fr) by (assumption || reflexivity).
    unfold finish_read. now rewrite (frame_args fr ns G), floats_null. }
  refine (conj _ (conj _ (conj _ _))); apply E.
Qed.
(** So the answer is that for the values that are not NULL only when all are. *)
Theorem c337_ignored_partial : exists ord, arrangement rows ord /\
  forall variance s e i p fr ns,
    start_bound s -> end_bound e -> proper s e -> small rows s -> small rows e ->
    (forall r, In r rows -> has_arg r) -> nth_error (ord i) p = Some i -> rows_frame s e (ord i) p fr -> 2 <= zlen (ord i) ->
    Forall2 (fun j n => gives (at_row rows j) n) fr ns ->
    (ov (w_var_samp variance) (rows_spec s e) (map row_of rows) (Z.of_nat i + 1) = Ok (statistic variance num_float (some_nums ns)) <-> ~ In None ns).
Proof.
  exists (order_at text sort rows). split; [exact ord_ok|]. intros v s e i p fr ns Hs He Pr Ss Se A N Fr L G. split.
  - intros E I. unfold w_var_samp in E. rewrite (one_over text loose wloose sort slices shp sho rows so v _ s e i p fr) in E by (assumption || reflexivity).
    unfold finish_read in E. rewrite (frame_args fr ns G), floats_null in E by exact I. discriminate.
  - intros I. apply (one_frame _ _ s e i p fr); try assumption; [reflexivity|].
    clear -G I. induction G as [|j n fr ns G _ IH]; [constructor|]. destruct n as [n|]; [|exfalso; apply I; now left].
    cbn [some_nums]. constructor; [exact G|apply IH; intros K; apply I; now right].
Qed.

(** ** C338: one row *)
(** A partition of one row gives NULL: right for the sample statistics... *)
Theorem c338_alone_partial : exists ord, arrangement rows ord /\
  forall stdDev variance s e i p,
    start_bound s -> end_bound e -> small rows s -> small rows e ->
    (forall r, In r rows -> has_arg r) -> nth_error (ord i) p = Some i -> zlen (ord i) = 1 ->
    let r f := ov f (rows_spec s e) (map row_of rows) (Z.of_nat i + 1) in
    r (w_stddev_samp stdDev) = Ok None /\ r (w_var_samp variance) = Ok None.
Proof.
  exists (order_at text sort rows). split; [exact ord_ok|]. intros b d s e i p Hs He Ss Se A N L r. unfold r.
  split; apply (one_alone text loose wloose sort slices shp sho rows so _ _ s e i p); try assumption; try reflexivity; lia.
Qed.
(** ... and wrong for the population's, which are 0. *)
Theorem c338_population_refuted : exists ord, arrangement rows ord /\
  forall popMeanStdDev popMeanVariance s e i p f,
    start_bound s -> end_bound e -> small rows s -> small rows e ->
    (forall r, In r rows -> has_arg r) -> nth_error (ord i) p = Some i -> zlen (ord i) = 1 ->
    let r f := ov f (rows_spec s e) (map row_of rows) (Z.of_nat i + 1) in
    r (w_stddev_pop popMeanStdDev) <> Ok (Some (VFloat f)) /\ r (w_var_pop popMeanVariance) <> Ok (Some (VFloat f)).
Proof.
  exists (order_at text sort rows). split; [exact ord_ok|]. intros b d s e i p f Hs He Ss Se A N L r. unfold r, w_stddev_pop, w_var_pop.
  split; rewrite (one_alone text loose wloose sort slices shp sho rows so _ _ s e i p); try assumption; try reflexivity; try discriminate; lia.
Qed.
(** A frame of one row in a larger partition is never NULL, whatever the library computes. *)
Theorem c338_frame_refuted : exists ord, arrangement rows ord /\
  forall stdDev variance s e i p j n,
    start_bound s -> end_bound e -> proper s e -> small rows s -> small rows e ->
    (forall r, In r rows -> has_arg r) -> nth_error (ord i) p = Some i -> rows_frame s e (ord i) p [j] -> 2 <= zlen (ord i) ->
    gives (at_row rows j) (Some n) ->
    let r f := ov f (rows_spec s e) (map row_of rows) (Z.of_nat i + 1) in
    r (w_stddev_samp stdDev) = Ok (Some (VFloat (stdDev [num_float n]))) /\ r (w_var_samp variance) = Ok (Some (VFloat (variance [num_float n]))).
Proof.
  exists (order_at text sort rows). split; [exact ord_ok|]. intros b d s e i p j n Hs He Pr Ss Se A N Fr L G r. unfold r, w_stddev_samp, w_var_samp.
  split; rewrite (one_frame _ _ s e i p [j] [n]); try assumption; try reflexivity; repeat constructor; assumption.
Qed.

(** ** C339: NULL in one of two arguments *)
(** If a row has a NULL, the last row of the table has no result: with a frame that depends on
    the row, or PARTITION BY, the process panics, and if no row has both values it is an error. *)
Theorem c339_last_refuted : forall correlation covariance covariance' sp,
  (forall r, In r rows -> exists x y, r_args r = [x; y]) -> relative shp sp -> Exists (fun r => In None (r_args r)) rows ->
  let r f := ov f sp (map row_of rows) (zlen rows) in
  let out := if existsb (fun r => match r_args r with [Some _; Some _] => true | _ => false end) rows then GoPanic else Err in
  r (w_corr correlation) = out /\ r (w_covar_pop covariance) = out /\ r (w_covar_samp covariance') = out.
Proof.
  intros a b c sp A R X r out.
  assert (E : forall stat, r (w_pair stat) = out).
  { intros stat. unfold r. rewrite (pair_beyond text loose wloose sort shp sho rows so stat sp A R).
    - unfold out. clear -A. induction rows as [|r l IH]; [reflexivity|]. destruct (A r (or_introl eq_refl)) as (x & y & E). cbn [filter existsb]. unfold full. rewrite E.
      destruct x as [x|]; [destruct y as [y|]|]; cbn [orb]; [reflexivity| |]; apply IH; intros; apply A; now right.
    - clear -A X. induction X as [r l H|r l X IH]; [left|right; apply IH; intros; apply A; now right].
      destruct (A r (or_introl eq_refl)) as (x & y & E). unfold full. rewrite E in *. destruct H as [->|[->|[]]]; [reflexivity|]. now destruct x. }
  refine (conj _ (conj _ _)); apply E.
Qed.
(** If no row has both values the result should be NULL and is an error, for every row and frame. *)
Theorem c339_none_refuted : forall correlation covariance covariance' sp rid,
  (forall r, In r rows -> exists x y, r_args r = [x; y] /\ (x = None \/ y = None)) ->
  let r f := ov f sp (map row_of rows) rid in
  r (w_corr correlation) = Err /\ r (w_covar_pop covariance) = Err /\ r (w_covar_samp covariance') = Err.
Proof.
  intros a b c sp rid A r.
  assert (E : forall stat, r (w_pair stat) = Err).
  { intros stat. apply (pair_none text loose wloose sort shp sho rows so stat sp rid).
    - intros q Q. destruct (A q Q) as (x & y & E & _). now exists x, y.
    - clear -A. induction rows as [|q l IH]; [reflexivity|]. cbn [filter]. destruct (A q (or_introl eq_refl)) as (x & y & E & H). unfold full at 1. rewrite E.
      destruct x as [x|]; [destruct y as [y|]|]; [destruct H; discriminate| |]; apply IH; intros; apply A; now right. }
  refine (conj _ (conj _ _)); apply E.
Qed.
(** What holds: over the whole table the rows with a NULL are left out, if two or more remain. *)
Theorem c339_whole_partial : forall correlation covariance covariance' ns rid,
  Forall2 gives2 rows ns -> shp = [] -> 1 <= rid -> (2 <= List.length (both ns))%nat ->
  exists ps, Permutation ps (both ns) /\
  let r f := ov f everything (map row_of rows) rid in
  r (w_corr correlation) = Ok (statistic correlation pair_float ps) /\
  r (w_covar_pop covariance) = Ok (statistic covariance pair_float ps) /\
  r (w_covar_samp covariance') = Ok (statistic covariance' pair_float ps).
Proof.
  intros a b c ns rid G Es Ri L.
  assert (A : forall r, In r rows -> two_args r).
  { clear -G. induction G as [|r n l ns G _ IH]; intros q Q; [destruct Q|]. destruct Q as [<-|Q]; [|now apply IH]. exists (option_map num_val (fst n)), (option_map num_val (snd n)). exact G. }
  assert (V : map stored (filter full rows) = map (fun p => Some (VArray [Some (num_val (fst p)); Some (num_val (snd p))])) (both ns)).
  { clear -G. induction G as [|r n l ns G _ IH]; [reflexivity|]. cbn [filter]. unfold full at 1. unfold gives2, pair_row in G. rewrite G. destruct n as [[x|] [y|]]; cbn [both option_map fst snd]; try exact IH.
    cbn [map]. rewrite IH. f_equal. unfold stored. now rewrite G. }
  assert (N : filter full rows <> []).
  { intros E. rewrite E in V. destruct (both ns); [cbn in L; lia|discriminate]. }
  set (perm := sort wless (ents2 text 0 rows)).
  assert (W : forall stat, exists l, Permutation l (ents2 text 0 rows) /\ l = perm /\ ov (w_pair stat) everything (map row_of rows) rid = if zlen l <? 2 then Ok None else finish_read pairs stat (vals l)).
  { intros stat. destruct (pair_whole text loose wloose sort slices shp sho rows so stat rid everything A Es Ri N eq_refl) as (l & P & Q & E). now exists l. }
  assert (P : Permutation perm (ents2 text 0 rows)) by (destruct (W (fun _ => fzero)) as (l & P & -> & _); exact P).
  assert (X : exists ps, Permutation ps (both ns) /\ vals perm = map (fun p => Some (VArray [Some (num_val (fst p)); Some (num_val (snd p))])) ps).
  { assert (Q : Permutation (vals perm) (map (fun p => Some (VArray [Some (num_val (fst p)); Some (num_val (snd p))])) (both ns))).
    { rewrite <- V, <- (ents2_vals text rows 0). unfold vals. now apply Permutation_map. }
    apply Permutation_map_inv in Q. destruct Q as (ps & E & Q). exists ps. split; [now symmetry|exact E]. }
  destruct X as (ps & Pp & Vp). exists ps. split; [exact Pp|].
  assert (E : forall stat, ov (w_pair stat) everything (map row_of rows) rid = Ok (statistic stat pair_float ps)).
  { intros stat. destruct (W stat) as (l & _ & -> & ->). assert (Zl : zlen perm = zlen ps) by (apply (f_equal (@List.length (option val))) in Vp; unfold vals in Vp; rewrite !map_length in Vp; unfold zlen; lia).
    apply Permutation_length in Pp. rewrite Zl. unfold zlen. destruct (Z.ltb_spec (Z.of_nat (List.length ps)) 2); [lia|].
    unfold finish_read. rewrite Vp, pairs_nums. cbn [bind]. now destruct ps. }
  intros r. refine (conj _ (conj _ _)); apply E.
Qed.

(** ** C340: DISTINCT *)
(** It is not looked at: the answer is right only where the library gives the same for the values
    with and without repetitions. *)
Theorem c340_distinct_refuted : exists ord, arrangement rows ord /\
  forall stdDev s e i p fr ns ds,
    start_bound s -> end_bound e -> proper s e -> small rows s -> small rows e ->
    (forall r, In r rows -> has_arg r) -> nth_error (ord i) p = Some i -> rows_frame s e (ord i) p fr -> 2 <= zlen (ord i) ->
    Forall2 (fun j n => gives (at_row rows j) (Some n)) fr ns -> ns <> [] -> NoDup ds -> (forall n, In n ds <-> In n ns) ->
    (ov (w_stddev_samp stdDev) (distinct_spec s e) (map row_of rows) (Z.of_nat i + 1) = Ok (statistic stdDev num_float ds) <->
     stdDev (map num_float ns) = stdDev (map num_float ds)).
Proof.
  exists (order_at text sort rows). split; [exact ord_ok|]. intros f s e i p fr ns ds Hs He Pr Ss Se A N Fr L G Ne Nd H.
  unfold w_stddev_samp. rewrite (one_frame f _ s e i p fr ns) by (assumption || reflexivity).
  destruct ns as [|n ns]; [contradiction|]. destruct ds as [|d ds]; [exfalso; apply (proj2 (H n)); now left|]. cbn [statistic]. split; intros E; congruence.
Qed.
(** So it is right when no value is repeated. *)
Theorem c340_once_partial : exists ord, arrangement rows ord /\
  forall stdDev s e i p fr ns,
    start_bound s -> end_bound e -> proper s e -> small rows s -> small rows e ->
    (forall r, In r rows -> has_arg r) -> nth_error (ord i) p = Some i -> rows_frame s e (ord i) p fr -> 2 <= zlen (ord i) ->
    Forall2 (fun j n => gives (at_row rows j) (Some n)) fr ns -> NoDup ns ->
    ov (w_stddev_samp stdDev) (distinct_spec s e) (map row_of rows) (Z.of_nat i + 1) = Ok (statistic stdDev num_float ns).
Proof.
  exists (order_at text sort rows). split; [exact ord_ok|]. intros f s e i p fr ns Hs He Pr Ss Se A N Fr L G Nd.
  unfold w_stddev_samp. now rewrite (one_frame f _ s e i p fr ns) by (assumption || reflexivity).
Qed.

(** ** C341: COVAR_POP *)
(** Whatever function of the library computes covariances, COVAR_POP and COVAR_SAMP cannot both
    be right over a frame whose covariance is not zero. *)
Theorem c341_population_refuted : exists ord, arrangement rows ord /\
  forall covariance s e i p fr (l : list (Z * Z)),
    start_bound s -> end_bound e -> proper s e -> small rows s -> small rows e ->
    (forall r, In r rows -> exists a b, r_args r = [Some a; Some b]) -> nth_error (ord i) p = Some i -> rows_frame s e (ord i) p fr -> 2 <= zlen (ord i) ->
    Forall2 (fun j q => gives2 (at_row rows j) (zpair q)) fr l -> (2 <= List.length l)%nat -> ~ (codeviation (map qpair l) == 0)%Q ->
    let r f := ov f (rows_spec s e) (map row_of rows) (Z.of_nat i + 1) in
    ~ (is_q (r (w_covar_samp covariance)) (sample_covariance (map qpair l)) /\ is_q (r (w_covar_pop covariance)) (pop_covariance (map qpair l))).
Proof.
  destruct c336_pairs as (ord & O & H). exists ord. split; [exact O|]. intros cov s e i p fr l Hs He Pr Ss Se A N Fr L G Ll Nz r (Q1 & Q2).
  destruct (H (fun _ => fzero) cov cov s e i p fr (map (fun q => (NInt (fst q), NInt (snd q))) l) Hs He Pr Ss Se A N Fr L) as (_ & E1 & E2).
  { clear -G. induction G as [|j q fr l G _ IH]; [constructor|]. constructor; [exact G|exact IH]. }
  unfold r in *. rewrite E2 in Q1. rewrite E1 in Q2.
  destruct Q1 as (f & x & F1 & F2 & F3), Q2 as (g & y & G1 & G2 & G3).
  assert (f = g) by congruence. subst g. assert (x = y) by congruence. subst y. rewrite F3 in G3. clear - Nz G3 Ll.
  unfold sample_covariance, pop_covariance in G3. set (c := codeviation _) in *.
  destruct (qlen_pos _ (map qpair l) ltac:(now rewrite map_length)) as (A & B). set (k := qlen _) in *. apply Nz.
  assert (K1 : ~ (k - 1 == 0)%Q) by (intros E; rewrite E in A; discriminate). assert (K2 : ~ (k == 0)%Q) by (intros E; rewrite E in B; discriminate).
  assert (E : (c * k == c * (k - 1))%Q). { setoid_replace c with ((c / (k - 1)) * (k - 1))%Q at 1 by (field; exact K1). rewrite G3. field. exact K2. }
  setoid_replace c with (c * k - c * (k - 1))%Q by ring. rewrite E. ring.
Qed.
End Over.

(** ** The hypotheses are met *)
Definition how_many (l : list float) : float := float_of_int (zlen l).
Definition how_many2 (l : list (float * float)) : float := float_of_int (zlen l).
Definition one_column (l : list (option Z)) : list srow := numbered_rows (map (fun v => [option_map VInt v]) l).
Definition two_columns (l : list (option Z * option Z)) : list srow := numbered_rows (map (fun v => [option_map VInt (fst v); option_map VInt (snd v)]) l).
Definition to_here : spec := rows_spec (the_bound UnboundedPreceding 0) (the_bound CurrentRow 0).
Example c336_example : sound text1 [] [(YInt, true)] (one_column [Some 4; Some 5; Some 6]) /\ sound text1 [] [(YInt, true)] (two_columns [(Some 4, Some 1); (Some 5, Some 2)]) /\
  over1 (w_var_samp how_many) to_here (map row_of (one_column [Some 4; Some 5; Some 6])) 2 = Ok (Some (VFloat (float_of_int 2))) /\
  over1 (w_corr how_many2) to_here (map row_of (two_columns [(Some 4, Some 1); (Some 5, Some 2)])) 2 = Ok (Some (VFloat (float_of_int 2))).
Proof. split; [apply numbered_sound; reflexivity|]. split; [apply numbered_sound; reflexivity|]. split; vm_compute; reflexivity. Qed.
Example c337_example : sound text1 [] [(YInt, true)] (one_column [Some 4; None; Some 6]) /\
  over1 (w_stddev_samp how_many) to_here (map row_of (one_column [Some 4; None; Some 6])) 3 = GoPanic /\
  over1 (w_stddev_samp how_many) to_here (map row_of (one_column [Some 4; None; Some 6])) 1 = Ok (Some (VFloat (float_of_int 1))).
Proof. split; [apply numbered_sound; reflexivity|]. split; vm_compute; reflexivity. Qed.
Example c338_example : sound text1 [] [(YInt, true)] (one_column [Some 4]) /\
  over1 (w_var_pop (fun l => (fzero, how_many l))) to_here (map row_of (one_column [Some 4])) 1 = Ok None.
Proof. split; [apply numbered_sound; reflexivity|vm_compute; reflexivity]. Qed.
Definition with_gap : list srow := two_columns [(Some 4, Some 1); (None, Some 2); (Some 6, Some 3)].
Example c339_example : sound text1 [] [(YInt, true)] with_gap /\ 
  relative [] (rows_spec (the_bound OffsetPreceding 1) (the_bound CurrentRow 0)) /\
  over1 (w_corr how_many2) (rows_spec (the_bound OffsetPreceding 1) (the_bound CurrentRow 0)) (map row_of with_gap) 3 = GoPanic /\
  over1 (w_corr how_many2) everything (map row_of with_gap) 3 = Ok (Some (VFloat (float_of_int 2))) /\
  over1 (w_corr how_many2) everything (map row_of (two_columns [(None, Some 1)])) 1 = Err.
Proof.
  split; [apply numbered_sound; reflexivity|]. split; [right; split; [reflexivity|]; split; [discriminate|intros [E|E]; discriminate]|].
  repeat split; vm_compute; reflexivity.
Qed.
Example c340_example : over1 (w_stddev_samp how_many) (distinct_spec (the_bound UnboundedPreceding 0) (the_bound UnboundedFollowing 0)) (map row_of (one_column [Some 4; Some 4])) 1 =
  Ok (Some (VFloat (float_of_int 2))).
Proof. vm_compute. reflexivity. Qed.
Example c341_example : ~ (codeviation (map qpair [(0, 0)%Z; (2, 2)%Z]) == 0)%Q /\
  over1 (w_covar_pop how_many2) to_here (map row_of (two_columns [(Some 0, Some 0); (Some 2, Some 2)])) 2 = Ok (Some (VFloat (float_of_int 2))).
Proof. split; [discriminate|vm_compute; reflexivity]. Qed.

Print Assumptions c336_one.
Print Assumptions c336_pairs.
Print Assumptions c337_null_refuted.
Print Assumptions c337_ignored_partial.
Print Assumptions c338_alone_partial.
Print Assumptions c338_population_refuted.
Print Assumptions c338_frame_refuted.
Print Assumptions c339_last_refuted.
Print Assumptions c339_none_refuted.
Print Assumptions c339_whole_partial.
Print Assumptions c340_distinct_refuted.
Print Assumptions c340_once_partial.
Print Assumptions c341_population_refuted.
