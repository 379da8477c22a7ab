(** Lemmas for C336 to C341. *)
From Coq Require Import Ascii String List ZArith QArith Lia Bool SpecFloat Permutation.
From Verif Require Import GoBase GoBaseFacts ValueModel ValueFacts AggModel AggSpec AggProofs ApproxSpec WindowModel WindowSpec WindowProofs WinStatModel WinStatSpec.
Import ListNotations.
Local Open Scope string_scope.
Open Scope Z_scope.

(** ** Reading the numbers *)
Lemma to_float_num n : to_float (num_val n) = Ok (num_float n).
Proof. destruct n; reflexivity. Qed.
Lemma floats_nums : forall ns, floats (map (fun n => Some (num_val n)) ns) = Ok (map num_float ns).
Proof. induction ns as [|n ns IH]; [reflexivity|]. cbn [map floats]. rewrite to_float_num. cbn [bind]. now rewrite IH. Qed.
Lemma floats_null : forall l : list (option num), In None l -> floats (map (option_map num_val) l) = GoPanic.
Proof.
  induction l as [|[n|] l IH]; intros I; [destruct I| |reflexivity]. destruct I as [I|I]; [discriminate|].
  cbn [map option_map floats]. rewrite to_float_num. cbn [bind]. now rewrite IH.
Qed.
Lemma pairs_nums : forall ps, pairs (map (fun p => Some (VArray [Some (num_val (fst p)); Some (num_val (snd p))])) ps) = Ok (map pair_float ps).
Proof. induction ps as [|[a b] ps IH]; [reflexivity|]. cbn [map pairs fst snd]. rewrite !to_float_num. cbn [bind]. now rewrite IH. Qed.
Lemma stat_done_read {A B} read (stat : list A -> float) (f : B -> A) l s e vs xs : 2 <= zlen l -> slice (vals l) s e = Ok vs -> read vs = Ok (map f xs) ->
  stat_done read stat l (Some (s, e)) = Ok (statistic stat f xs).
Proof.
  intros L S R. unfold stat_done. destruct (Z.ltb_spec (zlen l) 2); [lia|]. rewrite S. cbn [bind]. rewrite R. cbn [bind]. now destruct xs.
Qed.

Section Stat.
  Variable text : val -> res string.
  Variable loose : string -> option item.
  Variable wloose : string -> option witem.
  Variable sort : (ent -> ent -> bool) -> list ent -> list ent.
  Hypothesis slices : sort_slice sort.
  Variable shp : list kty.
  Variable sho : list (kty * bool).
  Variable rows : list srow.
  Hypothesis so : sound text shp sho rows.
  Notation ov := (over text loose wloose sort).
  Notation ord := (order_at text sort rows).

  (** As over_rows, for functions that look at the size of the partition *)
  Lemma over_frame : forall f sp s e st vs i p fr none K,
    p_frame sp = Some (URows, s, e) ->
    feed f (winit f) (map r_args rows) = Ok (st, vs) ->
    nth_error (ord i) p = Some i ->
    start_bound s -> end_bound e -> proper s e -> small rows s -> small rows e ->
    rows_frame s e (ord i) p fr ->
    (forall l x, zlen l = zlen (ord i) -> wdone f st (opts sp) l x = in_frame none l x K) -> K [] = Ok none ->
    ov f sp (map row_of rows) (Z.of_nat i + 1) = K (map (fun j => nth j vs None) fr).
  Proof.
    intros f sp s e st vs i p fr none K Sp F N Hs He Pr Ss Se Fr D Kn.
    pose proof (ord_lt text sort slices rows i p N) as L. pose proof (ord_pos text sort slices rows i p N) as [Lp Ln].
    rewrite (over_sound text loose wloose sort slices shp sho rows so f sp st vs i F L). unfold frame_of. rewrite Sp. cbn [fst snd].
    pose proof (cur_index_at text sort slices rows vs i p N) as C.
    assert (Zl : zlen (map (ent_at text rows vs) (ord i)) = zlen (ord i)) by (unfold zlen; now rewrite map_length).
    cbn [bound_index]. destruct Hs as (S1 & S2 & S3). destruct He as (E1 & E2 & E3). unfold small in *.
    rewrite (rows_index_at _ _ s _ C), (rows_index_at _ _ e _ C) by (auto; lia). cbn [bind]. rewrite Zl, D by exact Zl.
    rewrite (in_frame_at _ _ _ _ _ fr); auto.
    - eapply picks_ext; [|exact Fr]. cbn beta. intros j J. apply bound_positions; [repeat split; auto; lia|repeat split; auto; lia|unfold zlen; lia].
    - apply proper_positions; repeat split; auto; lia.
  Qed.
  Definition finish_read {A} (read : list (option val) -> res (list A)) (stat : list A -> float) (vs : list (option val)) : res (option val) :=
    bind (read vs) (fun xs => match xs with [] => Ok None | _ => Ok (Some (VFloat (stat xs))) end).
  Lemma stat_frame {A} (read : list (option val) -> res (list A)) stat l x : 2 <= zlen l -> stat_done read stat l x = in_frame None l x (finish_read read stat).
  Proof.
    intros L. unfold stat_done, in_frame, finish_read. destruct x as [[s e]|]; [|reflexivity]. destruct (Z.ltb_spec (zlen l) 2); [lia|].
    destruct (slice (vals l) s e); reflexivity.
  Qed.
  Lemma stat_alone {A} (read : list (option val) -> res (list A)) stat l x : zlen l < 2 -> stat_done read stat l x = Ok None.
  Proof. intros L. unfold stat_done. destruct x as [[s e]|]; [|reflexivity]. destruct (Z.ltb_spec (zlen l) 2); [reflexivity|lia]. Qed.

  Lemma one_over : forall stat sp s e i p fr, (forall r, In r rows -> has_arg r) ->
    p_frame sp = Some (URows, s, e) -> nth_error (ord i) p = Some i ->
    start_bound s -> end_bound e -> proper s e -> small rows s -> small rows e -> rows_frame s e (ord i) p fr -> 2 <= zlen (ord i) ->
    ov (w_one stat) sp (map row_of rows) (Z.of_nat i + 1) = finish_read floats stat (map (arg_of rows) fr).
  Proof.
    intros stat sp s e i p fr A Sp N Hs He Pr Ss Se Fr L.
    rewrite (over_frame (w_one stat) sp s e tt _ i p fr None (finish_read floats stat) Sp (feed_store0 _ rows A) N Hs He Pr Ss Se Fr); [|intros l x E; cbn [wdone w_one simple]; apply stat_frame; lia|reflexivity].
    f_equal. apply map_ext. intros j. now apply nth_hd.
  Qed.
  (** A partition of one row *)
  Lemma one_alone : forall stat sp s e i p, (forall r, In r rows -> has_arg r) ->
    p_frame sp = Some (URows, s, e) -> nth_error (ord i) p = Some i ->
    start_bound s -> end_bound e -> small rows s -> small rows e -> zlen (ord i) < 2 ->
    ov (w_one stat) sp (map row_of rows) (Z.of_nat i + 1) = Ok None.
  Proof.
    intros stat sp s e i p A Sp N Hs He Ss Se L2.
    pose proof (ord_lt text sort slices rows i p N) as L. pose proof (ord_pos text sort slices rows i p N) as [Lp Ln].
    rewrite (over_sound text loose wloose sort slices shp sho rows so (w_one stat) sp tt _ i (feed_store0 _ rows A) L). unfold frame_of. rewrite Sp. cbn [fst snd].
    pose proof (cur_index_at text sort slices rows (map (fun r => hd None (r_args r)) rows) i p N) as C.
    cbn [bound_index]. destruct Hs as (S1 & S2 & S3). destruct He as (E1 & E2 & E3). unfold small in *.
    rewrite (rows_index_at _ _ s _ C), (rows_index_at _ _ e _ C) by (auto; lia). cbn [bind wdone w_one simple].
    apply stat_alone. unfold zlen in *. rewrite map_length. exact L2.
  Qed.

  (** ** Two arguments *)
  Definition stored (r : srow) : option val := match r_args r with Some a :: Some b :: _ => Some (VArray [Some a; Some b]) | _ => None end.
  Lemma feed_store2 : forall d (l : list srow), (forall r, In r l -> exists a b, r_args r = [Some a; Some b]) ->
    feed (simple store2 d) tt (map r_args l) = Ok (tt, map stored l).
  Proof.
    intros d. induction l as [|r l IH]; intros H; [reflexivity|]. cbn [map feed]. destruct (H r (or_introl eq_refl)) as (a & b & E).
    unfold stored at 1. rewrite E. cbn [wstep simple store2 bind]. rewrite IH by (intros; apply H; now right). reflexivity.
  Qed.
  Lemma pair_over : forall stat sp s e i p fr ps, (forall r, In r rows -> exists a b, r_args r = [Some a; Some b]) ->
    p_frame sp = Some (URows, s, e) -> nth_error (ord i) p = Some i ->
    start_bound s -> end_bound e -> proper s e -> small rows s -> small rows e -> rows_frame s e (ord i) p fr -> 2 <= zlen (ord i) ->
    Forall2 (fun j q => gives2 (at_row rows j) (Some (fst q), Some (snd q))) fr ps ->
    ov (w_pair stat) sp (map row_of rows) (Z.of_nat i + 1) = Ok (statistic stat pair_float ps).
  Proof.
    intros stat sp s e i p fr ps A Sp N Hs He Pr Ss Se Fr L G.
    rewrite (over_frame (w_pair stat) sp s e tt _ i p fr None (finish_read pairs stat) Sp (feed_store2 _ rows A) N Hs He Pr Ss Se Fr); [|intros l x E; cbn [wdone w_pair simple]; apply stat_frame; lia|reflexivity].
    assert (E : map (fun j => nth j (map stored rows) None) fr = map (fun p => Some (VArray [Some (num_val (fst p)); Some (num_val (snd p))])) ps).
    { clear -G. induction G as [|j q fr ps Gj G IH]; [reflexivity|]. cbn [map]. rewrite IH. f_equal. rewrite (nth_hd stored rows j eq_refl). unfold stored, gives2 in *. rewrite Gj. reflexivity. }
    unfold finish_read. rewrite E, pairs_nums. cbn [bind]. now destruct ps.
  Qed.

  (** ** Rows that are not stored *)
  Definition full (r : srow) : bool := match r_args r with Some _ :: Some _ :: _ => true | _ => false end.
  Definition two_args (r : srow) : Prop := exists x y, r_args r = [x; y].
  Fixpoint ents2 (k : nat) (l : list srow) : list ent :=
    match l with [] => [] | r :: l' => if full r then mk text k r (stored r) :: ents2 (S k) l' else ents2 k l' end.
  Lemma ents2_length : forall l k, List.length (ents2 k l) = List.length (filter full l).
  Proof. induction l as [|r l IH]; intros k; [reflexivity|]. cbn [ents2 filter]. destruct (full r); cbn [List.length]; now rewrite IH. Qed.
  Lemma ents2_vals : forall l k, map e_val (ents2 k l) = map stored (filter full l).
  Proof. induction l as [|r l IH]; intros k; [reflexivity|]. cbn [ents2 filter]. destruct (full r); cbn [map mk e_val]; now rewrite IH. Qed.
  Lemma steps2_more : forall stat p rid l w0 l0, (forall r, In r l -> good text r /\ two_args r) ->
    (w_unit w0, w_start w0, w_end w0, w_row w0) = (fst (fst (frame_of p)), snd (fst (frame_of p)), snd (frame_of p), rid) ->
    row_steps text loose wloose (w_pair stat) (tt, {| s_first := Some (w0, opts p); s_ents := l0 |}) (map (call_args p rid) (map row_of l)) =
    Ok (tt, {| s_first := Some (w0, opts p); s_ents := (l0 ++ ents2 (List.length l0) l)%list |}).
  Proof.
    intros stat p rid. induction l as [|r l IH]; intros w0 l0 G W; [cbn [map row_steps ents2]; now rewrite app_nil_r|].
    destruct (G r (or_introl eq_refl)) as ((G1 & G2 & G3 & G4) & x & y & A).
    cbn [map row_steps]. unfold row_step at 1. rewrite parse_row by auto. cbn [bind fst snd wstep w_pair simple]. cbn [ents2]. unfold full, stored. rewrite A.
    assert (IH' : forall l0, row_steps text loose wloose (w_pair stat) (tt, {| s_first := Some (w0, opts p); s_ents := l0 |}) (map (call_args p rid) (map row_of l)) =
      Ok (tt, {| s_first := Some (w0, opts p); s_ents := (l0 ++ ents2 (List.length l0) l)%list |})) by (intros l1; apply IH; [intros r' R'; apply G; now right|exact W]).
    destruct x as [a|]; [destruct y as [b|]|]; cbn [store2 bind].
    2,3: apply IH'.
    unfold agg_step. cbn [s_first fst].
    assert (Wu : w_unit w0 = w_unit (wopt_of p rid r)) by (cbn [wopt_of w_unit]; congruence).
    assert (Ws : w_start w0 = w_start (wopt_of p rid r)) by (cbn [wopt_of w_start]; congruence).
    assert (We : w_end w0 = w_end (wopt_of p rid r)) by (cbn [wopt_of w_end]; congruence).
    assert (Wr : w_row w0 = w_row (wopt_of p rid r)) by (cbn [wopt_of w_row]; congruence).
    rewrite Wu, Ws, We, Wr, unit_eqb_refl, !same_kind_refl, Z.eqb_refl. cbn [negb bind]. cbn [wopt_of w_parts w_order s_ents]. rewrite G4. cbn [bind].
    rewrite IH'. rewrite app_length. cbn [List.length]. rewrite Nat.add_1_r, <- app_assoc. reflexivity.
  Qed.
  Lemma steps2_all : forall stat p rid l, (forall r, In r l -> good text r /\ two_args r) ->
    row_steps text loose wloose (w_pair stat) (tt, wst0) (map (call_args p rid) (map row_of l)) =
    Ok (tt, match filter full l with [] => wst0 | r0 :: _ => {| s_first := Some (wopt_of p rid r0, opts p); s_ents := ents2 0 l |} end).
  Proof.
    intros stat p rid. induction l as [|r l IH]; intros G; [reflexivity|].
    destruct (G r (or_introl eq_refl)) as ((G1 & G2 & G3 & G4) & x & y & A).
    cbn [map row_steps]. unfold row_step at 1. rewrite parse_row by auto. cbn [bind fst snd wstep w_pair simple].
    assert (IH' : row_steps text loose wloose (w_pair stat) (tt, wst0) (map (call_args p rid) (map row_of l)) =
      Ok (tt, match filter full l with [] => wst0 | r0 :: _ => {| s_first := Some (wopt_of p rid r0, opts p); s_ents := ents2 0 l |} end)) by (apply IH; intros; apply G; now right).
    cbn [ents2 filter]. assert (Ef : full r = match x, y with Some _, Some _ => true | _, _ => false end) by (unfold full; now rewrite A). rewrite Ef. rewrite A.
    destruct x as [a|]; [destruct y as [b|]|]; cbn [store2 bind].
    2,3: exact IH'.
    unfold agg_step. cbn [s_first wst0 fst]. rewrite unit_eqb_refl, !same_kind_refl, Z.eqb_refl. cbn [negb bind wopt_of w_parts w_order s_ents]. rewrite G4. cbn [bind List.length app].
    change {| s_first := Some ({| w_unit := fst (fst (frame_of p)); w_start := snd (fst (frame_of p)); w_end := snd (frame_of p); w_parts := map recv (r_part r); w_row := rid; w_order := map sentk (all_keys r) |}, opts p);
              s_ents := [{| e_id := 0; e_keys := map sentk (all_keys r); e_val := Some (VArray [Some a; Some b]); e_part := ptext text r |}] |}
      with {| s_first := Some (wopt_of p rid r, opts p); s_ents := [mk text 0 r (Some (VArray [Some a; Some b]))] |}.
    rewrite (steps2_more stat p rid l (wopt_of p rid r)) by (try reflexivity; intros; apply G; now right).
    unfold stored. rewrite A. reflexivity.
  Qed.

  Lemma steps2 : forall stat p rid l, (forall r, In r l -> good text r /\ two_args r) ->
    row_steps text loose wloose (w_pair stat) (winit (w_pair stat), wst0) (map (call_args p rid) (map row_of l)) =
    Ok (tt, match filter full l with [] => wst0 | r0 :: _ => {| s_first := Some (wopt_of p rid r0, opts p); s_ents := ents2 0 l |} end).
  Proof. exact steps2_all. Qed.
  Lemma ents2_in : forall l k x, In x (ents2 k l) -> exists r, In r l /\ e_part x = ptext text r.
  Proof.
    induction l as [|r l IH]; intros k x I; [destruct I|]. cbn [ents2] in I. destruct (full r).
    - destruct I as [<-|I]; [exists r; split; [now left|reflexivity]|]. destruct (IH _ _ I) as (q & Q & E). exists q. split; [now right|exact E].
    - destruct (IH _ _ I) as (q & Q & E). exists q. split; [now right|exact E].
  Qed.
  Lemma no_parts l k : (forall r, In r l -> ptext text r = None) -> pvals (ents2 k l) = [].
  Proof.
    intros H. unfold pvals. assert (G : forall x, In x (ents2 k l) -> has_part x = false).
    { intros x I. destruct (ents2_in _ _ _ I) as (r & R & E). unfold has_part. now rewrite E, H. }
    induction (ents2 k l) as [|x m IH]; [reflexivity|]. cbn [filter]. rewrite G by now left. apply IH. intros y Y. apply G. now right.
  Qed.
  Lemma all_parts l k : (forall r, In r l -> ptext text r <> None) -> pvals (ents2 k l) = ents2 k l.
  Proof.
    intros H. unfold pvals. assert (G : forall x, In x (ents2 k l) -> has_part x = true).
    { intros x I. destruct (ents2_in _ _ _ I) as (r & R & E). unfold has_part. rewrite E. specialize (H r R). now destruct (ptext text r). }
    induction (ents2 k l) as [|x m IH]; [reflexivity|]. cbn [filter]. rewrite G by now left. f_equal. apply IH. intros y Y. apply G. now right.
  Qed.
  Lemma far_row {A} (l : list A) rid : zlen l < rid -> nth_row l rid = GoPanic.
  Proof.
    intros H. unfold nth_row. destruct (rid <? 1); [reflexivity|]. assert (E : nth_error l (Z.to_nat (rid - 1)) = None) by (apply nth_error_None; unfold zlen in H; lia). now rewrite E.
  Qed.
  Lemma pair_beyond : forall stat p, (forall r, In r rows -> two_args r) -> relative shp p -> Exists (fun r => full r = false) rows ->
    ov (w_pair stat) p (map row_of rows) (zlen rows) = match filter full rows with [] => Err | _ => GoPanic end.
  Proof.
    intros stat p A R X. unfold over, wcall.
    rewrite (steps2 stat p (zlen rows) rows) by (intros r I; split; [now apply (sound_good text shp sho rows so)|now apply A]).
    cbn [bind fst snd]. destruct (filter full rows) as [|r0 l] eqn:E; [reflexivity|].
    assert (Ll : zlen (ents2 0 rows) < zlen rows).
    { unfold zlen. rewrite ents2_length, E. apply Nat2Z.inj_lt. rewrite <- E. clear -X. induction X as [r l H|r l X IH]; cbn [filter List.length].
      - rewrite H. assert (forall m : list srow, (List.length (filter full m) <= List.length m)%nat); [|specialize (H0 l); lia].
        induction m as [|y m IH]; [reflexivity|]. cbn [filter List.length]. destruct (full y); cbn [List.length]; lia.
      - destruct (full r); cbn [List.length]; lia. }
    unfold finish. cbn [s_first s_ents wopt_of w_row w_unit w_start w_end]. assert (0 <= zlen (ents2 0 rows)) by (unfold zlen; lia).
    destruct (Z.leb_spec (zlen rows) 0); [lia|].
    destruct shp as [|t sh] eqn:Es.
    - assert (Np : pvals (ents2 0 rows) = []).
      { apply no_parts. intros r I. destruct so as [P S]. destruct (S r I) as (W & _). now apply (partition_ok text P []). }
      unfold filtered, current. rewrite Np. cbn [bind]. rewrite far_row by exact Ll.
      destruct R as [R|R]; [congruence|]. unfold frame_of. destruct (p_frame p) as [[[u s] e]|]; cbn [fst snd bound_index]; [|reflexivity].
      destruct R as (-> & K & U). unfold unbounded in U. cbn [bound_index rows_index]. destruct (b_kind s); try tauto; try congruence; reflexivity.
    - assert (Np : pvals (ents2 0 rows) = ents2 0 rows).
      { apply all_parts. intros r I. destruct so as [P S]. destruct (S r I) as (W & _). intros N. apply (partition_ok text P _ _ W) in N. discriminate. }
      unfold filtered. rewrite Np. destruct (ents2 0 rows) as [|x m] eqn:Ee.
      { apply (f_equal (@List.length ent)) in Ee. rewrite ents2_length, E in Ee. discriminate. }
      rewrite far_row by exact Ll. reflexivity.
  Qed.
  (** All rows NULL in one of the arguments *)
  Lemma pair_none : forall stat p rid, (forall r, In r rows -> two_args r) -> filter full rows = [] ->
    ov (w_pair stat) p (map row_of rows) rid = Err.
  Proof.
    intros stat p rid A E. unfold over, wcall.
    rewrite (steps2 stat p rid rows) by (intros r I; split; [now apply (sound_good text shp sho rows so)|now apply A]). now rewrite E.
  Qed.
  (** The whole table *)
  Lemma pair_whole : forall stat rid sp, (forall r, In r rows -> two_args r) -> shp = [] -> 1 <= rid -> filter full rows <> [] ->
    p_frame sp = Some (URows, the_bound UnboundedPreceding 0, the_bound UnboundedFollowing 0) ->
    exists l, Permutation l (ents2 0 rows) /\ l = sort wless (ents2 0 rows) /\
      ov (w_pair stat) sp (map row_of rows) rid = if zlen l <? 2 then Ok None else finish_read pairs stat (vals l).
  Proof.
    intros stat rid sp A Es Ri N Fr. unfold over, wcall.
    rewrite (steps2 stat sp rid rows) by (intros r I; split; [now apply (sound_good text shp sho rows so)|now apply A]).
    cbn [bind fst snd]. destruct (filter full rows) as [|r0 l] eqn:E; [contradiction|].
    unfold finish. cbn [s_first s_ents wopt_of w_row w_unit w_start w_end]. destruct (Z.leb_spec rid 0); [lia|].
    assert (Np : pvals (ents2 0 rows) = []).
    { apply no_parts. intros r I. destruct so as [P S]. destruct (S r I) as (W & _). rewrite Es in W. now apply (partition_ok text P []). }
    unfold filtered. rewrite Np. cbn [bind]. exists (sort wless (ents2 0 rows)). destruct slices as [Sl _]. destruct (Sl (ents2 0 rows)) as (Pm & _).
    split; [now symmetry in Pm|]. split; [reflexivity|].
    unfold frame_of. rewrite Fr. cbn [fst snd bound_index rows_index the_bound b_kind bind].
    set (so' := sort wless (ents2 0 rows)) in *.
    assert (Lz : 0 < zlen so').
    { unfold zlen. rewrite <- (Permutation_length Pm), ents2_length, E. cbn [List.length]. lia. }
    unfold clamp. destruct (Z.leb_spec (zlen so') 0); [lia|]. destruct (Z.ltb_spec (zlen so' - 1) 0); [lia|]. cbn [orb]. destruct (Z.leb_spec (zlen so') (zlen so' - 1)); [lia|].
    cbn [wdone w_pair simple]. unfold stat_done. change (0 <? 0) with false. destruct (Z.ltb_spec (zlen so') 2); [reflexivity|].
    unfold slice. destruct (Z.ltb_spec (zlen so' - 1 + 1) 0); [lia|]. cbn [bind]. change (Z.to_nat 0) with 0%nat. cbn [skipn].
    rewrite firstn_all2 by (unfold vals, zlen; rewrite map_length; lia). reflexivity.
  Qed.
End Stat.
