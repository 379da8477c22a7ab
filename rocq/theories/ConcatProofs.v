(** Proofs about ARRAY_CONCAT_AGG and values over frames. *)
From Coq Require Import Ascii String List ZArith QArith Lia Bool SpecFloat Permutation Sorting.Sorted.
From Verif Require Import GoBase ValueModel CompareSpec AggModel AggSpec AggProofs ConcatModel ConcatSpec WindowModel WindowSpec WindowProofs.
Import ListNotations.
Local Open Scope string_scope.
Open Scope Z_scope.

Lemma steps_outer text loose a rs : (forall v is, In (v, is) rs -> asks_distinct is = false /\ asks_ignore is = false) ->
  (forall x is, In (Some x, is) rs -> exists t, text x = Ok t /\ starts_brace t = false) -> forall d s,
  bind (outer_steps text loose a (d, s) (rows_with rs)) (fun st => Ok (snd st)) = steps_with a s rs.
Proof.
  induction rs as [|[v is] rs IH]; intros H T d s; [reflexivity|]. destruct (H v is (or_introl eq_refl)) as (D & I).
  cbn [rows_with map outer_steps]. fold (rows_with rs). unfold outer_step. cbn [fst snd].
  rewrite (parse_one text loose v is) by (intros x E t Et; subst v; destruct (T x is (or_introl eq_refl)) as (t' & Et' & B); congruence).
  destruct (opts_of is no_opt) as [OD OI]. cbn zeta in OD, OI. cbn [no_opt a_distinct a_ignore orb] in OD, OI. rewrite D in OD. rewrite I in OI.
  unfold admit_row. fold no_opt in OD, OI. rewrite OD, OI. cbn [andb bind steps_with].
  destruct (step a s [v] (fold_left AggModel.set_item (map reread is) no_opt)) as [s'| |]; cbn [bind]; try reflexivity.
  apply IH; [intros v' is' I'; apply (H v' is'); now right|intros x is' I'; apply (T x is'); now right].
Qed.
Lemma call_result text loose a rs r : (forall v is, In (v, is) rs -> asks_distinct is = false /\ asks_ignore is = false) ->
  (forall x is, In (Some x, is) rs -> exists t, text x = Ok t /\ starts_brace t = false) ->
  (call text loose a (rows_with rs) r <-> result_with a rs r).
Proof.
  intros H T. unfold call, result_with. rewrite <- (steps_outer text loose a rs H T d_empty (init a)).
  destruct (outer_steps text loose a (d_empty, init a) (rows_with rs)); cbn [bind]; reflexivity.
Qed.
Lemma no_asks ks lim : asks_distinct (order_items ks ++ limit_item lim) = false /\ asks_ignore (order_items ks ++ limit_item lim) = false.
Proof.
  unfold asks_distinct, asks_ignore. rewrite !existsb_app.
  assert (Z : forall f, (forall k a, f (IOrder k a) = false) -> existsb f (order_items ks) = false).
  { intros f Hf. unfold order_items. induction ks as [|k ks IH]; [reflexivity|]. cbn. now rewrite Hf, IH. }
  rewrite !Z by reflexivity. destruct lim; split; reflexivity.
Qed.

(** The rows ARRAY_AGG is given *)
Definition as_vals {K} (l : list (an_array * K)) : list (val * K) := map (fun p => (VArray (fst p), snd p)) l.
Lemma concat_steps lim : forall rs s, steps_with agg_array_concat s (array_rows lim rs) = steps_with agg_array_agg s (order_rows lim (as_vals (present rs))).
Proof.
  induction rs as [|[[a|] ks] rs IH]; intros s; [reflexivity| |].
  - cbn [array_rows map steps_with present as_vals order_rows fst snd option_map]. fold (array_rows lim rs). fold (@as_vals keys (present rs)). fold (order_rows lim (as_vals (present rs))).
    cbn [step agg_array_concat agg_array_agg concat_step array_agg_step arg0 bind elements]. apply IH.
  - cbn [array_rows map steps_with present fst snd option_map]. fold (array_rows lim rs). cbn [step agg_array_concat concat_step arg0 bind]. apply IH.
Qed.
Definition joined (r : res (option val)) : res (option val) :=
  match r with
  | Ok (Some (VArray l)) => Ok (Some (VArray (flat_map (fun o => match o with Some (VArray a) => a | _ => [] end) l)))
  | _ => r
  end.
Lemma concat_all_arrays l : (forall x, In x l -> exists a, o_val x = VArray a) ->
  concat_all l = Ok (flat_map (fun o => match o with Some (VArray a) => a | _ => [] end) (map (fun x => Some (o_val x)) l)).
Proof.
  induction l as [|x l IH]; intros H; [reflexivity|]. cbn [concat_all map flat_map]. destruct (H x (or_introl eq_refl)) as (a & E). rewrite E. cbn [elements bind].
  rewrite IH by (intros y Y; apply H; now right). reflexivity.
Qed.
Lemma sort_agg_in vs o out : sort_agg vs o out -> forall x, In x out -> In x vs.
Proof.
  intros S x I. assert (P : Permutation vs out).
  { destruct o as [[d i lm [|k ks]]|]; cbn in S; [now subst|destruct S; assumption|destruct S; assumption]. }
  apply (Permutation_in x (Permutation_sym P) I).
Qed.
Lemma done_joined s r : (forall x, In x (c_vals s) -> exists a, o_val x = VArray a) -> (concat_done s r <-> exists r', array_agg_done s r' /\ r = joined r').
Proof.
  intros H.
  assert (E : forall out, sort_agg (c_vals s) (c_opt s) out ->
    bind (take_limit (c_opt s) out) (fun l => bind (concat_all l) (fun vs => Ok (Some (VArray vs)))) =
    joined (bind (take_limit (c_opt s) out) (fun l => Ok (Some (VArray (map (fun x => Some (o_val x)) l)))))).
  { intros out S. pose proof (sort_agg_in _ _ _ S) as In1.
    assert (G : forall l, (forall x, In x l -> In x out) -> bind (concat_all l) (fun vs => Ok (Some (VArray vs))) = joined (Ok (Some (VArray (map (fun x => Some (o_val x)) l))))).
    { intros l L. rewrite concat_all_arrays; [reflexivity|]. intros x I. apply H, In1, L, I. }
    unfold take_limit. destruct (c_opt s) as [[d i [n|] ks]|]; cbn [bind]; try (apply G; auto).
    destruct (n <? 0); [reflexivity|]. cbn [bind]. apply G. intros x I. rewrite <- (firstn_skipn (Z.to_nat n) out). apply in_or_app. now left. }
  unfold concat_done, array_agg_done. split.
  - intros (out & S & ->). eexists. split; [exists out; split; [exact S|reflexivity]|]. now apply E.
  - intros (r' & (out & S & ->) & ->). exists out. split; [exact S|]. symmetry. now apply E.
Qed.
Lemma steps_arrays lim rs s : steps_with agg_array_agg (init agg_array_agg) (order_rows lim (as_vals (present rs))) = Ok s ->
  forall x, In x (c_vals s) -> exists a, o_val x = VArray a.
Proof.
  rewrite array_steps. cbn [init agg_array_agg c_vals c_opt app]. intros E x I.
  assert (Ec : c_vals s = map AggProofs.mk (as_vals (present rs))) by (apply (f_equal (fun r => match r with Ok s => c_vals s | _ => [] end)) in E; cbn [c_vals] in E; congruence).
  rewrite Ec in I. apply in_map_iff in I. destruct I as (p & <- & I). unfold as_vals in I. apply in_map_iff in I. destruct I as (q & <- & _). exists (fst q). reflexivity.
Qed.
Lemma present_in {K} (rs : list (option an_array * K)) a k : In (Some a, k) rs -> In a (map fst (present rs)).
Proof.
  induction rs as [|[[b|] j] rs IH]; intros I; [destruct I| |]; cbn [present map fst].
  - destruct I as [E|I]; [left; congruence|right; now apply IH].
  - destruct I as [E|I]; [discriminate|now apply IH].
Qed.

(** ARRAY_AGG in the order of the keys, as in C72, whatever the texts of the values *)
Lemma array_sorted sh lim (rs : list (val * keys)) r : rs <> [] -> sh <> [] -> (forall n, lim = Some n -> 0 <= n) ->
  (forall v ks, In (v, ks) rs -> shaped sh ks) -> result_with agg_array_agg (order_rows lim rs) r ->
  exists rs', Permutation rs rs' /\ StronglySorted (fun x y => ~ keys_before (snd y) (snd x)) rs' /\
    r = Ok (Some (VArray (first_n lim (map (fun x => Some (fst x)) rs')))).
Proof.
  intros NE NS NL H C. unfold result_with in C. rewrite array_steps in C. cbn [init agg_array_agg c_vals c_opt app] in C.
    destruct rs as [|r0 rs0]; [contradiction|]. set (rs := r0 :: rs0) in *. cbn [done agg_array_agg] in C.
    destruct C as (srt & S & R). cbn [c_vals c_opt] in S, R.
    assert (K0 : exists k ks, snd r0 = k :: ks).
    { destruct r0 as [v0 k0]. pose proof (H v0 k0 (or_introl eq_refl)) as Sh. inversion Sh; subst; [contradiction|]. cbn. eauto. }
    destruct K0 as (k & ks & K0). unfold sort_agg in S. rewrite K0 in S. cbn [map] in S. destruct S as (P & W & _).
    apply Permutation_sym, Permutation_map_inv in P. destruct P as (rs' & -> & P). exists rs'. split; [exact P|]. split.
    + assert (WO : weak_order less (map AggProofs.mk rs)).
      { apply (less_weak_order sh). intros x X. apply in_map_iff in X. destruct X as ([v q] & <- & I). exists q. split; [reflexivity|]. exact (H v q I). }
      specialize (W WO). assert (Sub : forall p, In p rs' -> In p rs) by (intros p Ip; eapply Permutation_in; [symmetry; exact P|exact Ip]).
      clear P R. induction rs' as [|x rs' IH]; [constructor|]. cbn [map] in W. inversion W as [|? ? W' Fx]; subst.
      constructor; [apply IH; auto; intros p Ip; apply Sub; now right|]. rewrite Forall_forall in *. intros y Y Kb.
      specialize (Fx (AggProofs.mk y) (in_map AggProofs.mk _ _ Y)). unfold less, AggProofs.mk in Fx. cbn [o_keys] in Fx.
      assert (T : less_keys (map sent (snd y)) (map sent (snd x)) = true).
      { destruct y as [vy ky], x as [vx kx]. apply (less_sent sh); [apply (H vy ky), Sub; now right|apply (H vx kx), Sub; now left|exact Kb]. }
      congruence.
    + rewrite R. unfold take_limit. cbn [a_limit]. destruct lim as [n|].
      * destruct (Z.ltb_spec n 0); [specialize (NL n eq_refl); lia|]. cbn [bind first_n]. do 3 f_equal.
        rewrite firstn_map. rewrite map_map. now rewrite firstn_map.
      * cbn [bind first_n]. do 3 f_equal. now rewrite map_map.
Qed.

Section Over.
  Variable text : val -> res string.
  Variable loose : string -> option item.
  Variable wloose : string -> option witem.
  Variable sort : (ent -> ent -> bool) -> list ent -> list ent.
  Hypothesis slices : sort_slice sort.
  Variable shp : list kty.
  Variable sho : list (kty * bool).
  Variable rows : list srow.
  Hypothesis so : sound text shp sho rows.
  Notation ov := (over text loose wloose sort).
  Notation ord := (order_at text sort rows).

  Lemma slice_first {A} (l : list A) s e x r : 0 <= s -> slice l s e = Ok (x :: r) -> nth_row l (s + 1) = Ok x.
  Proof.
    intros S. unfold slice. destruct (e + 1 <? s); [discriminate|]. intros E. assert (F : firstn (Z.to_nat (e + 1 - s)) (skipn (Z.to_nat s) l) = x :: r) by congruence.
    destruct (skipn (Z.to_nat s) l) as [|y q] eqn:Sk; [now rewrite firstn_nil in F|].
    destruct (Z.to_nat (e + 1 - s)) as [|n]; [discriminate|]. cbn [firstn] in F. assert (x = y) by congruence. subst y.
    unfold nth_row. destruct (Z.ltb_spec (s + 1) 1); [lia|]. replace (s + 1 - 1) with s by lia.
    assert (N : nth_error l (Z.to_nat s) = Some x). { rewrite <- (firstn_skipn (Z.to_nat s) l) at 1. rewrite Sk.
      assert (L : (Z.to_nat s <= List.length l)%nat). { destruct (Nat.le_gt_cases (Z.to_nat s) (List.length l)) as [L|L]; [exact L|]. rewrite skipn_all2 in Sk by lia. discriminate. }
      rewrite nth_error_app2; rewrite firstn_length_le by exact L; [|lia]. now rewrite Nat.sub_diag. }
    now rewrite N.
  Qed.
  Lemma clamp_pos n a b s e : clamp n a b = Some (s, e) -> 0 <= s.
  Proof.
    unfold clamp. destruct ((n <=? a) || (b <? 0)); [discriminate|]. intros E. assert (S : s = if a <? 0 then 0 else a) by congruence.
    rewrite S. destruct (Z.ltb_spec a 0); lia.
  Qed.
  (** One frame for all functions of the stored values *)
  Lemma one_frame sp s e i p fr : p_frame sp = Some (URows, s, e) -> nth_error (ord i) p = Some i ->
    start_bound s -> end_bound e -> proper s e -> small rows s -> small rows e -> rows_frame s e (ord i) p fr ->
    exists a b, forall f st vs, feed f (winit f) (map r_args rows) = Ok (st, vs) ->
      ov f sp (map row_of rows) (Z.of_nat i + 1) = wdone f st (opts sp) (map (ent_at text rows vs) (ord i)) (clamp (zlen (ord i)) a b) /\
      in_frame [] (map (ent_at text rows vs) (ord i)) (clamp (zlen (ord i)) a b) (fun l => Ok l) = Ok (map (fun j => nth j vs None) fr).
  Proof.
    intros Sp N Hs He Pr Ss Se Fr.
    pose proof (ord_lt text sort slices rows i p N) as L. pose proof (ord_pos text sort slices rows i p N) as [Lp Ln].
    destruct Hs as (S1 & S2 & S3). destruct He as (E1 & E2 & E3). unfold small in *.
    eexists _, _. intros f st vs F.
    rewrite (over_sound text loose wloose sort slices shp sho rows so f sp st vs i F L). unfold frame_of. rewrite Sp. cbn [fst snd].
    pose proof (cur_index_at text sort slices rows vs i p N) as C.
    assert (Zl : zlen (map (ent_at text rows vs) (ord i)) = zlen (ord i)) by (unfold zlen; now rewrite map_length).
    cbn [bound_index].
    rewrite (rows_index_at _ _ s _ C), (rows_index_at _ _ e _ C) by (auto; lia). cbn [bind]. rewrite Zl. split; [reflexivity|].
    rewrite (in_frame_at _ _ _ _ _ fr); auto.
    - eapply picks_ext; [|exact Fr]. cbn beta. intros j J. apply bound_positions; [repeat split; auto; lia|repeat split; auto; lia|unfold zlen; lia].
    - apply proper_positions; repeat split; auto; lia.
  Qed.
  Lemma any_value_rows sp s e i p fr : p_frame sp = Some (URows, s, e) -> nth_error (ord i) p = Some i ->
    start_bound s -> end_bound e -> proper s e -> small rows s -> small rows e -> rows_frame s e (ord i) p fr ->
    (forall r, In r rows -> has_arg r) -> fr <> [] ->
    ov w_any_value sp (map row_of rows) (Z.of_nat i + 1) = Ok (hd None (map (arg_of rows) fr)).
  Proof.
    intros Sp N Hs He Pr Ss Se Fr A NE. destruct (one_frame sp s e i p fr Sp N Hs He Pr Ss Se Fr) as (a & b & H).
    destruct (H w_any_value tt _ (feed_store0 _ rows A)) as (-> & F). cbn [wdone w_any_value simple]. unfold in_frame in F.
    rewrite (map_ext (fun j => nth j (map (fun r => hd None (r_args r)) rows) None) (arg_of rows)) in F by (intros j; now apply nth_hd).
    destruct (clamp (zlen (ord i)) a b) as [[x y]|] eqn:Cl.
    - destruct fr as [|j fr]; [contradiction|]. cbn [map hd] in *.
      destruct (slice _ x y) as [l| |] eqn:Sl; cbn [bind] in F; try discriminate. assert (l = arg_of rows j :: map (arg_of rows) fr) by congruence. subst l.
      exact (slice_first _ _ _ _ _ (clamp_pos _ _ _ _ _ Cl) Sl).
    - exfalso. apply NE. destruct fr; [reflexivity|discriminate].
  Qed.

  (** A NULL anywhere stops ARRAY_AGG *)
  Lemma array_null_steps p rid : forall rs st st', (forall r, In r rs -> In r rows) -> row_steps text loose wloose (w_array_agg text) st (map (call_args p rid) (map row_of rs)) = Ok st' ->
    forall r, In r rs -> hd None (r_args r) <> None.
  Proof.
    induction rs as [|r rs IH]; intros st st' Sub E q I; [destruct I|]. cbn [map row_steps] in E.
    destruct (row_step text loose wloose (w_array_agg text) st (call_args p rid (row_of r))) as [s1| |] eqn:R; cbn [bind] in E; try discriminate.
    destruct I as [<-|I]; [|exact (IH s1 st' (fun x X => Sub x (or_intror X)) E q I)].
    unfold row_step in R. destruct (sound_good text shp sho rows so r (Sub r (or_introl eq_refl))) as (A & P & O & _).
    rewrite (parse_row text loose wloose p rid r A P O) in R. cbn [bind] in R. cbn [wstep w_array_agg simple] in R.
    destruct (r_args r) as [|[x|] l]; cbn [arg0 bind hd] in *; try discriminate; congruence.
  Qed.
End Over.
