(** Properties of ARRAY_CONCAT_AGG, of empty groups, and of ANY_VALUE and ARRAY_AGG over frames: C347-C350. *)
From Coq Require Import Ascii String List ZArith QArith Lia Bool SpecFloat Permutation Sorting.Sorted.
From Verif Require Import GoBase ValueModel CompareSpec AggModel AggSpec AggProofs AggProps ConcatModel ConcatSpec WindowModel WindowSpec WindowProofs WindowProps ConcatProofs.
Import ListNotations.
Local Open Scope string_scope.
Open Scope Z_scope.

(** ** C347: ARRAY_CONCAT_AGG *)
Lemma c347_reduce text loose lim rs r : clear_text text (map fst (present rs)) ->
  (call text loose agg_array_concat (rows_with (array_rows lim rs)) r <->
   exists r', result_with agg_array_agg (order_rows lim (as_vals (present rs))) r' /\ r = joined r').
Proof.
  intros T. rewrite call_result.
  - unfold result_with. change (init agg_array_concat) with (init agg_array_agg). rewrite concat_steps.
    destruct (steps_with agg_array_agg (init agg_array_agg) (order_rows lim (as_vals (present rs)))) as [s| |] eqn:E.
    + exact (done_joined s r (steps_arrays lim rs s E)).
    + split; [intros ->; exists Err; now split|intros (r' & -> & ->); reflexivity].
    + split; [intros ->; exists GoPanic; now split|intros (r' & -> & ->); reflexivity].
  - intros v is I. unfold array_rows in I. apply in_map_iff in I. destruct I as (q & E & _). assert (is = (order_items (snd q) ++ limit_item lim)%list) by congruence. subst is. apply no_asks.
  - intros x is I. unfold array_rows in I. apply in_map_iff in I. destruct I as ([[a|] k] & E & I); cbn [fst snd option_map] in E; [|discriminate].
    assert (x = VArray a) by congruence. subst x. apply T. exact (present_in rs a k I).
Qed.
Lemma joined_arrays (l : list an_array) : joined (Ok (Some (VArray (map (fun a => Some (VArray a)) l)))) = Ok (Some (VArray (concat l))).
Proof. cbn [joined]. do 3 f_equal. induction l as [|a l IH]; [reflexivity|]. cbn [map flat_map concat]. now rewrite IH. Qed.
Lemma first_n_map {A B} lim (f : A -> B) l : first_n lim (map f l) = map f (first_n lim l).
Proof. destruct lim; [apply firstn_map|reflexivity]. Qed.

(** Without ORDER BY: the arrays that are not NULL one after the other, in the order of the
    rows, after LIMIT has taken its share of the arrays. *)
Theorem c347_concat : forall text loose lim (arrays : list (option an_array)) r, (forall n, lim = Some n -> 0 <= n) ->
  clear_text text (map fst (present (map (fun a => (a, tt)) arrays))) ->
  (call text loose agg_array_concat (rows_with (array_rows lim (map (fun a => (a, [])) arrays))) r <->
   r = Ok (Some (VArray (concat (first_n lim (map fst (present (map (fun a => (a, tt)) arrays)))))))).
Proof.
  intros text loose lim arrays r NL T.
  assert (Ep : @present keys (map (fun a => (a, [])) arrays) = map (fun a => (a, [])) (map fst (present (map (fun a => (a, tt)) arrays)))).
  { clear. induction arrays as [|[a|] l IH]; [reflexivity| |exact IH]. cbn [map present fst]. now rewrite IH. }
  set (as' := map fst (present (map (fun a => (a, tt)) arrays))) in *.
  rewrite c347_reduce by (unfold keys in *; rewrite Ep, map_map, map_id; exact T). unfold keys in *. rewrite Ep.
  assert (Er : order_rows lim (as_vals (map (fun a => (a, @nil (val * bool))) as')) = map (fun v => (Some v, limit_item lim)) (map VArray as')).
  { unfold order_rows, as_vals. rewrite !map_map. apply map_ext. intros a. reflexivity. }
  rewrite Er.
  assert (Ho : forall v, In v (map VArray as') -> exists t, text v = Ok t /\ starts_brace t = false).
  { intros v V. apply in_map_iff in V. destruct V as (a & <- & I). now apply T. }
  assert (Q : forall r', result_with agg_array_agg (map (fun v => (Some v, limit_item lim)) (map VArray as')) r' <-> r' = Ok (Some (VArray (first_n lim (map Some (map VArray as')))))).
  { intros r'. rewrite <- (c109_array_agg text loose lim (map VArray as') r' NL Ho). symmetry. apply call_result.
    - intros v is I. apply in_map_iff in I. destruct I as (q & E & _). assert (is = limit_item lim) by congruence. subst is. exact (no_asks [] lim).
    - intros x is I. apply in_map_iff in I. destruct I as (q & E & I). assert (x = q) by congruence. subst x. now apply Ho. }
  assert (J : joined (Ok (Some (VArray (first_n lim (map Some (map VArray as')))))) = Ok (Some (VArray (concat (first_n lim as'))))).
  { rewrite map_map, first_n_map. apply joined_arrays. }
  split.
  - intros (r' & R & ->). apply Q in R. subst r'. exact J.
  - intros ->. eexists. split; [apply Q; reflexivity|now rewrite J].
Qed.
(** With ORDER BY: the same in some order that respects the keys. *)
Theorem c347_ordered : forall text loose sh lim (rs : list (option an_array * keys)) r, sh <> [] -> (forall n, lim = Some n -> 0 <= n) ->
  present rs <> [] -> (forall a ks, In (a, ks) (present rs) -> shaped sh ks) -> clear_text text (map fst (present rs)) ->
  call text loose agg_array_concat (rows_with (array_rows lim rs)) r ->
  exists rs', Permutation (present rs) rs' /\ StronglySorted (fun x y => ~ keys_before (snd y) (snd x)) rs' /\
    r = Ok (Some (VArray (concat (first_n lim (map fst rs'))))).
Proof.
  intros text loose sh lim rs r NS NL NE Sh T C. apply c347_reduce in C; [|exact T]. destruct C as (r' & C & ->).
  destruct (array_sorted sh lim (as_vals (present rs)) r' (ltac:(intros E; apply NE; destruct (present rs); [reflexivity|discriminate])) NS NL) as (vs & P & S & ->); [|exact C|].
  - intros v ks I. apply in_map_iff in I. destruct I as ([a k] & E & I). assert (k = ks) by (cbn [fst snd] in E; congruence). subst k. exact (Sh a ks I).
  - unfold as_vals in P. apply Permutation_sym, Permutation_map_inv in P. destruct P as (rs' & -> & P). exists rs'. split; [exact P|]. split.
    + clear P C. induction rs' as [|x rs' IH]; [constructor|]. cbn [map] in S. inversion S as [|? ? S' F]; subst. constructor; [now apply IH|].
      rewrite Forall_forall in *. intros y Y. apply (F (VArray (fst y), snd y)). apply in_map_iff. now exists y.
    + rewrite map_map. cbn [fst]. rewrite <- (map_map (fun p : an_array * keys => fst p) (fun a => Some (VArray a))), first_n_map. apply joined_arrays.
Qed.
Definition text_array (v : val) : res string := Ok "[]".
Example c347_example :
  clear_text text_array (map fst (present [(Some [Some (VInt 1); None], [(VInt 2, true)]); (None, [(VInt 0, true)]); (Some [Some (VInt 3)], [(VInt 1, true)])])) /\
  call text_array no_loose agg_array_concat (rows_with (array_rows None [(Some [Some (VInt 1); None], [(VInt 2, true)]); (None, [(VInt 0, true)]); (Some [Some (VInt 3)], [(VInt 1, true)])])) (Ok (Some (VArray [Some (VInt 3); Some (VInt 1); None]))).
Proof.
  split; [intros a _; eexists; split; reflexivity|]. unfold call.
  match goal with |- context [outer_steps ?a ?b ?c ?d ?e] => let x := eval vm_compute in (outer_steps a b c d e) in change (outer_steps a b c d e) with x end.
  cbn [done agg_array_concat snd]. eexists. split; [apply go_sort_possible|reflexivity].
Qed.
Print Assumptions c347_concat.
Print Assumptions c347_ordered.

(** ** C348: no values *)
(** ARRAY_AGG of no rows and ARRAY_CONCAT_AGG of no rows or of NULLs only are the empty
    array; in SQL they are NULL.  So is ARRAY_AGG over an empty frame. *)
Theorem c348_empty_array_refuted : forall text loose,
  (forall r, call text loose agg_array_agg [] r <-> r = Ok (Some (VArray []))) /\
  (forall n r, call text loose agg_array_concat (rows_with (array_rows None (map (fun a => (a, [])) (repeat None n)))) r <-> r = Ok (Some (VArray []))) /\
  (forall wloose sort shp sho rows, sort_slice sort -> sound text shp sho rows ->
   exists ord, arrangement rows ord /\
   forall s e i p, start_bound s -> end_bound e -> proper s e -> small rows s -> small rows e -> nth_error (ord i) p = Some i -> rows_frame s e (ord i) p [] ->
     (forall r, In r rows -> has_arg r /\ hd None (r_args r) <> None) ->
     over text loose wloose sort (w_array_agg text) (rows_spec s e) (map row_of rows) (Z.of_nat i + 1) = Ok (Some (VArray []))).
Proof.
  intros text loose. split; [|split].
  - intros r. apply (c109_array_agg text loose None [] r); [discriminate|intros v []].
  - intros n r. assert (E : present (map (fun a => (a, tt)) (repeat (@None an_array) n)) = []) by (induction n; [reflexivity|exact IHn]).
    rewrite (c347_concat text loose None (repeat None n) r); [now rewrite E|discriminate|rewrite E; intros a []].
  - intros wloose sort shp sho rows Sl So. destruct (c75_rows_frame_partial text loose wloose sort shp sho rows Sl So) as (ord & A & H). exists ord. split; [exact A|].
    intros s e i p Hs He Pr Ss Se N Fr V. exact (proj2 (proj2 (H s e i p [] Hs He Pr Ss Se N Fr)) V).
Qed.
(** The frame from 2 rows before to 2 rows before, for the first row *)
Example c348_example : rows_frame (the_bound OffsetPreceding 2) (the_bound OffsetPreceding 2) [2; 0; 3; 4]%nat 0 [] /\
  over1 (w_array_agg text1) (rows_spec (the_bound OffsetPreceding 2) (the_bound OffsetPreceding 2)) (map row_of table1) 3 = Ok (Some (VArray [])).
Proof. split; [|reflexivity]. repeat (constructor 3; [cbn; lia|]). constructor. Qed.
Print Assumptions c348_empty_array_refuted.

(** ** C349: ANY_VALUE over a frame *)
(** It is the value of the first row of the frame. *)
Theorem c349_first_row_partial : forall text loose wloose sort shp sho rows, sort_slice sort -> sound text shp sho rows ->
  exists ord, arrangement rows ord /\
  forall rsp s e i p fr, start_bound s -> end_bound e -> proper s e -> small rows s -> small rows e ->
    (forall r, In r rows -> has_arg r) -> nth_error (ord i) p = Some i -> rows_frame s e (ord i) p fr -> fr <> [] ->
    exists v, over text loose wloose sort w_any_value (framed rsp s e) (map row_of rows) (Z.of_nat i + 1) = Ok v /\
      In v (map (arg_of rows) fr) /\ ((forall j, In j fr -> arg_of rows j <> None) -> v <> None).
Proof.
  intros text loose wloose sort shp sho rows Sl So. exists (order_at text sort rows). split; [now apply (ord_arrangement text sort Sl shp sho)|].
  intros rsp s e i p fr Hs He Pr Ss Se A N Fr NE. exists (hd None (map (arg_of rows) fr)).
  split; [exact (any_value_rows text loose wloose sort Sl shp sho rows So (framed rsp s e) s e i p fr eq_refl N Hs He Pr Ss Se Fr A NE)|].
  destruct fr as [|j fr]; [contradiction|]. cbn [map hd]. split; [now left|]. intros H. apply H. now left.
Qed.
(** ANY_VALUE of a group is a value that is not NULL if there is one (C107); over a frame it is NULL
    whenever the first row of the frame has NULL. *)
Theorem c349_null_first_refuted : forall text loose wloose sort shp sho rows, sort_slice sort -> sound text shp sho rows ->
  exists ord, arrangement rows ord /\
  forall rsp s e i p j fr, start_bound s -> end_bound e -> proper s e -> small rows s -> small rows e ->
    (forall r, In r rows -> has_arg r) -> nth_error (ord i) p = Some i -> rows_frame s e (ord i) p (j :: fr) -> arg_of rows j = None ->
    over text loose wloose sort w_any_value (framed rsp s e) (map row_of rows) (Z.of_nat i + 1) = Ok None.
Proof.
  intros text loose wloose sort shp sho rows Sl So. exists (order_at text sort rows). split; [now apply (ord_arrangement text sort Sl shp sho)|].
  intros rsp s e i p j fr Hs He Pr Ss Se A N Fr Nj.
  rewrite (any_value_rows text loose wloose sort Sl shp sho rows So (framed rsp s e) s e i p (j :: fr) eq_refl N Hs He Pr Ss Se Fr A ltac:(discriminate)). cbn [map hd]. now rewrite Nj.
Qed.
Example c349_example : over1 w_any_value (everything true) (map row_of null_first) 2 = Ok None /\ arg_of null_first 1 = Some (VInt 20) /\
  over1 w_any_value (framed true (the_bound CurrentRow 0) (the_bound CurrentRow 0)) (map row_of null_first) 2 = Ok (Some (VInt 20)).
Proof. repeat split; reflexivity. Qed.
Print Assumptions c349_first_row_partial.
Print Assumptions c349_null_first_refuted.

(** ** C350: ARRAY_AGG over frames and NULL *)
(** ARRAY_AGG(x IGNORE NULLS) OVER (...): where no row of the table has NULL, the values of the
    frame in order, with or without IGNORE NULLS. *)
Theorem c350_without_null_partial : forall text loose wloose sort shp sho rows, sort_slice sort -> sound text shp sho rows ->
  exists ord, arrangement rows ord /\
  forall s e i p fr, start_bound s -> end_bound e -> proper s e -> small rows s -> small rows e ->
    (forall r, In r rows -> has_arg r /\ hd None (r_args r) <> None) -> nth_error (ord i) p = Some i -> rows_frame s e (ord i) p fr ->
    over text loose wloose sort (w_array_agg text) (framed false s e) (map row_of rows) (Z.of_nat i + 1) = Ok (Some (VArray (map Some (not_null (map (arg_of rows) fr))))).
Proof.
  intros text loose wloose sort shp sho rows Sl So. exists (order_at text sort rows). split; [now apply (ord_arrangement text sort Sl shp sho)|].
  intros s e i p fr Hs He Pr Ss Se A N Fr.
  pose proof (array_agg_rows text loose wloose sort Sl shp sho rows So s e i p fr A N Hs He Pr Ss Se Fr) as E. change (rows_spec s e) with (framed false s e) in E. rewrite E.
  do 3 f_equal. symmetry. apply not_null_all.
  intros v V. apply in_map_iff in V. destruct V as (j & <- & J). apply (picks_in _ _ _ _ _ _ Fr) in J. unfold order_at in J. apply order_in in J; auto.
  unfold arg_of. apply A. apply nth_In. tauto.
Qed.
(** One NULL anywhere in the table, in any partition and outside every frame, and no row has
    a result, whatever the frame and even with IGNORE NULLS. *)
Theorem c350_null_stops_refuted : forall text loose wloose sort shp sho rows, sound text shp sho rows ->
  (exists r, In r rows /\ hd None (r_args r) = None) ->
  forall p rid v, over text loose wloose sort (w_array_agg text) p (map row_of rows) rid <> Ok v.
Proof.
  intros text loose wloose sort shp sho rows So (r & I & Nr) p rid v E. unfold over, wcall in E.
  destruct (row_steps text loose wloose (w_array_agg text) (winit (w_array_agg text), wst0) (map (call_args p rid) (map row_of rows))) as [st| |] eqn:R; cbn [bind] in E; try discriminate.
  exact (array_null_steps text loose wloose shp sho rows So p rid rows _ _ (fun x X => X) R r I Nr).
Qed.
Example c350_example : over1 (w_array_agg text1) (everything false) (map row_of null_first) 2 = Err /\
  over1 (w_array_agg text1) (framed false (the_bound CurrentRow 0) (the_bound CurrentRow 0)) (map row_of null_first) 2 = Err /\
  over1 (w_array_agg text1) (everything false) (map row_of table1) 2 = Ok (Some (VArray [Some (VInt 20)])).
Proof. repeat split; reflexivity. Qed.
Print Assumptions c350_without_null_partial.
Print Assumptions c350_null_stops_refuted.
