(** Properties of analytic functions: C75-C80, C112-C117. *)
From Coq Require Import Ascii String List ZArith QArith Lia Bool Permutation Sorting.Sorted SpecFloat.
From Verif Require Import GoBase GoBaseFacts ValueModel ValueFacts FloatFacts CastModel CodecModel CodecSpec CodecProofs DecModel DecFacts CompareSpec CompareProofs AggModel AggSpec AggProofs WindowModel WindowSpec WindowProofs.
Import ListNotations.
Local Open Scope string_scope.
Open Scope Z_scope.

(** ** The assumptions can be met *)
(** Insertion sort is a sort.Slice. *)
Lemma ins_map : forall (g : ent -> ent) x p, (forall y, In y p -> wless (g x) (g y) = wless x y) -> ins wless (g x) (map g p) = map g (ins wless x p).
Proof.
  intros g x. induction p as [|y p IH]; intros H; [reflexivity|]. cbn [map ins]. rewrite (H y (or_introl eq_refl)).
  destruct (wless x y); [|reflexivity]. cbn [map]. f_equal. apply IH. intros. apply H. now right.
Qed.
Lemma insertion_slice : sort_slice (fun lt l => insertion lt l).
Proof.
  split; [intros l; apply go_sort_possible|]. intros g l H. unfold insertion.
  assert (G : forall k p, (forall y, In y k \/ In y p -> In y l) -> fold_left (fun p x => ins wless x p) (map g k) (map g p) = map g (fold_left (fun p x => ins wless x p) k p)).
  { induction k as [|x k IH]; intros p P; [reflexivity|]. cbn [map fold_left]. rewrite ins_map by (intros; apply H; apply P; cbn; auto). apply IH.
    intros y [Y|Y]; [apply P; left; now right|]. apply (Permutation_in y (Permutation_sym (ins_perm wless x p))) in Y. destruct Y as [<-|Y]; apply P; cbn; auto. }
  specialize (G l [] ltac:(intros y [Y|[]]; exact Y)). cbn [map] in G. rewrite G. symmetry. apply map_rev.
Qed.
(** A text of values as [prints] wants it. *)
Definition text1 (v : val) : res string :=
  match v with VStr s => Ok s | VFloat f => Ok (dec (int_of_float f)) | VInt z => Ok (dec z) | _ => Err end.
Lemma dec_plain : forall c z, is_digit c = false -> c <> "-"%char -> has_char c (dec z) = false.
Proof.
  assert (D : forall c s, is_digit c = false -> all_digits s = true -> has_char c s = false).
  { intros c s N. induction s as [|a s IH]; intros A; [reflexivity|]. cbn [all_digits has_char] in *. apply andb_true_iff in A. destruct A as [A B].
    rewrite (IH B), orb_false_r. apply Ascii.eqb_neq. intros ->. congruence. }
  intros c z N M. unfold dec. destruct (Z.ltb_spec z 0) as [L|L]; [|apply D; auto; now apply udec_all_digits].
  cbn [has_char]. rewrite (D c _ N (udec_all_digits (- z) ltac:(lia))), orb_false_r. apply Ascii.eqb_neq. congruence.
Qed.
Lemma text1_prints : prints text1.
Proof.
  split; [reflexivity|]. split; [intros z Hz; eexists; split; [reflexivity|now apply dec_plain]|].
  intros a b A B E. cbn [text1] in E. rewrite !float_of_int_back in E by assumption. apply dec_inj; try congruence; unfold in64, two63; lia.
Qed.
Definition no_loose (s : string) : option item := None.
Definition no_wloose (s : string) : option witem := None.
Definition over1 := over text1 no_loose no_wloose (fun lt l => insertion lt l).
(** Two partitions, with ties. *)
Definition table1 : list srow :=
  [ {| r_args := [Some (VInt 10)]; r_part := [VStr "a"]; r_order := [(VInt 3, true)] |};
    {| r_args := [Some (VInt 20)]; r_part := [VStr "b"]; r_order := [(VInt 1, true)] |};
    {| r_args := [Some (VInt 30)]; r_part := [VStr "a"]; r_order := [(VInt 1, true)] |};
    {| r_args := [Some (VInt 40)]; r_part := [VStr "a"]; r_order := [(VInt 3, true)] |};
    {| r_args := [Some (VInt 50)]; r_part := [VStr "a"]; r_order := [(VInt 7, true)] |} ].
Lemma int_ordinary : forall z, ordinary text1 (VInt z).
Proof. intros z t T. cbn [text1] in T. assert (t = dec z) by congruence. subst t. apply dec_ordinary. Qed.
Lemma ordinary_ints : forall l, (forall v, In v l -> v = None \/ exists z, v = Some (VInt z)) -> forall v, In (Some v) l -> ordinary text1 v.
Proof. intros l H v V. destruct (H _ V) as [E|(z & E)]; [discriminate|]. assert (v = VInt z) by congruence. subst v. apply int_ordinary. Qed.
Lemma table1_sound : sound text1 [YStr] [(YInt, true)] table1.
Proof.
  assert (A : forall r, In r table1 -> ordinary_args text1 r).
  { intros r R. unfold ordinary_args. apply ordinary_ints. intros v V. right. cbn [table1 In] in R.
    repeat (destruct R as [R|R]; [subst r; cbn in V; destruct V as [V|[]]; rewrite <- V; eexists; reflexivity|]). contradiction. }
  split; [exact text1_prints|]. intros r R. split; [|split]; [| |now apply A]; cbn [table1 In] in R.
  - repeat (destruct R as [R|R]; [subst r; constructor; [split; [apply ascii_text_ok; repeat constructor|discriminate]|constructor]|]). contradiction.
  - repeat (destruct R as [R|R]; [subst r; constructor; [split; [reflexivity|reflexivity]|constructor]|]). contradiction.
Qed.

Section All.
  Variable text : val -> res string.
  Variable loose : string -> option item.
  Variable wloose : string -> option witem.
  Variable sort : (ent -> ent -> bool) -> list ent -> list ent.
  Hypothesis slices : sort_slice sort.
  Variable shp : list kty.
  Variable sho : list (kty * bool).
  Variable rows : list srow.
  Hypothesis so : sound text shp sho rows.
  Notation ov f sp i := (over text loose wloose sort f sp (map row_of rows) (Z.of_nat i + 1)).
  Notation ord := (order_at text sort rows).

  (** COUNT( * ), COUNT(x) and ARRAY_AGG(x) over a ROWS frame *)
  Lemma count_star_rows : forall s e i p fr, nth_error (ord i) p = Some i ->
    start_bound s -> end_bound e -> proper s e -> small rows s -> small rows e -> rows_frame s e (ord i) p fr ->
    ov w_count_star (rows_spec s e) i = Ok (Some (VInt (zlen fr))).
  Proof.
    intros s e i p fr N Hs He P Ss Se F.
    assert (D : forall l x, wdone w_count_star tt (opts (rows_spec s e)) l x = in_frame (Some (VInt 0)) l x (fun vs => Ok (Some (VInt (zlen vs))))) by reflexivity.
    rewrite (over_rows text loose wloose sort slices shp sho rows so w_count_star (rows_spec s e) s e tt _ i p fr _ _ eq_refl (feed_store1 _ rows) N Hs He P Ss Se F D eq_refl).
    unfold zlen. now rewrite map_length.
  Qed.
  Lemma count_rows : forall s e i p fr, (forall r, In r rows -> has_arg r) -> nth_error (ord i) p = Some i ->
    start_bound s -> end_bound e -> proper s e -> small rows s -> small rows e -> rows_frame s e (ord i) p fr ->
    ov (w_count text) (rows_spec s e) i = Ok (Some (VInt (zlen (not_null (map (arg_of rows) fr))))).
  Proof.
    intros s e i p fr A N Hs He P Ss Se F. unfold w_count.
    rewrite (over_rows0 text loose wloose sort slices shp sho rows so _ (rows_spec s e) s e i p fr _ _ A eq_refl N Hs He P Ss Se F (fun l x => eq_refl) eq_refl).
    cbn [opts rows_spec p_distinct a_distinct]. rewrite kept_all. reflexivity.
  Qed.
  Lemma array_agg_rows : forall s e i p fr, (forall r, In r rows -> has_arg r /\ hd None (r_args r) <> None) -> nth_error (ord i) p = Some i ->
    start_bound s -> end_bound e -> proper s e -> small rows s -> small rows e -> rows_frame s e (ord i) p fr ->
    ov (w_array_agg text) (rows_spec s e) i = Ok (Some (VArray (map (arg_of rows) fr))).
  Proof.
    intros s e i p fr A N Hs He P Ss Se F.
    assert (D : forall l x, wdone (w_array_agg text) tt (opts (rows_spec s e)) l x = in_frame (Some (VArray [])) l x (fun vs => bind (kept text false [] vs) (fun ks => Ok (Some (VArray (map Some ks)))))) by reflexivity.
    rewrite (over_rows text loose wloose sort slices shp sho rows so (w_array_agg text) (rows_spec s e) s e tt _ i p fr _ _ eq_refl (feed_array text rows A) N Hs He P Ss Se F D eq_refl).
    rewrite kept_all. cbn [bind]. rewrite (map_ext _ (arg_of rows)) by (intros j; now apply nth_hd). rewrite not_null_all; [reflexivity|].
    intros v V. apply in_map_iff in V. destruct V as (j & <- & J). apply (picks_in _ _ _ _ _ _ F) in J. unfold order_at in J. apply order_in in J; auto.
    unfold arg_of. apply A. apply nth_In. tauto.
  Qed.
End All.

(** ** C75 *)
(** One order of each partition explains the results of all these functions for all rows and
    all ROWS frames.  Missing: frames that end more than one row before they start, offsets
    near 2^63 (both refuted below), and the functions not named. *)
Theorem c75_rows_frame_partial : forall text loose wloose sort shp sho rows, sort_slice sort -> sound text shp sho rows ->
  exists ord, arrangement rows ord /\
  forall s e i p fr, start_bound s -> end_bound e -> proper s e -> small rows s -> small rows e ->
    nth_error (ord i) p = Some i -> rows_frame s e (ord i) p fr ->
    over text loose wloose sort w_count_star (rows_spec s e) (map row_of rows) (Z.of_nat i + 1) = Ok (Some (VInt (zlen fr))) /\
    ((forall r, In r rows -> has_arg r) ->
     over text loose wloose sort (w_count text) (rows_spec s e) (map row_of rows) (Z.of_nat i + 1) = Ok (Some (VInt (zlen (not_null (map (arg_of rows) fr)))))) /\
    ((forall r, In r rows -> has_arg r /\ hd None (r_args r) <> None) ->
     over text loose wloose sort (w_array_agg text) (rows_spec s e) (map row_of rows) (Z.of_nat i + 1) = Ok (Some (VArray (map (arg_of rows) fr)))).
Proof.
  intros text loose wloose sort shp sho rows Sl So. exists (order_at text sort rows). split; [now apply (ord_arrangement text sort Sl shp sho)|].
  intros s e i p fr Hs He P Ss Se N F. split; [|split; intros A].
  - now apply (count_star_rows text loose wloose sort Sl shp sho rows So s e i p).
  - now apply (count_rows text loose wloose sort Sl shp sho rows So s e i p).
  - now apply (array_agg_rows text loose wloose sort Sl shp sho rows So s e i p).
Qed.
(** x PRECEDING AND y PRECEDING with y > x + 1 is an empty frame; the process crashes for
    every row that has y rows before it. *)
Theorem c75_inverted_frame_refuted : forall text loose wloose sort shp sho rows, sort_slice sort -> sound text shp sho rows ->
  exists ord, arrangement rows ord /\
  forall x y i p, 0 <= x -> x + 1 < y -> y < two63 -> zlen rows < two63 -> nth_error (ord i) p = Some i -> y <= Z.of_nat p ->
    rows_frame (the_bound OffsetPreceding x) (the_bound OffsetPreceding y) (ord i) p [] /\
    over text loose wloose sort w_count_star (rows_spec (the_bound OffsetPreceding x) (the_bound OffsetPreceding y)) (map row_of rows) (Z.of_nat i + 1) = GoPanic.
Proof.
  intros text loose wloose sort shp sho rows Sl So. exists (order_at text sort rows). split; [now apply (ord_arrangement text sort Sl shp sho)|].
  intros x y i p X XY Y B N Py. split.
  - unfold rows_frame. generalize (order_at text sort rows i), 0%nat. induction l as [|a l IH]; intros k; [constructor|]. constructor 3; [|apply IH].
    cbn. lia.
  - pose proof (ord_lt text sort Sl rows i p N) as L. pose proof (ord_pos text sort Sl rows i p N) as [Lp Ln].
    rewrite (over_sound text loose wloose sort Sl shp sho rows So w_count_star _ tt _ i (feed_store1 _ rows) L). cbn [frame_of rows_spec p_frame fst snd bound_index].
    pose proof (cur_index_at text sort Sl rows (map (fun _ => Some (VInt 1)) rows) i p N) as C.
    unfold rows_index. cbn [the_bound b_kind b_off]. rewrite C. cbn [bind]. rewrite !wrap64_id by (unfold in64, two63 in *; lia).
    unfold clamp. destruct (Z.leb_spec (zlen (order_at text sort rows i)) (Z.of_nat p - x)); [lia|]. destruct (Z.ltb_spec (Z.of_nat p - y) 0); [lia|].
    cbn [orb]. destruct (Z.ltb_spec (Z.of_nat p - x) 0); [lia|]. destruct (Z.leb_spec (zlen (order_at text sort rows i)) (Z.of_nat p - y)); [lia|].
    cbn [wdone w_count_star simple in_frame]. unfold slice. destruct (Z.ltb_spec (Z.of_nat p - y + 1) (Z.of_nat p - x)); [reflexivity|lia].
Qed.
(** CURRENT ROW AND n FOLLOWING with n near 2^63: the sum overflows and the frame is empty,
    though the row itself is in it. *)
Theorem c75_far_end_refuted : forall text loose wloose sort shp sho rows, sort_slice sort -> sound text shp sho rows ->
  exists ord, arrangement rows ord /\
  forall n i p fr, 0 <= n < two63 -> zlen rows < two63 -> nth_error (ord i) p = Some i -> two63 <= Z.of_nat p + n ->
    rows_frame (the_bound CurrentRow 0) (the_bound OffsetFollowing n) (ord i) p fr ->
    In i fr /\
    over text loose wloose sort w_count_star (rows_spec (the_bound CurrentRow 0) (the_bound OffsetFollowing n)) (map row_of rows) (Z.of_nat i + 1) = Ok (Some (VInt 0)).
Proof.
  intros text loose wloose sort shp sho rows Sl So. exists (order_at text sort rows). split; [now apply (ord_arrangement text sort Sl shp sho)|].
  intros n i p fr X B N Py F. split.
  - unfold rows_frame in F.
    assert (G : forall l k o q, picks (fun j => from_start (the_bound CurrentRow 0) (Z.of_nat j - Z.of_nat p) /\ to_end (the_bound OffsetFollowing n) (Z.of_nat j - Z.of_nat p)) k l o -> (k + q)%nat = p -> nth_error l q = Some i -> In i o).
    { clear - X. intros l k o q H. revert q. induction H as [k|k x l o Px H IH|k x l o Px H IH]; intros q Q E; [now destruct q| |].
      - destruct q as [|q]; [left; cbn in E; congruence|]. right. apply (IH q); [lia|exact E].
      - destruct q as [|q]; [exfalso; apply Px; cbn; lia|]. apply (IH q); [lia|exact E]. }
    now apply (G _ _ _ p F).
  - pose proof (ord_lt text sort Sl rows i p N) as L. pose proof (ord_pos text sort Sl rows i p N) as [Lp Ln].
    rewrite (over_sound text loose wloose sort Sl shp sho rows So w_count_star _ tt _ i (feed_store1 _ rows) L). cbn [frame_of rows_spec p_frame fst snd bound_index].
    pose proof (cur_index_at text sort Sl rows (map (fun _ => Some (VInt 1)) rows) i p N) as C.
    unfold rows_index. cbn [the_bound b_kind b_off]. rewrite C. cbn [bind].
    replace (wrap64 (Z.of_nat p + n)) with (Z.of_nat p + n - two64).
    2:{ symmetry. rewrite <- (wrap64_add_two64 _ (-1)). rewrite wrap64_id; unfold in64, two63, two64 in *; lia. }
    unfold clamp. destruct (Z.leb_spec (zlen (order_at text sort rows i)) (Z.of_nat p)); [lia|]. destruct (Z.ltb_spec (Z.of_nat p + n - two64) 0) as [|K]; [reflexivity|].
    unfold two63, two64 in *. lia.
Qed.
Example c75_frame_example : over1 (w_array_agg text1) (rows_spec (the_bound OffsetPreceding 1) (the_bound CurrentRow 0)) (map row_of table1) 4 = Ok (Some (VArray [Some (VInt 10); Some (VInt 40)])).
Proof. reflexivity. Qed.
Example c75_inverted_example : over1 w_count_star (rows_spec (the_bound OffsetPreceding 0) (the_bound OffsetPreceding 2)) (map row_of table1) 5 = GoPanic.
Proof. reflexivity. Qed.
Example c75_far_example : over1 w_count_star (rows_spec (the_bound CurrentRow 0) (the_bound OffsetFollowing (two63 - 1))) (map row_of table1) 5 = Ok (Some (VInt 0)).
Proof. reflexivity. Qed.

(** ** C112 *)
Theorem c112_frame_around : forall text loose wloose sort shp sho rows, sort_slice sort -> sound text shp sho rows ->
  exists ord, arrangement rows ord /\
  forall s e i p fr, start_bound s -> end_bound e -> around s e -> small rows s -> small rows e ->
    nth_error (ord i) p = Some i -> rows_frame s e (ord i) p fr ->
    over text loose wloose sort w_count_star (rows_spec s e) (map row_of rows) (Z.of_nat i + 1) = Ok (Some (VInt (zlen fr))) /\
    ((forall r, In r rows -> has_arg r) ->
     over text loose wloose sort (w_count text) (rows_spec s e) (map row_of rows) (Z.of_nat i + 1) = Ok (Some (VInt (zlen (not_null (map (arg_of rows) fr)))))) /\
    ((forall r, In r rows -> has_arg r /\ hd None (r_args r) <> None) ->
     over text loose wloose sort (w_array_agg text) (rows_spec s e) (map row_of rows) (Z.of_nat i + 1) = Ok (Some (VArray (map (arg_of rows) fr)))).
Proof.
  intros text loose wloose sort shp sho rows Sl So. destruct (c75_rows_frame_partial text loose wloose sort shp sho rows Sl So) as (ord & A & H).
  exists ord. split; [exact A|]. intros s e i p fr Hs He Ar Ss Se N F. apply (H s e i p fr); auto.
  unfold proper. destruct Ar as [[K | [K | K]] [J | [J | J]]]; rewrite K; try rewrite J; exact I.
Qed.
Example c112_example : around (the_bound OffsetPreceding 1) (the_bound OffsetFollowing 1) /\
  over1 (w_array_agg text1) (rows_spec (the_bound OffsetPreceding 1) (the_bound OffsetFollowing 1)) (map row_of table1) 4 = Ok (Some (VArray [Some (VInt 10); Some (VInt 40); Some (VInt 50)])).
Proof. split; [split; auto|reflexivity]. Qed.

(** ** C76 *)
Lemma single_earlier : forall text shp ty dir rows i j, sound text shp [(ty, dir)] rows -> (i < List.length rows)%nat -> (j < List.length rows)%nat ->
  (earlier rows i j <-> if dir then before (lastk rows i) (lastk rows j) else before (lastk rows j) (lastk rows i)).
Proof.
  intros text shp ty dir rows i j [_ S] Li Lj. unfold earlier, lastk.
  destruct (S _ (at_in rows i Li)) as (_ & Oi & _). destruct (S _ (at_in rows j Lj)) as (_ & Oj & _).
  inversion Oi as [|? [a da] ? ? [_ Di] Ri E1 E2]; inversion Oj as [|? [b db] ? ? [_ Dj] Rj E3 E4]; subst. inversion Ri; inversion Rj; subst. cbn [fst snd last] in *. subst.
  split; [|intros H; now constructor]. intros H. inversion H as [? ? ? ? ? ? A|? ? ? ? ? ? A B]; subst; [exact A|inversion B].
Qed.
Section Range.
  Variable text : val -> res string.
  Variable loose : string -> option item.
  Variable wloose : string -> option witem.
  Variable sort : (ent -> ent -> bool) -> list ent -> list ent.
  Hypothesis slices : sort_slice sort.
  Variable shp : list kty.
  Variable ty : kty.
  Variable rows : list srow.
  Notation ord := (order_at text sort rows).
  Notation ov f sp i := (over text loose wloose sort f sp (map row_of rows) (Z.of_nat i + 1)).
  (** Ascending: the rows that pass are those not later, and they come first. *)
  Lemma asc_split : forall i, sound text shp [(ty, true)] rows -> (i < List.length rows)%nat ->
    exists l1 x l2, ord i = (l1 ++ x :: l2)%list /\ atmost rows i x = true /\ (forall y, In y l2 -> atmost rows i y = false) /\
      keeps (fun j => ~ earlier rows i j) (ord i) (l1 ++ [x]) /\ keeps (earlier rows i) (ord i) l2 /\ (In i l1 \/ x = i).
  Proof.
    intros i So L. destruct (order_arranged text sort slices shp [(ty, true)] rows So i L) as (Nd & Mem & Srt).
    assert (Lt : forall j, In j (ord i) -> (j < List.length rows)%nat) by (intros j J; now apply Mem).
    assert (Sp : forall j, In j (ord i) -> (atmost rows i j = true <-> ~ earlier rows i j)).
    { intros j J. rewrite (single_earlier text shp ty true rows i j So L (Lt j J)). apply (atmost_spec text shp [] ty true rows So); auto. }
    destruct (prefix_split _ _ (atmost rows i) _ Srt) as (l1 & l2 & E & H1 & H2).
    { intros x y X Y R Cy. apply Sp; auto. apply Sp in Cy; auto. intros Ex. apply Cy.
      rewrite (single_earlier text shp ty true rows) in * by (auto; apply So). 
      pose proof (Lt x X) as Lx. pose proof (Lt y Y) as Ly.
      destruct (lastk_key text shp [] ty true rows So x Lx) as [Kx _]. destruct (lastk_key text shp [] ty true rows So y Ly) as [Ky _].
      assert (R' : ~ before (lastk rows y) (lastk rows x)) by (intros Q; apply R; now apply (single_earlier text shp ty true rows y x So Ly Lx)).
      destruct (trichotomy _ _ (of_kty_comparable ty _ _ Kx Ky)) as [T|[T|T]]; [now apply (before_trans _ (lastk rows x))|now apply (before_alike _ (lastk rows x))|contradiction]. }
    assert (Ii : In i l1).
    { assert (I : In i (ord i)) by (now apply Mem). rewrite E in I. apply in_app_or in I. destruct I as [I|I]; [exact I|].
      assert (K : atmost rows i i = true) by (apply Sp; [now apply Mem|]; intros Q; now apply keys_before_irrefl in Q). rewrite (H2 i I) in K. discriminate. }
    destruct l1 as [|z0 z1]; [contradiction|]. destruct (exists_last (l := z0 :: z1) ltac:(discriminate)) as (l1 & x & E1). rewrite E1 in *. clear E1 z0 z1.
    exists l1, x, l2. rewrite E, <- app_assoc. repeat split.
    - apply H1. apply in_or_app. right. now left.
    - exact H2.
    - change (l1 ++ x :: l2)%list with (l1 ++ [x] ++ l2)%list. rewrite app_assoc. rewrite <- (app_nil_r (l1 ++ [x])) at 2. apply keeps_app.
      + apply keeps_all. intros y Y. apply Sp; [rewrite E; apply in_or_app; now left|now apply H1].
      + apply keeps_none. intros y Y Q. apply Sp in Q; [rewrite (H2 y Y) in Q; discriminate|rewrite E; apply in_or_app; now right].
    - change (l1 ++ x :: l2)%list with (l1 ++ [x] ++ l2)%list. rewrite app_assoc. rewrite <- (app_nil_l l2) at 2. apply keeps_app.
      + apply keeps_none. intros y Y Q. assert (K : ~ earlier rows i y) by (apply Sp; [rewrite E; apply in_or_app; now left|now apply H1]). contradiction.
      + apply keeps_all. intros y Y. assert (Iy : In y (ord i)) by (rewrite E; apply in_or_app; now right).
        destruct (single_earlier text shp ty true rows i y So L (Lt y Iy)) as [_ G]. apply G.
        destruct (atmost_spec text shp [] ty true rows So i y L (Lt y Iy)) as [_ A]. rewrite (H2 y Y) in A.
        destruct (lastk_key text shp [] ty true rows So i L) as [Ki _]. destruct (lastk_key text shp [] ty true rows So y (Lt y Iy)) as [Ky _].
        destruct (trichotomy _ _ (of_kty_comparable ty _ _ Ki Ky)) as [T|[T|T]]; [exact T| |].
        * exfalso. assert (false = true) by (apply A; intros Q; now apply (before_not_alike _ _ Q)). discriminate.
        * exfalso. assert (false = true) by (apply A; intros Q; now apply (before_irrefl (lastk rows i)), (before_trans _ (lastk rows y))). discriminate.
    - apply in_app_or in Ii. destruct Ii as [I|[I|[]]]; auto.
  Qed.
End Range.

(** With one ascending key the frame that applies when none is written is right.  Missing:
    descending keys, frames that start at the current row, several keys (all refuted below),
    and frames with offsets. *)
Theorem c76_default_frame_partial : forall text loose wloose sort shp ty rows, sort_slice sort -> sound text shp [(ty, true)] rows ->
  exists ord, arrangement rows ord /\
  forall i fr, (i < List.length rows)%nat -> keeps (fun j => ~ earlier rows i j) (ord i) fr ->
    over text loose wloose sort w_count_star default_frame (map row_of rows) (Z.of_nat i + 1) = Ok (Some (VInt (zlen fr))) /\
    ((forall r, In r rows -> has_arg r) ->
     over text loose wloose sort (w_count text) default_frame (map row_of rows) (Z.of_nat i + 1) = Ok (Some (VInt (zlen (not_null (map (arg_of rows) fr)))))) /\
    ((forall r, In r rows -> has_arg r /\ hd None (r_args r) <> None) ->
     over text loose wloose sort (w_array_agg text) default_frame (map row_of rows) (Z.of_nat i + 1) = Ok (Some (VArray (map (arg_of rows) fr)))).
Proof.
  intros text loose wloose sort shp ty rows Sl So. exists (order_at text sort rows). split; [now apply (ord_arrangement text sort Sl shp [(ty, true)])|].
  intros i fr L F. destruct (asc_split text sort Sl shp ty rows i So L) as (l1 & x & l2 & E & X & Y & K & _ & _).
  pose proof (keeps_unique _ _ _ _ _ F K) as ->. clear F.
  split; [|split; intros A].
  - rewrite (over_default text loose wloose sort Sl shp [] ty true rows So w_count_star tt _ i l1 x l2 (Some (VInt 0)) (fun vs => Ok (Some (VInt (zlen vs)))) (feed_store1 _ rows) L E X Y (fun _ _ => eq_refl) eq_refl).
    unfold zlen. now rewrite map_length.
  - rewrite (over_default text loose wloose sort Sl shp [] ty true rows So (w_count text) tt _ i l1 x l2 (Some (VInt 0)) (fun vs => bind (kept text false [] vs) (fun ks => Ok (Some (VInt (zlen ks))))) (feed_store0 _ rows A) L E X Y (fun _ _ => eq_refl) eq_refl).
    rewrite kept_all. cbn [bind]. now rewrite (map_ext _ (arg_of rows)) by (intros j; now apply nth_hd).
  - rewrite (over_default text loose wloose sort Sl shp [] ty true rows So (w_array_agg text) tt _ i l1 x l2 (Some (VArray [])) (fun vs => bind (kept text false [] vs) (fun ks => Ok (Some (VArray (map Some ks))))) (feed_array text rows A) L E X Y (fun _ _ => eq_refl) eq_refl).
    rewrite kept_all. cbn [bind]. rewrite (map_ext _ (arg_of rows)) by (intros j; now apply nth_hd). rewrite not_null_all; [reflexivity|].
    intros v V. apply in_map_iff in V. destruct V as (j & <- & J). assert (J' : In j (order_at text sort rows i)) by (apply (keeps_in _ _ _ _ j K) in J; tauto).
    unfold order_at in J'. apply order_in in J'; auto. unfold arg_of. apply A. apply nth_In. tauto.
Qed.
(** With a descending key that frame is always the whole partition. *)
Theorem c76_descending_refuted : forall text loose wloose sort shp ty rows, sort_slice sort -> sound text shp [(ty, false)] rows ->
  exists ord, arrangement rows ord /\
  forall i, (i < List.length rows)%nat ->
    over text loose wloose sort w_count_star default_frame (map row_of rows) (Z.of_nat i + 1) = Ok (Some (VInt (zlen (ord i)))) /\
    (forall j fr, In j (ord i) -> earlier rows i j -> keeps (fun j => ~ earlier rows i j) (ord i) fr -> (List.length fr < List.length (ord i))%nat).
Proof.
  intros text loose wloose sort shp ty rows Sl So. exists (order_at text sort rows). split; [now apply (ord_arrangement text sort Sl shp [(ty, false)])|].
  intros i L. destruct (order_arranged text sort Sl shp [(ty, false)] rows So i L) as (Nd & Mem & Srt). split.
  - destruct (order_at text sort rows i) as [|z0 z1] eqn:Eo; [exfalso; assert (I : In i []) by (now apply Mem); destruct I|].
    destruct (exists_last (l := z0 :: z1) ltac:(discriminate)) as (l1 & x & E1). rewrite E1 in *. clear E1 z0 z1.
    assert (Lx : (x < List.length rows)%nat) by (apply Mem, in_or_app; right; now left).
    assert (X : atmost rows i x = true).
    { apply (atmost_spec text shp [] ty false rows So); auto. intros Q.
      assert (I : In i (l1 ++ [x])) by (now apply Mem). apply in_app_or in I. destruct I as [I|[I|[]]].
      - apply SS_snoc in Srt. destruct Srt as [_ H]. apply (H i I). now apply (single_earlier text shp ty false rows x i So Lx L).
      - subst x. now apply before_irrefl in Q. }
    rewrite (over_default text loose wloose sort Sl shp [] ty false rows So w_count_star tt _ i l1 x [] (Some (VInt 0)) (fun vs => Ok (Some (VInt (zlen vs)))) (feed_store1 _ rows) L Eo X ltac:(intros ? []) (fun _ _ => eq_refl) eq_refl).
    unfold zlen. now rewrite map_length.
  - intros j fr J Ej K. clear - J Ej K. revert J. induction K as [|x l o Px K IH|x l o Px K IH]; intros J; [destruct J| |].
    + destruct J as [->|J]; [contradiction|]. cbn [List.length]. specialize (IH J). lia.
    + assert (G : forall l o, keeps (fun j => ~ earlier rows i j) l o -> (List.length o <= List.length l)%nat) by (clear; intros l o H; induction H; cbn [List.length]; lia).
      pose proof (G _ _ K). cbn [List.length]. lia.
Qed.
Lemma nodup_tail : forall A (l m : list A), NoDup (l ++ m) -> NoDup m.
Proof. intros A. induction l as [|x l IH]; intros m H; [exact H|]. cbn [app] in H. inversion H; auto. Qed.
(** RANGE BETWEEN CURRENT ROW AND UNBOUNDED FOLLOWING starts at the last of the rows with the
    same key: the others are left out, often the current row itself. *)
Theorem c76_peers_left_out_refuted : forall text loose wloose sort shp ty rows, sort_slice sort -> sound text shp [(ty, true)] rows ->
  exists ord, arrangement rows ord /\
  forall i later fr, (i < List.length rows)%nat -> keeps (earlier rows i) (ord i) later -> keeps (fun j => ~ earlier rows j i) (ord i) fr ->
    over text loose wloose sort w_count_star from_here (map row_of rows) (Z.of_nat i + 1) = Ok (Some (VInt (1 + zlen later))) /\
    (forall j, In j (ord i) -> j <> i -> peers rows i j -> 1 + zlen later < zlen fr).
Proof.
  intros text loose wloose sort shp ty rows Sl So. exists (order_at text sort rows). split; [now apply (ord_arrangement text sort Sl shp [(ty, true)])|].
  intros i later fr L Kl Kf. destruct (asc_split text sort Sl shp ty rows i So L) as (l1 & x & l2 & E & X & Y & _ & K & _).
  pose proof (keeps_unique _ _ _ _ _ Kl K) as ->. split.
  - rewrite (over_from_here text loose wloose sort Sl shp [] ty true rows So w_count_star tt _ i l1 x l2 (Some (VInt 0)) (fun vs => Ok (Some (VInt (zlen vs)))) (feed_store1 _ rows) L E X Y (fun _ _ => eq_refl) eq_refl).
    unfold zlen. rewrite map_length. cbn [List.length]. do 3 f_equal. lia.
  - intros j J Ne [P1 P2]. destruct (order_arranged text sort Sl shp [(ty, true)] rows So i L) as (Nd & Mem & _).
    assert (Nl : NoDup (i :: j :: l2)).
    { assert (N2 : NoDup l2) by (rewrite E in Nd; apply nodup_tail in Nd; inversion Nd; auto).
      constructor; [|constructor; auto].
      - intros [H|H]; [congruence|]. apply (keeps_in _ _ _ _ i K) in H. destruct H as [_ H]. now apply keys_before_irrefl in H.
      - intros H. apply (keeps_in _ _ _ _ j K) in H. tauto. }
    assert (In2 : incl (i :: j :: l2) fr).
    { intros y Iy. apply (keeps_in _ _ _ _ y Kf). destruct Iy as [<-|[<-|Iy]].
      - split; [now apply Mem|]. intros H. now apply keys_before_irrefl in H.
      - tauto.
      - apply (keeps_in _ _ _ _ y K) in Iy. destruct Iy as [Iy Ey]. split; [exact Iy|]. intros Q.
        assert (Ly : (y < List.length rows)%nat) by now apply Mem.
        apply (single_earlier text shp ty true rows i y So L Ly) in Ey. apply (single_earlier text shp ty true rows y i So Ly L) in Q.
        now apply (before_irrefl (lastk rows i)), (before_trans _ (lastk rows y)). }
    pose proof (NoDup_incl_length Nl In2) as H. unfold zlen. cbn [List.length] in H. lia.
Qed.
(** With several keys only the last is looked at: where the last key of the row is not below
    that of any other, the frame is the whole partition whatever the first keys say. *)
Theorem c76_only_last_key_refuted : forall text loose wloose sort shp sho ty dir rows, sort_slice sort -> sound text shp (sho ++ [(ty, dir)])%list rows ->
  exists ord, arrangement rows ord /\
  forall i, (i < List.length rows)%nat -> (forall j, In j (ord i) -> ~ before (fst (last (r_order (at_row rows i)) (VInt 0, true))) (fst (last (r_order (at_row rows j)) (VInt 0, true)))) ->
    over text loose wloose sort w_count_star default_frame (map row_of rows) (Z.of_nat i + 1) = Ok (Some (VInt (zlen (ord i)))).
Proof.
  intros text loose wloose sort shp sho ty dir rows Sl So. exists (order_at text sort rows). split; [now apply (ord_arrangement text sort Sl shp (sho ++ [(ty, dir)]))|].
  intros i L H. destruct (order_arranged text sort Sl shp _ rows So i L) as (Nd & Mem & Srt).
  destruct (order_at text sort rows i) as [|z0 z1] eqn:Eo; [exfalso; assert (I : In i []) by (now apply Mem); destruct I|].
  destruct (exists_last (l := z0 :: z1) ltac:(discriminate)) as (l1 & x & E1). rewrite E1 in *. clear E1 z0 z1.
  assert (Ix : In x (l1 ++ [x])%list) by (apply in_or_app; right; now left).
  assert (X : atmost rows i x = true) by (apply (atmost_spec text shp sho ty dir rows So); auto; [now apply Mem|now apply H]).
  rewrite (over_default text loose wloose sort Sl shp sho ty dir rows So w_count_star tt _ i l1 x [] (Some (VInt 0)) (fun vs => Ok (Some (VInt (zlen vs)))) (feed_store1 _ rows) L Eo X ltac:(intros ? []) (fun _ _ => eq_refl) eq_refl).
  unfold zlen. now rewrite map_length.
Qed.
(** A NULL key crashes the process. *)
Theorem c76_null_key_refuted : forall text loose wloose sort asc, (forall x, sort wless [x] = [x]) ->
  over text loose wloose sort w_count_star default_frame [{| t_args := []; t_part := []; t_order := [(None, asc)] |}] 1 = GoPanic.
Proof. intros text loose wloose sort asc S. unfold over, wcall. cbn. rewrite S. reflexivity. Qed.
Definition descending1 : list srow :=
  [ {| r_args := [Some (VInt 10)]; r_part := []; r_order := [(VInt 1, false)] |};
    {| r_args := [Some (VInt 20)]; r_part := []; r_order := [(VInt 2, false)] |} ].
Example c76_default_example : over1 (w_array_agg text1) default_frame (map row_of table1) 1 = Ok (Some (VArray [Some (VInt 30); Some (VInt 10); Some (VInt 40)])).
Proof. reflexivity. Qed.
Example c76_descending_example : over1 (w_array_agg text1) default_frame (map row_of descending1) 2 = Ok (Some (VArray [Some (VInt 20); Some (VInt 10)])).
Proof. reflexivity. Qed.
Example c76_peers_example : over1 (w_array_agg text1) from_here (map row_of table1) 1 = Ok (Some (VArray [Some (VInt 40); Some (VInt 50)])).
Proof. reflexivity. Qed.
Definition two_keys1 : list srow :=
  [ {| r_args := [Some (VInt 10)]; r_part := []; r_order := [(VInt 1, true); (VInt 5, true)] |};
    {| r_args := [Some (VInt 20)]; r_part := []; r_order := [(VInt 2, true); (VInt 3, true)] |} ].
Example c76_two_keys_example : over1 (w_array_agg text1) default_frame (map row_of two_keys1) 1 = Ok (Some (VArray [Some (VInt 10); Some (VInt 20)])).
Proof. reflexivity. Qed.

(** ** C77 *)
Definition plain_fns (text : val -> res string) : list wfn :=
  [ w_count_star; w_rank; w_dense_rank; w_percent_rank; w_cume_dist; w_row_number;
    w_any_value; w_avg text; w_count text; w_countif text; w_max text; w_min text; w_sum text; w_first_value; w_last_value ].
(** The result for a row is the one for the rows of its partition alone.  Missing: the keys
    for which the opposite is proved below, and functions with more arguments. *)
Theorem c77_partition_alone_partial : forall text loose wloose sort shp sho rows f sp i mine before_i,
  sort_slice sort -> sound text shp sho rows -> (forall r, In r rows -> has_arg r) -> In f (plain_fns text) -> (i < List.length rows)%nat ->
  keeps (fun r => r_part r = r_part (at_row rows i)) rows mine ->
  keeps (fun r => r_part r = r_part (at_row rows i)) (firstn i rows) before_i ->
  over text loose wloose sort f sp (map row_of rows) (Z.of_nat i + 1) = over text loose wloose sort f sp (map row_of mine) (zlen before_i + 1).
Proof.
  intros text loose wloose sort shp sho rows f sp i mine before_i Sl So A F L Km Kb.
  rewrite (mine_kept text shp sho rows So i L mine Km). pose proof (pre_kept text shp sho rows So i L before_i Kb) as Nk. unfold zlen.
  set (mem := members text rows (ptext text (at_row rows i))) in *.
  assert (Vo : forall h : srow -> option val, h row0 = None -> vals_of text rows i (map h rows) = map h (map (at_row rows) mem)).
  { intros h H0. unfold vals_of. fold mem. rewrite map_map. apply map_ext. intros j. now apply nth_hd. }
  assert (Am : forall r, In r (map (at_row rows) mem) -> has_arg r).
  { intros r R. apply A. apply in_map_iff in R. destruct R as (j & <- & J). pose proof (proj1 (mem_in text rows i L j) J). apply nth_In. tauto. }
  assert (S0 : forall d, blind d -> over text loose wloose sort (simple store0 d) sp (map row_of rows) (Z.of_nat i + 1) = over text loose wloose sort (simple store0 d) sp (map row_of (map (at_row rows) mem)) (Z.of_nat (List.length before_i) + 1)).
  { intros d B. apply (over_alone text loose wloose sort Sl shp sho rows So i L (simple store0 d) sp tt (map (fun r => hd None (r_args r)) rows)); auto.
    - now apply feed_store0.
    - rewrite Vo by reflexivity. now apply feed_store0. }
  assert (S1 : forall d, blind d -> over text loose wloose sort (simple store1 d) sp (map row_of rows) (Z.of_nat i + 1) = over text loose wloose sort (simple store1 d) sp (map row_of (map (at_row rows) mem)) (Z.of_nat (List.length before_i) + 1)).
  { intros d B. apply (over_alone text loose wloose sort Sl shp sho rows So i L (simple store1 d) sp tt (map (fun _ => Some (VInt 1)) rows)); auto.
    - apply feed_store1.
    - replace (vals_of text rows i (map (fun _ => Some (VInt 1)) rows)) with (map (fun _ : srow => Some (VInt 1)) (map (at_row rows) mem)); [apply feed_store1|]. unfold vals_of. fold mem. rewrite map_map. apply map_ext_in. intros j J. pose proof (proj1 (mem_in text rows i L j) J).
      symmetry. rewrite (nth_indep _ _ (Some (VInt 1))) by (rewrite map_length; tauto). apply (map_nth (fun _ => Some (VInt 1)) rows row0 j). }
  unfold plain_fns in F. cbn [In] in F.
  repeat (destruct F as [F|F]; [subst f; first [apply S1|apply S0]|]); try contradiction; try apply (blind_in_frame _ (fun a vs => _)).
  all: intros a l l' fr K V; try rewrite (blind_rank_done _ l l' fr K); rewrite ?(map_same_length _ _ _ _ _ _ _ K); unfold vals; rewrite ?V; reflexivity.
Qed.
Example c77_example : over1 w_count_star (rows_spec (the_bound UnboundedPreceding 0) (the_bound UnboundedFollowing 0)) (map row_of table1) 4 = Ok (Some (VInt 4)).
Proof. reflexivity. Qed.
Definition whole_frame : spec := rows_spec (the_bound UnboundedPreceding 0) (the_bound UnboundedFollowing 0).
Lemma two_rows_collide : forall text loose wloose sort r1 r2, sort_slice sort -> good text r1 -> good text r2 -> ptext text r1 = ptext text r2 ->
  over text loose wloose sort w_count_star whole_frame (map row_of [r1; r2]) 1 = Ok (Some (VInt 2)).
Proof.
  intros text loose wloose sort r1 r2 Sl G1 G2 E. set (rows := [r1; r2]).
  assert (G : forall r, In r rows -> good text r) by (intros r [<-|[<-|[]]]; assumption).
  assert (P : parted text rows).
  { destruct (ptext text r1) eqn:P1; [right|left]; intros r [<-|[<-|[]]]; congruence. }
  pose proof (over_core text loose wloose sort Sl w_count_star whole_frame rows tt _ 0 G P (feed_store1 _ rows) ltac:(cbn; lia)) as H.
  cbn zeta in H. change (Z.of_nat 0 + 1) with 1 in H. rewrite H. clear H.
  assert (M : members text rows (ptext text (at_row rows 0)) = [0; 1]%nat).
  { unfold members. cbn [List.length rows seq filter]. change (at_row rows 0) with r1. change (at_row rows 1) with r2. rewrite <- E.
    assert (B : part_eqb (ptext text r1) (ptext text r1) = true) by now apply part_eqb_eq. now rewrite B. }
  pose proof (order_perm text sort Sl rows (ptext text (at_row rows 0))) as Pm. rewrite M in Pm. apply Permutation_length in Pm.
  destruct (order_of text sort rows (ptext text (at_row rows 0))) as [|a [|b [|c l]]]; cbn in Pm; try discriminate. reflexivity.
Qed.
Lemma good_strings : forall text (ss : list string), prints text -> (forall s, In s ss -> text_ok s) -> ss <> [] ->
  good text {| r_args := []; r_part := map VStr ss; r_order := [] |} /\ ptext text {| r_args := []; r_part := map VStr ss; r_order := [] |} = Some (join "_" ss).
Proof.
  intros text ss (P1 & _ & _) H N.
  assert (R : map recv (map VStr ss) = map VStr ss).
  { rewrite map_map. apply map_ext_in. intros s S. apply recv_str. auto. }
  assert (T : forall l, part_texts text (map VStr l) = Ok l).
  { induction l as [|s l IH]; [reflexivity|]. cbn [map part_texts]. rewrite P1. cbn [bind]. now rewrite IH. }
  assert (Pt : partition text (map recv (map VStr ss)) = Ok (Some (join "_" ss))).
  { rewrite R. destruct ss as [|s ss]; [congruence|]. unfold partition. cbn [map]. change (VStr s :: map VStr ss) with (map VStr (s :: ss)). now rewrite T. }
  assert (E : ptext text {| r_args := []; r_part := map VStr ss; r_order := [] |} = Some (join "_" ss)) by (unfold ptext, ptext_of; cbn [r_part]; now rewrite Pt).
  split; [|exact E]. split; [intros v []|]. split; [|split].
  - intros v V. cbn [r_part] in V. apply in_map_iff in V. destruct V as (s & <- & S). apply (recv_ok YStr). cbn. auto.
  - intros k [].
  - rewrite E. exact Pt.
Qed.
(** Keys are put together with underscores: (a_b, c) and (a, b_c) are one partition. *)
Theorem c77_underscore_refuted : forall text loose wloose sort a b c, sort_slice sort -> prints text ->
  text_ok (a ++ "_" ++ b) -> text_ok c -> text_ok a -> text_ok (b ++ "_" ++ c) ->
  let r1 := {| r_args := []; r_part := [VStr (a ++ "_" ++ b); VStr c]; r_order := [] |} in
  let r2 := {| r_args := []; r_part := [VStr a; VStr (b ++ "_" ++ c)]; r_order := [] |} in
  r_part r1 <> r_part r2 /\ over text loose wloose sort w_count_star whole_frame (map row_of [r1; r2]) 1 = Ok (Some (VInt 2)).
Proof.
  intros text loose wloose sort a b c Sl P A C A' C' r1 r2. split.
  - intros E. assert (K : (a ++ "_" ++ b)%string = a) by (unfold r1, r2 in E; cbn [r_part] in E; congruence).
    clear - K. induction a as [|x a IH]; [discriminate|]. apply IH. cbn [append] in *. congruence.
  - destruct (good_strings text [a ++ "_" ++ b; c]%string P) as [G1 E1]; [intros s [<-|[<-|[]]]; assumption|discriminate|].
    destruct (good_strings text [a; b ++ "_" ++ c]%string P) as [G2 E2]; [intros s [<-|[<-|[]]]; assumption|discriminate|].
    apply two_rows_collide; auto. cbn [map] in E1, E2. unfold r1, r2. rewrite E1, E2. f_equal. cbn [join]. now rewrite <- !string_app_assoc.
Qed.
(** INT64 keys travel as float64: from 2^53 on different keys can be one partition. *)
Theorem c77_large_keys_refuted : forall text loose wloose sort a b t, sort_slice sort -> float_of_int a = float_of_int b -> text (VFloat (float_of_int a)) = Ok t ->
  over text loose wloose sort w_count_star whole_frame (map row_of [{| r_args := []; r_part := [VInt a]; r_order := [] |}; {| r_args := []; r_part := [VInt b]; r_order := [] |}]) 1 = Ok (Some (VInt 2)).
Proof.
  intros text loose wloose sort a b t Sl E T.
  assert (G : forall z, float_of_int z = float_of_int a -> good text {| r_args := []; r_part := [VInt z]; r_order := [] |} /\ ptext text {| r_args := []; r_part := [VInt z]; r_order := [] |} = Some t).
  { intros z Z. assert (Pt : partition text (map recv [VInt z]) = Ok (Some t)) by (cbn [map]; rewrite recv_int, Z; cbn [partition part_texts]; rewrite T; reflexivity).
    assert (Ep : ptext text {| r_args := []; r_part := [VInt z]; r_order := [] |} = Some t) by (unfold ptext, ptext_of; cbn [r_part]; now rewrite Pt).
    split; [|exact Ep]. split; [intros v []|]. split; [|split]; [|intros k []|rewrite Ep; exact Pt].
    intros v V. cbn [r_part] in V. destruct V as [<-|[]]. reflexivity. }
  destruct (G a eq_refl) as [G1 E1]. destruct (G b (eq_sym E)) as [G2 E2]. apply two_rows_collide; auto. congruence.
Qed.
(** A NULL partition key crashes the process. *)
Theorem c77_null_key_refuted : forall text loose wloose sort p rid order rest,
  over text loose wloose sort w_count_star p ({| t_args := []; t_part := [None]; t_order := order |} :: rest) rid = GoPanic.
Proof.
  intros text loose wloose sort p rid order rest. unfold over, wcall. cbn [map row_steps]. unfold row_step at 1, call_args. cbn [t_args t_part map app].
  destruct (p_distinct p), (p_respect p); reflexivity.
Qed.
Example c77_underscore_example : over1 w_count_star whole_frame (map row_of [{| r_args := []; r_part := [VStr "a_b"; VStr "c"]; r_order := [] |}; {| r_args := []; r_part := [VStr "a"; VStr "b_c"]; r_order := [] |}]) 1 = Ok (Some (VInt 2)).
Proof. reflexivity. Qed.
Example c77_large_example : float_of_int (2 ^ 53) = float_of_int (2 ^ 53 + 1).
Proof. reflexivity. Qed.

(** ** C113, C78 *)
(** ROW_NUMBER is the position in the ordered partition, from 1. *)
Theorem c113_row_number : forall text loose wloose sort shp sho rows, sort_slice sort -> sound text shp sho rows ->
  exists ord, arrangement rows ord /\
  forall i p, nth_error (ord i) p = Some i ->
    over text loose wloose sort w_row_number no_frame (map row_of rows) (Z.of_nat i + 1) = Ok (Some (VInt (Z.of_nat p + 1))).
Proof.
  intros text loose wloose sort shp sho rows Sl So. exists (order_at text sort rows). split; [now apply (ord_arrangement text sort Sl shp sho)|].
  intros i p N. rewrite (over_none text loose wloose sort Sl shp sho rows So w_row_number no_frame tt _ i p eq_refl (feed_store1 _ rows) N). reflexivity.
Qed.
(** The numbers of a partition are 1..n. *)
Theorem c113_all_numbers : forall text loose wloose sort shp sho rows i n, sort_slice sort -> sound text shp sho rows -> (i < List.length rows)%nat ->
  forall mine, keeps (fun j => r_part (at_row rows j) = r_part (at_row rows i)) (seq 0 (List.length rows)) mine -> 1 <= n <= zlen mine ->
  exists j, In j mine /\ over text loose wloose sort w_row_number no_frame (map row_of rows) (Z.of_nat j + 1) = Ok (Some (VInt n)) /\
    forall k, In k mine -> over text loose wloose sort w_row_number no_frame (map row_of rows) (Z.of_nat k + 1) = Ok (Some (VInt n)) -> k = j.
Proof.
  intros text loose wloose sort shp sho rows i n Sl So L mine K B.
  destruct (c113_row_number text loose wloose sort shp sho rows Sl So) as (ord & Ar & H). destruct (Ar i L) as [(Nd & Mem & _) Same].
  assert (Ieq : forall j, In j (ord i) <-> In j mine).
  { intros j. rewrite Mem, (keeps_in _ _ _ _ j K), in_seq. intuition lia. }
  assert (Len : List.length (ord i) = List.length mine).
  { apply Permutation_length, NoDup_Permutation; auto. assert (G : forall l o, NoDup l -> keeps (fun j => r_part (at_row rows j) = r_part (at_row rows i)) l o -> NoDup o).
    { clear. intros l o N H. induction H as [|x l o P H IH|x l o P H IH]; auto; inversion N as [|? ? Nx Nl]; subst; auto. constructor; auto. intros X. apply (keeps_in _ _ _ _ x H) in X. tauto. }
    eapply G; [|exact K]. apply seq_NoDup. }
  unfold zlen in B. destruct (nth_error (ord i) (Z.to_nat (n - 1))) as [j|] eqn:E; [|apply nth_error_None in E; lia].
  assert (Ij : In j (ord i)) by (eapply nth_error_In; eauto).
  assert (Oj : forall k, In k (ord i) -> ord k = ord i) by (intros k Ik; apply Mem in Ik; now apply Same).
  exists j. split; [now apply Ieq|]. split.
  - rewrite (H j (Z.to_nat (n - 1))) by (now rewrite Oj). do 3 f_equal. lia.
  - intros k Ik Hk. apply Ieq in Ik. destruct (In_nth_error _ _ Ik) as (q & Q). rewrite (H k q) in Hk by (now rewrite Oj).
    assert (q = Z.to_nat (n - 1)) by (assert (Z.of_nat q + 1 = n) by congruence; lia). subst q. congruence.
Qed.
Example c113_example : over1 w_row_number no_frame (map row_of table1) 5 = Ok (Some (VInt 4)).
Proof. reflexivity. Qed.

Section Ranks.
  Variable text : val -> res string.
  Variable loose : string -> option item.
  Variable wloose : string -> option witem.
  Variable sort : (ent -> ent -> bool) -> list ent -> list ent.
  Hypothesis slices : sort_slice sort.
  Variable shp : list kty.
  Variable dir : bool.
  Variable rows : list srow.
  Hypothesis so : sound text shp [(YInt, dir)] rows.
  Notation ord := (order_at text sort rows).
  Definition zkey (j : nat) : Z := match r_order (at_row rows j) with [(VInt z, _)] => z | _ => 0 end.
  Lemma zkey_spec : forall j, (j < List.length rows)%nat -> r_order (at_row rows j) = [(VInt (zkey j), dir)] /\ Z.abs (zkey j) < 2 ^ 53.
  Proof.
    intros j L. destruct so as [_ S]. destruct (S _ (at_in rows j L)) as (_ & O & _). unfold zkey.
    inversion O as [|? [a d] ? ? [T D] R]; subst. inversion R; subst. cbn [fst snd] in *. subst d. destruct a; cbn [of_kty] in T; try contradiction. auto.
  Qed.
  Lemma earlier_ints : forall i j, (i < List.length rows)%nat -> (j < List.length rows)%nat -> (earlier rows i j <-> signed dir (zkey i) < signed dir (zkey j)).
  Proof.
    intros i j I J. unfold earlier. destruct (zkey_spec i I) as [-> _]. destruct (zkey_spec j J) as [-> _]. split.
    - intros H. inversion H as [? ? ? ? ? ? A|? ? ? ? ? ? A B]; subst; [|inversion B]. destruct dir; cbn in *; lia.
    - intros H. constructor. destruct dir; cbn in *; lia.
  Qed.
  Lemma last_keys_ints : forall vs l, (forall j, In j l -> (j < List.length rows)%nat) ->
    last_keys (map (ent_at text rows vs) l) = Ok (map (fun j => (akey (zkey j), dir)) l).
  Proof.
    intros vs. induction l as [|j l IH]; intros H; [reflexivity|]. cbn [map last_keys].
    destruct (zkey_spec j (H j (or_introl eq_refl))) as [E _]. rewrite (last_key_at text rows vs j (VInt (zkey j)) dir E).
    rewrite IH by (intros; apply H; now right). rewrite recv_int. reflexivity.
  Qed.
  Lemma sorted_ints : forall i, (i < List.length rows)%nat -> StronglySorted Z.le (map (fun j => signed dir (zkey j)) (ord i)).
  Proof.
    intros i L. destruct (order_arranged text sort slices shp [(YInt, dir)] rows so i L) as (_ & Mem & S).
    assert (G : forall l, (forall j, In j l -> (j < List.length rows)%nat) -> StronglySorted (fun i j => ~ keys_before (r_order (at_row rows j)) (r_order (at_row rows i))) l -> StronglySorted Z.le (map (fun j => signed dir (zkey j)) l)).
    { clear - so. induction l as [|x l IH]; intros H S; [constructor|]. inversion S as [|? ? Sl Sf]; subst. cbn [map]. constructor; [apply IH; auto; intros; apply H; now right|].
      rewrite Forall_forall in *. intros z Z. apply in_map_iff in Z. destruct Z as (y & <- & Y). specialize (Sf y Y).
      destruct (Z.le_gt_cases (signed dir (zkey x)) (signed dir (zkey y))) as [Q|Q]; [exact Q|]. exfalso. apply Sf. apply earlier_ints; auto; apply H; [now right|now left]. }
    apply G; auto. intros j J. now apply Mem.
  Qed.
  (** The rows up to the current one, and the ones after it *)
  Lemma split_at : forall i p, nth_error (ord i) p = Some i -> exists l1 l2, ord i = (l1 ++ i :: l2)%list /\ List.length l1 = p /\
    StronglySorted Z.le (map (fun j => signed dir (zkey j)) l1 ++ [signed dir (zkey i)])%list /\
    (forall j, In j (l1 ++ i :: l2)%list -> (j < List.length rows)%nat) /\ (forall j, In j l2 -> signed dir (zkey i) <= signed dir (zkey j)) /\ (forall j, In j l1 -> signed dir (zkey j) <= signed dir (zkey i)).
  Proof.
    intros i p N. pose proof (ord_lt text sort slices rows i p N) as L. destruct (nth_error_split _ _ N) as (l1 & l2 & E & Lp). exists l1, l2.
    destruct (order_arranged text sort slices shp [(YInt, dir)] rows so i L) as (_ & Mem & _). pose proof (sorted_ints i L) as S. rewrite E, map_app in S. cbn [map] in S.
    assert (App : forall (a b : list Z), StronglySorted Z.le (a ++ b) -> StronglySorted Z.le a /\ StronglySorted Z.le b).
    { induction a as [|x a IH]; intros b H; [split; [constructor|exact H]|]. cbn [app] in H. inversion H as [|? ? Hs Hf]; subst. destruct (IH b Hs) as [A B]. split; [|exact B].
      constructor; [exact A|]. rewrite Forall_forall in *. intros y Y. apply Hf, in_or_app. now left. }
    assert (S1 : StronglySorted Z.le (map (fun j => signed dir (zkey j)) l1 ++ [signed dir (zkey i)])%list).
    { rewrite (app_assoc _ [signed dir (zkey i)] _ : (map (fun j => signed dir (zkey j)) l1 ++ signed dir (zkey i) :: map (fun j => signed dir (zkey j)) l2 = _)%list) in S.
      now apply App in S. }
    split; [exact E|]. split; [exact Lp|]. split; [exact S1|]. split; [intros j J; rewrite <- E in J; now apply Mem|]. split.
    - intros j J. apply App in S. destruct S as [_ S]. inversion S as [|? ? _ Sf]; subst. rewrite Forall_forall in Sf. apply Sf. now apply (in_map (fun j => signed dir (zkey j))).
    - intros j J. apply SS_snoc in S1. destruct S1 as [_ S1]. apply S1. now apply (in_map (fun j => signed dir (zkey j))).
  Qed.
  Lemma before_count : forall i p l1 l2 bef, ord i = (l1 ++ i :: l2)%list -> nth_error (ord i) p = Some i ->
    (forall j, In j (l1 ++ i :: l2)%list -> (j < List.length rows)%nat) -> (forall j, In j l2 -> signed dir (zkey i) <= signed dir (zkey j)) ->
    keeps (fun j => earlier rows j i) (ord i) bef -> nless (signed dir (zkey i)) (map (fun j => signed dir (zkey j)) l1) = zlen bef.
  Proof.
    intros i p l1 l2 bef E N Lt H2 K. pose proof (ord_lt text sort slices rows i p N) as L. rewrite E in K.
    assert (G : forall l o, (forall j, In j l -> (j < List.length rows)%nat) -> keeps (fun j => earlier rows j i) l o -> nless (signed dir (zkey i)) (map (fun j => signed dir (zkey j)) l) = zlen o).
    { clear - so L. intros l o H K. induction K as [|x l o P K IH|x l o P K IH]; [reflexivity| |].
      - unfold nless in *. cbn [map filter]. apply earlier_ints in P; auto; [|apply H; now left]. apply Z.ltb_lt in P. rewrite P.
        unfold zlen in *. cbn [List.length]. rewrite !Nat2Z.inj_succ. rewrite IH by (intros; apply H; now right). reflexivity.
      - unfold nless in *. cbn [map filter]. destruct (Z.ltb_spec (signed dir (zkey x)) (signed dir (zkey i))) as [Q|Q].
        + exfalso. apply P, earlier_ints; auto. apply H. now left.
        + apply IH. intros. apply H. now right. }
    rewrite <- (G _ _ Lt K), map_app, nless_app. cbn [map]. rewrite (nless_none _ (signed dir (zkey i) :: _)); [lia|].
    intros x [<-|X]; [lia|]. apply in_map_iff in X. destruct X as (j & <- & J). auto.
  Qed.
  Lemma rank_keys : forall i p l1 l2, ord i = (l1 ++ i :: l2)%list -> List.length l1 = p -> (forall j, In j (l1 ++ i :: l2)%list -> (j < List.length rows)%nat) ->
    forall loop vs, rank_done loop (map (ent_at text rows vs) (ord i)) (Some (Z.of_nat p, Z.of_nat p)) = bind (loop dir (map akey (map zkey (l1 ++ [i])%list))) (fun r => Ok (Some r)).
  Proof.
    intros i p l1 l2 E Lp Lt loop vs. unfold rank_done. rewrite last_keys_ints by (rewrite E; exact Lt). cbn [bind]. rewrite Z.eqb_refl. cbn [negb].
    rewrite map_map, E. cbn [fst]. replace (first_asc _) with dir by (destruct l1; reflexivity).
    replace (Z.to_nat (Z.of_nat p + 1)) with (List.length (l1 ++ [i])) by (rewrite app_length; cbn [List.length]; lia).
    replace (l1 ++ i :: l2)%list with ((l1 ++ [i]) ++ l2)%list by (now rewrite <- app_assoc).
    rewrite firstn_map, firstn_app, Nat.sub_diag, firstn_all. cbn [firstn]. rewrite app_nil_r, map_map. reflexivity.
  Qed.
  Lemma signed_map : forall l, map (signed dir) (map zkey l) = map (fun j => signed dir (zkey j)) l.
  Proof. intros. apply map_map. Qed.
  Lemma rank_value : forall i p bef, nth_error (ord i) p = Some i -> keeps (fun j => earlier rows j i) (ord i) bef ->
    over text loose wloose sort w_rank no_frame (map row_of rows) (Z.of_nat i + 1) = Ok (Some (VInt (if threshold dir <? signed dir (zkey i) then 1 + zlen bef else 0))).
  Proof.
    intros i p bef N K. destruct (split_at i p N) as (l1 & l2 & E & Lp & S1 & Lt & H2 & _).
    rewrite (over_none text loose wloose sort slices shp [(YInt, dir)] rows so w_rank no_frame tt _ i p eq_refl (feed_store1 _ rows) N).
    cbn [wdone w_rank simple]. rewrite (rank_keys i p l1 l2 E Lp Lt). rewrite rank_loop_ints.
    2:{ intros z Z. apply in_map_iff in Z. destruct Z as (j & <- & J). apply zkey_spec. apply Lt. apply in_app_or in J. apply in_or_app. destruct J as [J|[<-|[]]]; [now left|right; now left]. }
    cbn [bind option_map]. do 3 f_equal. rewrite signed_map, map_app. cbn [map]. rewrite rank_inv by exact S1.
    rewrite <- (before_count i p l1 l2 bef E N Lt H2 K). destruct (threshold dir <? signed dir (zkey i)); reflexivity.
  Qed.
  Lemma dense_value : forall i p, nth_error (ord i) p = Some i -> exists l1 l2, ord i = (l1 ++ i :: l2)%list /\
    (forall j, In j l2 -> signed dir (zkey i) <= signed dir (zkey j)) /\ (forall j, In j l1 -> signed dir (zkey j) <= signed dir (zkey i)) /\
    over text loose wloose sort w_dense_rank no_frame (map row_of rows) (Z.of_nat i + 1) =
    Ok (Some (VInt (if threshold dir <? signed dir (zkey i) then distinct (filter (fun x => threshold dir <? x) (map (fun j => signed dir (zkey j)) (l1 ++ [i])%list)) else 0))).
  Proof.
    intros i p N. destruct (split_at i p N) as (l1 & l2 & E & Lp & S1 & Lt & H2 & H1). exists l1, l2. split; [exact E|]. split; [exact H2|]. split; [exact H1|].
    rewrite (over_none text loose wloose sort slices shp [(YInt, dir)] rows so w_dense_rank no_frame tt _ i p eq_refl (feed_store1 _ rows) N).
    cbn [wdone w_dense_rank simple]. rewrite (rank_keys i p l1 l2 E Lp Lt). rewrite dense_loop_ints.
    2:{ intros z Z. apply in_map_iff in Z. destruct Z as (j & <- & J). apply zkey_spec. apply Lt. apply in_app_or in J. apply in_or_app. destruct J as [J|[<-|[]]]; [now left|right; now left]. }
    cbn [bind option_map]. do 3 f_equal. rewrite signed_map, map_app. cbn [map]. rewrite dense_inv by exact S1.
    destruct (threshold dir <? signed dir (zkey i)); reflexivity.
  Qed.
End Ranks.
(** RANK is one more than the number of rows before, for one INT64 key that is descending or
    positive. *)
Theorem c78_rank_partial : forall text loose wloose sort shp dir rows, sort_slice sort -> sound text shp [(YInt, dir)] rows ->
  exists ord, arrangement rows ord /\
  forall i z bef, (i < List.length rows)%nat -> r_order (at_row rows i) = [(VInt z, dir)] -> dir = false \/ 0 < z ->
    keeps (fun j => earlier rows j i) (ord i) bef ->
    over text loose wloose sort w_rank no_frame (map row_of rows) (Z.of_nat i + 1) = Ok (Some (VInt (1 + zlen bef))).
Proof.
  intros text loose wloose sort shp dir rows Sl So. exists (order_at text sort rows). split; [now apply (ord_arrangement text sort Sl shp [(YInt, dir)])|].
  intros i z bef L E Z K. destruct (position text sort Sl rows i L) as (p & N).
  rewrite (rank_value text loose wloose sort Sl shp dir rows So i p bef N K).
  destruct (zkey_spec text shp dir rows So i L) as [E2 B]. assert (Ez : zkey rows i = z) by congruence. rewrite Ez in *.
  destruct (Z.ltb_spec (threshold dir) (signed dir z)) as [_|Q]; [reflexivity|]. exfalso. unfold threshold, rank_start, signed, two63 in Q. destruct dir; [destruct Z; [discriminate|lia]|lia].
Qed.
(** An ascending key that is not positive has rank 0. *)
Theorem c78_rank_zero_refuted : forall text loose wloose sort shp rows i z, sort_slice sort -> sound text shp [(YInt, true)] rows ->
  (i < List.length rows)%nat -> r_order (at_row rows i) = [(VInt z, true)] -> z <= 0 ->
  over text loose wloose sort w_rank no_frame (map row_of rows) (Z.of_nat i + 1) = Ok (Some (VInt 0)) /\
  over text loose wloose sort w_dense_rank no_frame (map row_of rows) (Z.of_nat i + 1) = Ok (Some (VInt 0)).
Proof.
  intros text loose wloose sort shp rows i z Sl So L E Z. destruct (position text sort Sl rows i L) as (p & N).
  destruct (zkey_spec text shp true rows So i L) as [E2 B]. assert (Ez : zkey rows i = z) by congruence.
  assert (Q : (threshold true <? signed true (zkey rows i)) = false) by (rewrite Ez; apply Z.ltb_ge; exact Z). split.
  - assert (K : exists bef, keeps (fun j => earlier rows j i) (order_at text sort rows i) bef).
    { exists (filter (fun j => signed true (zkey rows j) <? signed true (zkey rows i)) (order_at text sort rows i)). apply keeps_filter. intros j J.
      rewrite Z.ltb_lt. symmetry. apply (earlier_ints text shp true rows So); auto. unfold order_at in J. apply order_in in J; tauto. }
    destruct K as (bef & K). rewrite (rank_value text loose wloose sort Sl shp true rows So i p bef N K). now rewrite Q.
  - destruct (dense_value text loose wloose sort Sl shp true rows So i p N) as (l1 & l2 & _ & _ & _ & ->). now rewrite Q.
Qed.
(** DENSE_RANK is one more than the number of different keys before, for one INT64 key that is
    descending or positive throughout the partition. *)
Theorem c78_dense_rank_partial : forall text loose wloose sort shp dir rows, sort_slice sort -> sound text shp [(YInt, dir)] rows ->
  exists ord, arrangement rows ord /\
  forall i z keys, (i < List.length rows)%nat -> r_order (at_row rows i) = [(VInt z, dir)] ->
    dir = false \/ (forall j x, In j (ord i) -> r_order (at_row rows j) = [(VInt x, dir)] -> 0 < x) ->
    NoDup keys -> (forall x, In x keys <-> exists j, In j (ord i) /\ earlier rows j i /\ r_order (at_row rows j) = [(VInt x, dir)]) ->
    over text loose wloose sort w_dense_rank no_frame (map row_of rows) (Z.of_nat i + 1) = Ok (Some (VInt (1 + zlen keys))).
Proof.
  intros text loose wloose sort shp dir rows Sl So. exists (order_at text sort rows). split; [now apply (ord_arrangement text sort Sl shp [(YInt, dir)])|].
  intros i z keys L E P Nd Kx. destruct (position text sort Sl rows i L) as (p & N).
  destruct (dense_value text loose wloose sort Sl shp dir rows So i p N) as (l1 & l2 & Eo & H2 & H1 & ->).
  destruct (order_arranged text sort Sl shp [(YInt, dir)] rows So i L) as (_ & Mem & _).
  assert (Lt : forall j, In j (order_at text sort rows i) -> (j < List.length rows)%nat) by (intros j J; now apply Mem).
  assert (Th : forall j, In j (order_at text sort rows i) -> threshold dir < signed dir (zkey rows j)).
  { intros j J. destruct (zkey_spec text shp dir rows So j (Lt j J)) as [Ej Bj]. unfold threshold, rank_start, signed, two63.
    destruct dir; [destruct P as [P|P]; [discriminate|]; now apply (P j)|lia]. }
  assert (Ii : In i (order_at text sort rows i)) by (now apply Mem).
  destruct (Z.ltb_spec (threshold dir) (signed dir (zkey rows i))) as [_|Q]; [|pose proof (Th i Ii); lia]. do 3 f_equal.
  assert (F : filter (fun x => threshold dir <? x) (map (fun j => signed dir (zkey rows j)) (l1 ++ [i])) = map (fun j => signed dir (zkey rows j)) (l1 ++ [i])).
  { assert (G : forall l, (forall j, In j l -> In j (order_at text sort rows i)) -> filter (fun x => threshold dir <? x) (map (fun j => signed dir (zkey rows j)) l) = map (fun j => signed dir (zkey rows j)) l).
    { clear - Th. induction l as [|x l IH]; intros H; [reflexivity|]. cbn [map filter]. pose proof (Th x (H x (or_introl eq_refl))) as T. apply Z.ltb_lt in T. rewrite T. f_equal. apply IH. intros. apply H. now right. }
    apply G. intros j J. rewrite Eo. apply in_app_or in J. apply in_or_app. destruct J as [J|[<-|[]]]; [now left|right; now left]. }
  rewrite F. unfold distinct, zlen.
  (* the different keys up to this row are those before and its own *)
  assert (Inj : forall a b, signed dir a = signed dir b -> a = b) by (intros a b; destruct dir; cbn; lia).
  assert (Pm : Permutation (nodup Z.eq_dec (map (fun j => signed dir (zkey rows j)) (l1 ++ [i]))) (signed dir (zkey rows i) :: map (signed dir) keys)).
  { apply NoDup_Permutation; [apply NoDup_nodup| |].
    - constructor.
      + intros H. apply in_map_iff in H. destruct H as (x & Ex & X). apply Kx in X. destruct X as (j & Ij & Ej & Oj).
        apply (earlier_ints text shp dir rows So j i (Lt j Ij) L) in Ej. destruct (zkey_spec text shp dir rows So j (Lt j Ij)) as [Oj' _].
        assert (zkey rows j = x) by congruence. subst x. lia.
      + apply FinFun.Injective_map_NoDup; [intros a b; apply Inj|exact Nd].
    - intros x. rewrite nodup_In. split.
      + intros X. apply in_map_iff in X. destruct X as (j & <- & J).
        assert (Ij : In j (order_at text sort rows i)) by (rewrite Eo; apply in_app_or in J; apply in_or_app; destruct J as [J|[<-|[]]]; [now left|right; now left]).
        destruct (Z.eq_dec (signed dir (zkey rows j)) (signed dir (zkey rows i))) as [D|D]; [left; congruence|]. right. apply in_map. apply Kx. exists j. split; [exact Ij|].
        split; [|now apply (zkey_spec text shp dir rows So j (Lt j Ij))]. apply (earlier_ints text shp dir rows So j i (Lt j Ij) L).
        apply in_app_or in J. destruct J as [J|[<-|[]]]; [pose proof (H1 j J); lia|congruence].
      + intros [<-|X]; [apply in_map_iff; exists i; split; [reflexivity|apply in_or_app; right; now left]|].
        apply in_map_iff in X. destruct X as (x' & <- & X). apply Kx in X. destruct X as (j & Ij & Ej & Oj).
        destruct (zkey_spec text shp dir rows So j (Lt j Ij)) as [Oj' _]. assert (zkey rows j = x') by congruence. subst x'.
        apply (earlier_ints text shp dir rows So j i (Lt j Ij) L) in Ej. rewrite Eo in Ij. apply in_app_or in Ij.
        apply in_map_iff. exists j. split; [reflexivity|]. apply in_or_app. destruct Ij as [Ij|[Ij|Ij]]; [now left|right; now left|pose proof (H2 j Ij); lia]. }
  apply Permutation_length in Pm. rewrite Pm. cbn [List.length]. rewrite map_length. lia.
Qed.
Example c78_rank_example : over1 w_rank no_frame (map row_of table1) 5 = Ok (Some (VInt 4)) /\ over1 w_dense_rank no_frame (map row_of table1) 5 = Ok (Some (VInt 3)).
Proof. split; reflexivity. Qed.
Definition zero_key1 : list srow := [ {| r_args := []; r_part := []; r_order := [(VInt 0, true)] |}; {| r_args := []; r_part := []; r_order := [(VInt 4, true)] |} ].
Example c78_zero_example : over1 w_rank no_frame (map row_of zero_key1) 1 = Ok (Some (VInt 0)) /\ over1 w_rank no_frame (map row_of zero_key1) 2 = Ok (Some (VInt 2)).
Proof. split; reflexivity. Qed.
(** A key that is a STRING and not a number makes RANK and DENSE_RANK fail. *)
Theorem c78_string_key_refuted : forall text loose wloose sort dir s, sort_slice sort -> prints text -> text_ok s -> cast_string_int64 s = Err ->
  let row := {| r_args := []; r_part := []; r_order := [(VStr s, dir)] |} in
  over text loose wloose sort w_rank no_frame [row_of row] 1 = Err /\ over text loose wloose sort w_dense_rank no_frame [row_of row] 1 = Err.
Proof.
  intros text loose wloose sort dir s Sl P T C row.
  assert (So : sound text [] [(YStr, dir)] [row]).
  { split; [exact P|]. intros r [<-|[]]. split; [constructor|]. split; [repeat constructor; exact T|intros v []]. }
  destruct (position text sort Sl [row] 0 (le_n 1)) as (p & N).
  assert (Lp : order_at text sort [row] 0 = [0%nat] /\ p = 0%nat).
  { destruct (order_arranged text sort Sl [] [(YStr, dir)] [row] So 0 (le_n 1)) as (Nd & Mem & _).
    assert (Z : forall j, In j (order_at text sort [row] 0) -> j = 0%nat) by (intros j J; apply Mem in J; destruct J as [J _]; cbn in J; lia).
    destruct (order_at text sort [row] 0) as [|a [|b l]].
    - destruct p; discriminate.
    - split; [now rewrite (Z a (or_introl eq_refl))|]. destruct p as [|[|p]]; [reflexivity|discriminate|discriminate].
    - exfalso. pose proof (Z a (or_introl eq_refl)). pose proof (Z b (or_intror (or_introl eq_refl))). subst. inversion Nd as [|? ? Q _]; subst. apply Q. now left. }
  destruct Lp as [Eo ->].
  assert (K : forall vs, last_keys (map (ent_at text [row] vs) [0%nat]) = Ok [(Some (VStr s), dir)]).
  { intros vs. cbn [map last_keys]. rewrite (last_key_at text [row] vs 0 (VStr s) dir eq_refl). rewrite recv_str by exact T. reflexivity. }
  split.
  - pose proof (over_none text loose wloose sort Sl [] [(YStr, dir)] [row] So w_rank no_frame tt _ 0 0 eq_refl (feed_store1 _ [row]) N) as E.
    cbn [map] in E. change (Z.of_nat 0 + 1) with 1 in E. rewrite E, Eo. cbn [wdone w_rank simple]. unfold rank_done. rewrite K.
    cbn [bind]. rewrite Z.eqb_refl. cbn [negb map fst first_asc snd firstn Z.of_nat Z.add Z.to_nat Pos.to_nat Pos.iter_op]. unfold rank_loop, dense_loop. change (Pos.to_nat 1) with 1%nat. cbn [firstn foldr]. unfold rank_step, dense_step. cbn [key_int]. rewrite C. reflexivity.
  - pose proof (over_none text loose wloose sort Sl [] [(YStr, dir)] [row] So w_dense_rank no_frame tt _ 0 0 eq_refl (feed_store1 _ [row]) N) as E.
    cbn [map] in E. change (Z.of_nat 0 + 1) with 1 in E. rewrite E, Eo. cbn [wdone w_dense_rank simple]. unfold rank_done. rewrite K.
    cbn [bind]. rewrite Z.eqb_refl. cbn [negb map fst first_asc snd firstn Z.of_nat Z.add Z.to_nat Pos.to_nat Pos.iter_op]. unfold rank_loop, dense_loop. change (Pos.to_nat 1) with 1%nat. cbn [firstn foldr]. unfold rank_step, dense_step. cbn [key_int]. rewrite C. reflexivity.
Qed.
Example c78_string_example : over1 w_rank no_frame [row_of {| r_args := []; r_part := []; r_order := [(VStr "x", true)] |}] 1 = Err.
Proof. reflexivity. Qed.

(** ** C79 *)
Lemma feed_lead : forall pick rows off d s0, (forall r, In r rows -> offset_args (r_args r) off d) -> 0 <= off -> s0 = None \/ s0 = Some (off, d) ->
  exists st, feed (w_lead_lag pick) s0 (map r_args rows) = Ok (st, map (fun r => hd None (r_args r)) rows) /\ (rows = [] \/ st = Some (off, d)).
Proof.
  intros pick rows off d. induction rows as [|r rows IH]; intros s0 H P S; [exists s0; auto|]. cbn [map feed].
  assert (E : wstep (w_lead_lag pick) s0 (r_args r) = Ok (Some (off, d), Some (hd None (r_args r)))).
  { destruct (H r (or_introl eq_refl)) as (x & [(-> & -> & ->)|[(-> & ->)| ->]]); cbn [wstep w_lead_lag lead_args bind to_int hd]; [destruct S as [-> | ->]; reflexivity| |];
    (destruct (Z.ltb_spec off 0) as [Q|Q]; [lia|]; destruct S as [-> | ->]; reflexivity). }
  rewrite E. cbn [bind]. destruct (IH (Some (off, d)) ltac:(intros; apply H; now right) P (or_intror eq_refl)) as (st & F & T). rewrite F. cbn [bind].
  exists st. split; [reflexivity|]. right. destruct T as [-> | T]; [|exact T]. cbn [map feed] in F. assert (st = Some (off, d)) by congruence. assumption.
Qed.
Section Neighbours.
  Variable text : val -> res string.
  Variable loose : string -> option item.
  Variable wloose : string -> option witem.
  Variable sort : (ent -> ent -> bool) -> list ent -> list ent.
  Hypothesis slices : sort_slice sort.
  Variable shp : list kty.
  Variable sho : list (kty * bool).
  Variable rows : list srow.
  Hypothesis so : sound text shp sho rows.
  Notation ord := (order_at text sort rows).
  Lemma vals_at : forall i, vals (map (ent_at text rows (map (fun r => hd None (r_args r)) rows)) (ord i)) = map (arg_of rows) (ord i).
  Proof. intros i. unfold vals. rewrite map_map. apply map_ext. intros j. cbn [ent_at mk e_val]. now apply nth_hd. Qed.
  Lemma lead_lag_value : forall pick i p off d, nth_error (ord i) p = Some i -> (forall r, In r rows -> offset_args (r_args r) off d) -> 0 <= off ->
    over text loose wloose sort (w_lead_lag pick) no_frame (map row_of rows) (Z.of_nat i + 1) = bind (pick (Z.of_nat p) off (map (arg_of rows) (ord i))) (fun v => Ok (or_default d v)).
  Proof.
    intros pick i p off d N A P. destruct (feed_lead pick rows off d None A P (or_introl eq_refl)) as (st & F & T).
    assert (Ts : st = Some (off, d)). { destruct T as [T|T]; auto. exfalso. pose proof (ord_lt text sort slices rows i p N) as L. rewrite T in L. cbn in L. lia. }
    rewrite (over_none text loose wloose sort slices shp sho rows so (w_lead_lag pick) no_frame st _ i p eq_refl F N). subst st. cbn [wdone w_lead_lag]. now rewrite vals_at.
  Qed.
  Lemma value_at_position : forall l q d, 0 <= q -> value_at (map (arg_of rows) l) q = Ok (at_position rows l q None) /\ or_default d (at_position rows l q None) = or_default d (at_position rows l q d).
  Proof.
    intros l q d Q. unfold value_at, at_position. destruct (Z.ltb_spec q 0) as [B|_]; [lia|]. rewrite nth_error_map. split; destruct (nth_error l (Z.to_nat q)); cbn; auto. now destruct d.
  Qed.
  Lemma pos_bound : forall i p, nth_error (ord i) p = Some i -> (p < List.length (ord i))%nat.
  Proof. intros i p N. apply nth_error_Some. congruence. Qed.
  Lemma lead_exact : forall i p off d, nth_error (ord i) p = Some i -> (forall r, In r rows -> offset_args (r_args r) off d) -> 0 <= off -> off + zlen rows < two63 ->
    over text loose wloose sort w_lead no_frame (map row_of rows) (Z.of_nat i + 1) = Ok (or_default d (at_position rows (ord i) (Z.of_nat p + off) d)).
  Proof.
    intros i p off d N A P B. unfold w_lead. rewrite (lead_lag_value _ i p off d N A P). cbv zeta. pose proof (pos_bound i p N) as L. pose proof (ord_length text sort slices rows i) as L2.
    unfold zlen in *. rewrite wrap64_id by (unfold in64; lia).
    destruct (value_at_position (ord i) (Z.of_nat p + off) d ltac:(lia)) as [V D].
    destruct (Z.leb_spec (Z.of_nat (List.length (map (arg_of rows) (ord i)))) (Z.of_nat p + off)) as [Q|Q].
    - cbn [bind]. unfold at_position. destruct (Z.ltb_spec (Z.of_nat p + off) 0) as [X|_]; [lia|].
      destruct (nth_error (ord i) (Z.to_nat (Z.of_nat p + off))) eqn:E; [|now destruct d]. exfalso. rewrite map_length in Q.
      assert (nth_error (ord i) (Z.to_nat (Z.of_nat p + off)) <> None) as X by congruence. apply nth_error_Some in X. lia.
    - rewrite V. cbn [bind]. now rewrite D.
  Qed.
  Lemma lag_exact : forall i p off d, nth_error (ord i) p = Some i -> (forall r, In r rows -> offset_args (r_args r) off d) -> 0 <= off < two63 -> zlen rows < two63 ->
    over text loose wloose sort w_lag no_frame (map row_of rows) (Z.of_nat i + 1) = Ok (or_default d (at_position rows (ord i) (Z.of_nat p - off) d)).
  Proof.
    intros i p off d N A P B. unfold w_lag. rewrite (lead_lag_value _ i p off d N A ltac:(lia)). cbv zeta. pose proof (pos_bound i p N) as L. pose proof (ord_length text sort slices rows i) as L2.
    unfold zlen in *. rewrite wrap64_id by (unfold in64; lia). destruct (Z.ltb_spec (Z.of_nat p - off) 0) as [Q|Q].
    - cbn [bind]. unfold at_position. destruct (Z.ltb_spec (Z.of_nat p - off) 0) as [_|X]; [now destruct d|lia].
    - destruct (value_at_position (ord i) (Z.of_nat p - off) d Q) as [V D]. rewrite V. cbn [bind]. now rewrite D.
  Qed.
  (** ** Values of a ROWS frame *)
  Lemma frame_values : forall d rsp s e i p fr none K, (forall r, In r rows -> has_arg r) -> nth_error (ord i) p = Some i ->
    start_bound s -> end_bound e -> proper s e -> small rows s -> small rows e -> rows_frame s e (ord i) p fr ->
    (forall l x, d (opts (framed rsp s e)) l x = in_frame none l x K) -> K [] = Ok none ->
    over text loose wloose sort (simple store0 d) (framed rsp s e) (map row_of rows) (Z.of_nat i + 1) = K (map (arg_of rows) fr).
  Proof. intros d rsp s e i p fr none K H N Hs He Pr Ss Se Fr D Kn. exact (over_rows0 text loose wloose sort slices shp sho rows so d (framed rsp s e) s e i p fr none K H eq_refl N Hs He Pr Ss Se Fr D Kn). Qed.
End Neighbours.
(** LEAD and LAG are the value at that distance, the default if there is no such row, when
    the value is not NULL or there is no default. *)
Theorem c79_lead_lag_partial : forall text loose wloose sort shp sho rows, sort_slice sort -> sound text shp sho rows -> zlen rows < two63 ->
  exists ord, arrangement rows ord /\
  forall i p off d, nth_error (ord i) p = Some i -> (forall r, In r rows -> offset_args (r_args r) off d) ->
    (0 <= off -> off + zlen rows < two63 -> d = None \/ at_position rows (ord i) (Z.of_nat p + off) d <> None ->
     over text loose wloose sort w_lead no_frame (map row_of rows) (Z.of_nat i + 1) = Ok (at_position rows (ord i) (Z.of_nat p + off) d)) /\
    (0 <= off < two63 -> d = None \/ at_position rows (ord i) (Z.of_nat p - off) d <> None ->
     over text loose wloose sort w_lag no_frame (map row_of rows) (Z.of_nat i + 1) = Ok (at_position rows (ord i) (Z.of_nat p - off) d)).
Proof.
  intros text loose wloose sort shp sho rows Sl So B. exists (order_at text sort rows). split; [now apply (ord_arrangement text sort Sl shp sho)|].
  intros i p off d N A.
  assert (D : forall v : option val, d = None \/ v <> None -> or_default d v = v) by (intros v [-> |V]; destruct v; auto; congruence).
  split; intros P H; [intros G; rewrite (lead_exact text loose wloose sort Sl shp sho rows So i p off d) by assumption; now rewrite D|].
  rewrite (lag_exact text loose wloose sort Sl shp sho rows So i p off d) by assumption. now rewrite D.
Qed.
(** A NULL in the row that is there is replaced by the default. *)
Theorem c79_default_for_null_refuted : forall text loose wloose sort shp sho rows, sort_slice sort -> sound text shp sho rows -> zlen rows < two63 ->
  exists ord, arrangement rows ord /\
  forall i p off x j, nth_error (ord i) p = Some i -> (forall r, In r rows -> offset_args (r_args r) off (Some x)) -> 0 <= off < two63 -> arg_of rows j = None ->
    (off + zlen rows < two63 -> nth_error (ord i) (p + Z.to_nat off) = Some j -> over text loose wloose sort w_lead no_frame (map row_of rows) (Z.of_nat i + 1) = Ok (Some x)) /\
    (off <= Z.of_nat p -> nth_error (ord i) (p - Z.to_nat off) = Some j -> over text loose wloose sort w_lag no_frame (map row_of rows) (Z.of_nat i + 1) = Ok (Some x)).
Proof.
  intros text loose wloose sort shp sho rows Sl So B. exists (order_at text sort rows). split; [now apply (ord_arrangement text sort Sl shp sho)|].
  intros i p off x j N A P J. split; intros L E.
  - rewrite (lead_exact text loose wloose sort Sl shp sho rows So i p off (Some x)) by (auto; lia). unfold at_position.
    destruct (Z.ltb_spec (Z.of_nat p + off) 0) as [Q|_]; [lia|]. replace (Z.to_nat (Z.of_nat p + off)) with (p + Z.to_nat off)%nat by lia. now rewrite E, J.
  - rewrite (lag_exact text loose wloose sort Sl shp sho rows So i p off (Some x)) by auto. unfold at_position.
    destruct (Z.ltb_spec (Z.of_nat p - off) 0) as [Q|_]; [lia|]. replace (Z.to_nat (Z.of_nat p - off)) with (p - Z.to_nat off)%nat by lia. now rewrite E, J.
Qed.
(** LEAD by an offset that does not fit crashes for every row but the first ones. *)
Theorem c79_far_lead_refuted : forall text loose wloose sort shp sho rows, sort_slice sort -> sound text shp sho rows -> zlen rows < two63 ->
  exists ord, arrangement rows ord /\
  forall i p off d, nth_error (ord i) p = Some i -> (forall r, In r rows -> offset_args (r_args r) off d) -> 0 <= off < two63 -> two63 <= Z.of_nat p + off ->
    over text loose wloose sort w_lead no_frame (map row_of rows) (Z.of_nat i + 1) = GoPanic.
Proof.
  intros text loose wloose sort shp sho rows Sl So B. exists (order_at text sort rows). split; [now apply (ord_arrangement text sort Sl shp sho)|].
  intros i p off d N A P Q. unfold w_lead. rewrite (lead_lag_value text loose wloose sort Sl shp sho rows So _ i p off d N A) by lia. cbv zeta.
  pose proof (pos_bound text sort rows i p N) as L. pose proof (ord_length text sort Sl rows i) as L2. unfold zlen in *.
  assert (W : wrap64 (Z.of_nat p + off) = Z.of_nat p + off - 2 * two63).
  { unfold wrap64. replace (Z.of_nat p + off + two63) with ((Z.of_nat p + off - two63) + 1 * two64) by (unfold two64, two63; lia).
    rewrite Z.mod_add by (unfold two64; lia). rewrite Z.mod_small by (unfold two64, two63 in *; lia). lia. }
  rewrite W. destruct (Z.leb_spec (Z.of_nat (List.length (map (arg_of rows) (order_at text sort rows i)))) (Z.of_nat p + off - 2 * two63)) as [X|X]; [lia|].
  unfold value_at. destruct (Z.ltb_spec (Z.of_nat p + off - 2 * two63) 0) as [_|Y]; [reflexivity|lia].
Qed.
Definition lead_table (off : Z) (d : option val) : list srow :=
  [ {| r_args := [Some (VInt 10); Some (VInt off); d]; r_part := []; r_order := [(VInt 1, true)] |};
    {| r_args := [None; Some (VInt off); d]; r_part := []; r_order := [(VInt 2, true)] |};
    {| r_args := [Some (VInt 30); Some (VInt off); d]; r_part := []; r_order := [(VInt 3, true)] |} ].
Example c79_lead_example : over1 w_lead no_frame (map row_of (lead_table 2 (Some (VInt 7)))) 1 = Ok (Some (VInt 30)) /\ over1 w_lag no_frame (map row_of (lead_table 2 (Some (VInt 7)))) 1 = Ok (Some (VInt 7)).
Proof. split; reflexivity. Qed.
Example c79_null_example : over1 w_lead no_frame (map row_of (lead_table 1 (Some (VInt 7)))) 1 = Ok (Some (VInt 7)).
Proof. reflexivity. Qed.
Example c79_far_example : over1 w_lead no_frame (map row_of (lead_table (two63 - 1) None)) 2 = GoPanic.
Proof. reflexivity. Qed.

(** NTH_VALUE (RESPECT NULLS) is the n-th row of the frame, but for the last. *)
Lemma feed_nth : forall rows n s0, (forall r, In r rows -> exists x, r_args r = [x; Some (VInt n)]) -> s0 = None \/ s0 = Some n ->
  exists st, feed w_nth_value s0 (map r_args rows) = Ok (st, map (fun r => hd None (r_args r)) rows) /\ (rows = [] \/ st = Some n).
Proof.
  intros rows n. induction rows as [|r rows IH]; intros s0 H S; [exists s0; auto|]. cbn [map feed].
  destruct (H r (or_introl eq_refl)) as (x & E). rewrite E. cbn [wstep w_nth_value bind to_int hd].
  assert (Es : match s0 with Some n0 => n0 | None => n end = n) by (destruct S as [-> | ->]; reflexivity). rewrite Es.
  destruct (IH (Some n) ltac:(intros; apply H; now right) (or_intror eq_refl)) as (st & F & T). rewrite F. cbn [bind].
  exists st. split; [reflexivity|]. right. destruct T as [-> | T]; [|exact T]. cbn [map feed] in F. assert (st = Some n) by congruence. assumption.
Qed.
Lemma nth_value_exact : forall text loose wloose sort shp sho rows rsp s e i p fr n, sort_slice sort -> sound text shp sho rows ->
  (forall r, In r rows -> exists x, r_args r = [x; Some (VInt n)]) -> nth_error (order_at text sort rows i) p = Some i ->
  start_bound s -> end_bound e -> proper s e -> small rows s -> small rows e -> rows_frame s e (order_at text sort rows i) p fr ->
  over text loose wloose sort w_nth_value (framed rsp s e) (map row_of rows) (Z.of_nat i + 1) = nth_at n (visible (opts (framed rsp s e)) (map (arg_of rows) fr)).
Proof.
  intros text loose wloose sort shp sho rows rsp s e i p fr n Sl So A N Hs He Pr Ss Se Fr.
  destruct (feed_nth rows n None A (or_introl eq_refl)) as (st & F & T).
  assert (Ts : st = Some n). { destruct T as [T|T]; auto. exfalso. pose proof (ord_lt text sort Sl rows i p N) as L. rewrite T in L. cbn in L. lia. }
  subst st.
  rewrite (over_rows text loose wloose sort Sl shp sho rows So w_nth_value (framed rsp s e) s e (Some n) _ i p fr None (fun vs => nth_at n (visible (opts (framed rsp s e)) vs)) eq_refl F N Hs He Pr Ss Se Fr); auto.
  - do 2 f_equal. apply map_ext. intros j. now apply nth_hd.
  - unfold visible. destruct (a_ignore (opts (framed rsp s e))); reflexivity.
Qed.
Theorem c79_nth_value_partial : forall text loose wloose sort shp sho rows, sort_slice sort -> sound text shp sho rows ->
  exists ord, arrangement rows ord /\
  forall s e i p fr n, start_bound s -> end_bound e -> proper s e -> small rows s -> small rows e ->
    (forall r, In r rows -> exists x, r_args r = [x; Some (VInt n)]) -> nth_error (ord i) p = Some i -> rows_frame s e (ord i) p fr ->
    0 < n -> n <> zlen fr ->
    over text loose wloose sort w_nth_value (framed true s e) (map row_of rows) (Z.of_nat i + 1) = Ok (at_position rows fr (n - 1) None).
Proof.
  intros text loose wloose sort shp sho rows Sl So. exists (order_at text sort rows). split; [now apply (ord_arrangement text sort Sl shp sho)|].
  intros s e i p fr n Hs He Pr Ss Se A N Fr P Q. rewrite (nth_value_exact text loose wloose sort shp sho rows true s e i p fr n) by assumption.
  change (visible (opts (framed true s e)) (map (arg_of rows) fr)) with (map (arg_of rows) fr). unfold at_position. destruct (Z.ltb_spec (n - 1) 0) as [X|_]; [lia|].
  unfold nth_at. unfold zlen in *. rewrite map_length. destruct (map (arg_of rows) fr) as [|a l] eqn:E.
  - destruct fr; [|discriminate]. destruct (Z.to_nat (n - 1)); reflexivity.
  - rewrite <- E. destruct (Z.leb_spec 0 n) as [_|X]; [|lia]. cbn [andb]. destruct (Z.ltb_spec n (Z.of_nat (List.length fr))) as [L|L].
    + unfold nth_row. destruct (Z.ltb_spec n 1) as [X|_]; [lia|]. rewrite nth_error_map. destruct (nth_error fr (Z.to_nat (n - 1))) eqn:D; [reflexivity|].
      apply nth_error_None in D. lia.
    + destruct (nth_error fr (Z.to_nat (n - 1))) eqn:D; [|reflexivity]. assert (nth_error fr (Z.to_nat (n - 1)) <> None) as X by congruence. apply nth_error_Some in X. lia.
Qed.
(** The last row of the frame is never found; n = 0 crashes. *)
Theorem c79_nth_value_refuted : forall text loose wloose sort shp sho rows, sort_slice sort -> sound text shp sho rows ->
  exists ord, arrangement rows ord /\
  forall s e i p fr n, start_bound s -> end_bound e -> proper s e -> small rows s -> small rows e ->
    (forall r, In r rows -> exists x, r_args r = [x; Some (VInt n)]) -> nth_error (ord i) p = Some i -> rows_frame s e (ord i) p fr -> fr <> [] ->
    (n = zlen fr -> over text loose wloose sort w_nth_value (framed true s e) (map row_of rows) (Z.of_nat i + 1) = Ok None) /\
    (n = 0 -> over text loose wloose sort w_nth_value (framed true s e) (map row_of rows) (Z.of_nat i + 1) = GoPanic).
Proof.
  intros text loose wloose sort shp sho rows Sl So. exists (order_at text sort rows). split; [now apply (ord_arrangement text sort Sl shp sho)|].
  intros s e i p fr n Hs He Pr Ss Se A N Fr Ne. rewrite (nth_value_exact text loose wloose sort shp sho rows true s e i p fr n) by assumption.
  change (visible (opts (framed true s e)) (map (arg_of rows) fr)) with (map (arg_of rows) fr).
  destruct fr as [|j fr]; [congruence|]. unfold nth_at. cbn [map]. split; intros ->.
  - replace (zlen (arg_of rows j :: map (arg_of rows) fr)) with (zlen (j :: fr)) by (unfold zlen; cbn [List.length]; now rewrite map_length). rewrite Z.ltb_irrefl, andb_false_r. reflexivity.
  - unfold zlen. cbn [List.length]. destruct (Z.ltb_spec 0 (Z.of_nat (S (List.length (map (arg_of rows) fr))))) as [_|X]; [reflexivity|lia].
Qed.
Definition nth_table (n : Z) : list srow :=
  [ {| r_args := [Some (VInt 10); Some (VInt n)]; r_part := []; r_order := [(VInt 1, true)] |};
    {| r_args := [Some (VInt 20); Some (VInt n)]; r_part := []; r_order := [(VInt 2, true)] |} ].
Definition everything (rsp : bool) : spec := framed rsp (the_bound UnboundedPreceding 0) (the_bound UnboundedFollowing 0).
Example c79_nth_example : over1 w_nth_value (everything true) (map row_of (nth_table 1)) 2 = Ok (Some (VInt 10)) /\
  over1 w_nth_value (everything true) (map row_of (nth_table 2)) 2 = Ok None /\ over1 w_nth_value (everything true) (map row_of (nth_table 0)) 2 = GoPanic.
Proof. repeat split; reflexivity. Qed.

(** ** C117: FIRST_VALUE and LAST_VALUE *)
Theorem c117_first_last : forall text loose wloose sort shp sho rows, sort_slice sort -> sound text shp sho rows ->
  exists ord, arrangement rows ord /\
  forall s e i p fr, start_bound s -> end_bound e -> around s e -> small rows s -> small rows e ->
    (forall r, In r rows -> has_arg r) -> nth_error (ord i) p = Some i -> rows_frame s e (ord i) p fr ->
    over text loose wloose sort w_first_value (framed true s e) (map row_of rows) (Z.of_nat i + 1) = Ok (hd None (map (arg_of rows) fr)) /\
    over text loose wloose sort w_last_value (framed true s e) (map row_of rows) (Z.of_nat i + 1) = Ok (last (map (arg_of rows) fr) None) /\
    over text loose wloose sort w_first_value (framed false s e) (map row_of rows) (Z.of_nat i + 1) = Ok (hd None (map Some (not_null (map (arg_of rows) fr)))) /\
    over text loose wloose sort w_last_value (framed false s e) (map row_of rows) (Z.of_nat i + 1) = Ok (last (map Some (not_null (map (arg_of rows) fr))) None).
Proof.
  intros text loose wloose sort shp sho rows Sl So. exists (order_at text sort rows). split; [now apply (ord_arrangement text sort Sl shp sho)|].
  intros s e i p fr Hs He Ar Ss Se A N Fr.
  assert (Pr : proper s e) by (unfold proper; destruct Ar as [[K | [K | K]] [J | [J | J]]]; rewrite K; try rewrite J; exact I).
  assert (Vis : forall l : list (option val), filter is_some l = map Some (not_null l)).
  { induction l as [|[x|] l IH]; [reflexivity| |exact IH]. cbn [filter is_some]. rewrite IH. reflexivity. }
  assert (Lst : forall l : list (option val), match rev l with [] => None | v :: _ => v end = last l None).
  { intros l. destruct l as [|x l] using rev_ind; [reflexivity|]. rewrite rev_app_distr, last_last. reflexivity. }
  unfold w_first_value, w_last_value. repeat split.
  - rewrite (frame_values text loose wloose sort Sl shp sho rows So _ true s e i p fr None (fun vs => Ok (match visible (opts (framed true s e)) vs with [] => None | v :: _ => v end)) A N Hs He Pr Ss Se Fr); [now destruct (map (arg_of rows) fr)|reflexivity|reflexivity].
  - rewrite (frame_values text loose wloose sort Sl shp sho rows So _ true s e i p fr None (fun vs => Ok (match rev (visible (opts (framed true s e)) vs) with [] => None | v :: _ => v end)) A N Hs He Pr Ss Se Fr); [|reflexivity|reflexivity].
    f_equal. apply Lst.
  - rewrite (frame_values text loose wloose sort Sl shp sho rows So _ false s e i p fr None (fun vs => Ok (match visible (opts (framed false s e)) vs with [] => None | v :: _ => v end)) A N Hs He Pr Ss Se Fr); [|reflexivity|reflexivity].
    unfold visible. cbn [opts a_ignore framed p_respect negb]. rewrite Vis. now destruct (map Some (not_null (map (arg_of rows) fr))).
  - rewrite (frame_values text loose wloose sort Sl shp sho rows So _ false s e i p fr None (fun vs => Ok (match rev (visible (opts (framed false s e)) vs) with [] => None | v :: _ => v end)) A N Hs He Pr Ss Se Fr); [|reflexivity|reflexivity].
    unfold visible. cbn [opts a_ignore framed p_respect negb]. rewrite Vis. f_equal. apply Lst.
Qed.
Definition null_first : list srow :=
  [ {| r_args := [None]; r_part := []; r_order := [(VInt 1, true)] |}; {| r_args := [Some (VInt 20)]; r_part := []; r_order := [(VInt 2, true)] |} ].
Example c117_example : over1 w_first_value (everything true) (map row_of null_first) 2 = Ok None /\ over1 w_first_value (everything false) (map row_of null_first) 1 = Ok (Some (VInt 20)).
Proof. split; reflexivity. Qed.

(** ** C80, C114: NTILE *)
Lemma feed_ntile : forall rows n s0, (forall r, In r rows -> r_args r = [Some (VInt n)]) -> 0 < n -> s0 = None \/ s0 = Some n ->
  exists st, feed w_ntile s0 (map r_args rows) = Ok (st, map (fun _ => Some (VInt 1)) rows) /\ (rows = [] \/ st = Some n).
Proof.
  intros rows n. induction rows as [|r rows IH]; intros s0 H P S; [exists s0; auto|]. cbn [map feed].
  rewrite (H r (or_introl eq_refl)). cbn [wstep w_ntile bind to_int]. destruct (Z.leb_spec n 0) as [Q|_]; [lia|]. cbn [bind].
  assert (Es : match s0 with Some n0 => n0 | None => n end = n) by (destruct S as [-> | ->]; reflexivity). rewrite Es.
  destruct (IH (Some n) ltac:(intros; apply H; now right) P (or_intror eq_refl)) as (st & F & T). rewrite F. cbn [bind].
  exists st. split; [reflexivity|]. right. destruct T as [-> | T]; [|exact T]. cbn [map feed] in F. assert (st = Some n) by congruence. assumption.
Qed.
Lemma ntile_dup_div : forall len n, 1 <= len -> 0 < n -> ntile_dup len n = (len - 1) / n.
Proof.
  intros len n L N. unfold ntile_dup. rewrite Z.quot_div_nonneg, Z.rem_mod_nonneg by lia. pose proof (Z.div_mod len n ltac:(lia)) as D. pose proof (Z.mod_pos_bound len n N) as M.
  destruct (Z.ltb_spec 0 (len mod n)) as [Q|Q].
  - replace (len / n - 1 + 1) with (len / n) by lia. apply (Z.div_unique (len - 1) n (len / n) (len mod n - 1)); lia.
  - apply (Z.div_unique (len - 1) n (len / n - 1) (n - 1)); lia.
Qed.
Definition tile (len n p : Z) : Z := let d := (len - 1) / n in if p <? 2 * d then 1 + p / 2 else 1 + p - d.
Lemma ntile_value : forall text loose wloose sort shp sho rows i p n, sort_slice sort -> sound text shp sho rows ->
  (forall r, In r rows -> r_args r = [Some (VInt n)]) -> 0 < n -> nth_error (order_at text sort rows i) p = Some i ->
  over text loose wloose sort w_ntile no_frame (map row_of rows) (Z.of_nat i + 1) = Ok (Some (VInt (tile (zlen (order_at text sort rows i)) n (Z.of_nat p)))).
Proof.
  intros text loose wloose sort shp sho rows i p n Sl So A P N. destruct (feed_ntile rows n None A P (or_introl eq_refl)) as (st & F & T).
  assert (Ts : st = Some n). { destruct T as [T|T]; auto. exfalso. pose proof (ord_lt text sort Sl rows i p N) as L. rewrite T in L. cbn in L. lia. }
  subst st. rewrite (over_none text loose wloose sort Sl shp sho rows So w_ntile no_frame (Some n) _ i p eq_refl F N). cbn [wdone w_ntile].
  pose proof (pos_bound text sort rows i p N) as L. unfold zlen. rewrite map_length. rewrite ntile_dup_div by lia. unfold nth_row.
  destruct (Z.ltb_spec (Z.of_nat p + 1) 1) as [X|_]; [lia|]. replace (Z.to_nat (Z.of_nat p + 1 - 1)) with p by lia.
  rewrite (ntile_nth (List.length (order_at text sort rows i)) 1 _ p L) by (apply Z.div_pos; lia). reflexivity.
Qed.
Lemma tile_bucket : forall len n p, 0 < n -> 0 <= p < len -> len <= n + 1 -> tile len n p = bucket len n p.
Proof.
  intros len n p N P L. unfold tile, bucket. cbv zeta. destruct (Z.eq_dec len (n + 1)) as [E|E].
  - subst len. replace ((n + 1 - 1) / n) with 1 by (apply (Z.div_unique (n + 1 - 1) n 1 0); lia). destruct (Z.eq_dec n 1) as [->|Nn].
    + change ((1 + 1) / 1) with 2. change ((1 + 1) mod 1) with 0. destruct (Z.ltb_spec p (2 * 1)); [|lia]. destruct (Z.ltb_spec p (0 * (2 + 1))); [lia|]. replace (p - 0 * (2 + 1)) with p by lia. lia.
    + replace ((n + 1) / n) with 1 by (apply (Z.div_unique (n + 1) n 1 1); lia). replace ((n + 1) mod n) with 1 by (apply (Z.mod_unique (n + 1) n 1 1); lia).
      change (1 * (1 + 1)) with 2. change (2 * 1) with 2. change (1 + 1) with 2. rewrite Z.div_1_r. destruct (Z.ltb_spec p 2); lia.
  - replace ((len - 1) / n) with 0 by (symmetry; apply Z.div_small; lia). change (2 * 0) with 0. destruct (Z.ltb_spec p 0); [lia|].
    destruct (Z.eq_dec len n) as [->|En].
    + rewrite Z.div_same, Z.mod_same by lia. destruct (Z.ltb_spec p (0 * (1 + 1))); [lia|]. rewrite Z.div_1_r. lia.
    + rewrite Z.div_small, Z.mod_small by lia. change (0 + 1) with 1. rewrite Z.mul_1_r, Z.div_1_r. destruct (Z.ltb_spec p len); lia.
Qed.
Theorem c80_ntile_partial : forall text loose wloose sort shp sho rows, sort_slice sort -> sound text shp sho rows ->
  exists ord, arrangement rows ord /\
  forall i p n, nth_error (ord i) p = Some i -> (forall r, In r rows -> r_args r = [Some (VInt n)]) -> 0 < n -> zlen (ord i) <= n + 1 ->
    over text loose wloose sort w_ntile no_frame (map row_of rows) (Z.of_nat i + 1) = Ok (Some (VInt (bucket (zlen (ord i)) n (Z.of_nat p)))).
Proof.
  intros text loose wloose sort shp sho rows Sl So. exists (order_at text sort rows). split; [now apply (ord_arrangement text sort Sl shp sho)|].
  intros i p n N A P L. rewrite (ntile_value text loose wloose sort shp sho rows i p n) by assumption. rewrite tile_bucket; auto.
  pose proof (pos_bound text sort rows i p N). unfold zlen. lia.
Qed.
(** With two or more rows more than buckets, the last row is in a bucket after the last. *)
Theorem c80_extra_buckets_refuted : forall text loose wloose sort shp sho rows, sort_slice sort -> sound text shp sho rows ->
  exists ord, arrangement rows ord /\
  forall i p n, nth_error (ord i) p = Some i -> (forall r, In r rows -> r_args r = [Some (VInt n)]) -> 0 < n -> n + 2 <= zlen (ord i) -> Z.of_nat p = zlen (ord i) - 1 ->
    exists b, over text loose wloose sort w_ntile no_frame (map row_of rows) (Z.of_nat i + 1) = Ok (Some (VInt b)) /\ n < b.
Proof.
  intros text loose wloose sort shp sho rows Sl So. exists (order_at text sort rows). split; [now apply (ord_arrangement text sort Sl shp sho)|].
  intros i p n N A P L E. eexists. split; [apply (ntile_value text loose wloose sort shp sho rows i p n); assumption|]. rewrite E. set (len := zlen (order_at text sort rows i)) in *.
  unfold tile. cbv zeta. assert (D1 : (len - 1) / n * n <= len - 1) by (pose proof (Z.div_mod (len - 1) n ltac:(lia)); pose proof (Z.mod_pos_bound (len - 1) n P); lia).
  destruct (Z.eq_dec n 1) as [->|Nn].
  - rewrite Z.div_1_r. destruct (Z.ltb_spec (len - 1) (2 * (len - 1))); [|lia]. assert (2 / 2 <= (len - 1) / 2) by (apply Z.div_le_mono; lia). change (2 / 2) with 1 in *. lia.
  - destruct (Z.ltb_spec (len - 1) (2 * ((len - 1) / n))) as [Q|Q]; [nia|]. nia.
Qed.
(** NTILE starts at 1 and goes up by at most one from row to row. *)
Theorem c114_ntile_steps : forall text loose wloose sort shp sho rows, sort_slice sort -> sound text shp sho rows ->
  exists ord, arrangement rows ord /\
  forall n, (forall r, In r rows -> r_args r = [Some (VInt n)]) -> 0 < n ->
    (forall i, nth_error (ord i) 0 = Some i -> over text loose wloose sort w_ntile no_frame (map row_of rows) (Z.of_nat i + 1) = Ok (Some (VInt 1))) /\
    (forall i j p, nth_error (ord i) p = Some i -> nth_error (ord i) (S p) = Some j ->
      exists a b, over text loose wloose sort w_ntile no_frame (map row_of rows) (Z.of_nat i + 1) = Ok (Some (VInt a)) /\
        over text loose wloose sort w_ntile no_frame (map row_of rows) (Z.of_nat j + 1) = Ok (Some (VInt b)) /\ a <= b <= a + 1).
Proof.
  intros text loose wloose sort shp sho rows Sl So. exists (order_at text sort rows). pose proof (ord_arrangement text sort Sl shp sho rows So) as Ar. split; [exact Ar|].
  intros n A P.
  assert (Dn : forall i p, nth_error (order_at text sort rows i) p = Some i -> 0 <= (zlen (order_at text sort rows i) - 1) / n).
  { intros i p N. pose proof (pos_bound text sort rows i p N). apply Z.div_pos; unfold zlen; lia. }
  split.
  - intros i N. rewrite (ntile_value text loose wloose sort shp sho rows i 0 n) by assumption. unfold tile. cbv zeta. specialize (Dn i 0%nat N).
    change (Z.of_nat 0) with 0. destruct (Z.ltb_spec 0 (2 * ((zlen (order_at text sort rows i) - 1) / n))) as [Q|Q]; [reflexivity|]. do 3 f_equal. lia.
  - intros i j p N Nj. pose proof (ord_lt text sort Sl rows i p N) as L. destruct (Ar i L) as [(_ & Mem & _) Same].
    assert (Ij : In j (order_at text sort rows i)) by (eapply nth_error_In; eauto). apply Mem in Ij. destruct Ij as [Lj Pj]. specialize (Same j Lj Pj).
    do 2 eexists. split; [apply (ntile_value text loose wloose sort shp sho rows i p n); assumption|]. split; [apply (ntile_value text loose wloose sort shp sho rows j (S p) n); auto; now rewrite Same|].
    rewrite Same. specialize (Dn i p N). unfold tile. cbv zeta. set (d := (zlen (order_at text sort rows i) - 1) / n) in *.
    rewrite Nat2Z.inj_succ. unfold Z.succ. pose proof (Z.div_mod (Z.of_nat p) 2 ltac:(lia)). pose proof (Z.mod_pos_bound (Z.of_nat p) 2 ltac:(lia)).
    pose proof (Z.div_mod (Z.of_nat p + 1) 2 ltac:(lia)). pose proof (Z.mod_pos_bound (Z.of_nat p + 1) 2 ltac:(lia)).
    destruct (Z.ltb_spec (Z.of_nat p) (2 * d)); destruct (Z.ltb_spec (Z.of_nat p + 1) (2 * d)); lia.
Qed.
Definition tile_table (n : Z) : list srow := map (fun k => {| r_args := [Some (VInt n)]; r_part := []; r_order := [(VInt k, true)] |}) [1; 2; 3; 4; 5; 6].
Example c80_example : over1 w_ntile no_frame (map row_of (tile_table 5)) 2 = Ok (Some (VInt 1)) /\ over1 w_ntile no_frame (map row_of (tile_table 5)) 6 = Ok (Some (VInt 5)).
Proof. split; reflexivity. Qed.
Example c80_extra_example : over1 w_ntile no_frame (map row_of (tile_table 2)) 6 = Ok (Some (VInt 4)).
Proof. reflexivity. Qed.
Example c114_example : map (fun i => over1 w_ntile no_frame (map row_of (tile_table 3)) i) [1; 2; 3; 4; 5; 6] = map (fun t => Ok (Some (VInt t))) [1; 1; 2; 3; 4; 5].
Proof. reflexivity. Qed.

(** ** C115: AVG *)
Lemma avg_floats : forall fs s, foldr avg_step (Some s) (map VFloat fs) = Ok (Some (fold_left fadd fs s)).
Proof. induction fs as [|f fs IH]; intros s; [reflexivity|]. cbn [map foldr]. unfold avg_step at 1. cbn [to_float bind]. apply IH. Qed.
Lemma avg_value : forall text loose wloose sort shp sho rows, sort_slice sort -> sound text shp sho rows ->
  exists ord, arrangement rows ord /\
  forall s e i p fr f fs, start_bound s -> end_bound e -> proper s e -> small rows s -> small rows e ->
    (forall r, In r rows -> has_arg r) -> nth_error (ord i) p = Some i -> rows_frame s e (ord i) p fr ->
    not_null (map (arg_of rows) fr) = map VFloat (f :: fs) ->
    over text loose wloose sort (w_avg text) (rows_spec s e) (map row_of rows) (Z.of_nat i + 1) = Ok (Some (VFloat (fdiv (fold_left fadd fs f) (float_of_int (zlen fr))))).
Proof.
  intros text loose wloose sort shp sho rows Sl So. exists (order_at text sort rows). split; [now apply (ord_arrangement text sort Sl shp sho)|].
  intros s e i p fr f fs Hs He Pr Ss Se A N Fr V. unfold w_avg.
  rewrite (over_rows0 text loose wloose sort Sl shp sho rows So _ (rows_spec s e) s e i p fr None
    (fun vs => bind (kept text (a_distinct (opts (rows_spec s e))) [] vs) (fun ks => bind (foldr avg_step None ks) (fun s => Ok (option_map (fun f => VFloat (fdiv f (float_of_int (zlen vs)))) s)))) A eq_refl N Hs He Pr Ss Se Fr); auto.
  cbn [opts a_distinct rows_spec p_distinct]. rewrite kept_all, V. cbn [bind map foldr]. unfold avg_step at 1. cbn [to_float bind]. rewrite avg_floats. cbn [bind option_map].
  unfold zlen. now rewrite map_length.
Qed.
(** AVG of FLOAT64 is the sum over the number of values when no row of the frame is NULL. *)
Theorem c115_avg_partial : forall text loose wloose sort shp sho rows, sort_slice sort -> sound text shp sho rows ->
  exists ord, arrangement rows ord /\
  forall s e i p fr f fs, start_bound s -> end_bound e -> proper s e -> small rows s -> small rows e ->
    (forall r, In r rows -> has_arg r) -> nth_error (ord i) p = Some i -> rows_frame s e (ord i) p fr ->
    map (arg_of rows) fr = map (fun x => Some (VFloat x)) (f :: fs) ->
    over text loose wloose sort (w_avg text) (rows_spec s e) (map row_of rows) (Z.of_nat i + 1) = Ok (Some (VFloat (fdiv (fold_left fadd fs f) (float_of_int (zlen (f :: fs)))))).
Proof.
  intros text loose wloose sort shp sho rows Sl So. destruct (avg_value text loose wloose sort shp sho rows Sl So) as (ord & Ar & H). exists ord. split; [exact Ar|].
  intros s e i p fr f fs Hs He Pr Ss Se A N Fr V. assert (V' : not_null (map (arg_of rows) fr) = map VFloat (f :: fs)) by (rewrite V; clear; induction (f :: fs) as [|x l IH]; [reflexivity|cbn in *; now rewrite <- IH]).
  rewrite (H s e i p fr f fs) by assumption.
  apply (f_equal (@List.length _)) in V. rewrite !map_length in V. unfold zlen. now rewrite V.
Qed.
(** The rows that are NULL are counted in the divisor. *)
Theorem c115_nulls_counted_refuted : forall text loose wloose sort shp sho rows, sort_slice sort -> sound text shp sho rows ->
  exists ord, arrangement rows ord /\
  forall s e i p fr f fs, start_bound s -> end_bound e -> proper s e -> small rows s -> small rows e ->
    (forall r, In r rows -> has_arg r) -> nth_error (ord i) p = Some i -> rows_frame s e (ord i) p fr ->
    not_null (map (arg_of rows) fr) = map VFloat (f :: fs) ->
    over text loose wloose sort (w_avg text) (rows_spec s e) (map row_of rows) (Z.of_nat i + 1) = Ok (Some (VFloat (fdiv (fold_left fadd fs f) (float_of_int (zlen fr))))).
Proof. exact avg_value. Qed.
Definition avg_table : list srow :=
  [ {| r_args := [Some (VFloat (float_of_int 1))]; r_part := []; r_order := [(VInt 1, true)] |}; {| r_args := [None]; r_part := []; r_order := [(VInt 2, true)] |} ].
Example c115_example : over1 (w_avg text1) (rows_spec (the_bound UnboundedPreceding 0) (the_bound CurrentRow 0)) (map row_of avg_table) 1 = Ok (Some (VFloat (float_of_int 1))) /\
  over1 (w_avg text1) (rows_spec (the_bound UnboundedPreceding 0) (the_bound CurrentRow 0)) (map row_of avg_table) 2 = Ok (Some (VFloat (fdiv (float_of_int 1) (float_of_int 2)))).
Proof. split; reflexivity. Qed.

(** ** C116: CUME_DIST and PERCENT_RANK *)
(** CUME_DIST is the share of the rows not after this one, if no peer comes after it. *)
Theorem c116_cume_dist_partial : forall text loose wloose sort shp sho rows, sort_slice sort -> sound text shp sho rows ->
  exists ord, arrangement rows ord /\
  forall i p upto, nth_error (ord i) p = Some i -> keeps (fun j => ~ earlier rows i j) (ord i) upto ->
    (forall q j, (p < q)%nat -> nth_error (ord i) q = Some j -> earlier rows i j) ->
    over text loose wloose sort w_cume_dist no_frame (map row_of rows) (Z.of_nat i + 1) = Ok (Some (VFloat (fdiv (float_of_int (zlen upto)) (float_of_int (zlen (ord i)))))).
Proof.
  intros text loose wloose sort shp sho rows Sl So. exists (order_at text sort rows). pose proof (ord_arrangement text sort Sl shp sho rows So) as Ar. split; [exact Ar|].
  intros i p upto N K Af. rewrite (over_none text loose wloose sort Sl shp sho rows So w_cume_dist no_frame tt _ i p eq_refl (feed_store1 _ rows) N). cbn [wdone w_cume_dist simple].
  unfold zlen at 1. rewrite map_length. fold (zlen (order_at text sort rows i)).
  pose proof (ord_lt text sort Sl rows i p N) as L. destruct (Ar i L) as [(_ & _ & S) _].
  destruct (nth_error_split _ _ N) as (l1 & l2 & E & Lp).
  assert (U : upto = (l1 ++ [i])%list).
  { assert (Before : forall j, In j (l1 ++ [i]) -> ~ earlier rows i j).
    { intros j J. apply in_app_or in J. destruct J as [J|[<-|[]]].
      - rewrite E in S. clear - S J. induction l1 as [|x l1 IH]; [contradiction|]. cbn [app] in S. inversion S as [|? ? S1 F]; subst. destruct J as [->|J]; [|now apply IH].
        rewrite Forall_forall in F. apply F. apply in_or_app. right. now left.
      - apply keys_before_irrefl. }
    assert (After : forall j, In j l2 -> earlier rows i j).
    { intros j J. destruct (In_nth_error _ _ J) as (q & Q). apply (Af (p + 1 + q)%nat); [lia|]. rewrite E, nth_error_app2 by lia. replace (p + 1 + q - List.length l1)%nat with (1 + q)%nat by lia. exact Q. }
    rewrite E in K. replace (l1 ++ i :: l2)%list with ((l1 ++ [i]) ++ l2)%list in K by (now rewrite <- app_assoc).
    clear - K Before After. revert upto K. induction (l1 ++ [i])%list as [|x l IH]; intros upto K.
    - cbn [app] in K. clear - K After. remember l2 as l. clear Heql l2. induction K as [|x l o P K IH|x l o P K IH]; [reflexivity| |].
      + exfalso. apply P, After. now left.
      + apply IH. intros. apply After. now right.
    - cbn [app] in K. inversion K as [|? ? o P K1|? ? o P K1]; subst.
      + f_equal. apply IH; auto. intros. apply Before. now right.
      + exfalso. apply P. apply Before. now left. }
  subst upto. replace (zlen (l1 ++ [i])) with (Z.of_nat p + 1) by (unfold zlen; rewrite app_length; cbn [List.length]; lia). reflexivity.
Qed.
(** A row with peers after it leaves them out. *)
Theorem c116_cume_dist_refuted : forall text loose wloose sort shp sho rows, sort_slice sort -> sound text shp sho rows ->
  exists ord, arrangement rows ord /\
  forall i p, nth_error (ord i) p = Some i ->
    over text loose wloose sort w_cume_dist no_frame (map row_of rows) (Z.of_nat i + 1) = Ok (Some (VFloat (fdiv (float_of_int (Z.of_nat p + 1)) (float_of_int (zlen (ord i)))))).
Proof.
  intros text loose wloose sort shp sho rows Sl So. exists (order_at text sort rows). split; [now apply (ord_arrangement text sort Sl shp sho)|].
  intros i p N. rewrite (over_none text loose wloose sort Sl shp sho rows So w_cume_dist no_frame tt _ i p eq_refl (feed_store1 _ rows) N). cbn [wdone w_cume_dist simple].
  unfold zlen. now rewrite map_length.
Qed.
Definition tied : list srow := map (fun k => {| r_args := []; r_part := []; r_order := [(VInt k, true)] |}) [5; 5; 9; 9].
Example c116_tied_example : over1 w_cume_dist no_frame (map row_of tied) 1 = Ok (Some (VFloat (fdiv (float_of_int 1) (float_of_int 4)))) /\
  over1 w_cume_dist no_frame (map row_of tied) 2 = Ok (Some (VFloat (fdiv (float_of_int 2) (float_of_int 4)))) /\ peers tied 0 1.
Proof. split; [reflexivity|]. split; [reflexivity|]. split; intros H; unfold earlier in H; cbn in H; inversion H as [? ? ? ? ? ? A|? ? ? ? ? ? _ B]; subst; [cbn in A; lia|inversion B|cbn in A; lia|inversion B]. Qed.
(** PERCENT_RANK is the share of the other rows that come before, under the conditions of RANK. *)
Theorem c116_percent_rank_partial : forall text loose wloose sort shp dir rows, sort_slice sort -> sound text shp [(YInt, dir)] rows ->
  exists ord, arrangement rows ord /\
  forall i z bef, (i < List.length rows)%nat -> r_order (at_row rows i) = [(VInt z, dir)] -> dir = false \/ 0 < z ->
    keeps (fun j => earlier rows j i) (ord i) bef ->
    over text loose wloose sort w_percent_rank no_frame (map row_of rows) (Z.of_nat i + 1) =
    Ok (Some (VFloat (if zlen (ord i) =? 1 then fzero else fdiv (float_of_int (zlen bef)) (float_of_int (zlen (ord i) - 1))))).
Proof.
  intros text loose wloose sort shp dir rows Sl So. exists (order_at text sort rows). split; [now apply (ord_arrangement text sort Sl shp [(YInt, dir)])|].
  intros i z bef L E Z K. destruct (position text sort Sl rows i L) as (p & N).
  destruct (split_at text sort Sl shp dir rows So i p N) as (l1 & l2 & Eo & Lp & S1 & Lt & H2 & _).
  destruct (zkey_spec text shp dir rows So i L) as [E2 B]. assert (Ez : zkey rows i = z) by congruence.
  rewrite (over_none text loose wloose sort Sl shp [(YInt, dir)] rows So w_percent_rank no_frame tt _ i p eq_refl (feed_store1 _ rows) N). cbn [wdone w_percent_rank simple].
  rewrite (rank_keys text sort shp dir rows So i p l1 l2 Eo Lp Lt). rewrite rank_loop_ints.
  2:{ intros y Y. apply in_map_iff in Y. destruct Y as (j & <- & J). apply (zkey_spec text shp dir rows So). apply Lt. apply in_app_or in J. apply in_or_app. destruct J as [J|[<-|[]]]; [now left|right; now left]. }
  cbn [bind]. rewrite (signed_map dir rows), map_app. cbn [map]. rewrite rank_inv by exact S1.
  rewrite (before_count text sort Sl shp dir rows So i p l1 l2 bef Eo N Lt H2 K). rewrite Ez.
  destruct (Z.ltb_spec (threshold dir) (signed dir z)) as [_|Q].
  2:{ exfalso. rewrite Ez in B. unfold threshold, rank_start, signed, two63 in Q. destruct dir; [destruct Z; [discriminate|lia]|lia]. }
  cbn [fst]. unfold zlen at 1 3. rewrite map_length. fold (zlen (order_at text sort rows i)). replace (1 + zlen bef - 1) with (zlen bef) by lia. reflexivity.
Qed.
Example c116_percent_example : over1 w_percent_rank no_frame (map row_of tied) 4 = Ok (Some (VFloat (fdiv (float_of_int 2) (float_of_int 3)))).
Proof. reflexivity. Qed.
Example c116_zero_example : over1 w_percent_rank no_frame (map row_of zero_key1) 1 = Ok (Some (VFloat (fdiv (float_of_int (-1)) (float_of_int 1)))).
Proof. reflexivity. Qed.

Print Assumptions c75_rows_frame_partial.
Print Assumptions c75_inverted_frame_refuted.
Print Assumptions c75_far_end_refuted.
Print Assumptions c112_frame_around.
Print Assumptions c76_default_frame_partial.
Print Assumptions c76_descending_refuted.
Print Assumptions c76_peers_left_out_refuted.
Print Assumptions c76_only_last_key_refuted.
Print Assumptions c76_null_key_refuted.
Print Assumptions c77_partition_alone_partial.
Print Assumptions c77_underscore_refuted.
Print Assumptions c77_large_keys_refuted.
Print Assumptions c77_null_key_refuted.
Print Assumptions c113_row_number.
Print Assumptions c113_all_numbers.
Print Assumptions c78_rank_partial.
Print Assumptions c78_rank_zero_refuted.
Print Assumptions c78_dense_rank_partial.
Print Assumptions c78_string_key_refuted.
Print Assumptions c79_lead_lag_partial.
Print Assumptions c79_default_for_null_refuted.
Print Assumptions c79_far_lead_refuted.
Print Assumptions c79_nth_value_partial.
Print Assumptions c79_nth_value_refuted.
Print Assumptions c117_first_last.
Print Assumptions c80_ntile_partial.
Print Assumptions c80_extra_buckets_refuted.
Print Assumptions c114_ntile_steps.
Print Assumptions c115_avg_partial.
Print Assumptions c115_nulls_counted_refuted.
Print Assumptions c116_cume_dist_partial.
Print Assumptions c116_cume_dist_refuted.
Print Assumptions c116_percent_rank_partial.
