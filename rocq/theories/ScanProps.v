(** Properties C157 to C167: scans. *)
From Coq Require Import Ascii String List ZArith QArith Lia Bool SpecFloat Sorted.
From Verif Require Import GoBase GoBaseFacts CalendarModel InstantModel ValueModel CompareSpec CompareProofs CodecModel CodecSpec CodecProofs PartModel GroupModel GroupSpec GroupProofs GroupProps ScanModel ScanSpec ScanProofs.
Import ListNotations.
Local Open Scope string_scope.
Open Scope Z_scope.
Local Opaque civil year_start leap godate.

(** ** C157: set operations match columns by position *)
(** UNION ALL gives the rows of the items one after the other exactly when no row differs in
    two positions where the first item has the same column. *)
Theorem c157_union_all_partial : forall i is rs rss,
  Forall2 item_gives (i :: is) (rs :: rss) -> Forall (fun j => List.length (outs j) = List.length (outs i)) is ->
  (set_scan UnionAll (i :: is) = Some (concat (rs :: rss)) <->
   forall row a b, In row (concat (rs :: rss)) -> (a < b < List.length (outs i))%nat ->
     lower (nth a (outs i) "") = lower (nth b (outs i) "") -> nth a row None = nth b row None).
Proof.
  intros i is rs rss G W. inversion G as [|? ? ? ? Gi Gs]; subst.
  assert (L : Forall (fun r => List.length r = List.length (outs i)) (concat (rs :: rss))).
  { cbn [concat]. apply Forall_app. split; [now apply gives_width|]. clear G Gi. induction Gs as [|j r is rss Gj Gs IH]; cbn [concat]; [constructor|].
    inversion W as [|? ? Wj Ws]; subst. apply Forall_app. split; [|now apply IH]. pose proof (gives_width j r Gj) as Wd. eapply Forall_impl; [|exact Wd]. cbn. intros; congruence. }
  unfold set_scan. rewrite (proj2 (item_rows_iff i rs) Gi), (compounds_union is rs rss Gs).
  change (rs ++ concat rss)%list with (concat (rs :: rss)). rewrite read_all_iff by exact L.
  rewrite Forall_forall. unfold agree. split; intros H; [intros row a b I|intros row I a b]; now apply H.
Qed.
(** In particular when the first item has no column twice. *)
Theorem c157_distinct_columns_partial : forall i is rs rss,
  Forall2 item_gives (i :: is) (rs :: rss) -> Forall (fun j => List.length (outs j) = List.length (outs i)) is ->
  distinct_names (outs i) -> set_scan UnionAll (i :: is) = Some (concat (rs :: rss)).
Proof.
  intros i is rs rss G W D. apply c157_union_all_partial; auto. intros row a b _ A E. now apply (agree_distinct (outs i) row D a b A E).
Qed.
Example c157_case : set_scan UnionAll [Item ["x"; "y"] [[("y", Some (VInt 2)); ("x", Some (VInt 1))]]; Item ["p"; "q"] [[("p", Some (VInt 3)); ("q", None)]]] =
  Some [[Some (VInt 1); Some (VInt 2)]; [Some (VInt 3); None]].
Proof. reflexivity. Qed.
(** SELECT x, x FROM t UNION ALL SELECT y, z FROM u: the second value of u's rows is lost. *)
Theorem c157_repeated_column_refuted : forall x y z a b c, lower y <> lower z ->
  set_scan UnionAll [Item [x; x] [[(x, a)]]; Item [y; z] [[(y, b); (z, c)]]] = Some [[a; a]; [b; b]].
Proof.
  intros x y z a b c N. assert (R : forall n, same_name n n = true) by (intros n; now apply same_name_iff).
  assert (Q : same_name y z = false) by (destruct (same_name y z) eqn:E; [apply same_name_iff in E; contradiction|reflexivity]).
  unfold set_scan, item_rows. cbn [outs input all_some read_cols read_col find fst snd compounds compound app combine].
  unfold read_col. cbn [find fst snd]. rewrite !R. cbn [snd]. unfold item_rows. cbn [outs input all_some read_cols]. unfold read_col. cbn [find fst snd].
  rewrite !R, Q. cbn [snd compound app all_some combine read_cols]. unfold read_col. cbn [find fst snd combine]. now rewrite !R.
Qed.
(** INTERSECT ALL and EXCEPT ALL fail whatever the rows. *)
Theorem c157_all_refuted : forall i j is, set_scan IntersectAll (i :: j :: is) = None /\ set_scan ExceptAll (i :: j :: is) = None.
Proof. intros i j is. unfold set_scan. destruct (item_rows i); cbn [compounds]; [destruct (item_rows j)|]; split; reflexivity. Qed.

(** ** C158: DISTINCT *)
Theorem c158_distinct : forall op ts i j is rss, op = UnionDistinct \/ op = IntersectDistinct \/ op = ExceptDistinct ->
  Forall2 item_gives (i :: j :: is) rss -> Forall (Forall (plain_row ts)) rss -> List.length ts = List.length (outs i) -> distinct_names (outs i) ->
  exists res, set_scan op (i :: j :: is) = Some res /\
    ForallOrdPairs (fun a b => ~ equal_rows a b) res /\ incl res (concat rss) /\
    forall r, plain_row ts r -> (holds r res <-> belongs op r rss).
Proof.
  intros op ts i j is rss D G O L N. inversion G as [|? rs ? rss' Gi Gs]; subst. inversion Gs as [|? b ? rss2 Gj Gr]; subst.
  inversion O as [|? ? Oi Os]; subst. inversion Os as [|? ? Ob Or]; subst.
  destruct (compound_right ts op rs b D Oi Ob) as (c & C & Nc & Ic & Hc).
  assert (Oc : Forall (plain_row ts) c) by (eapply ok_incl; [exact Ic|apply Forall_app; now split]).
  destruct (compounds_right ts op D is rss2 c Oc Nc Gr Or) as (d & E & Nd & Id & Hd).
  assert (Sub : incl d (concat (rs :: b :: rss2))).
  { intros x X. apply Id in X. cbn [concat]. rewrite app_assoc. apply in_app_iff in X as [X|X]; apply in_app_iff; [left; now apply Ic|now right]. }
  exists d. split; [|split; [exact Nd|split; [exact Sub|]]].
  - unfold set_scan. rewrite (proj2 (item_rows_iff i rs) Gi). cbn [compounds]. rewrite (proj2 (item_rows_iff j b) Gj), C, E.
    assert (P : Forall (plain_row ts) (concat (rs :: b :: rss2))).
    { apply Forall_concat. now constructor. }
    apply read_all_iff; apply Forall_forall; intros row I; [|now apply agree_distinct].
    eapply Forall_forall in P; [|apply Sub; exact I]. rewrite <- L. clear -P. induction P; cbn; congruence.
  - intros r R. rewrite (Hd r R). rewrite (joins_step ts op r rs b c rss2 D (Hc r R)).
    destruct D as [-> | [-> | ->]]; cbn [joins_all belongs]; rewrite ?Exists_cons, ?Forall_cons_iff; tauto.
Qed.
Example c158_case : exists res, set_scan UnionDistinct
   [Item ["x"] [[("x", Some (VNum (1 # 2)))]; [("x", None)]]; Item ["y"] [[("y", Some (VNum (2 # 4)))]; [("y", None)]]] = Some res /\ List.length res = 2%nat.
Proof. eexists. split; [vm_compute; reflexivity|reflexivity]. Qed.

(** ** C159: NaN *)
(** NaN is taken for NULL: the two are duplicates, and NULLS LAST puts NaN last. *)
Theorem c159_nan_refuted :
  same_cell (Some (VFloat S754_nan)) None = true /\ ~ equal_keys (Some (VFloat S754_nan)) None /\
  (forall v t, plain_value t v -> order_cmp [Order 0 false NullsLast] [Some v] [Some (VFloat S754_nan)] < 0 /\
     order_cmp [Order 0 false NullsLast] [None] [Some (VFloat S754_nan)] = 0).
Proof.
  split; [reflexivity|]. split; [cbn; tauto|]. intros v t P.
  assert (N : engine_null (Some v) = false).
  { destruct (engine_null (Some v)) eqn:E; [apply (null_plain t) in E; [discriminate|exact P]|reflexivity]. }
  split; [|reflexivity]. unfold order_cmp. cbn [flat_map app terms_of nulls col desc terms_cmp term_cmp at_col nth].
  rewrite N. cbn [engine_null is_nan]. reflexivity.
Qed.

(** ** C160: ORDER BY *)
Theorem c160_compare : forall tcol l r s,
  Forall (fun i => plain (tcol (col i)) (nth (col i) r None)) l -> Forall (fun i => plain (tcol (col i)) (nth (col i) s None)) l ->
  (order_cmp l r s < 0 <-> row_before l r s) /\
  (order_cmp l r s = 0 <-> Forall (fun i => equal_keys (nth (col i) r None) (nth (col i) s None)) l).
Proof.
  intros tcol l r s R Q.
  destruct (order_right tcol l r s R Q) as [[C B]|[[C B]|[C B]]].
  - destruct (row_before_excl _ _ _ B) as (A1 & A2 & A3). split; (split; intros H); try assumption; try lia. contradiction.
  - split; (split; intros H); try assumption; try lia. destruct (row_before_excl _ _ _ H) as (_ & A & _). contradiction.
  - destruct (row_before_excl _ _ _ B) as (A1 & A2 & A3). split; (split; intros H); try lia; contradiction.
Qed.
(** However the rows are sorted: if no row comes after its neighbour, none comes after any
    later row. *)
Theorem c160_sorted : forall tcol l rows, Forall (fun r => Forall (fun i => plain (tcol (col i)) (nth (col i) r None)) l) rows ->
  Sorted (fun r s => order_cmp l r s <= 0) rows -> StronglySorted (fun r s => ~ row_before l s r) rows.
Proof.
  intros tcol l rows F S1.
  assert (S2 : StronglySorted (fun r s => order_cmp l r s <= 0) rows).
  { induction S1 as [|r rows S1 IH H]; constructor; [apply IH; now inversion F|].
    inversion F as [|? ? Fr Fs]; subst. specialize (IH Fs). clear S1.
    destruct H as [|s rows H]; constructor; [assumption|]. inversion IH as [|? ? _ A]; subst. inversion Fs as [|? ? F1 F2]; subst.
    apply Forall_forall. intros u U. eapply Forall_forall in A; [|exact U]. eapply Forall_forall in F2; [|exact U].
    exact (order_le_trans tcol l r s u Fr F1 F2 H A). }
  clear S1. induction S2 as [|r rows S2 IH H]; constructor; [apply IH; now inversion F|].
  inversion F as [|? ? Fr Fs]; subst. apply Forall_forall. intros s I B.
  eapply Forall_forall in H; [|exact I]. eapply Forall_forall in Fs; [|exact I].
  apply (c160_compare tcol l s r Fs Fr) in B as B'. destruct (row_before_excl _ _ _ B) as (N1 & N2 & N3).
  destruct (order_right tcol l r s Fr Fs) as [[_ D]|[[_ D]|[D _]]]; [contradiction|contradiction|lia].
Qed.
Example c160_case : row_before [Order 0 true NullsFirst; Order 1 false NullsDefault] [None; Some (VInt 1)] [Some (VStr "b"); None] /\
  order_cmp [Order 0 true NullsFirst; Order 1 false NullsDefault] [Some (VStr "b"); None] [Some (VStr "a"); Some (VInt 1)] = -1.
Proof. split; [apply rb_here; reflexivity|reflexivity]. Qed.

(** ** C161: LIMIT and OFFSET *)
Theorem c161_limit : forall A (rows : list A) n m, 0 <= n -> 0 <= m ->
  exists pre res post, rows = (pre ++ res ++ post)%list /\ limit_scan (Some (VInt n)) (Some (VInt m)) rows = Some res /\
    Z.of_nat (List.length pre) = Z.min m (Z.of_nat (List.length rows)) /\
    Z.of_nat (List.length res) = Z.min n (Z.of_nat (List.length rows) - Z.of_nat (List.length pre)).
Proof.
  intros A rows n m N M. exists (firstn (Z.to_nat m) rows), (firstn (Z.to_nat n) (skipn (Z.to_nat m) rows)), (skipn (Z.to_nat n) (skipn (Z.to_nat m) rows)).
  rewrite !firstn_skipn. split; [reflexivity|]. unfold limit_scan. destruct (Z.ltb_spec n 0); [lia|]. split; [reflexivity|].
  rewrite !firstn_length, skipn_length. lia.
Qed.
Example c161_case : limit_scan (Some (VInt 2)) (Some (VInt 1)) [10; 20; 30; 40] = Some [20; 30].
Proof. reflexivity. Qed.
(** ** C162: a negative LIMIT is no limit, a negative OFFSET skips nothing; neither fails. *)
Theorem c162_negative_refuted : forall A (rows : list A) n m,
  (n < 0 -> limit_scan (Some (VInt n)) (Some (VInt m)) rows = Some (skipn (Z.to_nat m) rows)) /\
  (0 <= n -> m < 0 -> limit_scan (Some (VInt n)) (Some (VInt m)) rows = Some (firstn (Z.to_nat n) rows)).
Proof.
  intros A rows n m. unfold limit_scan. destruct (Z.ltb_spec n 0); (split; intros N); try lia; [reflexivity|].
  intros M. replace (Z.to_nat m) with 0%nat by lia. reflexivity.
Qed.
Example c162_case : limit_scan (Some (VInt (-1))) (Some (VInt 1)) [10; 20; 30] = Some [20; 30].
Proof. reflexivity. Qed.

Lemma shows_cells agg cols s g : g <> [] \/ s = [] -> Forall2 (shows agg s g) cols (map (out_cell agg s g) cols).
Proof.
  intros Hg. induction cols as [|c cs IHc]; cbn [map]; constructor; [|assumption]. destruct c as [k|a]; [|reflexivity].
  cbn [shows out_cell]. destruct (existsb (Nat.eqb k) s) eqn:X.
  - split.
    + intros _. destruct g as [|h t]; [|exists h; split; [now left|reflexivity]].
      destruct Hg as [Hg| ->]; [contradiction|discriminate].
    + intros N. exfalso. apply N. apply existsb_exists in X as (x & I & E). apply Nat.eqb_eq in E. now subst.
  - split; [|reflexivity]. intros I. exfalso.
    assert (existsb (Nat.eqb k) s = true) by (apply existsb_exists; exists k; split; [assumption|apply Nat.eqb_refl]). congruence.
Qed.
Lemma one_set_right l agg cols rows tcol s : Forall (fun k => key_type (tcol k)) s ->
  Forall (fun r => Forall (fun k => column (tcol k) (nth k r None)) s) rows ->
  exists out, one_set l agg cols rows s = Ok out /\ set_rows agg cols rows s out.
Proof.
  intros Ts C1.
  assert (D : s = [] \/ s <> []) by (destruct s; [now left|right; discriminate]). destruct D as [-> |NE].
  { exists [map (out_cell agg [] rows) cols]. split; [reflexivity|]. exists [rows]. split; [|reflexivity]. constructor; [|constructor]. apply shows_cells. now right. }
  set (P := fun r => Forall (fun k => column (tcol k) (nth k r None)) s).
        set (E := fun a b => match together l (keys_at s a) (keys_at s b) with Ok x => x | _ => false end).
        assert (KT : Forall exact_type (map tcol s)).
        { apply Forall_forall. intros t I. apply in_map_iff in I as (k & <- & I). eapply Forall_forall in Ts; [|exact I]. exact Ts. }
        assert (KC : forall a, P a -> Forall2 column (map tcol s) (keys_at s a)).
        { intros a Pa. unfold keys_at, P in *. clear - Pa. induction Pa; cbn [map]; constructor; assumption. }
        assert (KE : forall a b, Forall2 equal_keys (keys_at s a) (keys_at s b) <-> same_keys s a b).
        { intros a b. unfold keys_at, same_keys, at_col. clear. induction s as [|k s IH]; cbn [map]; [split; constructor|].
          split; intros H; inversion H; subst; constructor; try assumption; now apply IH. }
        assert (HT : forall a b, P a -> P b -> together l (keys_at s a) (keys_at s b) = Ok (E a b)).
        { intros a b Pa Pb. unfold E. destruct (c136_exact l (map tcol s) _ _ KT (KC a Pa) (KC b Pb)) as (r & -> & _). reflexivity. }
        assert (EQ : forall a b, P a -> P b -> (E a b = true <-> same_keys s a b)).
        { intros a b Pa Pb. rewrite <- KE. destruct (c136_exact l (map tcol s) _ _ KT (KC a Pa) (KC b Pb)) as (r & R & I). unfold E. now rewrite R. }
        assert (EV : forall a b c, P a -> P b -> P c -> E a a = true /\ (E a b = true -> E b a = true) /\ (E a b = true -> E b c = true -> E a c = true)).
        { intros a b c Pa Pb Pc. destruct (c136_equivalence l (map tcol s) _ _ _ KT (KC a Pa) (KC b Pb) (KC c Pc)) as (R & Sy & Tr').
          rewrite !HT in * by assumption. split; [congruence|]. split; [intros H; rewrite H in Sy; specialize (Sy eq_refl); congruence|].
          intros H H'. rewrite H, H' in Tr'. specialize (Tr' eq_refl eq_refl). congruence. }
        destruct (groups_inv l s P E HT) with (rows := rows) (done := @nil (list cell)) (gs := @nil (list (list cell))) as (gs & Gs & (I1 & I2 & I3)).
        + intros a Pa. exact (proj1 (EV a a a Pa Pa Pa)).
        + intros a b Pa Pb. exact (proj1 (proj2 (EV a b b Pa Pb Pb))).
        + intros a b c Pa Pb Pc. exact (proj2 (proj2 (EV a b c Pa Pb Pc))).
        + exact C1.
        + constructor.
        + split; [constructor|]. split; [intros r []|constructor].
        + cbn [app] in *. exists (map (fun g => map (out_cell agg s g) cols) gs). split.
          { unfold one_set. destruct s; [contradiction|]. rewrite Gs. reflexivity. }
          exists gs. assert (MS : grouped s rows gs -> match s with [] => gs = [rows] | _ => grouped s rows gs end) by (destruct s; [contradiction|auto]).
          assert (In_rows : forall g r, In g gs -> In r g -> P r).
          { intros g r Ig Ir. eapply Forall_forall in I1; [|exact Ig]. destruct I1 as (h & t & -> & Fl). rewrite Fl in Ir. apply filter_In in Ir as [Ir _].
            eapply Forall_forall in C1; [exact C1|exact Ir]. }
          split.
          { clear - I1. induction I1 as [|g gs Hg I1 IH]; cbn [map]; constructor; [|assumption].
            apply shows_cells. left. destruct Hg as (h & t & -> & _). discriminate. }
          apply MS. split; [|split; [exact I2|]].
          { apply Forall_forall. intros g Ig. pose proof Ig as Ig'. eapply Forall_forall in I1; [|exact Ig]. destruct I1 as (h & t & -> & Fl).
            exists h, t, (fun x => E x h). split; [reflexivity|]. split; [exact Fl|]. intros r Ir. apply EQ.
            - eapply Forall_forall in C1; [exact C1|exact Ir].
            - eapply In_rows; [exact Ig'|now left]. }
          clear - I3 EQ In_rows. induction I3 as [|g gs Ap I3 IH]; constructor.
          { apply Forall_forall. intros g' Ig' r r' Ir Ir' K. eapply Forall_forall in Ap; [|exact Ig']. specialize (Ap r r' Ir Ir').
            assert (P r) by (apply (In_rows g r); [now left|assumption]). assert (P r') by (apply (In_rows g' r'); [now right|assumption]).
            apply EQ in K; auto. congruence. }
          apply IH. intros g' r Ig' Ir. apply (In_rows g' r); [now right|assumption].
Qed.
(** ** C163: GROUP BY, ROLLUP and grouping sets *)
Theorem c163_grouping_sets : forall l agg cols rows tcol sets,
  Forall (fun s => Forall (fun k => key_type (tcol k)) s) sets ->
  Forall (fun r => Forall (fun s => Forall (fun k => column (tcol k) (nth k r None)) s) sets) rows ->
  exists outs, group_scan l agg cols rows sets = Ok (concat outs) /\ Forall2 (set_rows agg cols rows) sets outs.
Proof.
  intros l agg cols rows tcol sets. induction sets as [|s sets IH]; intros T C.
  - exists []. split; [reflexivity|constructor].
  - inversion T as [|? ? Ts Tr]; subst.
    assert (C1 : Forall (fun r => Forall (fun k => column (tcol k) (nth k r None)) s) rows) by (eapply Forall_impl; [|exact C]; intros r H; now inversion H).
    assert (C2 : Forall (fun r => Forall (fun s => Forall (fun k => column (tcol k) (nth k r None)) s) sets) rows) by (eapply Forall_impl; [|exact C]; intros r H; now inversion H).
    destruct (IH Tr C2) as (outs & G & F). cbn [group_scan].
    pose proof (one_set_right l agg cols rows tcol s Ts C1) as One.
    destruct One as (out & -> & SR). cbn [bind]. rewrite G. cbn [bind]. exists (out :: outs). split; [reflexivity|]. now constructor.
Qed.
Example c163_case : forall l, group_scan l (fun _ g => Some (VInt (Z.of_nat (List.length g)))) [OKey 0; OAgg 0]
  [[Some (VInt 5)]; [None]; [Some (VInt 5)]] [[0%nat]; []] =
  Ok [[Some (VInt 5); Some (VInt 2)]; [None; Some (VInt 1)]; [None; Some (VInt 3)]].
Proof. reflexivity. Qed.
(** Without rows: nothing for a grouping set with keys, one row for the empty one. *)
Example c163_empty : forall l agg, group_scan l agg [OKey 0; OAgg 0] [] [[0%nat]; []] = Ok [[None; agg 0%nat []]].
Proof. reflexivity. Qed.

(** ** C164: UNNEST *)
Theorem c164_unnest : forall big l, Forall element l ->
  exists ws, unnest big (Some (VArray l)) = Ok (combine ws (map (fun i => Some (VInt (Z.of_nat i))) (seq 0 (List.length l)))) /\
    Forall2 unnested l ws.
Proof.
  intros big l H.
  assert (X : exists ws, Forall2 (passes big) l ws /\ Forall2 unnested l ws).
  { induction H as [|o l O _ (ws & A & B)]; [exists []; split; constructor|].
    destruct (element_passes big o O) as (w & P & U). exists (w :: ws). split; now constructor. }
  destruct X as (ws & A & B). exists ws. split; [|exact B]. rewrite (unnest_passes big l ws A).
  do 4 f_equal. clear - B. induction B; cbn; congruence.
Qed.
Theorem c164_null_array : forall big, unnest big None = Ok [].
Proof. reflexivity. Qed.
Example c164_case : forall big, unnest big (Some (VArray [Some (VInt 7); None; Some (VStr "a")])) =
  Ok [(Some (VInt 7), Some (VInt 0)); (None, Some (VInt 1)); (Some (VStr "a"), Some (VInt 2))].
Proof. intros big. vm_compute. reflexivity. Qed.
(** ** C165: large INT64 elements *)
(** Two integers that are one float64 give the same element, so that one of them is wrong. *)
Theorem c165_large_refuted : forall big x y, float_of_int x = float_of_int y ->
  unnest big (Some (VArray [Some (VInt x)])) = unnest big (Some (VArray [Some (VInt y)])).
Proof.
  intros big x y E. unfold unnest, decode_array, round_trip. cbn [encode_opt]. rewrite !encode_array. cbn [encode_elems].
  unfold encode_elem. cbn [encode_opt encode_value bind marshal through_engine]. rewrite !CodecProofs.decode_array. cbn [decode_elems decode_elem bind]. now rewrite E.
Qed.
Example c165_case : float_of_int 9007199254740992 = float_of_int 9007199254740993.
Proof. reflexivity. Qed.

(** ** C166: IN (subquery) *)
Theorem c166_in_subquery : forall t x rows, plain t x -> Forall (plain t) rows ->
  (in_subquery x rows = Some (VInt 1) <-> x <> None /\ exists y, In y rows /\ y <> None /\ equal_keys x y) /\
  (in_subquery x rows = None <-> rows <> [] /\ (x = None \/ (In None rows /\ forall y, In y rows -> y <> None -> ~ equal_keys x y))) /\
  (in_subquery x rows = Some (VInt 0) <-> rows = [] \/ (x <> None /\ ~ In None rows /\ forall y, In y rows -> ~ equal_keys x y)).
Proof.
  intros t x rows X R. unfold in_subquery.
  assert (NN : forall o, plain t o -> (engine_null o = false <-> o <> None)).
  { intros o O. pose proof (null_plain t o O). destruct (engine_null o); intuition congruence. }
  assert (Hit : existsb (fun y => negb (engine_null y) && same_cell x y) rows = true <-> exists y, In y rows /\ y <> None /\ equal_keys x y).
  { rewrite existsb_exists. split; intros (y & I & H); exists y; (split; [exact I|]); pose proof (proj1 (Forall_forall _ _) R y I) as Y.
    - apply andb_true_iff in H as [A B]. apply negb_true_iff in A. split; [now apply (NN y Y)|now apply (same_cell_iff t x y X Y)].
    - apply andb_true_iff. split; [apply negb_true_iff, (NN y Y); tauto|]. apply (same_cell_iff t x y X Y). tauto. }
  assert (Nul : existsb engine_null rows = true <-> In None rows).
  { rewrite existsb_exists. split.
    - intros (y & I & H). apply (null_plain t y (proj1 (Forall_forall _ _) R y I)) in H. now subst.
    - intros I. exists None. now split. }
  destruct rows as [|r0 rows0].
  { split; [|split]; (split; intros H); try discriminate; try reflexivity.
    - destruct H as (_ & y & [] & _).
    - destruct H as [H _]. now contradiction H.
    - now left. }
  remember (r0 :: rows0) as rows eqn:Er. assert (NE : rows <> []) by (rewrite Er; discriminate).
  replace (match rows with [] => Some (VInt 0) | _ => if engine_null x then None else if existsb (fun y => negb (engine_null y) && same_cell x y) rows then Some (VInt 1) else if existsb engine_null rows then None else Some (VInt 0) end)
    with (if engine_null x then None else if existsb (fun y => negb (engine_null y) && same_cell x y) rows then Some (VInt 1) else if existsb engine_null rows then None else Some (VInt 0))
    by (rewrite Er; reflexivity).
  clear Er r0 rows0. destruct (engine_null x) eqn:Nx.
  - apply (null_plain t x X) in Nx. subst x. split; [|split]; (split; intros H); try discriminate; try reflexivity.
    + destruct H as [H _]. now contradiction H.
    + split; [exact NE|now left].
    + destruct H as [H|[H _]]; [contradiction|now contradiction H].
  - apply (NN x X) in Nx. destruct (existsb (fun y => negb (engine_null y) && same_cell x y) rows) eqn:Hb.
    + destruct (proj1 Hit eq_refl) as (y & I & Ny & E). split; [|split]; (split; intros H); try discriminate; try reflexivity.
      * split; [exact Nx|]. exists y. tauto.
      * destruct H as (_ & [H|(_ & H)]); [contradiction|]. exfalso. now apply (H y I Ny).
      * destruct H as [H|(_ & _ & H)]; [contradiction|]. exfalso. now apply (H y I).
    + assert (NoHit : forall y, In y rows -> y <> None -> ~ equal_keys x y).
      { intros y I Ny E. assert (false = true) by (apply Hit; exists y; tauto). discriminate. }
      destruct (existsb engine_null rows) eqn:Nb.
      * pose proof (proj1 Nul eq_refl) as In0. split; [|split]; (split; intros H); try discriminate; try reflexivity.
        -- destruct H as (_ & y & I & Ny & E). exfalso. now apply (NoHit y I Ny).
        -- split; [exact NE|]. right. now split.
        -- destruct H as [H|(_ & H & _)]; contradiction.
      * assert (N0 : ~ In None rows) by (intros I; apply Nul in I; discriminate).
        split; [|split]; (split; intros H); try discriminate; try reflexivity.
        -- destruct H as (_ & y & I & Ny & E). exfalso. now apply (NoHit y I Ny).
        -- destruct H as (_ & [H|(H & _)]); contradiction.
        -- right. split; [exact Nx|]. split; [exact N0|]. intros y I. apply NoHit; [exact I|]. intros ->. contradiction.
Qed.
Example c166_case : in_subquery (Some (VInt 1)) [Some (VInt 2); None] = None /\ in_subquery None [] = Some (VInt 0).
Proof. split; reflexivity. Qed.

(** ** C167: WITH *)
Theorem c167_with_partial : forall db l main,
  Forall (fun e => plain_name (wname e) = true) l -> NoDup (map (fun e => lower (wname e)) l) -> reads_back l ->
  with_scan db l main = Some (with_means db l main).
Proof.
  intros db l main N D B. unfold with_scan. rewrite (proj2 (forallb_forall _ _) (proj1 (Forall_forall _ _) N)). rewrite with_means_env.
  assert (A : all_some (table_rows (List.length l) db l) (uses main) = Some (map (env db l) (uses main))).
  { apply all_some_iff. induction (uses main) as [|u us IH]; cbn [map]; constructor; [|assumption].
    pose proof (with_rows db l [] u) as H. rewrite app_nil_r in H. apply H; auto. }
  now rewrite A.
Qed.
Example c167_case : plain_name "my_cte" = true /\ reads_back [Entry "a" ["t"] (@concat _); Entry "b" ["a"; "t"] (@concat _)].
Proof. split; [reflexivity|]. cbn. repeat constructor; cbn; intuition discriminate. Qed.
(** A name that is a keyword of SQLite, or has to be quoted, makes the query fail. *)
Theorem c167_name_refuted : forall db l e r main, plain_name (wname e) = false -> with_scan db (l ++ e :: r)%list main = None.
Proof.
  intros db l e r main N. unfold with_scan. rewrite forallb_app. cbn [forallb]. rewrite N, andb_false_r. reflexivity.
Qed.
Example c167_name_case : plain_name "index" = false /\ plain_name "my-cte" = false.
Proof. split; reflexivity. Qed.
(** An entry that reads a table of its own name fails; one that reads a table named as a later
    entry is reads that entry. *)
Theorem c167_scope_refuted : forall db ba bb m,
  with_scan db [Entry "a" ["a"] ba] (Entry "" ["a"] m) = None /\
  with_scan db [Entry "a" ["b"] ba; Entry "b" [] bb] (Entry "" ["a"] m) = Some (m [ba [bb []]]) /\
  with_means db [Entry "a" ["b"] ba; Entry "b" [] bb] (Entry "" ["a"] m) = m [ba [db "b"]].
Proof. intros. repeat split. Qed.

Print Assumptions c157_union_all_partial.
Print Assumptions c157_distinct_columns_partial.
Print Assumptions c157_repeated_column_refuted.
Print Assumptions c157_all_refuted.
Print Assumptions c158_distinct.
Print Assumptions c159_nan_refuted.
Print Assumptions c160_compare.
Print Assumptions c160_sorted.
Print Assumptions c161_limit.
Print Assumptions c162_negative_refuted.
Print Assumptions c163_grouping_sets.
Print Assumptions c164_unnest.
Print Assumptions c164_null_array.
Print Assumptions c165_large_refuted.
Print Assumptions c166_in_subquery.
Print Assumptions c167_with_partial.
Print Assumptions c167_name_refuted.
Print Assumptions c167_scope_refuted.
