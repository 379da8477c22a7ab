(** C329 to C334: clauses that are accepted and not applied; C335: those that are. *)
From Coq Require Import Ascii String List ZArith QArith Lia Bool SpecFloat Permutation.
From Verif Require Import GoBase GoBaseFacts CalendarModel CalendarFacts InstantModel DecModel ValueModel ValueFacts CompareSpec Utf8Model Utf8Facts ClockTextModel ClockTextProofs EncModel CodecModel CodecSpec CodecProofs CodecProps ScanModel AggModel AggSpec AggProofs AggProps WindowModel WindowSpec WindowProps TextSpec JsonModel JsonDocSpec RowsModel ConvertModel ConvertSpec ConvertProofs ConvertProps ClauseModel ClauseSpec ClauseProofs.
Import ListNotations.
Local Open Scope string_scope.
Open Scope Z_scope.

Definition ascending (c : nat) (n : null_order) : key_item := {| k_col := c; k_desc := false; k_nulls := n; k_collation := None |}.
(** SUM(x HAVING MAX k), with x and k the columns of the row *)
Definition sum_having (max : bool) : agg_node :=
  {| n_arg := 1; n_order := []; n_distinct := false; n_limit := None; n_ignore := false; n_having := Some (max, 0%nat) |}.
Definition pair_row (p : Z * Z) : cells := [Some (VInt (snd p)); Some (VInt (fst p))].

(** ** C329: HAVING MAX and HAVING MIN *)
(** SUM(x HAVING MAX k) adds up all rows; that is right only when those left out add up to 0. *)
Theorem c329_having_refuted : forall other loose max rows, rows <> [] -> Forall in64 (map fst rows) -> in64 (total rows) ->
  (agg_result (val_text other) loose agg_sum (sum_having max) (map pair_row rows) (Ok (Some (VInt (total (having max rows))))) <->
   total rows = total (having max rows)).
Proof.
  intros other loose max rows NE F I.
  assert (R : map (agg_args (sum_having max)) (map pair_row rows) = rows1 (ints (map Some (map fst rows)))).
  { unfold rows1, ints. rewrite !map_map. apply map_ext. intros [a b]. reflexivity. }
  assert (N : forall k : list Z, nonnull (map Some k) = k) by (induction k; cbn; congruence).
  unfold agg_result. rewrite R, c108_sum_int64 by (rewrite N; assumption). rewrite N.
  destruct rows as [|p rows]; [contradiction|].
  change (match map fst (p :: rows) with [] => None | l => Some (VInt (sum_z l)) end) with (Some (VInt (total (p :: rows)))).
  split; intros H; congruence.
Qed.
(** So it is right when the k are all the same. *)
Theorem c329_equal_partial : forall other loose (max : bool) (k : Z) (xs : list Z), xs <> [] -> Forall in64 xs -> in64 (fold_right Z.add 0 xs) ->
  let rows : list (Z * Z) := map (fun x => (x, k)) xs in
  having max rows = rows /\
  agg_result (val_text other) loose agg_sum (sum_having max) (map pair_row rows) (Ok (Some (VInt (total (having max rows))))).
Proof.
  intros other loose max k xs NE F I rows.
  assert (E : map fst rows = xs) by (unfold rows; rewrite map_map; apply map_id).
  assert (A : having max rows = rows); [|split; [exact A|]; apply c329_having_refuted; [unfold rows; destruct xs; [contradiction|discriminate]|now rewrite E|unfold total; now rewrite E|now rewrite A]].
  unfold rows, having.
  assert (H : forall l : list (Z * Z), Forall (fun r => forallb (fun q => if max then snd q <=? snd r else snd r <=? snd q) (map (fun x => (x, k)) xs) = true) l ->
    filter (fun r => forallb (fun q => if max then snd q <=? snd r else snd r <=? snd q) (map (fun x => (x, k)) xs)) l = l).
  { induction l as [|x l IH]; intros G; [reflexivity|]. inversion G as [|? ? E1 G']. cbn [filter]. rewrite E1. f_equal. now apply IH. }
  apply H. apply Forall_forall. intros p I0. apply in_map_iff in I0. destruct I0 as (x & <- & _). apply forallb_forall. intros q J. apply in_map_iff in J. destruct J as (y & <- & _).
  cbn [snd]. destruct max; apply Z.leb_refl.
Qed.
Example c329_example : agg_result a_text a_loose agg_sum (sum_having true) (map pair_row [(1, 10); (2, 20)]) (Ok (Some (VInt 3))) /\
  total (having true [(1, 10); (2, 20)]) = 2 /\ total (having false [(1, 10); (2, 20)]) = 1.
Proof. repeat split. Qed.

(** ** C330: NULLS FIRST and NULLS LAST in the ORDER BY of an aggregate *)
Definition agg_ordered (desc : bool) (n : null_order) : agg_node :=
  {| n_arg := 0; n_order := [{| k_col := 1; k_desc := desc; k_nulls := n; k_collation := None |}]; n_distinct := false; n_limit := None; n_ignore := false; n_having := None |}.
(** ARRAY_AGG(x ORDER BY k NULLS ...) over a row with a NULL k and one with another: the first
    comes first with ASC and last with DESC, whatever is written. *)
Theorem c330_null_keys_refuted : forall (desc swap : bool) n v w k r,
  let x := [Some (VInt v); None] in let y := [Some (VInt w); Some (VInt k)] in
  agg_result a_text a_loose agg_array_agg (agg_ordered desc n) (if swap then [y; x] else [x; y]) r <->
  r = Ok (Some (VArray (if desc then [Some (VInt w); Some (VInt v)] else [Some (VInt v); Some (VInt w)]))).
Proof.
  intros desc swap n v w k r x y.
  assert (F : forall r, agg_result a_text a_loose agg_array_agg (agg_ordered desc n) (if swap then [y; x] else [x; y]) r ->
    r = Ok (Some (VArray (if desc then [Some (VInt w); Some (VInt v)] else [Some (VInt v); Some (VInt w)])))).
  { intros r0 H. pose proof (c72_null_key_partial (negb desc) swap v w k r0) as C. cbv zeta in C.
    rewrite (C ltac:(destruct swap; exact H)). destruct desc; reflexivity. }
  split; [apply F|]. intros ->.
  assert (T : exists r, agg_result a_text a_loose agg_array_agg (agg_ordered desc n) (if swap then [y; x] else [x; y]) r).
  { assert (Pv : forall i, parse_args a_text a_loose (AVal (Some (VInt v)) :: map AOpt i) [] no_opt = ([Some (VInt v)], fold_left set_item (map reread i) no_opt)).
    { intros i. apply parse_one. intros u E. assert (VInt v = u) by congruence. subst u. apply ordinary_int. }
    assert (Pw : forall i, parse_args a_text a_loose (AVal (Some (VInt w)) :: map AOpt i) [] no_opt = ([Some (VInt w)], fold_left set_item (map reread i) no_opt)).
    { intros i. apply parse_one. intros u E. assert (VInt w = u) by congruence. subst u. apply ordinary_int. }
    specialize (Pv [IOrder None (negb desc)]). specialize (Pw [IOrder (Some (VInt k)) (negb desc)]). cbn [map] in Pv, Pw.
    assert (O : exists st, outer_steps a_text a_loose agg_array_agg (d_empty, init agg_array_agg) (map (agg_args (agg_ordered desc n)) (if swap then [y; x] else [x; y])) = Ok st).
    { destruct swap; cbn [map outer_steps]; unfold outer_step;
        [change (agg_args (agg_ordered desc n) y) with [AVal (Some (VInt w)); AOpt (IOrder (Some (VInt k)) (negb desc))]|change (agg_args (agg_ordered desc n) x) with [AVal (Some (VInt v)); AOpt (IOrder None (negb desc))]];
        rewrite ?Pv, ?Pw; cbn [bind map reread fold_left set_item no_opt]; unfold admit_row; cbn [a_ignore a_distinct fst snd bind step agg_array_agg array_agg_step arg0 andb];
        [change (agg_args (agg_ordered desc n) x) with [AVal (Some (VInt v)); AOpt (IOrder None (negb desc))]|change (agg_args (agg_ordered desc n) y) with [AVal (Some (VInt w)); AOpt (IOrder (Some (VInt k)) (negb desc))]];
        rewrite ?Pv, ?Pw; cbn [bind map reread fold_left set_item no_opt a_ignore a_distinct fst snd step agg_array_agg array_agg_step arg0 andb]; eauto. }
    destruct O as (st & O). exact (array_agg_total _ _ _ st O). }
  destruct T as (r & T). assert (E := F r T). subst r. exact T.
Qed.
(** So the clause is followed exactly when it says what holds without it. *)
Theorem c330_default_partial : forall (desc swap : bool) n v w k, v <> w ->
  let x := [Some (VInt v); None] in let y := [Some (VInt w); Some (VInt k)] in
  (agg_result a_text a_loose agg_array_agg (agg_ordered desc n) (if swap then [y; x] else [x; y])
     (Ok (Some (VArray (if null_first n desc then [Some (VInt v); Some (VInt w)] else [Some (VInt w); Some (VInt v)])))) <->
   null_first n desc = null_first NullsDefault desc).
Proof.
  intros desc swap n v w k N x y. unfold x, y. rewrite c330_null_keys_refuted. cbn [null_first].
  destruct (null_first n desc), desc; cbn [negb]; split; intros H; try reflexivity; try discriminate; exfalso; apply N; congruence.
Qed.
Example c330_example : agg_result a_text a_loose agg_array_agg (agg_ordered false NullsLast) [[Some (VInt 1); None]; [Some (VInt 2); Some (VInt 5)]] (Ok (Some (VArray [Some (VInt 1); Some (VInt 2)]))) /\
  null_first NullsLast false = false.
Proof. split; [exact (proj2 (c330_null_keys_refuted false false NullsLast 1 2 5 _) eq_refl)|reflexivity]. Qed.

(** ** C331: NULLS FIRST and NULLS LAST in OVER (ORDER BY ...) *)
Definition win_ordered (desc : bool) (n : null_order) : win_node :=
  {| w_args := []; w_part := []; w_keys := [{| k_col := 0; k_desc := desc; k_nulls := n; k_collation := None |}] |}.
(** ROW_NUMBER() OVER (ORDER BY k NULLS ...): the row with a NULL k is number 1, the other number
    2, in whatever order they come, also with DESC. *)
Theorem c331_null_keys_refuted : forall text loose wloose sort (desc swap : bool) n k, sort_slice sort -> 
  let rows := map (win_row (win_ordered desc n)) (if swap then [[Some (VInt k)]; [None]] else [[None]; [Some (VInt k)]]) in
  over text loose wloose sort w_row_number no_frame rows (if swap then 2 else 1) = Ok (Some (VInt 1)) /\
  over text loose wloose sort w_row_number no_frame rows (if swap then 1 else 2) = Ok (Some (VInt 2)).
Proof.
  intros text loose wloose sort desc swap n k S rows. unfold rows, over, wcall.
  destruct swap, desc; split; cbn; rewrite sort_two by exact S; reflexivity.
Qed.
(** So the clause is followed exactly when NULLs are to come first. *)
Theorem c331_first_partial : forall text loose wloose sort (desc swap : bool) n k, sort_slice sort ->
  let rows := map (win_row (win_ordered desc n)) (if swap then [[Some (VInt k)]; [None]] else [[None]; [Some (VInt k)]]) in
  (over text loose wloose sort w_row_number no_frame rows (if swap then 2 else 1) = Ok (Some (VInt (if null_first n desc then 1 else 2))) <-> null_first n desc = true).
Proof.
  intros text loose wloose sort desc swap n k S rows. unfold rows. rewrite (proj1 (c331_null_keys_refuted text loose wloose sort desc swap n k S)).
  destruct (null_first n desc); split; intros H; try reflexivity; discriminate.
Qed.
(** Rows with keys that are not NULL come in the direction written, whatever the NULLS clause. *)
Theorem c331_values_partial : forall text loose wloose sort (desc swap : bool) n j k, sort_slice sort -> text_ok j -> text_ok k -> bytes_compare j k = Lt ->
  let rows := map (win_row (win_ordered desc n)) (if swap then [[Some (VStr k)]; [Some (VStr j)]] else [[Some (VStr j)]; [Some (VStr k)]]) in
  over text loose wloose sort w_row_number no_frame rows (if swap then 2 else 1) = Ok (Some (VInt (if desc then 2 else 1))) /\
  over text loose wloose sort w_row_number no_frame rows (if swap then 1 else 2) = Ok (Some (VInt (if desc then 1 else 2))).
Proof.
  intros text loose wloose sort desc swap n j k S J K L rows. unfold rows, over, wcall.
  assert (L' : bytes_compare k j = Gt) by (now rewrite bytes_compare_antisym, L).
  destruct swap, desc; split; cbn; rewrite (sanitize_ok j J), (sanitize_ok k K), sort_two by exact S; cbn; rewrite ?L, ?L'; reflexivity.
Qed.
Example c331_example : over1 w_row_number no_frame (map (win_row (win_ordered true NullsDefault)) [[Some (VInt 7)]; [None]]) 2 = Ok (Some (VInt 1)) /\ null_first NullsDefault true = false.
Proof. split; reflexivity. Qed.
Example c331_values_example : over1 w_row_number no_frame (map (win_row (win_ordered true NullsLast)) [[Some (VStr "b")]; [Some (VStr "a")]]) 2 = Ok (Some (VInt 2)) /\ bytes_compare "a" "b" = Lt.
Proof. split; reflexivity. Qed.

(** ** C334: COLLATE in ORDER BY *)
Definition by_text (coll : option string) (desc : bool) : list key_item := [{| k_col := 0; k_desc := desc; k_nulls := NullsDefault; k_collation := coll |}].
Lemma by_text_cmp coll (desc : bool) s t : rows_cmp (by_text coll desc) [Some (VStr s)] [Some (VStr t)] = if desc then - collate (VStr s) (VStr t) else collate (VStr s) (VStr t).
Proof.
  destruct desc.
  - change ((let z := - collate (VStr s) (VStr t) in if z =? 0 then 0 else z) = - collate (VStr s) (VStr t)). cbv zeta. destruct (Z.eqb_spec (- collate (VStr s) (VStr t)) 0); congruence.
  - change ((let z := collate (VStr s) (VStr t) in if z =? 0 then 0 else z) = collate (VStr s) (VStr t)). cbv zeta. destruct (Z.eqb_spec (collate (VStr s) (VStr t)) 0); congruence.
Qed.
(** Texts are ordered by their bytes whatever the collation: two different texts never count as
    equal, and every capital goes before every small letter (after it with DESC). *)
Theorem c334_case_refuted : forall coll desc,
  (forall s t, rows_cmp (by_text coll desc) [Some (VStr s)] [Some (VStr t)] = 0 <-> s = t) /\
  (forall c d s t, capital c -> small d -> let z := rows_cmp (by_text coll desc) [Some (VStr (String c s))] [Some (VStr (String d t))] in if desc then 0 < z else z < 0).
Proof.
  intros coll desc. split.
  - intros s t. rewrite by_text_cmp. pose proof (text_cmp s t) as (X & _). destruct desc; [|exact X]. rewrite <- X. lia.
  - intros c d s t C D z. unfold z. clear z. rewrite by_text_cmp. assert (L : collate (VStr (String c s)) (VStr (String d t)) < 0); [|destruct desc; lia].
    apply text_cmp. unfold capital, small, code in *.
    cbn [bytes_compare]. unfold nat_of_ascii in *. destruct (N.compare_spec (N_of_ascii c) (N_of_ascii d)); try reflexivity; lia.
Qed.
(** What holds: texts of small letters are in order. *)
Theorem c334_small_partial : forall coll s t, small_text s -> small_text t ->
  (rows_cmp (by_text coll false) [Some (VStr s)] [Some (VStr t)] < 0 <-> ci_before s t) /\
  (rows_cmp (by_text coll false) [Some (VStr s)] [Some (VStr t)] = 0 <-> ci_equal s t).
Proof.
  intros coll s t A B.
  assert (L : forall u, small_text u -> lower u = u).
  { induction u as [|c u IH]; intros H; [reflexivity|]. inversion H as [|? ? Hc Hu]; subst. cbn [lower]. f_equal; [|now apply IH].
    unfold lower_ascii. unfold small, code in Hc. destruct (Nat.leb_spec 65 (nat_of_ascii c)), (Nat.leb_spec (nat_of_ascii c) 90); try reflexivity; lia. }
  unfold ci_before, ci_equal. rewrite !L by assumption.
  rewrite by_text_cmp. pose proof (text_cmp s t) as X. cbv zeta in X. tauto.
Qed.
Example c334_example : rows_cmp (by_text (Some "und:ci") false) [Some (VStr "B")] [Some (VStr "a")] = -1 /\ ci_before "a" "B" /\ ci_equal "abc" "ABC" /\ small_text "abc".
Proof. split; [reflexivity|]. split; [reflexivity|]. split; [reflexivity|]. unfold small_text, small. cbn. repeat (constructor; [unfold code; cbn; lia|]). constructor. Qed.

(** ** C332 and C333: CAST *)
Section Casts.
Variable offset : Z -> Z.
Variable zone_offset : string -> option Z.
Variable other_rat : string -> Q.
Variable float_text : float -> string.
Variable float_read : string -> option float.
Variable rat_float : Q -> float.
Variable int_read : string -> option Z.
Variable doc_text : val -> string.
Variable json_text : val -> string.
Variable float_time : float -> Z.
Notation cast_seen := (cast_seen offset zone_offset other_rat float_text float_read rat_float int_read doc_text json_text float_time).
Ltac open_cast := unfold ConvertModel.cast_seen, ConvertModel.sql_cast, ConvertModel.cast_to, cast_opt, cast_value; cbn [bind]; unfold ConvertModel.convert, to_time, some; cbn [bind fst snd].
Definition with_format (from to : ty) (f : string) (zone : option string) : cast_node :=
  {| c_safe := false; c_from := from; c_to := to; c_params := []; c_format := Some f; c_zone := zone |}.
Definition with_params (t : ty) (l : list Z) : cast_node :=
  {| c_safe := false; c_from := t; c_to := t; c_params := l; c_format := None; c_zone := None |}.

(** CAST(d AS STRING FORMAT 'YYYY') is the whole date, never the year. *)
Theorem c332_date_refuted : forall f zone t, 0 <= year (day_no t) <= 9999 ->
  cast_call cast_seen (with_format TDate TStr f zone) (Some (VDate t)) = Ok (Some (VStr (date_text (day_no t)))) /\
  cast_call cast_seen (with_format TDate TStr "YYYY" zone) (Some (VDate t)) <> Ok (Some (VStr (pad 4 (year (day_no t))))).
Proof.
  intros f zone t Y.
  assert (E : forall g z, cast_call cast_seen (with_format TDate TStr g z) (Some (VDate t)) = Ok (Some (VStr (date_text (day_no t))))).
  { intros g z. unfold cast_call, with_format. cbn [c_safe c_from c_to]. open_cast. apply asc_round. now apply asc_date. }
  split; [apply E|]. rewrite E. intros H.
  assert (L : String.length (date_text (day_no t)) = String.length (pad 4 (year (day_no t)))) by congruence.
  unfold date_text in L. rewrite length_app_s in L. cbn [append String.length] in L. lia.
Qed.
(** CAST(b AS STRING FORMAT 'UTF-8') is the base64 text, not the text the bytes are; with FORMAT
    'BASE64' that is what was asked for. *)
Theorem c332_bytes_refuted : forall zone s,
  cast_call cast_seen (with_format TBytes TStr "UTF-8" zone) (Some (VBytes s)) = Ok (Some (VStr s)) <-> s = "".
Proof.
  intros zone s. unfold cast_call, with_format. cbn [c_safe c_from c_to].
  destruct (c197_base64_refuted offset zone_offset other_rat float_text float_read rat_float int_read doc_text json_text float_time false s) as (E & B).
  rewrite E. split; intros H; [apply B; congruence|]. apply B in H. now rewrite H.
Qed.
Theorem c332_base64_partial : forall zone s,
  cast_call cast_seen (with_format TBytes TStr "BASE64" zone) (Some (VBytes s)) = Ok (Some (VStr (base64_text s))).
Proof. intros zone s. apply (c197_base64_refuted offset zone_offset other_rat float_text float_read rat_float int_read doc_text json_text float_time false s). Qed.
Example c332_example : cast_call cast_seen (with_format TDate TStr "YYYY" None) (Some (VDate 0)) = Ok (Some (VStr "1970-01-01")) /\ 0 <= year (day_no 0) <= 9999.
Proof. split; [reflexivity|]. vm_compute. split; discriminate. Qed.

(** ** C333 *)
(** CAST(s AS STRING(n)) is s however long it is, and so with BYTES(n): the limit holds exactly
    for the values that are within it anyway. *)
Theorem c333_length_refuted : forall n s,
  (text_ok s -> cast_call cast_seen (with_params TStr [n]) (Some (VStr s)) = Ok (Some (VStr s))) /\
  cast_call cast_seen (with_params TBytes [n]) (Some (VBytes s)) = Ok (Some (VBytes s)).
Proof.
  intros n s. unfold cast_call, with_params. cbn [c_safe c_from c_to]. split.
  - intros W. open_cast. now apply text_round.
  - open_cast. apply (c26_scalars_are_exact 0 (S754_zero false) s).
Qed.
Theorem c333_within_partial : forall n s, text_ok s ->
  ((exists w, cast_call cast_seen (with_params TStr [Z.of_nat n]) (Some (VStr s)) = Ok (Some (VStr w)) /\ fits n w) <-> fits n s).
Proof.
  intros n s W. rewrite (proj1 (c333_length_refuted (Z.of_nat n) s) W). split; [|eauto]. intros (w & E & F). now replace s with w by congruence.
Qed.
(** SAFE_CAST with parameters or FORMAT is NULL where CAST is an error and the same elsewhere. *)
Theorem c333_safe_partial : forall from to params f zone o,
  let n b := {| c_safe := b; c_from := from; c_to := to; c_params := params; c_format := f; c_zone := zone |} in
  let cast := ConvertModel.sql_cast offset zone_offset other_rat float_text float_read rat_float int_read doc_text json_text float_time in
  (cast_call cast (n false) o = Err -> cast_call cast (n true) o = Ok None) /\
  (forall r, cast_call cast (n false) o = Ok r -> cast_call cast (n true) o = Ok r).
Proof. intros from to params f zone o n cast. destruct (c193_safe_cast offset zone_offset other_rat float_text float_read rat_float int_read doc_text json_text float_time from to o) as (A & B & _). split; [exact A|exact B]. Qed.
(** CAST(q AS NUMERIC(p, n)) does not round to n decimals. *)
Theorem c333_scale_refuted : forall p n q,
  exists w, cast_call cast_seen (with_params TNum [p; Z.of_nat n]) (Some (VNum q)) = Ok (Some (VNum w)) /\ (w == q)%Q /\ (decimals n w <-> decimals n q).
Proof.
  intros p n q. destruct (stored (VNum q) I) as (w & W & S). destruct w as [| | | |r| | | | | | | | |]; cbn [same] in S; try contradiction.
  exists r. split; [unfold cast_call, with_params; cbn [c_safe c_from c_to]; open_cast; exact W|]. split; [now symmetry|].
  unfold decimals. split; intros (z & E); exists z; [rewrite S|rewrite <- S]; exact E.
Qed.
Example c333_example : cast_call cast_seen (with_params TStr [2]) (Some (VStr "abc")) = Ok (Some (VStr "abc")) /\ text_ok "abc".
Proof. split; [reflexivity|]. apply ascii_text_ok. repeat constructor. Qed.
End Casts.

Print Assumptions c329_having_refuted.
Print Assumptions c329_equal_partial.
Print Assumptions c330_null_keys_refuted.
Print Assumptions c330_default_partial.
Print Assumptions c331_null_keys_refuted.
Print Assumptions c331_first_partial.
Print Assumptions c331_values_partial.
Print Assumptions c332_date_refuted.
Print Assumptions c332_bytes_refuted.
Print Assumptions c332_base64_partial.
Print Assumptions c333_length_refuted.
Print Assumptions c333_within_partial.
Print Assumptions c333_safe_partial.
Print Assumptions c333_scale_refuted.
Print Assumptions c334_case_refuted.
Print Assumptions c334_small_partial.


(** ** C335: DISTINCT, IGNORE NULLS and LIMIT in an aggregate call *)
Definition agg_plain (dist ign : bool) (lim : option Z) : agg_node :=
  {| n_arg := 1; n_order := []; n_distinct := dist; n_limit := lim; n_ignore := ign; n_having := None |}.
Definition key_row (v : option Z) : cells := [Some (VInt 0); option_map VInt v].
Lemma plain_rows dist ign lim vs : map (agg_args (agg_plain dist ign lim)) (map key_row vs) = rows_with (fed dist ign lim vs).
Proof. unfold rows_with, fed. rewrite !map_map. apply map_ext. intros v. unfold agg_args. cbn [n_arg n_order n_distinct n_limit n_ignore agg_plain map app fst snd]. destruct dist, ign, lim; reflexivity. Qed.
(** ARRAY_AGG([DISTINCT] x [IGNORE NULLS] [LIMIT n]): of the values in the order they come, without
    the NULLs if asked to and without those seen before if asked to, the first n; a NULL left is an error. *)
Theorem c335_array_agg : forall other loose dist ign lim vs r, Forall in64 (nonnull vs) -> (forall n, lim = Some n -> 0 <= n) ->
  (agg_result (val_text other) loose agg_array_agg (agg_plain dist ign lim) (map key_row vs) r <->
   (In None (seen_by dist ign vs) /\ r = Err) \/
   (~ In None (seen_by dist ign vs) /\ r = Ok (Some (VArray (first_n lim (map (option_map VInt) (seen_by dist ign vs))))))).
Proof.
  intros other loose dist ign lim vs r F NL. unfold agg_result. rewrite plain_rows, fed_rows by exact F. generalize (seen_by dist ign vs). intros l.
  assert (B : forallb some_z l = true <-> ~ In None l).
  { rewrite forallb_forall. split; [intros H I; specialize (H _ I); discriminate|intros H [z|] I; [reflexivity|contradiction]]. }
  unfold result_with. rewrite array_steps_fed. destruct (forallb some_z l) eqn:A.
  2:{ assert (I : In None l). { destruct (in_dec (fun x y : option Z => ltac:(decide equality; apply Z.eq_dec)) None l) as [J|J]; [exact J|]. apply B in J. congruence. }
      split; [intros ->; now left|intros [[_ E]|[N _]]; [exact E|contradiction]]. }
  assert (N : ~ In None l) by (now apply B).
  assert (V : map (option_map VInt) l = map (fun v : option Z => Some (match v with Some z => VInt z | None => VInt 0 end)) l).
  { apply map_ext_in. intros [z|] I; [reflexivity|contradiction]. }
  assert (T : forall P : Prop, (P <-> r = Ok (Some (VArray (first_n lim (map (option_map VInt) l))))) ->
    (P <-> (In None l /\ r = Err) \/ (~ In None l /\ r = Ok (Some (VArray (first_n lim (map (option_map VInt) l))))))) by (intros P ->; tauto).
  apply T. clear T. rewrite V. cbn [done agg_array_agg init c_vals c_opt app]. unfold array_agg_done. cbn [c_vals c_opt].
  destruct l as [|v l].
  - cbn [map sort_agg take_limit bind first_n]. split.
    + intros (out & (P & _) & ->). apply Permutation_nil in P. subst out. destruct lim as [n|]; [cbn [first_n]; now rewrite firstn_nil|reflexivity].
    + intros ->. exists []. split; [exact (go_sort_possible less [])|]. destruct lim as [n|]; [cbn [first_n]; now rewrite firstn_nil|reflexivity].
  - unfold sort_agg, take_limit. cbn [a_order a_limit the_opt]. split.
    + intros (out & -> & ->). destruct lim as [n|].
      * destruct (Z.ltb_spec n 0); [specialize (NL n eq_refl); lia|]. cbn [bind first_n]. do 3 f_equal. rewrite <- firstn_map, map_map. reflexivity.
      * cbn [bind first_n]. do 3 f_equal. rewrite map_map. reflexivity.
    + intros ->. eexists. split; [reflexivity|]. destruct lim as [n|].
      * destruct (Z.ltb_spec n 0); [specialize (NL n eq_refl); lia|]. cbn [bind first_n]. do 3 f_equal. rewrite <- firstn_map, map_map. reflexivity.
      * cbn [bind first_n]. do 3 f_equal. rewrite map_map. reflexivity.
Qed.
(** COUNT([DISTINCT] x) is the number of those that are not NULL. *)
Theorem c335_count : forall other loose dist vs r, Forall in64 (nonnull vs) -> zlen vs < two63 ->
  (agg_result (val_text other) loose agg_count (agg_plain dist false None) (map key_row vs) r <->
   r = Ok (Some (VInt (zlen (nonnull (seen_by dist false vs)))))).
Proof.
  intros other loose dist vs r F L. unfold agg_result. rewrite plain_rows, fed_rows by exact F. unfold result_with.
  assert (C : forall l : list (option Z), zlen (nonnull l) = zlen (filter some_z l)).
  { induction l as [|[z|] l IH]; [reflexivity| |exact IH]. unfold zlen in *. cbn [nonnull filter some_z List.length]. lia. }
  rewrite C. pose proof (seen_length dist false vs).
  destruct (count_steps_fed dist false None (seen_by dist false vs) None) as (s & E & Q); [lia|lia|].
  cbn [init agg_count]. rewrite E. cbn [done agg_count]. rewrite Z.add_0_l in Q. rewrite <- Q. destruct s; reflexivity.
Qed.
(** What DISTINCT leaves: every value once, in the order of the first occurrences. *)
Theorem c335_distinct : forall ign vs,
  NoDup (seen_by true ign vs) /\ (forall v, In v (seen_by true ign vs) <-> In v vs /\ (ign = true -> v <> None)).
Proof.
  intros ign vs.
  assert (H : forall l seen, NoDup (firsts seen l) /\ forall v, In v (firsts seen l) <-> In v l /\ ~ In v seen).
  { induction l as [|w l IH]; intros seen; [split; [constructor|intros v; cbn; tauto]|]. cbn [firsts]. destruct (in_dec _ w seen) as [J|J].
    - destruct (IH seen) as (N & E). split; [exact N|]. intros v. rewrite E. cbn [In]. split; [tauto|]. intros [[->|I] K]; [contradiction|tauto].
    - destruct (IH (w :: seen)) as (N & E). split; [constructor; [rewrite E; cbn [In]; tauto|exact N]|].
      intros v. cbn [In]. rewrite E. cbn [In]. split; [intros [->|[I K]]; tauto|]. intros [[->|I] K]; [tauto|].
      destruct (in_dec (fun x y : option Z => ltac:(decide equality; apply Z.eq_dec)) v [w]) as [[->|[]]|D]; [now left|]. right. split; [exact I|]. intros [->|M]; [apply D; now left|contradiction]. }
  unfold seen_by. destruct ign; cbn zeta.
  - destruct (H (filter (fun v : option Z => match v with Some _ => true | None => false end) vs) []) as (N & E). split; [exact N|]. intros v. rewrite E, filter_In. cbn [In].
    destruct v as [z|]; split.
    + intros [[I _] _]. split; [exact I|discriminate].
    + intros [I _]. split; [split; [exact I|reflexivity]|tauto].
    + intros [[_ C] _]. discriminate.
    + intros [_ C]. now contradiction (C eq_refl).
  - destruct (H vs []) as (N & E). split; [exact N|]. intros v. rewrite E. cbn [In]. split; [intros [I _]; split; [exact I|discriminate]|tauto].
Qed.
Example c335_example : seen_by true true [Some 2; None; Some 1; Some 2] = [Some 2; Some 1] /\
  agg_result a_text a_loose agg_count (agg_plain true false None) (map key_row [Some 2; None; Some 1; Some 2]) (Ok (Some (VInt 2))) /\
  agg_result a_text a_loose agg_array_agg (agg_plain true true (Some 1)) (map key_row [Some 2; None; Some 1; Some 2]) (Ok (Some (VArray [Some (VInt 2)]))).
Proof.
  assert (F : Forall in64 (nonnull [Some 2; None; Some 1; Some 2])) by (repeat constructor; unfold in64, two63; lia).
  split; [reflexivity|]. split; [apply c335_count; [exact F|reflexivity|reflexivity]|].
  apply c335_array_agg; [exact F|intros n E; assert (n = 1) by congruence; lia|right]. split; [intros [D|[D|[]]]; discriminate|reflexivity].
Qed.
Print Assumptions c335_array_agg.
Print Assumptions c335_count.
Print Assumptions c335_distinct.
