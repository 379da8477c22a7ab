(** C285-C296: statistical and approximate aggregates. *)
From Coq Require Import Ascii String List ZArith QArith Lia Bool Permutation Sorting.Sorted SpecFloat.
From Verif Require Import GoBase GoBaseFacts ValueModel ValueFacts CastModel CodecModel CodecProofs DecModel DecFacts CompareSpec CompareProofs AggModel AggSpec AggProofs ApproxModel ApproxSpec ApproxProofs.
Import ListNotations.
Local Open Scope string_scope.
Open Scope Z_scope.

(** In the theorems the functions of the statistics library are arbitrary. *)
Definition x_text : val -> res string := val_text (fun _ => Err).
Definition x_loose : string -> option item := fun _ => None.
Definition usual (text : val -> res string) : Prop := forall n, ordinary text (num_val n).
Lemma x_usual : usual x_text.
Proof. intros [z|f] t E; cbn in E; [|discriminate]. assert (t = dec z) by congruence. subst. apply dec_ordinary. Qed.

(** ** C285: NULL in statistics *)
Lemma one_call : forall text loose stat l r, usual text ->
  (call text loose (agg_one stat) (rows1 (map (option_map num_val) l)) r <->
   r = Ok (match nonnull l with [] => None | l' => Some (VFloat (stat (map num_float l'))) end)).
Proof.
  intros text loose stat l r U. unfold agg_one, one_step. rewrite call_unary.
  2:{ intros x I. rewrite nonnull_map in I. apply in_map_iff in I. destruct I as (n & <- & _). apply U. }
  rewrite nonnull_map, one_fold. cbn [finish done app]. unfold exactly. destruct (nonnull l); reflexivity.
Qed.
Lemma pairs_plain : forall text l, usual text -> plain text (map pair_row l).
Proof.
  intros text l U r v I J. apply in_map_iff in I. destruct I as ((a, b) & <- & _). cbn in J.
  destruct J as [J|[J|[]]]; [destruct a as [n|]|destruct b as [n|]]; cbn in J; try discriminate; assert (v = num_val n) by congruence; subst; apply U.
Qed.
Lemma pair_call : forall text loose stat l r, usual text ->
  (call text loose (agg_pair stat) (rows (map pair_row l)) r <->
   r = Ok (match both l with [] => None | l' => Some (VFloat (stat (map pair_float l'))) end)).
Proof.
  intros text loose stat l r U. rewrite call_rows by (now apply pairs_plain). cbn [agg_pair step init]. rewrite pair_fold. cbn [finish done app]. unfold exactly.
  destruct (both l); reflexivity.
Qed.
Theorem c285_single : forall text loose popMeanStdDev stdDev popMeanVariance variance (l : list (option num)) r, usual text ->
  let result f := Ok (match nonnull l with [] => None | l' => Some (VFloat (f (map num_float l'))) end) in
  let args := rows1 (map (option_map num_val) l) in
  (call text loose (agg_stddev_pop popMeanStdDev) args r <-> r = result (fun x => snd (popMeanStdDev x))) /\
  (call text loose (agg_stddev_samp stdDev) args r <-> r = result stdDev) /\
  (call text loose (agg_var_pop popMeanVariance) args r <-> r = result (fun x => snd (popMeanVariance x))) /\
  (call text loose (agg_var_samp variance) args r <-> r = result variance).
Proof. intros text loose a b c d l r U result args. subst result args. refine (conj _ (conj _ (conj _ _))); apply one_call; exact U. Qed.
Theorem c285_pairs : forall text loose correlation covariance covariance' (l : list (option num * option num)) r, usual text ->
  let result f := Ok (match both l with [] => None | l' => Some (VFloat (f (map pair_float l'))) end) in
  let args := rows (map pair_row l) in
  (call text loose (agg_corr correlation) args r <-> r = result correlation) /\
  (call text loose (agg_covar_pop covariance) args r <-> r = result covariance) /\
  (call text loose (agg_covar_samp covariance') args r <-> r = result covariance').
Proof. intros text loose a b c l r U result args. subst result args. refine (conj _ (conj _ _)); apply pair_call; exact U. Qed.
Example c285_example : call x_text x_loose (agg_corr (fun l => float_of_int (zlen l))) (rows (map pair_row [(Some (NInt 1), None); (Some (NInt 2), Some (NInt 5)); (None, None)])) (Ok (Some (VFloat (float_of_int 1)))).
Proof. now apply (c285_pairs x_text x_loose (fun l => float_of_int (zlen l)) (fun l => fzero) (fun l => fzero) _ _ x_usual). Qed.

(** ** C286: a sample of one *)
(** Full property: these four are NULL with fewer than two rows without NULL. *)
Theorem c286_none_partial : forall text loose stdDev variance correlation covariance (l : list (option num)) (p : list (option num * option num)) r, usual text ->
  nonnull l = [] -> both p = [] ->
  (call text loose (agg_stddev_samp stdDev) (rows1 (map (option_map num_val) l)) r <-> r = Ok None) /\
  (call text loose (agg_var_samp variance) (rows1 (map (option_map num_val) l)) r <-> r = Ok None) /\
  (call text loose (agg_corr correlation) (rows (map pair_row p)) r <-> r = Ok None) /\
  (call text loose (agg_covar_samp covariance) (rows (map pair_row p)) r <-> r = Ok None).
Proof.
  intros text loose a b c d l p r U N B. repeat split; intros H.
  all: first [apply one_call in H; [rewrite N in H; exact H|exact U]|apply pair_call in H; [rewrite B in H; exact H|exact U]|apply one_call; [exact U|rewrite N; exact H]|apply pair_call; [exact U|rewrite B; exact H]].
Qed.
(** With exactly one it is never NULL, whatever the library computes. *)
Theorem c286_one_refuted : forall text loose stdDev variance correlation covariance (l : list (option num)) (p : list (option num * option num)) x y r, usual text ->
  nonnull l = [x] -> both p = [y] ->
  (call text loose (agg_stddev_samp stdDev) (rows1 (map (option_map num_val) l)) r \/
   call text loose (agg_var_samp variance) (rows1 (map (option_map num_val) l)) r \/
   call text loose (agg_corr correlation) (rows (map pair_row p)) r \/
   call text loose (agg_covar_samp covariance) (rows (map pair_row p)) r) ->
  exists f, r = Ok (Some (VFloat f)).
Proof.
  intros text loose a b c d l p x y r U N B [H|[H|[H|H]]]; [apply one_call in H|apply one_call in H|apply pair_call in H|apply pair_call in H]; try exact U; try rewrite N in H; try rewrite B in H; eauto.
Qed.
Example c286_example : exists r, call x_text x_loose (agg_var_samp (fun _ => S754_nan)) (rows1 (map (option_map num_val) [Some (NInt 3); None])) r.
Proof. eexists. now apply one_call; [apply x_usual|]. Qed.

(** ** C287: COVAR_POP *)
(** Whatever function of the library computes covariances, COVAR_POP and COVAR_SAMP
    cannot both be right, on any rows whose covariance is not zero. *)
Lemma qlen_pos : forall A (l : list A), (2 <= List.length l)%nat -> (0 < qlen l - 1)%Q /\ (0 < qlen l)%Q.
Proof. intros A l H. unfold qlen, zlen, Qlt, Qminus, Qplus, inject_Z. cbn. lia. Qed.
Lemma both_z : forall l, both (map zpair l) = map (fun p => (NInt (fst p), NInt (snd p))) l.
Proof. induction l as [|[a b] l IH]; [reflexivity|]. cbn [map zpair both fst snd]. now rewrite IH. Qed.
Theorem c287_population_refuted : forall text loose covariance (l : list (Z * Z)) r s, usual text -> (2 <= List.length l)%nat ->
  ~ (codeviation (map qpair l) == 0)%Q ->
  call text loose (agg_covar_samp covariance) (rows (map pair_row (map zpair l))) r ->
  call text loose (agg_covar_pop covariance) (rows (map pair_row (map zpair l))) s ->
  ~ (is_q r (sample_covariance (map qpair l)) /\ is_q s (pop_covariance (map qpair l))).
Proof.
  intros text loose cov l r s U L N R P (Q1 & Q2). apply pair_call in R; [|exact U]. apply pair_call in P; [|exact U]. rewrite both_z in *.
  assert (r = s) by congruence. subst s. destruct Q1 as (f & x & E1 & E2 & E3), Q2 as (g & y & F1 & F2 & F3).
  assert (f = g) by congruence. subst g. assert (x = y) by congruence. subst y. rewrite E3 in F3. clear - N F3 L.
  unfold sample_covariance, pop_covariance in F3. set (c := codeviation _) in *.
  destruct (qlen_pos _ (map qpair l) ltac:(now rewrite map_length)) as (A & B). set (k := qlen _) in *. apply N.
  assert (K1 : ~ (k - 1 == 0)%Q) by (intros E; rewrite E in A; discriminate). assert (K2 : ~ (k == 0)%Q) by (intros E; rewrite E in B; discriminate).
  assert (E : (c * k == c * (k - 1))%Q). { setoid_replace c with ((c / (k - 1)) * (k - 1))%Q at 1 by (field; exact K1). rewrite F3. field. exact K2. }
  setoid_replace c with (c * k - c * (k - 1))%Q by ring. rewrite E. ring.
Qed.
Theorem c287_both_refuted : forall text loose covariance rs r,
  call text loose (agg_covar_pop covariance) rs r <-> call text loose (agg_covar_samp covariance) rs r.
Proof. reflexivity. Qed.
(** The sample covariance of (0,0), (2,2) is 2, its population covariance 1. *)
Definition two_rows : list (Z * Z) := [(0, 0); (2, 2)].
Example c287_example : (sample_covariance (map qpair two_rows) == 2)%Q /\ (pop_covariance (map qpair two_rows) == 1)%Q /\
  ~ (codeviation (map qpair two_rows) == 0)%Q /\
  exists r, call x_text x_loose (agg_covar_samp (fun _ => float_of_int 2)) (rows (map pair_row (map zpair two_rows))) r /\ is_q r 2.
Proof.
  split; [reflexivity|]. split; [reflexivity|]. split; [discriminate|]. eexists. split; [apply pair_call; [apply x_usual|reflexivity]|].
  exists (float_of_int 2). eexists. split; [reflexivity|]. split; reflexivity.
Qed.

(** ** C288: DISTINCT with two arguments *)
Definition int_pair (p : Z * Z) : list (option val) := [Some (VInt (fst p)); Some (VInt (snd p))].
Definition int_floats (p : Z * Z) : float * float := (float_of_int (fst p), float_of_int (snd p)).
Lemma distinct_steps : forall other loose stat (l : list (Z * Z)) seen s, Forall in64 (map fst l) -> Forall in64 seen ->
  outer_steps (val_text other) loose (agg_pair stat) ({| d_map := map dec seen; d_nil := false |}, s) (rows_distinct (map int_pair l)) =
  match l with
  | [] => Ok ({| d_map := map dec seen; d_nil := false |}, s)
  | (x, y) :: l' =>
      if existsb (Z.eqb x) seen then outer_steps (val_text other) loose (agg_pair stat) ({| d_map := map dec seen; d_nil := false |}, s) (rows_distinct (map int_pair l'))
      else outer_steps (val_text other) loose (agg_pair stat) ({| d_map := map dec (x :: seen); d_nil := false |}, (s ++ [(float_of_int x, float_of_int y)])%list) (rows_distinct (map int_pair l'))
  end.
Proof.
  intros other loose stat [|[x y] l] seen s F G; [reflexivity|]. cbn [map rows_distinct outer_steps]. unfold outer_step.
  pose proof (parse_plain (val_text other) loose [IDistinct] (int_pair (x, y)) [] no_opt) as P.
  change (map AOpt [IDistinct]) with [AOpt IDistinct] in P. change (map (fun r => (map AVal r ++ [AOpt IDistinct])%list) (map int_pair l)) with (rows_distinct (map int_pair l)).
  rewrite P by (intros v [E|[E|[]]]; assert (v = VInt x \/ v = VInt y) by (cbn in E; (left; congruence) || (right; congruence)); destruct H as [-> | ->]; apply ordinary_int).
  cbn [app int_pair fst snd map reread fold_left set_item no_opt a_distinct a_ignore a_limit a_order admit_row andb bind val_text].
  assert (X : existsb (String.eqb (dec x)) (map dec seen) = existsb (Z.eqb x) seen).
  { inversion F as [|? ? F1 _]; subst. clear -F1 G. cbn in F1. induction seen as [|z seen IH]; [reflexivity|]. inversion G as [|? ? G1 G2]; subst. cbn [map existsb]. rewrite IH by exact G2. f_equal.
    destruct (Z.eqb_spec x z) as [->|N]; [apply String.eqb_refl|]. apply String.eqb_neq. intros E. apply N, dec_inj; assumption. }
  change (a_ignore _ && _) with false. cbn iota. cbn [d_map]. rewrite X. destruct (existsb (Z.eqb x) seen); reflexivity.
Qed.
(** Full property: the pairs the function is called for are the distinct pairs.  They are
    when no two different pairs have the same first value. *)
Theorem c288_distinct_partial : forall other loose stat (l out : list (Z * Z)) r, Forall in64 (map fst l) ->
  (forall x y y', In (x, y) l -> In (x, y') l -> y = y') -> firsts [] l out ->
  (call (val_text other) loose (agg_pair stat) (rows_distinct (map int_pair l)) r <->
   r = Ok (match out with [] => None | _ => Some (VFloat (stat (map int_floats out))) end)).
Proof.
  intros other loose stat l out r F U H.
  assert (G : forall seen l out, firsts seen l out -> Forall in64 (map fst l) -> Forall in64 (map fst seen) ->
    (forall x y y', In (x, y) (seen ++ l) -> In (x, y') (seen ++ l) -> y = y') -> forall s,
    exists d, outer_steps (val_text other) loose (agg_pair stat) ({| d_map := map dec (map fst seen); d_nil := false |}, s) (rows_distinct (map int_pair l)) = Ok (d, (s ++ map int_floats out)%list)).
  { clear. intros seen l out H. induction H as [seen|seen p l out I H IH|seen p l out I H IH]; intros F G U s.
    - rewrite (distinct_steps other loose stat [] (map fst seen)) by assumption. rewrite app_nil_r. now eexists.
    - destruct p as (x, y). rewrite distinct_steps by assumption. inversion F as [|? ? F1 F2]; subst.
      assert (E : existsb (Z.eqb x) (map fst seen) = true). { apply existsb_exists. exists x. split; [now apply (in_map fst) in I|apply Z.eqb_refl]. }
      rewrite E. apply IH; [exact F2|exact G|]. intros a b c P Q. apply (U a b c); apply in_or_app; [apply in_app_or in P|apply in_app_or in Q]; cbn [In]; tauto.
    - destruct p as (x, y). rewrite distinct_steps by assumption. inversion F as [|? ? F1 F2]; subst.
      assert (E : existsb (Z.eqb x) (map fst seen) = false).
      { apply not_true_is_false. intros E. apply existsb_exists in E. destruct E as (z & J & E). apply Z.eqb_eq in E. subst z. apply in_map_iff in J. destruct J as ((x', y') & E & J). cbn in E. subst x'.
        apply I. replace y with y'; [exact J|]. apply (U x); apply in_or_app; [now left|right; now left]. }
      rewrite E. destruct (IH F2 ltac:(constructor; assumption)) with (s := (s ++ [(float_of_int x, float_of_int y)])%list) as (d & R).
      { intros a b c P Q. apply (U a b c); apply in_or_app; [apply in_app_or in P|apply in_app_or in Q]; cbn [In] in *; tauto. }
      exists d. etransitivity; [exact R|]. rewrite <- app_assoc. reflexivity. }
  destruct (G [] l out H F ltac:(constructor) U []) as (d & R). unfold call.
  assert (R' : outer_steps (val_text other) loose (agg_pair stat) (d_empty, init (agg_pair stat)) (rows_distinct (map int_pair l)) = Ok (d, map int_floats out)) by exact R.
  rewrite R'. cbn [snd done agg_pair app]. unfold exactly. destruct out; reflexivity.
Qed.
(** Of two pairs with the same first value the second is lost. *)
Theorem c288_second_refuted : forall other loose stat x y y' r, in64 x -> y <> y' ->
  firsts [] [(x, y); (x, y')] [(x, y); (x, y')] /\
  (call (val_text other) loose (agg_pair stat) (rows_distinct (map int_pair [(x, y); (x, y')])) r <->
   r = Ok (Some (VFloat (stat [int_floats (x, y)])))).
Proof.
  intros other loose stat x y y' r B N. split.
  - constructor; [intros []|]. constructor; [intros [E|[]]; congruence|constructor].
  - unfold call.
    assert (R' : outer_steps (val_text other) loose (agg_pair stat) (d_empty, init (agg_pair stat)) (rows_distinct (map int_pair [(x, y); (x, y')])) = Ok ({| d_map := [dec x]; d_nil := false |}, [int_floats (x, y)])).
    { pose proof (distinct_steps other loose stat [(x, y); (x, y')] [] [] ltac:(cbn; auto) ltac:(auto)) as P1.
      pose proof (distinct_steps other loose stat [(x, y')] [x] [int_floats (x, y)] ltac:(cbn; auto) ltac:(auto)) as P2.
      cbn iota beta in P2. cbn [existsb] in P2. rewrite Z.eqb_refl in P2. cbn [orb] in P2. etransitivity; [exact P1|]. cbn [existsb]. etransitivity; [exact P2|]. reflexivity. }
    rewrite R'. reflexivity.
Qed.
Example c288_example : forall r, call x_text x_loose (agg_corr (fun l => float_of_int (zlen l))) (rows_distinct (map int_pair [(1, 2); (3, 4); (1, 2)])) r <-> r = Ok (Some (VFloat (float_of_int 2))).
Proof.
  intros r. apply (c288_distinct_partial _ x_loose (fun l => float_of_int (zlen l)) [(1, 2); (3, 4); (1, 2)] [(1, 2); (3, 4)]).
  - cbn. repeat (apply Forall_cons; [easy|]). constructor.
  - cbn. intros x y y' H K. repeat (destruct H as [H|H]; [|]); repeat (destruct K as [K|K]; [|]); try tauto; congruence.
  - constructor; [intros []|]. constructor; [intros [E|[]]; discriminate|]. constructor; [cbn; tauto|constructor].
Qed.

(** ** C289: APPROX_COUNT_DISTINCT *)
Theorem c289_count_distinct : forall text loose vs ds ts r, (forall x, In x (nonnull vs) -> ordinary text x) ->
  distinct (nonnull vs) ds -> Forall2 (fun v t => text v = Ok t) ds ts -> NoDup ts ->
  (call text loose (agg_count_distinct text) (rows1 vs) r <-> r = Ok (Some (VInt (zlen ds)))).
Proof.
  intros text loose vs ds ts r O (D & I) F N. unfold agg_count_distinct. rewrite call_unary by exact O.
  assert (T : exists us, Forall2 (fun v t => text v = Ok t) (nonnull vs) us /\ forall t, In t us <-> In t ts).
  { assert (E : forall v, In v (nonnull vs) -> exists t, text v = Ok t /\ In t ts).
    { intros v J. apply I in J. clear -F J. induction F as [|u t ds ts E F IH]; [destruct J|]. destruct J as [->|J]; [exists t; split; [exact E|now left]|]. destruct (IH J) as (t' & A & B). exists t'. split; [exact A|now right]. }
    assert (E' : forall t, In t ts -> exists v, In v (nonnull vs) /\ text v = Ok t).
    { intros t J. clear -F J I. assert (exists v, In v ds /\ text v = Ok t) as (v & A & B).
      { clear I. induction F as [|u t' ds ts E F IH]; [destruct J|]. destruct J as [->|J]; [exists u; split; [now left|exact E]|]. destruct (IH J) as (v & A & B). exists v. split; [now right|exact B]. }
      exists v. split; [now apply I|exact B]. }
    clear -E E'. assert (G : forall l, (forall v, In v l -> exists t, text v = Ok t /\ In t ts) -> exists us, Forall2 (fun v t => text v = Ok t) l us /\ forall t, In t us -> In t ts).
    { induction l as [|v l IH]; intros H; [exists []; split; [constructor|intros t []]|]. destruct (IH ltac:(intros u J; apply H; now right)) as (us & A & B). destruct (H v ltac:(now left)) as (t & P & Q).
      exists (t :: us). split; [now constructor|]. intros t' [<-|J]; auto. }
    destruct (G (nonnull vs) E) as (us & A & B). exists us. split; [exact A|]. intros t. split; [apply B|]. intros J. destruct (E' t J) as (v & V & W). clear -A V W. induction A as [|u t' l us P A IH]; [destruct V|]. destruct V as [->|V]; [left; congruence|right; auto]. }
  destruct T as (us & A & B). destruct (distinct_fold text (nonnull vs) us [] A ltac:(constructor)) as (s & R & Ds & M). rewrite R. cbn [finish done]. unfold exactly.
  assert (L : zlen s = zlen ds).
  { unfold zlen. replace (List.length ds) with (List.length ts) by (clear -F; induction F; cbn; congruence). f_equal. apply Permutation_length, NoDup_Permutation; [exact Ds|exact N|]. intros t. rewrite M, B. cbn. tauto. }
  now rewrite L.
Qed.
(** The texts of different values differ. *)
Theorem c289_int64 : forall other loose (vs : list (option Z)) ds r, Forall in64 (nonnull vs) -> distinct (nonnull vs) ds ->
  (call (val_text other) loose (agg_count_distinct (val_text other)) (rows1 (map (option_map VInt) vs)) r <-> r = Ok (Some (VInt (zlen ds)))).
Proof.
  intros other loose vs ds r B (D & I).
  assert (Bd : forall z, In z ds -> in64 z) by (intros z J; rewrite Forall_forall in B; now apply B, I).
  rewrite (c289_count_distinct (val_text other) loose _ (map VInt ds) (map dec ds)).
  - unfold zlen. now rewrite map_length.
  - intros x J. rewrite nonnull_map in J. apply in_map_iff in J. destruct J as (z & <- & _). apply ordinary_int.
  - split; [apply FinFun.Injective_map_NoDup; [congruence|exact D]|]. intros x. rewrite nonnull_map, !in_map_iff. split; intros (z & E & J); exists z; split; auto; now apply I.
  - clear. induction ds as [|z ds IH]; constructor; auto.
  - clear -D Bd. induction D as [|z ds N D IH]; cbn [map]; constructor; [|apply IH; intros y Y; apply Bd; now right].
    intros J. apply in_map_iff in J. destruct J as (y & E & J). apply dec_inj in E; [subst; tauto|apply Bd; now right|apply Bd; now left].
Qed.
Theorem c289_string : forall other loose (vs : list (option string)) ds r, (forall s, In s (nonnull vs) -> starts_brace s = false) -> distinct (nonnull vs) ds ->
  (call (val_text other) loose (agg_count_distinct (val_text other)) (rows1 (map (option_map VStr) vs)) r <-> r = Ok (Some (VInt (zlen ds)))).
Proof.
  intros other loose vs ds r O (D & I). rewrite (c289_count_distinct (val_text other) loose _ (map VStr ds) ds).
  - unfold zlen. now rewrite map_length.
  - intros x J. rewrite nonnull_map in J. apply in_map_iff in J. destruct J as (s & <- & J). intros t E. cbn in E. assert (t = s) by congruence. subst. now apply O.
  - split; [apply FinFun.Injective_map_NoDup; [congruence|exact D]|]. intros x. rewrite nonnull_map, !in_map_iff. split; intros (z & E & J); exists z; split; auto; now apply I.
  - clear. induction ds as [|z ds IH]; constructor; auto.
  - exact D.
Qed.
Example c289_example : forall r, call x_text x_loose (agg_count_distinct x_text) (rows1 (map (option_map VInt) [Some 7; None; Some 8; Some 7])) r <-> r = Ok (Some (VInt 2)).
Proof.
  intros r. apply (c289_int64 (fun _ => Err) x_loose [Some 7; None; Some 8; Some 7] [7; 8]); [cbn; repeat (apply Forall_cons; [easy|]); constructor|].
  split; [repeat constructor; cbn; lia|]. cbn. tauto.
Qed.

(** ** C290: APPROX_QUANTILES, boundaries *)
Lemma top_plain : forall other n vs, (forall v, In (Some v) vs -> ordinary (val_text other) v) -> plain (val_text other) (map (top_row n) vs).
Proof.
  intros other n vs O r v I J. apply in_map_iff in I. destruct I as (x & <- & I). destruct J as [J|[J|[]]]; [subst; now apply O|]. assert (v = VInt n) by congruence. subst. apply ordinary_int.
Qed.
Lemma quant_call : forall other loose n vs r, (forall v, In (Some v) vs -> ordinary (val_text other) v) ->
  (call (val_text other) loose agg_quantiles (rows (map (top_row n) vs)) r <-> quant_done {| q_num := match vs with [] => None | _ => Some n end; q_vals := vs |} r).
Proof.
  intros other loose n vs r O. rewrite call_rows by (now apply top_plain). cbn [agg_quantiles step init]. rewrite quant_fold. cbn [finish done q_vals q_num app keep_first]. reflexivity.
Qed.
(** The first and last element are the values of the first and last row. *)
Theorem c290_ends_partial : forall other loose n v vs r, (forall x, In (Some x) (v :: vs) -> ordinary (val_text other) x) -> 1 <= n ->
  call (val_text other) loose agg_quantiles (rows (map (top_row n) (v :: vs))) (Ok r) ->
  exists l, r = Some (VArray (v :: l ++ [last vs v])%list) /\ forall x, In x l -> In x (v :: vs).
Proof.
  intros other loose n v vs r O N H. apply quant_call in H; [|exact O]. unfold quant_done in H. cbn [q_vals q_num] in H.
  rewrite (proj2 (Z.eqb_neq n 0)) in H by lia. destruct (n =? 1).
  - exists []. split; [cbn; congruence|intros x []].
  - destruct H as (body & L & E). destruct body as [b| |]; cbn [bind] in E; try discriminate. destruct (loop_first _ _ _ _ L) as (t & ->). exists t. split; [cbn in E |- *; congruence|].
    intros x I. pose proof (loop_in _ _ _ _ L) as K. cbn in K. apply K. now right.
Qed.
(** Full property: without NULLs the first element is the least and the last the greatest
    value.  The rows are not sorted: it is not the least value unless the first row has it. *)
Theorem c290_minimum_refuted : forall other loose n v vs w r, (forall x, In (Some x) (Some v :: vs) -> ordinary (val_text other) x) -> 1 <= n ->
  In (Some w) vs -> before w v -> call (val_text other) loose agg_quantiles (rows (map (top_row n) (Some v :: vs))) (Ok r) ->
  exists q l, r = Some (VArray (Some q :: l)) /\ before w q.
Proof.
  intros other loose n v vs w r O N I B H. apply c290_ends_partial in H; [|exact O|exact N]. destruct H as (t & -> & _). exists v. eexists. split; [reflexivity|exact B].
Qed.
Theorem c290_null_refuted : forall other loose n vs r, (forall x, In (Some x) vs -> ordinary (val_text other) x) -> 1 <= n ->
  call (val_text other) loose agg_quantiles (rows (map (top_row n) (None :: vs))) (Ok r) ->
  exists l, r = Some (VArray (None :: l)).
Proof.
  intros other loose n vs r O N H. apply c290_ends_partial in H; [|intros x [E|I]; [discriminate|now apply O]|exact N]. destruct H as (t & -> & _). eexists. reflexivity.
Qed.
Theorem c290_order_refuted : forall other loose a b r s, a <> b ->
  call (val_text other) loose agg_quantiles (rows (map (top_row 1) [Some (VInt a); Some (VInt b)])) r ->
  call (val_text other) loose agg_quantiles (rows (map (top_row 1) [Some (VInt b); Some (VInt a)])) s ->
  r = Ok (Some (VArray [Some (VInt a); Some (VInt b)])) /\ r <> s.
Proof.
  intros other loose a b r s N R S'.
  assert (O : forall c d v, In (Some v) [Some (VInt c); Some (VInt d)] -> ordinary (val_text other) v).
  { intros c d v [E|[E|[]]]; [assert (v = VInt c) by congruence|assert (v = VInt d) by congruence]; subst; apply ordinary_int. }
  apply quant_call in R; [|apply O]. apply quant_call in S'; [|apply O]. cbn in R, S'. subst. split; [reflexivity|congruence].
Qed.
Example c290_example : call x_text x_loose agg_quantiles (rows (map (top_row 1) [Some (VInt 5); Some (VInt 1); Some (VInt 3)])) (Ok (Some (VArray [Some (VInt 5); Some (VInt 3)]))).
Proof.
  apply quant_call; [|reflexivity]. intros v [E|[E|[E|[]]]]; [assert (v = VInt 5) by congruence|assert (v = VInt 1) by congruence|assert (v = VInt 3) by congruence]; subst; apply ordinary_int.
Qed.

(** APPROX_QUANTILES(x, 2) of three values is the three in the order of their arrival, so
    its middle is the second value to arrive, whichever is the median. *)
Lemma loop_two : forall vs body q1 q2, quant_pick vs fzero = Ok q1 -> quant_pick vs (fdiv hundred (float_of_int 2)) = Ok q2 ->
  quant_loop vs (fdiv hundred (float_of_int 2)) fzero body -> body = Ok [q1; q2].
Proof.
  intros vs body q1 q2 P1 P2 L.
  inversion L as [? E|? q r E P L1|? E P]; subst; [vm_compute in E; discriminate| |rewrite P1 in P; discriminate].
  assert (q = q1) by congruence. subst q. replace (fadd fzero (fdiv hundred (float_of_int 2))) with (fdiv hundred (float_of_int 2)) in L1 by (vm_compute; reflexivity).
  inversion L1 as [? E1|? q' r' E1 P' L2|? E1 P']; subst; [vm_compute in E1; discriminate| |rewrite P2 in P'; discriminate].
  assert (q' = q2) by congruence. subst q'.
  inversion L2 as [? E2|? q3 r3 E2 P3 L3|? E2 P3]; subst; [reflexivity|vm_compute in E2; discriminate|vm_compute in E2; discriminate].
Qed.
Theorem c290_median_refuted : forall other loose a b c r, (forall x, In (Some x) [a; b; c] -> ordinary (val_text other) x) ->
  call (val_text other) loose agg_quantiles (rows (map (top_row 2) [a; b; c])) r -> r = Ok (Some (VArray [a; b; c])).
Proof.
  intros other loose a b c r O H. apply quant_call in H; [|exact O]. unfold quant_done in H. cbn [q_vals q_num] in H.
  change (2 =? 0) with false in H. change (2 =? 1) with false in H. cbn iota in H. destruct H as (body & L & E).
  apply (loop_two _ _ a b) in L; [|reflexivity|reflexivity]. subst. reflexivity.
Qed.

(** ** C291: APPROX_QUANTILES, number of elements *)
Lemma quant_length : forall other loose n v vs l fuel k, (forall x, In (Some x) (v :: vs) -> ordinary (val_text other) x) -> 1 < n ->
  rounds fuel fzero (fdiv hundred (float_of_int n)) = Some k ->
  call (val_text other) loose agg_quantiles (rows (map (top_row n) (v :: vs))) (Ok (Some (VArray l))) -> zlen l = Z.of_nat k + 1.
Proof.
  intros other loose n v vs l fuel k O N R H. apply quant_call in H; [|exact O]. unfold quant_done in H. cbn [q_vals q_num] in H.
  rewrite (proj2 (Z.eqb_neq n 0)), (proj2 (Z.eqb_neq n 1)) in H by lia. destruct H as (body & L & E). destruct body as [b| |]; cbn [bind] in E; try discriminate.
  assert (l = (b ++ [last vs v])%list) by congruence. subst. rewrite zlen_app. pose proof (loop_rounds _ _ _ _ L b eq_refl fuel k R) as K. unfold zlen. rewrite K. cbn. lia.
Qed.
(** Full property: n + 1 elements.  So it is for n up to 11. *)
Theorem c291_small_partial : forall other loose n v vs l, (forall x, In (Some x) (v :: vs) -> ordinary (val_text other) x) -> 1 <= n <= 11 ->
  call (val_text other) loose agg_quantiles (rows (map (top_row n) (v :: vs))) (Ok (Some (VArray l))) -> zlen l = n + 1.
Proof.
  intros other loose n v vs l O N H. destruct (Z.eq_dec n 1) as [->|N1].
  - apply quant_call in H; [|exact O]. cbn in H. assert (l = [v; last vs v]) by congruence. now subst.
  - assert (R : rounds 20 fzero (fdiv hundred (float_of_int n)) = Some (Z.to_nat n)).
    { assert (C : n = 2 \/ n = 3 \/ n = 4 \/ n = 5 \/ n = 6 \/ n = 7 \/ n = 8 \/ n = 9 \/ n = 10 \/ n = 11) by lia.
      repeat (destruct C as [->|C]; [vm_compute; reflexivity|]). subst. vm_compute. reflexivity. }
    rewrite (quant_length other loose n v vs l 20 (Z.to_nat n) O ltac:(lia) R H). lia.
Qed.
(** APPROX_QUANTILES(x, 12) has 14 elements, not 13, for all values. *)
Theorem c291_twelve_refuted : forall other loose v vs l, (forall x, In (Some x) (v :: vs) -> ordinary (val_text other) x) ->
  call (val_text other) loose agg_quantiles (rows (map (top_row 12) (v :: vs))) (Ok (Some (VArray l))) -> zlen l = 14.
Proof.
  intros other loose v vs l O H. assert (R : rounds 20 fzero (fdiv hundred (float_of_int 12)) = Some 13%nat) by (vm_compute; reflexivity).
  rewrite (quant_length other loose 12 v vs l 20 13 O ltac:(lia) R H). reflexivity.
Qed.
Example c291_example : call x_text x_loose agg_quantiles (rows (map (top_row 12) [Some (VInt 5)])) (Ok (Some (VArray (repeat (Some (VInt 5)) 14)))).
Proof.
  apply quant_call; [intros v [E|[]]; assert (v = VInt 5) by congruence; subst; apply ordinary_int|]. cbn [quant_done q_vals q_num]. change (12 =? 0) with false. change (12 =? 1) with false. cbn iota.
  exists (Ok (repeat (Some (VInt 5)) 13)). split; [|reflexivity].
  set (ratio := fdiv hundred (float_of_int 12)). vm_compute in ratio. subst ratio.
  do 13 (match goal with |- quant_loop _ _ _ (Ok (repeat _ (S ?k))) => apply (ql_next _ _ _ (Some (VInt 5)) (Ok (repeat (Some (VInt 5)) k))); [vm_compute; reflexivity|vm_compute; reflexivity|] end;
    match goal with |- quant_loop _ _ ?e _ => let e' := eval vm_compute in e in replace e with e' by (vm_compute; reflexivity) end).
  apply ql_end. vm_compute. reflexivity.
Qed.

(** ** C292: APPROX_TOP_COUNT *)
Theorem c292_top_count : forall other loose vs ds n r, (forall v, In v vs -> simple v) -> (forall v, In (Some v) vs -> ordinary (val_text other) v) ->
  vs <> [] -> zlen vs < two63 -> distinct vs ds -> 0 <= n <= zlen ds ->
  (call (val_text other) loose agg_top_count (rows (map (top_row n) vs)) r <->
   exists out, best ds (frequency vs) Z.ge n out /\ r = Ok (top_result "count" (fun z => Some (VInt z)) out)).
Proof.
  intros other loose vs ds n r Si O Ne B D N. rewrite call_rows by (now apply top_plain). cbn [agg_top_count step init].
  change {| t_num := None; t_map := [] |} with {| t_num := None; t_map := encm enc_count [] |}.
  rewrite count_steps by (intros v I; now apply simple_hash, Si). cbn [finish done agg_top_count].
  replace (match vs with [] => None | _ => keep_first None n end) with (Some n) by (now destruct vs).
  rewrite (top_best enc_count (fun _ : unit => 1) count_next Z.ge) with (l := keyed vs) (ds := ds).
  - assert (E : forall v s, In v ds -> (score (fun _ : unit => 1) count_next (keyed vs) v s <-> frequency vs v s)).
    { intros v s I. apply D in I. unfold score, frequency. fold (keyed vs). split; intros (ws & W & E); exists ws; (split; [exact W|]).
      all: pose proof (weights_length _ _ _ W) as L; pose proof (weights_some _ _ _ W ltac:(now rewrite keyed_fst)) as S'.
      all: assert (L' : zlen (keyed vs) = zlen vs) by (unfold keyed, zlen; now rewrite map_length).
      all: pose proof (count_scored ws S' ltac:(lia)) as C; congruence. }
    split; intros (out & X & ->); exists out; (split; [|reflexivity]); eapply best_ext; try exact X; intros v s I; [now apply E|symmetry; now apply E].
  - intros a b. lia.
  - intros a b c. lia.
  - apply count_more.
  - intros v I. rewrite keyed_fst in I. now apply Si.
  - destruct vs; [congruence|discriminate].
  - apply (good_fold (fun _ : unit => 1) count_next (keyed vs) [] []); [intros v I; cbn [app] in I; rewrite keyed_fst in I; now apply Si|apply good_nil].
  - now rewrite keyed_fst.
  - exact N.
Qed.
Theorem c292_no_rows : forall text loose r, call text loose agg_top_count [] r <-> r = Ok None.
Proof. intros. unfold call. cbn. reflexivity. Qed.
Example c292_example : forall r, call x_text x_loose agg_top_count (rows (map (top_row 1) [Some (VStr "a"); None; Some (VStr "b"); Some (VStr "b")])) r <->
  exists out, best [Some (VStr "a"); None; Some (VStr "b")] (frequency [Some (VStr "a"); None; Some (VStr "b"); Some (VStr "b")]) Z.ge 1 out /\ r = Ok (top_result "count" (fun z => Some (VInt z)) out).
Proof.
  intros r. apply c292_top_count.
  - intros v [<-|[<-|[<-|[<-|[]]]]]; exact I.
  - intros v [E|[E|[E|[E|[]]]]]; try discriminate; [assert (v = VStr "a") by congruence|assert (v = VStr "b") by congruence|assert (v = VStr "b") by congruence]; subst; intros t T; cbn in T; [assert (t = "a") by congruence|assert (t = "b") by congruence|assert (t = "b") by congruence]; now subst.
  - discriminate.
  - reflexivity.
  - split; [repeat constructor; cbn; intuition congruence|]. intros x. cbn. tauto.
  - cbn. lia.
Qed.

(** ** C293: APPROX_TOP_SUM *)
Lemma sum_plain : forall other n l, (forall v, In (Some v) (map fst l) -> ordinary (val_text other) v) -> plain (val_text other) (map (sum_row n) l).
Proof.
  intros other n l O r v I J. apply in_map_iff in I. destruct I as ((x, w) & <- & I). destruct J as [J|[J|[J|[]]]].
  - cbn in J. subst. apply O. apply (in_map fst) in I. exact I.
  - cbn in J. destruct w as [w|]; [|discriminate]. assert (v = VInt w) by (cbn in J; congruence). subst. apply ordinary_int.
  - assert (v = VInt n) by congruence. subst. apply ordinary_int.
Qed.
Theorem c293_top_sum : forall other loose (l : list (option val * option Z)) ds n r, (forall v, In v (map fst l) -> simple v) -> (forall v, In (Some v) (map fst l) -> ordinary (val_text other) v) ->
  (forall v w, In (v, Some w) l -> in64 w) -> (forall v ws, weights v l ws -> in64 (sum_z (nonnull ws))) ->
  l <> [] -> distinct (map fst l) ds -> 0 <= n <= zlen ds ->
  (call (val_text other) loose agg_top_sum (rows (map (sum_row n) l)) r <->
   exists out, best ds (weight l) sum_ge n out /\ r = Ok (top_result "sum" (option_map VInt) out)).
Proof.
  intros other loose l ds n r Si O F B Ne D N. rewrite call_rows by (now apply sum_plain). cbn [agg_top_sum step init].
  change {| t_num := None; t_map := [] |} with {| t_num := None; t_map := encm enc_sum [] |}.
  rewrite sum_steps by (intros v I; now apply simple_hash, Si). cbn [finish done agg_top_sum].
  replace (match l with [] => None | _ => keep_first None n end) with (Some n) by (now destruct l).
  rewrite (top_best enc_sum (fun w : option Z => w) sum_next sum_ge) with (l := l) (ds := ds).
  - assert (E : forall v s, In v ds -> (score (fun w : option Z => w) sum_next l v s <-> weight l v s)).
    { intros v s I. apply D in I. unfold score, weight. split; intros (ws & W & E); exists ws; (split; [exact W|]).
      all: pose proof (weights_some _ _ _ W I) as S'.
      all: assert (Fw : Forall in64 (nonnull ws)) by (pose proof (weights_incl _ _ _ W) as Y; clear -Y F; induction ws as [|[w|] ws IH]; cbn [nonnull]; [constructor|constructor; [apply (F v), Y; now left|apply IH; intros x X; apply Y; now right]|apply IH; intros x X; apply Y; now right]).
      all: pose proof (sum_scored ws S' Fw (B v ws W)) as C; congruence. }
    split; intros (out & X & ->); exists out; (split; [|reflexivity]); eapply best_ext; try exact X; intros v s I; [now apply E|symmetry; now apply E].
  - apply sum_ge_total.
  - apply sum_ge_trans.
  - apply sum_more.
  - exact Si.
  - exact Ne.
  - apply (good_fold (fun w : option Z => w) sum_next l [] []); [exact Si|apply good_nil].
  - exact D.
  - exact N.
Qed.
Example c293_example : forall r, call x_text x_loose agg_top_sum (rows (map (sum_row 2) [(Some (VInt 1), Some 5); (Some (VInt 2), None); (Some (VInt 1), Some 7)])) r <->
  exists out, best [Some (VInt 1); Some (VInt 2)] (weight [(Some (VInt 1), Some 5); (Some (VInt 2), None); (Some (VInt 1), Some 7)]) sum_ge 2 out /\ r = Ok (top_result "sum" (option_map VInt) out).
Proof.
  intros r. apply c293_top_sum.
  - cbn. intros v [<-|[<-|[<-|[]]]]; exact I.
  - cbn. intros v [E|[E|[E|[]]]]; [assert (v = VInt 1) by congruence|assert (v = VInt 2) by congruence|assert (v = VInt 1) by congruence]; subst; apply ordinary_int.
  - cbn. intros v w [E|[E|[E|[]]]]; [assert (w = 5) by congruence|discriminate|assert (w = 7) by congruence]; subst; easy.
  - intros v ws W. pose proof (weights_incl _ _ _ W) as Y. pose proof (weights_length _ _ _ W) as L.
    assert (G : forall ws, (forall w, In w ws -> w = Some 5 \/ w = None \/ w = Some 7) -> 0 <= sum_z (nonnull ws) <= 7 * zlen ws).
    { clear. induction ws as [|w ws IH]; intros H; [cbn; lia|]. rewrite zlen_cons. specialize (IH ltac:(intros x X; apply H; now right)). destruct (H w ltac:(now left)) as [ -> | [ -> | -> ] ]; cbn [nonnull sum_z fold_right] in *; unfold sum_z in *; lia. }
    assert (Q : 0 <= sum_z (nonnull ws) <= 7 * zlen ws).
    { apply G. intros w I. apply Y in I. cbn in I. destruct I as [E|[E|[E|[]]]]; [left; congruence|right; left; congruence|right; right; congruence]. }
    assert (zlen ws <= 3) by exact L. unfold in64, two63. lia.
  - discriminate.
  - split; [repeat constructor; cbn; intuition congruence|]. intros x. cbn. tauto.
  - cbn. lia.
Qed.

(** ** C294: where the two fail *)
(** Full property: as C292 and C293 for every number and every groupable type, with all
    values when there are fewer than asked for. *)
Theorem c294_fewer_refuted : forall other loose vs ds n r, (forall v, In v vs -> simple v) -> (forall v, In (Some v) vs -> ordinary (val_text other) v) ->
  vs <> [] -> distinct vs ds -> zlen ds < n ->
  (call (val_text other) loose agg_top_count (rows (map (top_row n) vs)) r <-> r = Err).
Proof.
  intros other loose vs ds n r Si O Ne (Dd & Id) N. rewrite call_rows by (now apply top_plain). cbn [agg_top_count step init].
  change {| t_num := None; t_map := [] |} with {| t_num := None; t_map := encm enc_count [] |}.
  rewrite count_steps by (intros v I; now apply simple_hash, Si). cbn [finish done agg_top_count].
  replace (match vs with [] => None | _ => keep_first None n end) with (Some n) by (now destruct vs).
  pose proof (good_fold (fun _ : unit => 1) count_next (keyed vs) [] [] ltac:(intros v I; cbn [app] in I; rewrite keyed_fst in I; now apply Si) (good_nil _ _ _ _)) as (D & I & _).
  cbn [app] in I. set (m := fold_left _ _ _) in *. rewrite keyed_fst in I.
  assert (L : zlen (encm enc_count m) = zlen ds).
  { assert (P : Permutation (map fst m) ds) by (apply NoDup_Permutation; [exact D|exact Dd|intros v; rewrite Id; apply I]). apply Permutation_length in P. unfold zlen, encm. rewrite map_length in *. lia. }
  unfold top_done. cbn [t_map t_num]. destruct (encm enc_count m) as [|e em] eqn:Em.
  - exfalso. destruct m; [|discriminate]. destruct vs as [|v vs]; [congruence|]. destruct (proj2 (I v)); now left.
  - cbv zeta iota. rewrite (proj2 (Z.ltb_lt _ n)) by lia. reflexivity.
Qed.
(** Equal NUMERIC values are not put together. *)
Theorem c294_numeric_refuted : forall text loose q r, (forall z, ordinary text (VInt z)) -> ordinary text (VNum q) ->
  (call text loose agg_top_count (rows (map (top_row 1) [Some (VNum q); Some (VNum q)])) r <->
   r = Ok (Some (VArray [Some (VStruct [("value", Some (VNum q)); ("count", Some (VInt 1))])]))).
Proof.
  intros text loose q r Oi Oq. rewrite call_rows.
  2:{ intros r' v [<-|[<-|[]]] J; destruct J as [J|[J|[]]]; [assert (v = VNum q) by congruence|assert (v = VInt 1) by congruence|assert (v = VNum q) by congruence|assert (v = VInt 1) by congruence]; subst; auto. }
  set (e := (Some (VNum q), Some (VInt 1)) : entry).
  change (finish agg_top_count _ r) with (top_done "count" {| t_num := Some 1; t_map := [e; e] |} r).
  unfold top_done. cbn [t_map t_num]. change (zlen [e; e] <? 1) with false. change (1 <? 0) with false. cbn iota. split.
  - intros (l & out & P & (P1 & _) & ->).
    assert (A : forall x, In x out -> x = e). { intros x X. apply (Permutation_in x (Permutation_sym (Permutation_trans P P1))) in X. cbn in X. intuition congruence. }
    pose proof (Permutation_length (Permutation_trans P P1)) as L. destruct out as [|a out]; [discriminate|]. rewrite (A a) by (now left). reflexivity.
  - intros ->. exists [e; e], [e; e]. split; [reflexivity|]. split; [|reflexivity]. change [e; e] with (insertion more [e; e]) at 2. apply go_sort_possible.
Qed.
(** BYTES values end the process. *)
Theorem c294_bytes_refuted : forall text loose b n vs r, (forall z, ordinary text (VInt z)) -> ordinary text (VBytes b) ->
  (call text loose agg_top_count (rows (top_row n (Some (VBytes b)) :: map (top_row n) vs)) r <-> r = GoPanic).
Proof.
  intros text loose b n vs r Oi Ob. unfold call. cbn [rows map outer_steps]. unfold outer_step.
  pose proof (parse_plain text loose [] (top_row n (Some (VBytes b))) [] no_opt) as Q. cbn [map fold_left] in Q. rewrite app_nil_r in Q. cbn [map] in *. rewrite Q.
  2:{ intros v [E|[E|[]]]; [assert (v = VBytes b) by congruence|assert (v = VInt n) by congruence]; subst; auto. }
  reflexivity.
Qed.
Example c294_example : forall r, call x_text x_loose agg_top_count (rows (map (top_row 10) [Some (VInt 4); None])) r <-> r = Err.
Proof.
  intros r. apply (c294_fewer_refuted (fun _ => Err) x_loose [Some (VInt 4); None] [Some (VInt 4); None]).
  - intros v [<-|[<-|[]]]; exact I.
  - intros v [E|[E|[]]]; [|discriminate]. assert (v = VInt 4) by congruence. subst. apply ordinary_int.
  - discriminate.
  - split; [repeat constructor; cbn; intuition congruence|tauto].
  - reflexivity.
Qed.

(** ** C295, C296: HLL_COUNT *)
Section Hll.
Variable sketch : Type.
Variable new_hll : Z -> option sketch.
Variable zero_hll : sketch.
Variable add_raw : sketch -> Z -> sketch.
Variable union : sketch -> sketch -> sketch.
Variable cardinality : sketch -> Z.
Variable to_bytes : sketch -> string.
Variable from_bytes : string -> option sketch.
Variable sum64 : string -> Z.
Variable num_bytes : Q -> string.
Variable text : val -> res string.
Variable loose : string -> option item.
Hypothesis bytes_ordinary : forall b, ordinary text (VBytes b).

(** The sketch INIT starts from, and the sketch of some hashes. *)
Definition fresh (p : Z) : sketch := match new_hll p with Some h => h | None => zero_hll end.
Definition sketch_of (p : Z) (zs : list Z) : sketch := fold_left add_raw zs (fresh p).
Let hll_init := agg_hll_init sketch new_hll zero_hll add_raw to_bytes sum64 num_bytes text.
Let hll_merge := agg_hll_merge sketch union cardinality from_bytes.
Let hll_partial := agg_hll_merge_partial sketch union to_bytes from_bytes.
Let extract := hll_extract sketch cardinality from_bytes.
Let hash := hash_of sum64 num_bytes text.

Definition add_hash (s : option sketch) (v : option val) : res (option sketch) :=
  bind (hash v) (fun z => Ok (Some (add_raw (match s with Some h => h | None => fresh 15 end) z))).
Lemma init_steps : forall vs s, fold_res (fun s v => step hll_init s [v] no_opt) s vs = fold_res add_hash s vs.
Proof.
  induction vs as [|v vs IH]; intros s; [reflexivity|]. cbn [fold_res]. change (step hll_init s [v] no_opt) with (add_hash s v).
  destruct (add_hash s v) as [s'| |]; cbn [bind]; try reflexivity; apply IH.
Qed.
Lemma init_call : forall vs r, (forall v, In (Some v) vs -> ordinary text v) -> vs <> [] ->
  (call text loose hll_init (rows1 vs) r <->
   (exists zs, Forall2 (fun v z => hash v = Ok z) vs zs /\ r = Ok (Some (VBytes (to_bytes (sketch_of 15 zs))))) \/
   finish hll_init (fold_res add_hash None vs) r /\ ~ exists zs, Forall2 (fun v z => hash v = Ok z) vs zs).
Proof.
  intros vs r O N. unfold call. rewrite outer_plain by exact O. change (init hll_init) with (@None sketch). rewrite init_steps.
  set (F := fold_res _ _ _).
  assert (K : (exists zs, Forall2 (fun v z => hash v = Ok z) vs zs /\ F = Ok (Some (sketch_of 15 zs))) \/ ~ exists zs, Forall2 (fun v z => hash v = Ok z) vs zs).
  { assert (G : forall vs h, (exists zs, Forall2 (fun v z => hash v = Ok z) vs zs /\ fold_res add_hash (Some h) vs = Ok (Some (fold_left add_raw zs h))) \/ ~ exists zs, Forall2 (fun v z => hash v = Ok z) vs zs).
    { clear. induction vs as [|v vs IH]; intros h; [left; exists []; split; [constructor|reflexivity]|]. cbn [fold_res]. unfold add_hash at 1. destruct (hash v) as [z| |] eqn:E; cbn [bind].
      - destruct (IH (add_raw h z)) as [(zs & A & B)|A]; [left; exists (z :: zs); split; [now constructor|exact B]|right; intros (zs & H); apply A; inversion H; subst; eauto].
      - right. intros (zs & H). inversion H; subst. congruence.
      - right. intros (zs & H). inversion H; subst. congruence. }
    destruct vs as [|v vs]; [congruence|]. subst F. cbn [fold_res]. unfold add_hash at 1. destruct (hash v) as [z| |] eqn:E; cbn [bind].
    - destruct (G vs (add_raw (fresh 15) z)) as [(zs & A & B)|A]; [left; exists (z :: zs); split; [now constructor|exact B]|right; intros (zs & H); apply A; inversion H; subst; eauto].
    - right. intros (zs & H). inversion H; subst. congruence.
    - right. intros (zs & H). inversion H; subst. congruence. }
  assert (Fi : forall R, match bind R (fun s' => Ok (d_empty, s')) with Ok st => done hll_init (snd st) r | Err => r = Err | GoPanic => r = GoPanic end <-> finish hll_init R r) by (intros [x| |]; reflexivity).
  rewrite Fi. destruct K as [(zs & A & B)|A].
  - rewrite B. split.
    + intros H. left. exists zs. split; [exact A|]. exact H.
    + intros [(zs' & A' & ->)|(_ & C)]; [|exfalso; eauto]. assert (zs' = zs). { clear -A A'. revert zs' A'. induction A as [|v z vs zs E A IH]; intros zs' A'; inversion A'; subst; [reflexivity|]. f_equal; [congruence|auto]. }
      subst. reflexivity.
  - split; [intros H; right; split; assumption|]. intros [(zs & A' & _)|(H & _)]; [exfalso; eauto|exact H].
Qed.

(** What is known of the library: a sketch survives being stored, and adding a hash to one
    of two sketches or to their union is the same. *)
Definition library : Prop :=
  (forall s, from_bytes (to_bytes s) = Some s) /\ (forall a, union a (fresh 15) = a) /\ (forall a b z, union a (add_raw b z) = add_raw (union a b) z).

Lemma union_of : library -> forall zs a, union a (sketch_of 15 zs) = fold_left add_raw zs a.
Proof.
  intros (_ & U0 & U1) zs a. unfold sketch_of. induction zs as [|z zs IH] using rev_ind; [apply U0|]. rewrite !fold_left_app. cbn [fold_left]. rewrite U1. f_equal. exact IH.
Qed.
Lemma merge_fold : library -> forall zss h, fold_res (hll_merge_step sketch union from_bytes) (Some h) (map (fun zs => VBytes (to_bytes (sketch_of 15 zs))) zss) = Ok (Some (fold_left add_raw (concat zss) h)).
Proof.
  intros L. induction zss as [|zs zss IH]; intros h; [reflexivity|]. cbn [map fold_res hll_merge_step concat]. rewrite (proj1 L). cbn [bind]. rewrite (union_of L), IH, fold_left_app. reflexivity.
Qed.
(** Merging the sketches of groups of rows counts as the sketch of all the rows does. *)
Theorem c295_merge : library -> forall groups (bs : list string) b c, groups <> [] ->
  (forall g, In g groups -> g <> [] /\ forall v, In (Some v) g -> ordinary text v) ->
  Forall2 (fun g b => call text loose hll_init (rows1 g) (Ok (Some (VBytes b)))) groups bs ->
  call text loose hll_init (rows1 (concat groups)) (Ok (Some (VBytes b))) ->
  (call text loose hll_merge (rows1 (map (fun b => Some (VBytes b)) bs)) (Ok (Some (VInt c))) <-> extract (Some (VBytes b)) = Ok (Some (VInt c))) /\
  (forall b', call text loose hll_partial (rows1 (map (fun b => Some (VBytes b)) bs)) (Ok (Some (VBytes b'))) <-> b' = b).
Proof.
  intros L groups bs b c Ng Hg F A.
  assert (Z1 : exists zss, bs = map (fun zs => to_bytes (sketch_of 15 zs)) zss /\ Forall2 (fun v z => hash v = Ok z) (concat groups) (concat zss)).
  { clear A Ng. induction F as [|g b0 groups bs H F IH]; [exists []; split; [reflexivity|constructor]|]. destruct IH as (zss & -> & Q); [intros g' I; apply Hg; now right|].
    destruct (Hg g ltac:(now left)) as (N & O). apply init_call in H; [|exact O|exact N]. destruct H as [(zs & P & E)|(E & C)].
    - exists (zs :: zss). split; [cbn [map]; f_equal; congruence|]. cbn [concat]. now apply Forall2_app.
    - exfalso. clear -E C. apply C. clear C.
      assert (G : forall vs s s', fold_res add_hash s vs = Ok s' -> exists zs, Forall2 (fun v z => hash v = Ok z) vs zs).
      { induction vs as [|v vs IH]; intros s s' H; [exists []; constructor|]. cbn [fold_res] in H. unfold add_hash at 1 in H. destruct (hash v) as [z| |] eqn:X; cbn [bind] in H; try discriminate. destruct (IH _ _ H) as (zs & P). exists (z :: zs). now constructor. }
      destruct (fold_res _ _ _) as [s'| |] eqn:X; cbn [finish] in E; try discriminate. eapply G. exact X. }
  destruct Z1 as (zss & -> & Q).
  assert (B : b = to_bytes (sketch_of 15 (concat zss))).
  { apply init_call in A.
    - destruct A as [(zs & P & E)|(_ & C)]; [|exfalso; eauto]. assert (zs = concat zss). { clear -P Q. revert P. generalize dependent zs. induction Q as [|v z vs zs' E Q IH]; intros zs P; inversion P; subst; [reflexivity|]. f_equal; [congruence|auto]. }
      congruence.
    - intros v I. apply in_concat in I. destruct I as (g & G & I). now apply (Hg g G).
    - destruct groups as [|g groups]; [congruence|]. destruct (Hg g ltac:(now left)) as (N & _). destruct g; [congruence|discriminate]. }
  assert (Nz : zss <> []). { intros ->. inversion F; subst. congruence. }
  assert (M : fold_res (hll_merge_step sketch union from_bytes) None (nonnull (map (fun b => Some (VBytes b)) (map (fun zs => to_bytes (sketch_of 15 zs)) zss))) = Ok (Some (sketch_of 15 (concat zss)))).
  { rewrite map_map. replace (nonnull _) with (map (fun zs => VBytes (to_bytes (sketch_of 15 zs))) zss) by (clear; induction zss as [|zs zss IH]; [reflexivity|cbn [map nonnull]; now rewrite <- IH]).
    destruct zss as [|zs zss]; [congruence|]. cbn [map fold_res hll_merge_step]. rewrite (proj1 L). cbn [bind]. rewrite (merge_fold L). unfold sketch_of. cbn [concat]. now rewrite fold_left_app. }
  assert (O : forall x, In x (nonnull (map (fun b => Some (VBytes b)) (map (fun zs => to_bytes (sketch_of 15 zs)) zss))) -> ordinary text x).
  { intros x I. rewrite map_map in I. clear -I bytes_ordinary. induction zss as [|zs zss IH]; [destruct I|]. cbn [map nonnull] in I. destruct I as [<-|I]; [apply bytes_ordinary|now apply IH]. }
  split; [|intros b'].
  - subst hll_merge. unfold agg_hll_merge. rewrite call_unary by exact O. rewrite M. cbn [finish done]. unfold exactly. subst extract. cbn [hll_extract]. rewrite B, (proj1 L). split; intros H; congruence.
  - subst hll_partial. unfold agg_hll_merge_partial. rewrite call_unary by exact O. rewrite M. cbn [finish done]. unfold exactly. rewrite B. split; intros H; congruence.
Qed.
(** Sketches that are NULL are skipped; without a sketch the count is 0. *)
Theorem c295_no_sketch : forall (n : nat) r, call text loose hll_merge (rows1 (repeat None n)) r <-> r = Ok (Some (VInt 0)).
Proof.
  intros n r. assert (N : nonnull (repeat (@None val) n) = []) by (induction n; [reflexivity|assumption]). subst hll_merge. unfold agg_hll_merge. rewrite call_unary by (rewrite N; intros x []). rewrite N. reflexivity.
Qed.
(** A text that is not a sketch is an error, wherever it stands. *)
Theorem c295_broken : forall l b r, from_bytes b = None ->
  let bad := rows1 (Some (VBytes b) :: map (option_map VBytes) l) in
  (call text loose hll_merge bad r <-> r = Err) /\ (call text loose hll_partial bad r <-> r = Err).
Proof.
  intros l b r E bad.
  assert (O : forall x, In x (nonnull (Some (VBytes b) :: map (option_map VBytes) l)) -> ordinary text x).
  { intros x I. cbn [nonnull] in I. destruct I as [<-|I]; [apply bytes_ordinary|]. rewrite nonnull_map in I. apply in_map_iff in I. destruct I as (y & <- & _). apply bytes_ordinary. }
  split; [subst hll_merge; unfold agg_hll_merge|subst hll_partial; unfold agg_hll_merge_partial]; subst bad; rewrite call_unary by exact O; cbn [nonnull fold_res hll_merge_step]; rewrite E; reflexivity.
Qed.
(** Full property C296: the sketch is that of the values that are not NULL, and a precision
    the library refuses is an error. *)
Theorem c296_sketch_partial : forall vs zs, vs <> [] -> (forall v, In v vs -> ordinary text v) ->
  Forall2 (fun v z => hash (Some v) = Ok z) vs zs -> forall r,
  (call text loose hll_init (rows1 (map Some vs)) r <-> r = Ok (Some (VBytes (to_bytes (sketch_of 15 zs))))).
Proof.
  intros vs zs N O F r. assert (F' : Forall2 (fun v z => hash v = Ok z) (map Some vs) zs) by (clear -F; induction F; constructor; auto).
  rewrite init_call.
  - split; [intros [(zs' & P & ->)|(_ & C)]; [|exfalso; eauto]|intros ->; left; eauto]. do 5 f_equal. clear -P F'. revert zs' P. induction F' as [|v z l zs E F' IH]; intros zs' P; inversion P; subst; [reflexivity|]. f_equal; [congruence|auto].
  - intros v I. apply in_map_iff in I. destruct I as (w & E & I). assert (v = w) by congruence. subst. now apply O.
  - destruct vs; [congruence|discriminate].
Qed.
(** What is hashed: the text of an INT64 or a STRING, the bytes of BYTES or NUMERIC. *)
Theorem c296_hashed_partial : forall z q b s t u, text (VInt z) = Ok t -> text (VStr s) = Ok u ->
  hash (Some (VInt z)) = Ok (sum64 t) /\ hash (Some (VStr s)) = Ok (sum64 u) /\
  hash (Some (VBytes b)) = Ok (sum64 b) /\ hash (Some (VNum q)) = Ok (sum64 (num_bytes q)).
Proof. intros z q b s t u A B. subst hash. cbn [hash_of]. rewrite A, B. repeat split. Qed.
(** Rows that are all NULL give the sketch of the hash 0. *)
Theorem c296_null_refuted : forall n r,
  call text loose hll_init (rows1 (repeat None (S n))) r <-> r = Ok (Some (VBytes (to_bytes (sketch_of 15 (repeat 0 (S n)))))).
Proof.
  intros n r. assert (F' : Forall2 (fun v z => hash v = Ok z) (repeat None (S n)) (repeat 0 (S n))) by (induction (S n); constructor; auto).
  rewrite init_call.
  - split; [intros [(zs' & P & ->)|(_ & C)]; [|exfalso; eauto]|intros ->; left; eauto]. do 5 f_equal. clear -P F'. revert zs' P. induction F' as [|v z l zs E F' IH]; intros zs' P; inversion P; subst; [reflexivity|]. f_equal; [congruence|auto].
  - intros v I. apply repeat_spec in I. discriminate.
  - discriminate.
Qed.
(** The error of the library is lost. *)
Theorem c296_precision_refuted : (forall z, ordinary text (VInt z)) -> forall p v z, new_hll p = None -> ordinary text v -> hash (Some v) = Ok z -> forall r,
  (call text loose hll_init (rows [[Some v; Some (VInt p)]]) r <-> r = Ok (Some (VBytes (to_bytes (add_raw zero_hll z))))).
Proof.
  intros Oi p v z E O H r. rewrite call_rows.
  2:{ intros r' x [<-|[]] [X|[X|[]]]; [assert (x = v) by congruence|assert (x = VInt p) by congruence]; subst; auto. }
  cbn [fold_res]. change (step hll_init (init hll_init) [Some v; Some (VInt p)] no_opt) with (bind (hash (Some v)) (fun z => Ok (Some (add_raw (match new_hll p with Some h => h | None => zero_hll end) z)))).
  rewrite E, H. cbn [bind finish done]. reflexivity.
Qed.
End Hll.

(** A library that keeps every hash: sketches are texts, a hash is one character. *)
Definition s_add (s : string) (z : Z) : string := (s ++ String (Ascii.ascii_of_nat (Z.to_nat z)) "")%string.
Lemma sapp_assoc : forall a b c, ((a ++ b) ++ c = a ++ (b ++ c))%string.
Proof. induction a as [|x a IH]; intros b c; [reflexivity|]. cbn. now rewrite IH. Qed.
Lemma sapp_nil : forall a, (a ++ "" = a)%string.
Proof. induction a as [|x a IH]; [reflexivity|]. cbn. now rewrite IH. Qed.
Example c295_example : library string (fun _ => Some "") "" s_add (fun a b => (a ++ b)%string) (fun s => s) (fun s => Some s).
Proof.
  split; [reflexivity|]. split; [exact sapp_nil|]. intros a b z. unfold s_add. symmetry. apply sapp_assoc.
Qed.
Definition h_text (v : val) : res string := match v with VStr s => Ok s | _ => Err end.
Definition h_init : agg := agg_hll_init string (fun _ => Some "") "" s_add (fun s => s) (fun t => Z.of_nat (String.length t)) (fun _ => "") h_text.
Example c295_groups :
  (forall b, ordinary h_text (VBytes b)) /\
  Forall2 (fun g b => call h_text x_loose h_init (rows1 g) (Ok (Some (VBytes b)))) [[Some (VStr "a"); None]; [Some (VStr "bb")]] [s_add (s_add "" 1) 0; s_add "" 2] /\
  call h_text x_loose h_init (rows1 (concat [[Some (VStr "a"); None]; [Some (VStr "bb")]])) (Ok (Some (VBytes (s_add (s_add (s_add "" 1) 0) 2)))).
Proof. split; [intros b t E; discriminate|]. split; [repeat constructor|reflexivity]. Qed.
(** With it the sketch of one NULL is not that of no value. *)
Example c296_example : sketch_of string (fun _ => Some "") "" s_add 15 (repeat 0 1) <> sketch_of string (fun _ => Some "") "" s_add 15 [].
Proof. discriminate. Qed.

Print Assumptions c285_single.
Print Assumptions c285_pairs.
Print Assumptions c286_none_partial.
Print Assumptions c286_one_refuted.
Print Assumptions c287_population_refuted.
Print Assumptions c287_both_refuted.
Print Assumptions c288_distinct_partial.
Print Assumptions c288_second_refuted.
Print Assumptions c289_count_distinct.
Print Assumptions c289_int64.
Print Assumptions c289_string.
Print Assumptions c290_ends_partial.
Print Assumptions c290_minimum_refuted.
Print Assumptions c290_null_refuted.
Print Assumptions c290_order_refuted.
Print Assumptions c290_median_refuted.
Print Assumptions c291_small_partial.
Print Assumptions c291_twelve_refuted.
Print Assumptions c292_top_count.
Print Assumptions c292_no_rows.
Print Assumptions c293_top_sum.
Print Assumptions c294_fewer_refuted.
Print Assumptions c294_numeric_refuted.
Print Assumptions c294_bytes_refuted.
Print Assumptions c295_merge.
Print Assumptions c295_no_sketch.
Print Assumptions c295_broken.
Print Assumptions c296_hashed_partial.
Print Assumptions c296_sketch_partial.
Print Assumptions c296_null_refuted.
Print Assumptions c296_precision_refuted.
