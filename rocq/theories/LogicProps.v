(** Properties C36-C39: logical and conditional operators. *)
From Coq Require Import Ascii String List ZArith QArith Lia Bool.
From Verif Require Import GoBase GoBaseFacts ValueModel ValueFacts CompareSpec CompareProofs FloatFacts
  LogicModel LogicSpec LogicProofs.
Import ListNotations.
Local Open Scope string_scope.
Open Scope Z_scope.

(** C36 *)
Theorem c36_and : forall args ts, Forall2 is_tv args ts ->
  exists r t, fn_and args = Ok r /\ is_tv r t /\ conj3 ts t.
Proof. exact and_right. Qed.
Print Assumptions c36_and.
Theorem c36_or : forall args ts, Forall2 is_tv args ts ->
  exists r t, fn_or args = Ok r /\ is_tv r t /\ disj3 ts t.
Proof. exact or_right. Qed.
Print Assumptions c36_or.
Theorem c36_not : forall a t, is_tv a t -> exists r, bind_not a = Ok r /\ is_tv r (neg3 t).
Proof. exact not_right. Qed.
Print Assumptions c36_not.
Example c36_example :
  fn_and [None; Some (VInt 1); Some (VBool false)] = Ok (sbool false) /\
  fn_and [Some (VInt 1); None] = Ok None /\ fn_or [None; Some (VInt 0); Some (VInt 1)] = Ok (sbool true) /\
  Forall2 is_tv [None; Some (VInt 1); Some (VBool false)] [UU; TT; FF].
Proof. repeat split. repeat constructor. Qed.

(** C37.  Right whenever x is NULL, a match exists, or the list has no NULL. *)
Theorem c37_in_partial : forall x l,
  (forall a b, x = Some a -> In (Some b) l -> comparable a b) ->
  (x = None \/ ~ In None l \/ in3 x l TT) ->
  exists r t, fn_in x l = Ok r /\ is_tv r t /\ in3 x l t.
Proof.
  intros [a|] l C N; cbn [fn_in].
  - destruct (in_loop_spec a l) as (c & -> & H); [intros; eapply C; eauto|]. cbn [bind].
    exists (sbool c), (if c then TT else FF). split; auto. split; [destruct c; constructor|].
    destruct c; cbn.
    + destruct H as [H _]. destruct (H eq_refl) as (b & I & A). exists a, b. auto.
    + assert (F : ~ exists a' b, Some a = Some a' /\ In (Some b) l /\ alike a' b).
      { intros (a' & b & E & I & A). injection E as <-. destruct H as [_ H].
        assert (false = true) by (apply H; eauto). discriminate. }
      split; auto. intros [U|U]; [discriminate|].
      destruct N as [N|[N|N]]; auto; discriminate.
  - exists None, UU. split; auto. split; [constructor|]. cbn. split; auto.
    intros (a & b & E & _). discriminate.
Qed.
Print Assumptions c37_in_partial.
(** Otherwise the answer is FALSE instead of NULL, so that NOT IN is TRUE. *)
Theorem c37_null_in_list_refuted : forall a l,
  (forall b, In (Some b) l -> comparable a b) -> In None l ->
  (forall b, In (Some b) l -> ~ alike a b) ->
  in3 (Some a) l UU /\ fn_in (Some a) l = Ok (sbool false) /\
  bind (fn_in (Some a) l) bind_not = Ok (sbool true).
Proof.
  intros a l C N A. destruct (in_loop_spec a l C) as (c & E & H).
  assert (c = false) as ->.
  { destruct c; auto. destruct H as [H _]. destruct (H eq_refl) as (b & I & K). exfalso. eapply A; eauto. }
  split; [|cbn [fn_in]; rewrite E; split; reflexivity].
  cbn. split; auto. intros (a' & b & E' & I & K). injection E' as <-. eapply A; eauto.
Qed.
Print Assumptions c37_null_in_list_refuted.
(** x IN UNNEST(array) of integers below 2^53, without NULLs. *)
Theorem c37_unnest_partial : forall z l, Z.abs z < 2 ^ 53 -> (forall y, In y l -> Z.abs y < 2 ^ 53) ->
  exists c, bind_in_array (Some (VInt z)) (Some (VArray (map (fun y => decoded_elem (Some (VInt y))) l))) = Ok (sbool c) /\
            (c = true <-> In z l).
Proof.
  intros z l Bz B. destruct (has_loop_ints z l Bz B) as (c & E & H).
  exists c. split; auto. unfold bind_in_array. cbn [exists_null existsb orb]. now rewrite E.
Qed.
Print Assumptions c37_unnest_partial.
(** Above 2^53 a different number is found; a NULL element is a panic; a NULL
    operand gives FALSE. *)
Theorem c37_unnest_large_refuted :
  bind_in_array (Some (VInt 9007199254740993)) (Some (VArray [decoded_elem (Some (VInt 9007199254740992))])) = Ok (sbool true).
Proof. vm_compute. reflexivity. Qed.
Print Assumptions c37_unnest_large_refuted.
Theorem c37_unnest_null_refuted : forall v l r, has_loop v l = Ok false ->
  bind_in_array (Some v) (Some (VArray (l ++ None :: r)%list)) = GoPanic /\
  bind_in_array None (Some (VArray l)) = Ok (sbool false).
Proof.
  intros v l r H. unfold bind_in_array. cbn [exists_null existsb orb].
  rewrite has_loop_null by assumption. split; reflexivity.
Qed.
Print Assumptions c37_unnest_null_refuted.
Example c37_example :
  fn_in (Some (VStr "b")) [Some (VStr "a"); None; Some (VStr "b")] = Ok (sbool true) /\
  fn_in (Some (VInt 3)) [Some (VInt 1); None] = Ok (sbool false) /\
  bind_in_array (Some (VInt 3)) (Some (VArray (map (fun y => decoded_elem (Some (VInt y))) [1; 3]))) = Ok (sbool true) /\
  has_loop (VInt 3) [decoded_elem (Some (VInt 1))] = Ok false.
Proof. repeat split; vm_compute; reflexivity. Qed.

(** C38.  Comparisons and arithmetic: NULL with a NULL operand; otherwise the
    comparison has its truth value. *)
Theorem c38_null_operand_partial : forall a,
  (forall op, bind_cmp op None a = Ok None /\ bind_cmp op a None = Ok None) /\
  bind_not_equal None a = Ok None /\ bind_not_equal a None = Ok None /\
  (forall op, bind_arith op None a = Ok None /\ bind_arith op a None = Ok None).
Proof.
  intros a. unfold bind_cmp, bind_not_equal, bind_arith, null_guard2.
  destruct a; cbn; repeat split.
Qed.
Print Assumptions c38_null_operand_partial.
Theorem c38_comparison_partial : forall op a b,
  (forall x y, a = Some x -> b = Some y -> comparable x y) ->
  exists r t, bind_cmp op a b = Ok r /\ is_tv r t /\ cmp3 op a b t.
Proof.
  intros op [x|] [y|] C; unfold bind_cmp, null_guard2; cbn [exists_null existsb orb];
    try (exists None, UU; repeat split; constructor).
  unfold fn_cmp. destruct (cmp_scalar op x y) as (c & -> & H); [auto|]. cbn [bind].
  exists (sbool c), (if c then TT else FF). split; auto.
  destruct c; (split; [constructor|]); cbn; [now apply H|]. intros M. apply H in M. discriminate.
Qed.
Print Assumptions c38_comparison_partial.
Theorem c38_not_equal_partial : forall a b,
  (forall x y, a = Some x -> b = Some y -> comparable x y) ->
  exists r t, bind_not_equal a b = Ok r /\ is_tv r (neg3 t) /\ cmp3 EQ a b t.
Proof.
  intros [x|] [y|] C; unfold bind_not_equal, null_guard2; cbn [exists_null existsb orb];
    try (exists None, UU; repeat split; constructor).
  unfold fn_not_eq. destruct (cmp_scalar EQ x y) as (c & -> & H); [auto|]. cbn [bind].
  exists (sbool (negb c)), (if c then TT else FF). split; auto.
  destruct c; (split; [constructor|]); cbn; [now apply H|]. intros M. apply H in M. discriminate.
Qed.
Print Assumptions c38_not_equal_partial.
(** IS NULL and IS [NOT] DISTINCT FROM are never NULL and treat NULL as a value. *)
Theorem c38_is_partial : forall a b,
  (forall x y, a = Some x -> b = Some y -> comparable x y) ->
  (bind_is_null a = Ok (sbool true) <-> a = None) /\ (bind_is_null a = Ok (sbool false) <-> a <> None) /\
  exists c, bind_is_not_distinct_from a b = Ok (sbool c) /\ bind_is_distinct_from a b = Ok (sbool (negb c)) /\
    (c = true <-> (a = None /\ b = None) \/ exists x y, a = Some x /\ b = Some y /\ alike x y).
Proof.
  intros a b C. split; [|split].
  - destruct a; cbn; split; intros; try discriminate; auto.
  - destruct a; cbn; split; intros; try discriminate; auto; congruence.
  - destruct a as [x|], b as [y|]; cbn [bind_is_not_distinct_from bind_is_distinct_from].
    + destruct (cmp_scalar EQ x y) as (c & -> & H); [auto|]. cbn [bind]. exists c. split; auto. split; auto.
      rewrite H. split.
      * intros A. right. exists x, y. auto.
      * intros [[E _]|(x' & y' & E & F & A)]; [discriminate|]. injection E as <-. injection F as <-. exact A.
    + exists false. repeat split; auto; try discriminate.
      intros [[E _]|(x' & y' & E & F & A)]; discriminate.
    + exists false. repeat split; auto; try discriminate.
      intros [[E F]|(x' & y' & E & F & A)]; discriminate.
    + exists true. repeat split; auto.
Qed.
Print Assumptions c38_is_partial.
(** IS TRUE / IS FALSE of NULL are NULL; of a truth value they are right. *)
Theorem c38_is_true_partial : forall a t, is_tv a t -> t <> UU ->
  bind_is_true a = Ok (sbool (match t with TT => true | _ => false end)) /\
  bind_is_false a = Ok (sbool (match t with FF => true | _ => false end)).
Proof. intros a t H N; destruct H; try contradiction; repeat split. Qed.
Print Assumptions c38_is_true_partial.
Theorem c38_is_true_refuted : bind_is_true None = Ok None /\ bind_is_false None = Ok None.
Proof. split; reflexivity. Qed.
Print Assumptions c38_is_true_refuted.
(** BETWEEN: right when no operand is NULL. *)
Theorem c38_between_partial : forall x lo hi, comparable x lo -> comparable x hi ->
  exists r t, bind_between (Some x) (Some lo) (Some hi) = Ok r /\ is_tv r t /\ between3 (Some x) (Some lo) (Some hi) t.
Proof.
  intros x lo hi C D. unfold bind_between, fn_between. cbn [exists_null existsb orb].
  destruct (cmp_scalar GTE x lo C) as (p & -> & P). destruct (cmp_scalar LTE x hi D) as (q & -> & Q). cbn [bind].
  assert (K : forall c M, (c = true <-> M) -> if_ M (if c then TT else FF)).
  { intros [] M H; cbn; [now apply H|]. intros m. apply H in m. discriminate. }
  exists (sbool (p && q)), (if p && q then TT else FF). split; auto.
  split; [destruct (p && q); constructor|].
  exists (if p then TT else FF), (if q then TT else FF). split; [now apply K|]. split; [now apply K|].
  destruct p, q; cbn; auto; intros z [<-|[<-|[]]]; auto.
Qed.
Print Assumptions c38_between_partial.
(** With a NULL operand it is FALSE, though NULL is required (unless the other bound
    already fails); NOT BETWEEN is then TRUE. *)
Theorem c38_between_null_refuted : forall x lo hi, x = None \/ lo = None \/ hi = None ->
  bind_between x lo hi = Ok (sbool false) /\ (x = None -> between3 x lo hi UU).
Proof.
  intros x lo hi N. split.
  - unfold bind_between, exists_null, sval in *.
    destruct N as [->|[->| ->]]; cbn; auto; destruct x; auto; destruct lo; auto.
  - intros ->. exists UU, UU. repeat split; cbn; try reflexivity; auto; intros H; intuition discriminate.
Qed.
Print Assumptions c38_between_null_refuted.
Example c38_example :
  bind_cmp LT (Some (VInt 1)) (Some (VInt 2)) = Ok (sbool true) /\
  bind_arith Add (Some (VInt 1)) None = Ok None /\ bind_arith Add (Some (VInt 1)) (Some (VInt 2)) = Ok (Some (VInt 3)) /\
  bind_between (Some (VStr "b")) (Some (VStr "a")) (Some (VStr "c")) = Ok (sbool true) /\
  bind (bind_between None (Some (VInt 1)) (Some (VInt 2))) bind_not = Ok (sbool true) /\
  comparable (VStr "b") (VStr "a").
Proof. repeat split. Qed.

(** C39.  CASE and IF evaluate only what they need and choose the right branch;
    IFNULL too. *)
Theorem c39_case_partial : forall ps els,
  case_of is_true ps (match els with Some e => e | None => Ok None end) (eval_case (unpairs ps els)).
Proof. intros. apply case_right. intros. apply truthy_true. Qed.
Print Assumptions c39_case_partial.
Theorem c39_case_value_partial : forall x p ps els,
  (forall y t, In (Ok (Some y), t) (p :: ps) -> comparable x y) ->
  case_of (same_value (Some x)) (p :: ps) (match els with Some e => e | None => Ok None end)
    (eval_case_value (Ok (Some x) :: unpairs (p :: ps) els)).
Proof.
  intros x [w t] ps els C. apply (case_right (stored_eq (Some x)) _ ((w, t) :: ps) els).
  intros v t' I. apply stored_eq_same. intros y ->. eapply C. exact I.
Qed.
Print Assumptions c39_case_value_partial.
(** A NULL value equals none of the WHEN values. *)
Theorem c39_case_null_partial : forall p ps els,
  case_of (fun _ => False) (p :: ps) (match els with Some e => e | None => Ok None end)
    (eval_case_value (Ok None :: unpairs (p :: ps) els)).
Proof.
  intros [w t] ps els. apply (case_right (stored_eq None) _ ((w, t) :: ps) els).
  intros v t' I. split; [discriminate|tauto].
Qed.
Print Assumptions c39_case_null_partial.
Theorem c39_if_ifnull_partial : forall c t e a b,
  case_of is_true [(c, t)] e (eval_if c t e) /\ first_non_null [a; b] (eval_ifnull a b).
Proof.
  intros c t e a b. split.
  - unfold eval_if. destruct c as [v| |]; cbn [bind]; [|apply case_fail; auto|apply case_fail; auto].
    pose proof (truthy_true v) as T. destruct (truthy v).
    + eapply case_hit; [reflexivity|]. now apply T.
    + eapply case_miss; [reflexivity| |constructor]. intros Y. apply T in Y. discriminate.
  - destruct a as [[v|]| |]; cbn; try (constructor; auto; fail).
    constructor. destruct b as [[v|]| |]; constructor; auto. constructor.
Qed.
Print Assumptions c39_if_ifnull_partial.
(** COALESCE of operands that evaluate without error; NULLIF of two non-NULL
    values. *)
Theorem c39_coalesce_partial : forall v vs,
  first_non_null (map (fun v => Ok v) (v :: vs)) (call bind_coalesce (map (fun v => Ok v) (v :: vs))).
Proof. intros v vs. unfold call. rewrite eval_all_ok. apply (coalesce_values (v :: vs)). Qed.
Print Assumptions c39_coalesce_partial.
Theorem c39_nullif_partial : forall x y, comparable x y ->
  exists r, fn_nullif (Some x) (Some y) = Ok r /\ fn_nullif None (Some y) = Ok None /\
    (alike x y -> r = None) /\ (~ alike x y -> r = Some x).
Proof.
  intros x y C. cbn [fn_nullif]. destruct (cmp_scalar EQ x y C) as (c & -> & H). cbn [bind means] in *.
  eexists. split; [reflexivity|]. split; auto. destruct c; split; intros A; auto.
  - exfalso. apply A. now apply H.
  - apply H in A. discriminate.
Qed.
Print Assumptions c39_nullif_partial.
(** An operand after the first non-NULL one is evaluated all the same and its error
    becomes the result. *)
Theorem c39_coalesce_eager_refuted : forall v vs, 
  first_non_null (Ok (Some v) :: map (fun v => Ok v) vs ++ [Err])%list (Ok (Some v)) /\
  call bind_coalesce (Ok (Some v) :: map (fun v => Ok v) vs ++ [Err])%list = Err.
Proof.
  intros v vs. split; [constructor|].
  assert (E : forall us, eval_all (map (fun v => Ok v) us ++ [Err])%list = Err).
  { induction us as [|u us IH]; cbn; auto. now rewrite IH. }
  unfold call. cbn [eval_all bind]. now rewrite E.
Qed.
Print Assumptions c39_coalesce_eager_refuted.
(** NULLIF(x, NULL) should be x; it stops the process. *)
Theorem c39_nullif_null_refuted : forall x, refuses EQ x = false -> fn_nullif (Some x) None = GoPanic.
Proof. intros x H. cbn. now rewrite H. Qed.
Print Assumptions c39_nullif_null_refuted.
Example c39_example :
  eval_case [Ok None; Err; Ok (Some (VBool true)); Ok (Some (VStr "yes")); Err] = Ok (Some (VStr "yes")) /\
  eval_case_value [Ok (Some (VInt 2)); Ok (Some (VInt 1)); Err; Ok (Some (VInt 2)); Ok (Some (VStr "two"))] = Ok (Some (VStr "two")) /\
  eval_case [Ok None; Err] = Ok None /\
  call bind_coalesce [Ok None; Ok (Some (VInt 5)); Ok None] = Ok (Some (VInt 5)) /\
  refuses EQ (VInt 1) = false.
Proof. repeat split. Qed.
