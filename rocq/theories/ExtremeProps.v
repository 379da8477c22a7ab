(** Properties C43 and C44: GREATEST, LEAST, RANGE_BUCKET. *)
From Coq Require Import Ascii String List ZArith QArith Lia Bool Sorted.
From Verif Require Import GoBase GoBaseFacts ValueModel ValueFacts CompareSpec CompareProofs FloatFacts LogicModel ExtremeModel ExtremeProofs.
Import ListNotations.
Local Open Scope string_scope.
Open Scope Z_scope.

(** C43 *)
Theorem c43_greatest_partial : forall l, l <> [] -> (forall x y, In x l -> In y l -> comparable x y) ->
  exists r, bind_greatest (map Some l) = Ok (Some r) /\ In r l /\ (forall x, In x l -> ~ before r x).
Proof.
  intros [|m l] N C; [contradiction|]. unfold bind_greatest. rewrite no_null_some. cbn [map extreme_loop].
  destruct (extreme_spec GT (or_introl eq_refl) l m) as (r & E & I & W & A).
  - intros x Hx. apply C; [now left|now right].
  - intros x y Hx Hy. apply C; now right.
  - exists r. split; auto. split; auto. intros x [<-|Hx]; [exact W|exact (A x Hx)].
Qed.
Print Assumptions c43_greatest_partial.
Theorem c43_least_partial : forall l, l <> [] -> (forall x y, In x l -> In y l -> comparable x y) ->
  exists r, bind_least (map Some l) = Ok (Some r) /\ In r l /\ (forall x, In x l -> ~ before x r).
Proof.
  intros [|m l] N C; [contradiction|]. unfold bind_least. rewrite no_null_some. cbn [map extreme_loop].
  destruct (extreme_spec LT (or_intror eq_refl) l m) as (r & E & I & W & A).
  - intros x Hx. apply C; [now left|now right].
  - intros x y Hx Hy. apply C; now right.
  - exists r. split; auto. split; auto. intros x [<-|Hx]; [exact W|exact (A x Hx)].
Qed.
Print Assumptions c43_least_partial.
Theorem c43_null_partial : forall l, In None l -> bind_greatest l = Ok None /\ bind_least l = Ok None.
Proof.
  intros l H. unfold bind_greatest, bind_least.
  assert (exists_null l = true) as ->; auto.
  apply existsb_exists. exists None. auto.
Qed.
Print Assumptions c43_null_partial.
(** Intervals are not compared: two or more of them are an error. *)
Theorem c43_interval_refuted : forall m d n m' d' n' r,
  exists_null r = false ->
  bind_greatest (Some (VInterval m d n) :: Some (VInterval m' d' n') :: r) = Err.
Proof. intros. unfold bind_greatest. cbn [exists_null existsb orb]. unfold exists_null in H. rewrite H. reflexivity. Qed.
Print Assumptions c43_interval_refuted.
Example c43_example :
  bind_greatest [Some (VInt 3); Some (VInt 7); Some (VInt 7); Some (VInt (-1))] = Ok (Some (VInt 7)) /\
  bind_least [Some (VStr "b"); Some (VStr "a")] = Ok (Some (VStr "a")) /\
  bind_least [Some (VStr "b"); None] = Ok None.
Proof. repeat split. Qed.

(** C44 *)
Theorem c44_partial : forall p l, (forall v, In v l -> comparable p v) -> nondecreasing l ->
  exists n, bind_range_bucket (Some p) (Some (VArray (map Some l))) = Ok (Some (VInt n)) /\ counts p l n.
Proof.
  intros p l C S. destruct (bucket_spec p l 0 C S) as (n & E & K). exists n. split; auto.
  cbn [bind_range_bucket]. rewrite E. cbn. reflexivity.
Qed.
Print Assumptions c44_partial.
(** INT64 boundaries below 2^53, decoded from SQLite as floats. *)
Theorem c44_ints_partial : forall p l, (forall y, In y l -> Z.abs y < 2 ^ 53) -> StronglySorted Z.le l ->
  exists n, bind_range_bucket (Some (VInt p)) (Some (VArray (map (fun y => decoded_elem (Some (VInt y))) l))) = Ok (Some (VInt n)) /\
    n = Z.of_nat (length (filter (fun y => y <=? p) l)).
Proof.
  intros p l B S. cbn [bind_range_bucket]. rewrite bucket_ints by assumption.
  assert (N : nondecreasing (map VInt l)).
  { induction S as [|y l S IH F]; constructor.
    - apply IH. intros; apply B; now right.
    - rewrite Forall_forall in *. intros v Hv. apply in_map_iff in Hv as (z & <- & Hz). specialize (F z Hz). cbn. lia. }
  destruct (bucket_spec (VInt p) (map VInt l) 0) as (n & E & K); auto.
  { intros v Hv. apply in_map_iff in Hv as (z & <- & _). exact I. }
  rewrite map_map in E. rewrite E. cbn [bind]. exists n. split; [reflexivity|].
  clear -K. remember (map VInt l) as L. revert l HeqL.
  induction K as [|v L n A K IH|v L n A K IH]; intros [|y l] HeqL; try discriminate; auto; injection HeqL as -> ->.
  - cbn [filter]. unfold at_most in A. cbn in A. assert (y <=? p = true) as -> by (apply Z.leb_le; lia).
    cbn [length]. rewrite (IH l eq_refl). lia.
  - cbn [filter]. unfold at_most in A. cbn in A. assert (y <=? p = false) as -> by (apply Z.leb_gt; lia).
    apply IH. reflexivity.
Qed.
Print Assumptions c44_ints_partial.
(** Above 2^53 the boundary 2^53+1 counts as at most 2^53. *)
Theorem c44_large_refuted :
  bind_range_bucket (Some (VInt 9007199254740992)) (Some (VArray [decoded_elem (Some (VInt 9007199254740993))])) = Ok (Some (VInt 1)).
Proof. vm_compute. reflexivity. Qed.
Print Assumptions c44_large_refuted.
Example c44_example :
  bind_range_bucket (Some (VInt 20)) (Some (VArray (map (fun y => decoded_elem (Some (VInt y))) [0; 10; 20; 20; 30; 40]))) = Ok (Some (VInt 4)) /\
  bind_range_bucket (Some (VInt (-1))) (Some (VArray (map (fun y => decoded_elem (Some (VInt y))) [0; 10]))) = Ok (Some (VInt 0)) /\
  StronglySorted Z.le [0; 10; 20; 20; 30; 40].
Proof. split; [vm_compute; reflexivity|]. split; [vm_compute; reflexivity|]. repeat constructor; lia. Qed.
