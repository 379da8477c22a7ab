(** Properties C32 and C33: comparison of values. *)
From Coq Require Import Ascii String List ZArith QArith Lia Bool SpecFloat Sorted.
From Verif Require Import GoBase GoBaseFacts ValueModel ValueFacts CompareSpec CompareProofs.
Import ListNotations.
Local Open Scope string_scope.
Open Scope Z_scope.

(** C32.  Each operator decides the order of the type, which is a strict total
    order; the collation SQLite sorts with has the same three outcomes. *)
Theorem c32_operators_partial : forall op a b, comparable a b ->
  exists c, cmp op a b = Ok c /\ (c = true <-> means op a b).
Proof. exact cmp_scalar. Qed.
Print Assumptions c32_operators_partial.

Theorem c32_total_order_partial : forall a b c, comparable a b -> comparable b c ->
  ((cmp LT a b = Ok true /\ cmp EQ a b = Ok false /\ cmp GT a b = Ok false) \/
   (cmp LT a b = Ok false /\ cmp EQ a b = Ok true /\ cmp GT a b = Ok false) \/
   (cmp LT a b = Ok false /\ cmp EQ a b = Ok false /\ cmp GT a b = Ok true)) /\
  (cmp LTE a b = Ok true <-> cmp GT a b = Ok false) /\
  (cmp GTE a b = Ok true <-> cmp LT a b = Ok false) /\
  (cmp GT a b = cmp LT b a) /\
  (cmp LTE a b = Ok true -> cmp LTE b c = Ok true -> cmp LTE a c = Ok true) /\
  (cmp LT a b = Ok true -> cmp LT b c = Ok true -> cmp LT a c = Ok true) /\
  (cmp EQ a b = Ok true -> cmp EQ b c = Ok true -> cmp EQ a c = Ok true).
Proof.
  intros a b c C D.
  assert (F := comparable_trans a b c C D). assert (C' := comparable_sym a b C).
  destruct (cmp_scalar LT a b C) as (l1 & -> & L1). destruct (cmp_scalar EQ a b C) as (e1 & -> & E1).
  destruct (cmp_scalar GT a b C) as (g1 & -> & G1). destruct (cmp_scalar LTE a b C) as (le1 & -> & LE1).
  destruct (cmp_scalar GTE a b C) as (ge1 & -> & GE1). destruct (cmp_scalar LT b a C') as (l2 & -> & L2).
  destruct (cmp_scalar LTE b c D) as (le2 & -> & LE2). destruct (cmp_scalar LTE a c F) as (le3 & -> & LE3).
  destruct (cmp_scalar LT b c D) as (l3 & -> & L3). destruct (cmp_scalar LT a c F) as (l4 & -> & L4).
  destruct (cmp_scalar EQ b c D) as (e3 & -> & E3). destruct (cmp_scalar EQ a c F) as (e4 & -> & E4).
  cbn [means] in *.
  assert (T := trichotomy a b C). assert (N1 := before_not_alike a b). assert (N2 := before_asym a b).
  assert (N3 := before_not_alike b a). assert (N4 := alike_sym a b).
  assert (H1 := before_trans a b c). assert (H2 := alike_trans a b c).
  assert (H3 := alike_before a b c). assert (H4 := before_alike a b c).
  assert (K : forall x y : bool, (x = true <-> y = true) -> x = y).
  { intros [] []; intuition congruence. }
  split; [|split; [|split; [|split; [|split; [|split]]]]].
  - destruct l1, e1, g1; try tauto; exfalso; intuition congruence.
  - destruct le1, g1; split; intros X; try reflexivity; try discriminate; exfalso; intuition congruence.
  - destruct ge1, l1; split; intros X; try reflexivity; try discriminate; exfalso; intuition congruence.
  - f_equal. apply K. tauto.
  - intros X Y. f_equal. assert (le1 = true) by congruence. assert (le2 = true) by congruence. tauto.
  - intros X Y. f_equal. assert (l1 = true) by congruence. assert (l3 = true) by congruence. tauto.
  - intros X Y. f_equal. assert (e1 = true) by congruence. assert (e3 = true) by congruence. tauto.
Qed.
Print Assumptions c32_total_order_partial.

Theorem c32_collation_partial : forall a b, comparable a b ->
  (collate a b = -1 /\ before a b) \/ (collate a b = 0 /\ alike a b) \/ (collate a b = 1 /\ before b a).
Proof. exact collate_spec. Qed.
Print Assumptions c32_collation_partial.

(** ORDER BY: rows in which each neighbour pair satisfies the collation are sorted. *)
Theorem c32_order_by_partial : forall l,
  (forall a b, In a l -> In b l -> comparable a b) ->
  LocallySorted (fun a b => collate a b <= 0) l -> nondecreasing l.
Proof. exact order_by_sorted. Qed.
Print Assumptions c32_order_by_partial.

(** Two intervals cannot be compared, and the collation puts each before the other. *)
Theorem c32_interval_refuted : forall op m d n m' d' n',
  cmp op (VInterval m d n) (VInterval m' d' n') = Err /\
  collate (VInterval m d n) (VInterval m' d' n') = -1 /\
  collate (VInterval m' d' n') (VInterval m d n) = -1.
Proof. intros. unfold collate, cmp. repeat split; destruct op; reflexivity. Qed.
Print Assumptions c32_interval_refuted.

(** The floats 1.5 and -0, 2^-1074: *)
Example c32_example :
  comparable (VFloat (S754_finite false 6755399441055744 (-52))) (VFloat (S754_finite false 1 (-1074))) /\
  cmp GT (VFloat (S754_finite false 6755399441055744 (-52))) (VFloat (S754_finite false 1 (-1074))) = Ok true /\
  cmp EQ (VFloat (S754_zero true)) (VFloat (S754_zero false)) = Ok true /\
  cmp LT (VStr "Zebra") (VStr "apple") = Ok true /\
  cmp EQ (VNum (1 # 2)%Q) (VNum (2 # 4)%Q) = Ok true /\
  collate (VStr "ab") (VStr "a") = 1.
Proof. repeat split. Qed.
Example c32_order_by_example :
  LocallySorted (fun a b => collate a b <= 0) [VNum (1 # 3)%Q; VNum (1 # 2)%Q; VNum (2 # 4)%Q; VNum 7%Q].
Proof. repeat constructor; vm_compute; discriminate. Qed.

(** C33.  Values without NULLs and without two struct fields of one name. *)
Theorem c33_equality_partial : forall t a b, distinct_names t -> full t a -> full t b ->
  exists c, cmp EQ a b = Ok c /\ (c = true <-> same t a b).
Proof. intros t a b D Fa Fb. apply (eq_full t D false); assumption. Qed.
Print Assumptions c33_equality_partial.

(** A NULL element reached by the comparison is a panic, not NULL. *)
Theorem c33_null_refuted : forall l l' r r' x,
  length l = length l' -> length r = length r' ->
  arr_loop EQ false l l' = Ok true ->
  cmp EQ (VArray (l ++ None :: r)%list) (VArray (l' ++ x :: r')%list) = GoPanic \/
  exists y, x = Some y /\ refuses EQ y = true.
Proof. exact eq_null_panics. Qed.
Print Assumptions c33_null_refuted.

(** Unnamed fields share the name "": only the last one is compared, whatever the
    first ones are. *)
Theorem c33_unnamed_fields_refuted : forall x y z : val,
  cmp EQ (VStruct [("", Some x); ("", Some z)]) (VStruct [("", Some y); ("", Some z)]) = cmp_sw EQ true z z.
Proof.
  intros. unfold cmp. rewrite cmp_struct. cbn. destruct (cmp_sw EQ true z z) as [[]| |]; reflexivity.
Qed.
Print Assumptions c33_unnamed_fields_refuted.

(** [(1, "x")] and [(2, "x")] as unnamed structs; named structs in an array. *)
Example c33_example :
  cmp EQ (VStruct [("", Some (VInt 1)); ("", Some (VStr "x"))]) (VStruct [("", Some (VInt 2)); ("", Some (VStr "x"))]) = Ok true /\
  (let t := TArray (TStruct [("a", TInt); ("b", TArray TStr)]) in
   let v n s := VArray [Some (VStruct [("a", Some (VInt n)); ("b", Some (VArray [Some (VStr s)]))])] in
   distinct_names t /\ full t (v 1 "p") /\ full t (v 1 "q") /\
   cmp EQ (v 1 "p") (v 1 "p") = Ok true /\ cmp EQ (v 1 "p") (v 1 "q") = Ok false /\ cmp EQ (v 1 "p") (v 2 "p") = Ok false) /\
  cmp EQ (VArray [Some (VInt 1); None]) (VArray [Some (VInt 1); Some (VInt 2)]) = GoPanic.
Proof.
  split; [reflexivity|]. split; [|reflexivity]. cbv zeta.
  split; [|repeat split; repeat constructor].
  cbn. repeat split; repeat constructor; cbn; intuition congruence.
Qed.
