(** C69-C73, C106-C111: aggregate functions. *)
From Coq Require Import Ascii String List ZArith QArith Lia Bool Permutation Sorting.Sorted SpecFloat.
From Verif Require Import GoBase GoBaseFacts ValueModel ValueFacts FloatFacts CastModel CodecModel DecModel DecFacts CompareSpec CompareProofs AggModel AggSpec AggProofs.
Import ListNotations.
Local Open Scope string_scope.
Open Scope Z_scope.

(** In every theorem [other] is the text of the value types without a model of their text,
    and [loose] what the JSON reader makes of a text that is a JSON object. *)
Definition ints (l : list (option Z)) : list (option val) := map (option_map VInt) l.
Definition nums (l : list (option Q)) : list (option val) := map (option_map VNum) l.
Definition a_text : val -> res string := val_text (fun _ => Err).
Definition a_loose : string -> option item := fun _ => None.
Lemma nums_ordinary : forall text vs, (forall q, ordinary text (VNum q)) -> forall x, In x (nonnull (nums vs)) -> ordinary text x.
Proof. intros text vs H x I. unfold nums in I. rewrite nonnull_map in I. apply in_map_iff in I. destruct I as (q & <- & _). apply H. Qed.
Lemma ints_ordinary : forall other vs x, In x (nonnull (ints vs)) -> ordinary (val_text other) x.
Proof. intros other vs x I. unfold ints in I. rewrite nonnull_map in I. apply in_map_iff in I. destruct I as (z & <- & _). apply ordinary_int. Qed.

(** ** C106: counting *)
Theorem c106_count : forall text loose vs r, (forall x, In x (nonnull vs) -> ordinary text x) -> zlen vs < two63 ->
  (call text loose agg_count (rows1 vs) r <-> r = Ok (Some (VInt (zlen (nonnull vs))))).
Proof.
  intros text loose vs r O B. unfold agg_count. rewrite call_unary by exact O. cbn [finish].
  assert (L : zlen (nonnull vs) <= zlen vs).
  { clear. unfold zlen. induction vs as [|[v|] vs IH]; cbn [nonnull List.length] in *; lia. }
  pose proof (count_fold0 (nonnull vs) ltac:(lia)) as C. destruct (fold_res _ _ _); cbn [bind] in C; try discriminate. cbn [finish done]. unfold exactly. rewrite C. reflexivity.
Qed.
Theorem c106_count_star : forall text loose n r, Z.of_nat n < two63 ->
  (call text loose agg_count_star (repeat [] n) r <-> r = Ok (Some (VInt (Z.of_nat n)))).
Proof.
  intros text loose n r B. unfold call.
  assert (G : forall k d s, 0 <= s -> s + Z.of_nat k < two63 -> outer_steps text loose agg_count_star (d, s) (repeat [] k) = Ok (d, s + Z.of_nat k)).
  { induction k as [|k IH]; intros d s S K.
    - cbn [repeat outer_steps]. do 2 f_equal. cbn. lia.
    - cbn [repeat outer_steps outer_step parse_args admit_row no_opt a_ignore a_distinct andb bind fst snd step agg_count_star].
      change (a_ignore no_opt && _) with false. cbn iota. cbn [bind step agg_count_star]. rewrite wrap64_id by (unfold in64, two63 in *; lia). rewrite IH by lia. do 2 f_equal. lia. }
  change (outer_steps text loose agg_count_star (d_empty, init agg_count_star) (repeat [] n)) with (outer_steps text loose agg_count_star (d_empty, 0) (repeat [] n)).
  rewrite (G n d_empty 0) by lia. cbn [snd done agg_count_star]. unfold exactly. rewrite Z.add_0_l. reflexivity.
Qed.
Definition bools (l : list (option bool)) : list (option val) := map (option_map (fun b : bool => VInt (if b then 1 else 0))) l.
Lemma nonnull_length : forall A (l : list (option A)), zlen (nonnull l) <= zlen l.
Proof. intros A l. unfold zlen. induction l as [|[v|] l IH]; cbn [nonnull List.length] in *; lia. Qed.
Definition cif (s : option Z) (v : val) : res (option Z) :=
  bind (to_bool v) (fun b => Ok (if b : bool then match s with None => Some 1 | Some n => Some (wrap64 (n + 1)) end else s)).
Definition of_bool (b : bool) : val := VInt (if b then 1 else 0).
Lemma countif_fold : forall l n, 0 <= n -> n + zlen l < two63 -> fold_res cif (Some n) (map of_bool l) = Ok (Some (n + zlen (filter (fun b => b) l))).
Proof.
  induction l as [|[|] l IH]; intros n N B; cbn [map fold_res filter].
  - do 2 f_equal. cbn. lia.
  - unfold zlen in *. cbn [List.length] in *. change (cif (Some n) (of_bool true)) with (Ok (Some (wrap64 (n + 1)))). cbn [bind]. rewrite wrap64_id by (unfold in64, two63 in *; lia).
    rewrite IH by lia. do 2 f_equal. lia.
  - unfold zlen in *. cbn [List.length] in *. change (cif (Some n) (of_bool false)) with (Ok (Some n)). cbn [bind]. apply IH; lia.
Qed.
Theorem c106_countif : forall other loose (l : list (option bool)) r, zlen l < two63 ->
  (call (val_text other) loose agg_countif (rows1 (bools l)) r <-> r = Ok (Some (VInt (zlen (filter (fun b => b) (nonnull l)))))).
Proof.
  intros other loose l r B. unfold agg_countif. rewrite call_unary.
  2:{ intros x I. unfold bools in I. rewrite nonnull_map in I. apply in_map_iff in I. destruct I as (z & <- & _). apply ordinary_int. }
  unfold bools. rewrite nonnull_map. pose proof (nonnull_length _ l) as L. set (k := nonnull l) in *.
  assert (E : forall k, zlen k < two63 ->
    bind (fold_res cif None (map of_bool k)) (fun s => Ok (Some (VInt (match s with None => 0 | Some n => n end)))) = Ok (Some (VInt (zlen (filter (fun b => b) k))))).
  { clear. induction k as [|[|] k IH]; intros B; [reflexivity| |]; cbn [map fold_res].
    - change (cif None (of_bool true)) with (Ok (Some 1)). cbn [bind]. unfold zlen in *. cbn [List.length filter] in *. rewrite countif_fold by (unfold zlen; lia).
      cbn [bind]. unfold zlen. do 3 f_equal. lia.
    - change (cif None (of_bool false)) with (@Ok (option Z) None). cbn [bind]. unfold zlen in *. cbn [List.length filter] in *. apply IH. lia. }
  specialize (E k ltac:(lia)). unfold finish. cbn [done]. unfold exactly.
  change (fold_res _ _ _) with (fold_res cif None (map of_bool k)).
  destruct (fold_res cif None (map of_bool k)); cbn [bind] in E; try discriminate. rewrite E. reflexivity.
Qed.
Example c106_ex : call a_text a_loose agg_count (rows1 [Some (VInt 5); None; Some (VStr "x")]) (Ok (Some (VInt 2))) /\
  call a_text a_loose agg_count_star (repeat [] 3) (Ok (Some (VInt 3))) /\
  call a_text a_loose agg_countif (rows1 (bools [Some true; None; Some false; Some true])) (Ok (Some (VInt 2))).
Proof. repeat split; reflexivity. Qed.

(** ** C107: MIN and MAX *)
Theorem c107_max : forall text loose vs r, (forall x, In x (nonnull vs) -> ordinary text x) ->
  (forall x y, In x (nonnull vs) -> In y (nonnull vs) -> comparable x y) ->
  call text loose agg_max (rows1 vs) r ->
  match nonnull vs with
  | [] => r = Ok None
  | _ => exists m, r = Ok (Some m) /\ In m (nonnull vs) /\ forall x, In x (nonnull vs) -> ~ before m x
  end.
Proof.
  intros text loose vs r O C H. apply call_unary in H; [|exact O]. destruct (nonnull vs) as [|m l]; [exact H|].
  cbn [fold_res bind] in H. destruct (extreme_fold GT (or_introl eq_refl) l m C) as (b & E & I & B). rewrite E in H.
  cbn [finish done] in H. exists b. split; [exact H|]. split; [exact I|]. exact B.
Qed.
Theorem c107_min : forall text loose vs r, (forall x, In x (nonnull vs) -> ordinary text x) ->
  (forall x y, In x (nonnull vs) -> In y (nonnull vs) -> comparable x y) ->
  call text loose agg_min (rows1 vs) r ->
  match nonnull vs with
  | [] => r = Ok None
  | _ => exists m, r = Ok (Some m) /\ In m (nonnull vs) /\ forall x, In x (nonnull vs) -> ~ before x m
  end.
Proof.
  intros text loose vs r O C H. apply call_unary in H; [|exact O]. destruct (nonnull vs) as [|m l]; [exact H|].
  cbn [fold_res bind] in H. destruct (extreme_fold LT (or_intror eq_refl) l m C) as (b & E & I & B). rewrite E in H.
  cbn [finish done] in H. exists b. split; [exact H|]. split; [exact I|]. exact B.
Qed.
Theorem c107_any_value : forall text loose vs r, (forall x, In x (nonnull vs) -> ordinary text x) ->
  call text loose agg_any_value (rows1 vs) r -> r = Ok (hd_error (nonnull vs)).
Proof.
  intros text loose vs r O H. apply call_unary in H; [|exact O].
  assert (G : forall l w, fold_res (fun (s : option val) (v : val) => Ok (match s with None => Some v | Some w => Some w end)) (Some w) l = Ok (Some w)).
  { induction l as [|x l IH]; intros w; [reflexivity|]. cbn. apply IH. }
  destruct (nonnull vs) as [|x l]; [exact H|]. cbn [fold_res bind] in H. rewrite G in H. exact H.
Qed.
(** Every row set has a result. *)
Theorem c107_defined : forall text loose vs, (forall x, In x (nonnull vs) -> ordinary text x) ->
  (forall x y, In x (nonnull vs) -> In y (nonnull vs) -> comparable x y) ->
  (exists r, call text loose agg_max (rows1 vs) r) /\ (exists r, call text loose agg_min (rows1 vs) r).
Proof.
  intros text loose vs O C.
  split; [exists (bind (fold_res (fun s v => match s with None => Ok (Some v) | Some m => bind (cmp GT v m) (fun b => Ok (Some (if b : bool then v else m))) end) None (nonnull vs)) (fun s => Ok s))|
          exists (bind (fold_res (fun s v => match s with None => Ok (Some v) | Some m => bind (cmp LT v m) (fun b => Ok (Some (if b : bool then v else m))) end) None (nonnull vs)) (fun s => Ok s))];
    apply call_unary; auto; destruct (fold_res _ _ _); cbn; reflexivity.
Qed.
Example c107_ex : call a_text a_loose agg_max (rows1 [Some (VInt 5); None; Some (VInt 7); Some (VInt (-1))]) (Ok (Some (VInt 7))) /\
  call a_text a_loose agg_min (rows1 [Some (VStr "b"); Some (VStr "a")]) (Ok (Some (VStr "a"))) /\ comparable (VStr "b") (VStr "a") /\
  call a_text a_loose agg_min (rows1 [None]) (Ok None).
Proof. repeat split; reflexivity. Qed.

(** ** C108: SUM over INT64 and NUMERIC *)
Theorem c108_sum_int64 : forall other loose vs r, in64 (sum_z (nonnull vs)) -> Forall in64 (nonnull vs) ->
  (call (val_text other) loose agg_sum (rows1 (ints vs)) r <->
   r = Ok (match nonnull vs with [] => None | l => Some (VInt (sum_z l)) end)).
Proof.
  intros other loose vs r I F. unfold agg_sum. rewrite call_unary by (apply ints_ordinary). unfold ints. rewrite nonnull_map.
  destruct (nonnull vs) as [|z l]; [reflexivity|]. cbn [map fold_res bind]. inversion F as [|? ? Fz _]; subst.
  pose proof (sum_int_fold l z) as S. rewrite (wrap64_id z) in S by exact Fz. rewrite S. cbn [finish done]. unfold exactly.
  change (z + sum_z l) with (sum_z (z :: l)). rewrite wrap64_id by exact I. reflexivity.
Qed.
Theorem c108_sum_numeric : forall text loose vs r, (forall q, ordinary text (VNum q)) -> Forall (fun q => Qred q = q) (nonnull vs) ->
  (call text loose agg_sum (rows1 (nums vs)) r <->
   r = Ok (match nonnull vs with [] => None | l => Some (VNum (Qred (sum_q l))) end)).
Proof.
  intros text loose vs r O F. unfold agg_sum. rewrite call_unary by (now apply nums_ordinary). unfold nums. rewrite nonnull_map.
  destruct (nonnull vs) as [|z l]; [reflexivity|]. cbn [map fold_res bind]. inversion F as [|? ? Fz _]; subst.
  destruct (sum_num_fold l z Fz) as (q & E & Q). rewrite E. cbn [finish done]. unfold exactly. rewrite Q. reflexivity.
Qed.
(** The order of the rows does not matter. *)
Theorem c108_order : forall other loose (vs vs' : list (option Z)) r, Permutation vs vs' -> Forall in64 (nonnull vs) -> in64 (sum_z (nonnull vs)) ->
  call (val_text other) loose agg_sum (rows1 (ints vs)) r -> call (val_text other) loose agg_sum (rows1 (ints vs')) r.
Proof.
  intros other loose vs vs' r P F I H. pose proof (nonnull_perm _ _ _ P) as N.
  apply c108_sum_int64 in H; [|exact I|exact F]. apply c108_sum_int64.
  - now rewrite <- (sum_z_perm _ _ N).
  - rewrite Forall_forall in *. intros z Z. apply F. eapply Permutation_in; [symmetry; exact N|exact Z].
  - rewrite H. f_equal. destruct (nonnull vs) as [|z l] eqn:E; destruct (nonnull vs') as [|z' l'] eqn:E'; try reflexivity.
    + apply Permutation_nil in N. discriminate.
    + symmetry in N. apply Permutation_nil in N. discriminate.
    + do 2 f_equal. now apply sum_z_perm.
Qed.
Theorem c108_order_numeric : forall text loose (vs vs' : list (option Q)) r, Permutation vs vs' -> (forall q, ordinary text (VNum q)) ->
  Forall (fun q => Qred q = q) (nonnull vs) ->
  call text loose agg_sum (rows1 (nums vs)) r -> call text loose agg_sum (rows1 (nums vs')) r.
Proof.
  intros text loose vs vs' r P O F H. pose proof (nonnull_perm _ _ _ P) as N.
  apply c108_sum_numeric in H; [|exact O|exact F]. apply c108_sum_numeric; [exact O| |].
  - rewrite Forall_forall in *. intros z Z. apply F. eapply Permutation_in; [symmetry; exact N|exact Z].
  - rewrite H. f_equal. destruct (nonnull vs) as [|z l] eqn:E; destruct (nonnull vs') as [|z' l'] eqn:E'; try reflexivity.
    + apply Permutation_nil in N. discriminate.
    + symmetry in N. apply Permutation_nil in N. discriminate.
    + do 2 f_equal. apply Qred_complete. now apply sum_q_perm.
Qed.
Example c108_ex : call a_text a_loose agg_sum (rows1 (ints [Some (2 ^ 62); None; Some (2 ^ 62); Some (- 2 ^ 62)])) (Ok (Some (VInt (2 ^ 62)))) /\
  call a_text a_loose agg_sum (rows1 (nums [Some (1 # 3)%Q; Some (1 # 6)%Q])) (Ok (Some (VNum (1 # 2)%Q))) /\
  in64 (sum_z [2 ^ 62; 2 ^ 62; - 2 ^ 62]).
Proof.
  assert (B : in64 (sum_z [2 ^ 62; 2 ^ 62; - 2 ^ 62])) by (unfold in64, two63; cbn; lia). split; [|split; [|exact B]].
  - apply (c108_sum_int64 (fun _ => Err) a_loose [Some (2 ^ 62); None; Some (2 ^ 62); Some (- 2 ^ 62)]); [exact B| |vm_compute; reflexivity].
    repeat constructor; unfold in64, two63; cbn; lia.
  - apply (c108_sum_numeric a_text a_loose [Some (1 # 3)%Q; Some (1 # 6)%Q]); [|repeat constructor|reflexivity]. intros q t E. discriminate E.
Qed.

(** ** C69 *)
(** AVG over INT64.  Missing: AVG of other types (the code adds and then converts to
    FLOAT64), and the cases refuted below. *)
Theorem c69_avg_partial : forall other loose vs r, in64 (sum_z (nonnull vs)) -> Forall in64 (nonnull vs) -> zlen vs < two63 ->
  (call (val_text other) loose agg_avg (rows1 (ints vs)) r <->
   r = Ok (match nonnull vs with [] => None | l => Some (VFloat (fdiv (float_of_int (sum_z l)) (float_of_int (zlen l)))) end)).
Proof.
  intros other loose vs r I F B. unfold agg_avg. rewrite call_unary by (apply ints_ordinary). unfold ints. rewrite nonnull_map.
  pose proof (nonnull_length _ vs) as L. destruct (nonnull vs) as [|z l]; [reflexivity|]. inversion F as [|? ? Fz _]; subst.
  assert (G : forall l a n, 0 <= n -> n + zlen l < two63 ->
    fold_res (fun (s : option val * Z) v => bind (match fst s with None => Ok v | Some t => add t v end) (fun u => Ok (Some u, wrap64 (snd s + 1))))
      (Some (VInt (wrap64 a)), n) (map VInt l) = Ok (Some (VInt (wrap64 (a + sum_z l))), n + zlen l)).
  { clear. induction l as [|x l IH]; intros a n N B; cbn [map fold_res].
    - do 5 f_equal; cbn; lia.
    - unfold zlen in *. cbn [List.length fst snd add bind] in *. rewrite wrap64_plus. rewrite (wrap64_id (n + 1)) by (unfold in64, two63 in *; lia).
      rewrite IH by lia. f_equal. f_equal; [do 3 f_equal; unfold sum_z; cbn [fold_right]|]; lia. }
  unfold zlen in L. cbn [List.length] in L. cbn [map fold_res fst snd bind]. change (wrap64 (0 + 1)) with 1.
  specialize (G l z 1 ltac:(lia) ltac:(unfold zlen in *; lia)). rewrite (wrap64_id z) in G by exact Fz. rewrite G. cbn [finish done]. unfold exactly. cbn [fst snd to_float bind].
  change (z + sum_z l) with (sum_z (z :: l)). rewrite wrap64_id by exact I. replace (1 + zlen l) with (zlen (z :: l)) by (unfold zlen; cbn [List.length]; lia). reflexivity.
Qed.
(** Refuted: a sum beyond INT64 is not an error, it wraps around. *)
Theorem c69_sum_wraps_refuted : forall other loose z l, Forall in64 (z :: l) ->
  call (val_text other) loose agg_sum (rows1 (ints (map Some (z :: l)))) (Ok (Some (VInt (wrap64 (sum_z (z :: l)))))).
Proof.
  intros other loose z l F.
  assert (N : forall k : list Z, nonnull (map Some k) = k) by (induction k; cbn; congruence).
  unfold agg_sum. rewrite call_unary by (apply ints_ordinary). unfold ints. rewrite nonnull_map, N.
  cbn [map fold_res bind]. inversion F as [|? ? Fz _]; subst. pose proof (sum_int_fold l z) as S. rewrite (wrap64_id z) in S by exact Fz. rewrite S. reflexivity.
Qed.
Example c69_wraps_ex : call a_text a_loose agg_sum (rows1 (ints [Some (2 ^ 62); Some (2 ^ 62)])) (Ok (Some (VInt (- 2 ^ 63)))).
Proof. apply (c69_sum_wraps_refuted (fun _ => Err) a_loose (2 ^ 62) [2 ^ 62]). repeat constructor; unfold in64, two63; cbn; lia. Qed.
(** Refuted: with a NaN among the values MAX depends on the order of the rows. *)
Theorem c69_nan_order_refuted : exists a b, Permutation a b /\
  call a_text a_loose agg_max (rows1 a) (Ok (Some (VFloat S754_nan))) /\ call a_text a_loose agg_max (rows1 b) (Ok (Some (VFloat fzero))).
Proof.
  exists [Some (VFloat S754_nan); Some (VFloat fzero)], [Some (VFloat fzero); Some (VFloat S754_nan)].
  split; [apply perm_swap|]. split; reflexivity.
Qed.
(** Refuted: SUM over FLOAT64 depends on the order of the rows. *)
Theorem c69_float_order_refuted : exists a b, Permutation a b /\
  call a_text a_loose agg_sum (rows1 a) (Ok (Some (VFloat (float_of_int 1)))) /\ call a_text a_loose agg_sum (rows1 b) (Ok (Some (VFloat fzero))).
Proof.
  exists [Some (VFloat (float_of_int (2 ^ 60))); Some (VFloat (float_of_int (- 2 ^ 60))); Some (VFloat (float_of_int 1))],
         [Some (VFloat (float_of_int (2 ^ 60))); Some (VFloat (float_of_int 1)); Some (VFloat (float_of_int (- 2 ^ 60)))].
  split; [constructor; apply perm_swap|]. split; reflexivity.
Qed.

(** ** C70: bitwise aggregates *)
Lemma bit_fold : forall f rep l s, fold_res (fun s v => bind (to_int v) (fun z => Ok (if rep s : bool then z else f s z))) s (map VInt l) =
  Ok (fold_left (fun s z => if rep s then z else f s z) l s).
Proof. induction l as [|z l IH]; intros s; [reflexivity|]. cbn [map fold_res to_int bind fold_left]. apply IH. Qed.
Lemma call_bit : forall other loose f i rep vs r,
  call (val_text other) loose (agg_bit f i rep) (rows1 (ints vs)) r <->
  r = Ok (Some (VInt (fold_left (fun s z => if rep s then z else f s z) (nonnull vs) i))).
Proof.
  intros. unfold agg_bit. rewrite call_unary by (apply ints_ordinary). unfold ints. rewrite nonnull_map, bit_fold. reflexivity.
Qed.
(** BIT_AND is the conjunction, bit by bit. *)
Theorem c70_bit_and_partial : forall other loose vs r, call (val_text other) loose agg_bit_and (rows1 (ints vs)) r ->
  exists z, r = Ok (Some (VInt z)) /\ forall k, 0 <= k -> Z.testbit z k = forallb (fun v => Z.testbit v k) (nonnull vs).
Proof.
  intros other loose vs r H. apply call_bit in H. eexists. split; [exact H|]. intros k K.
  assert (G : forall l s, Z.testbit (fold_left (fun s z => Z.land s z) l s) k = Z.testbit s k && forallb (fun v => Z.testbit v k) l).
  { induction l as [|z l IH]; intros s; cbn [fold_left forallb]; [now rewrite andb_true_r|]. rewrite IH, Z.land_spec. now rewrite andb_assoc. }
  rewrite (G (nonnull vs) (-1)). rewrite Z.bits_m1 by exact K. reflexivity.
Qed.
Lemma lor_fold : forall l s, fold_left Z.lor l s = Z.lor s (lor_all l).
Proof. induction l as [|z l IH]; intros s; cbn [fold_left lor_all fold_right]; [now rewrite Z.lor_0_r|]. rewrite IH. fold (lor_all l). now rewrite Z.lor_assoc. Qed.
Lemma lxor_fold : forall l s, fold_left Z.lxor l s = Z.lxor s (lxor_all l).
Proof. induction l as [|z l IH]; intros s; cbn [fold_left lxor_all fold_right]; [now rewrite Z.lxor_0_r|]. rewrite IH. fold (lxor_all l). now rewrite Z.lxor_assoc. Qed.
Lemma replace_fold : forall f c l s, (forall p q, l = (p ++ q)%list -> q <> [] -> fold_left f p s <> c) ->
  fold_left (fun s z => if Z.eqb c s then z else f s z) l s = fold_left f l s.
Proof.
  intros f c. induction l as [|z l IH]; intros s H; [reflexivity|]. cbn [fold_left].
  assert (N : s <> c) by (apply (H [] (z :: l)); [reflexivity|discriminate]). destruct (Z.eqb_spec c s); [congruence|].
  apply IH. intros p q E Q. apply (H (z :: p) q); [now rewrite E|exact Q].
Qed.
(** BIT_OR, as long as no part of the values before the last already has all bits set. *)
Theorem c70_bit_or_partial : forall other loose vs r, nonnull vs <> [] ->
  (forall p q, nonnull vs = (p ++ q)%list -> q <> [] -> lor_all p <> -1) ->
  (call (val_text other) loose agg_bit_or (rows1 (ints vs)) r <-> r = Ok (Some (VInt (lor_all (nonnull vs))))).
Proof.
  intros other loose vs r N H. unfold agg_bit_or. rewrite call_bit. destruct (nonnull vs) as [|z l]; [contradiction|].
  cbn [fold_left]. change (-1 =? -1) with true. cbn iota. rewrite (replace_fold Z.lor (-1)).
  - rewrite lor_fold. reflexivity.
  - intros p q E Q. rewrite lor_fold. apply (H (z :: p) q); [now rewrite E|exact Q].
Qed.
(** BIT_XOR, as long as no part of the values before the last XORs to 1. *)
Theorem c70_bit_xor_partial : forall other loose vs r, nonnull vs <> [] ->
  (forall p q, nonnull vs = (p ++ q)%list -> p <> [] -> q <> [] -> lxor_all p <> 1) ->
  (call (val_text other) loose agg_bit_xor (rows1 (ints vs)) r <-> r = Ok (Some (VInt (lxor_all (nonnull vs))))).
Proof.
  intros other loose vs r N H. unfold agg_bit_xor. rewrite call_bit. destruct (nonnull vs) as [|z l]; [contradiction|].
  cbn [fold_left]. change (1 =? 1) with true. cbn iota. rewrite (replace_fold Z.lxor 1).
  - rewrite lxor_fold. reflexivity.
  - intros p q E Q. rewrite lxor_fold. apply (H (z :: p) q); [now rewrite E|discriminate|exact Q].
Qed.
(** Refuted: values that XOR to 1 are forgotten when more follow, and so are values that OR
    to -1; with no value the result is not NULL. *)
Lemma fold_reaches : forall f c l, fold_left (fun s z => if Z.eqb c s then z else f s z) (l ++ [])%list c = fold_left (fun s z => if Z.eqb c s then z else f s z) l c.
Proof. intros. now rewrite app_nil_r. Qed.
Theorem c70_bit_xor_refuted : forall other loose z l r,
  call (val_text other) loose agg_bit_xor (rows1 (ints (Some 1 :: Some z :: l))) r <-> call (val_text other) loose agg_bit_xor (rows1 (ints (Some z :: l))) r.
Proof. intros. unfold agg_bit_xor. rewrite !call_bit. reflexivity. Qed.
Theorem c70_bit_or_refuted : forall other loose z l r,
  call (val_text other) loose agg_bit_or (rows1 (ints (Some (-1) :: Some z :: l))) r <-> call (val_text other) loose agg_bit_or (rows1 (ints (Some z :: l))) r.
Proof. intros. unfold agg_bit_or. rewrite !call_bit. reflexivity. Qed.
Theorem c70_empty_refuted : forall other loose vs, nonnull vs = [] ->
  call (val_text other) loose agg_bit_and (rows1 (ints vs)) (Ok (Some (VInt (-1)))) /\
  call (val_text other) loose agg_bit_or (rows1 (ints vs)) (Ok (Some (VInt (-1)))) /\
  call (val_text other) loose agg_bit_xor (rows1 (ints vs)) (Ok (Some (VInt 1))).
Proof. intros other loose vs E. unfold agg_bit_and, agg_bit_or, agg_bit_xor. rewrite !call_bit, E. repeat split; reflexivity. Qed.
Example c70_ex : call a_text a_loose agg_bit_xor (rows1 (ints [Some 1; Some 2])) (Ok (Some (VInt 2))) /\ lxor_all [1; 2] = 3 /\
  call a_text a_loose agg_bit_or (rows1 (ints [Some 4; None; Some 3])) (Ok (Some (VInt 7))) /\
  call a_text a_loose agg_bit_and (rows1 (ints [Some 6; Some 3])) (Ok (Some (VInt 2))).
Proof. repeat split; reflexivity. Qed.

(** ** C111: LOGICAL_AND, LOGICAL_OR *)
Lemma and_fold : forall l s, fold_res (fun s v => bind (to_bool v) (fun b => Ok (if b : bool then s else false))) s (map (fun b : bool => VInt (if b then 1 else 0)) l) = Ok (s && forallb (fun b => b) l).
Proof.
  induction l as [|[|] l IH]; intros s; cbn [map fold_res to_bool Z.eqb bind forallb]; [now rewrite andb_true_r| |].
  - change (1 =? 1) with true. cbn [bind andb]. apply IH.
  - etransitivity; [apply IH|]. now rewrite andb_false_r.
Qed.
Lemma or_fold : forall l s, fold_res (fun s v => bind (to_bool v) (fun b => Ok (if b : bool then true else s))) s (map (fun b : bool => VInt (if b then 1 else 0)) l) = Ok (s || existsb (fun b => b) l).
Proof.
  induction l as [|[|] l IH]; intros s; cbn [map fold_res to_bool Z.eqb bind existsb]; [now rewrite orb_false_r| |].
  - change (1 =? 1) with true. cbn [bind orb]. etransitivity; [apply IH|]. now rewrite orb_true_r.
  - etransitivity; [apply IH|]. reflexivity.
Qed.
Lemma bools_ordinary : forall other l x, In x (nonnull (bools l)) -> ordinary (val_text other) x.
Proof. intros other l x I. unfold bools in I. rewrite nonnull_map in I. apply in_map_iff in I. destruct I as (z & <- & _). apply ordinary_int. Qed.
(** Missing: the NULL result when there is no value (refuted below). *)
Theorem c111_logical_partial : forall other loose (l : list (option bool)) r,
  (call (val_text other) loose agg_logical_and (rows1 (bools l)) r <-> r = Ok (Some (VBool (forallb (fun b => b) (nonnull l))))) /\
  (call (val_text other) loose agg_logical_or (rows1 (bools l)) r <-> r = Ok (Some (VBool (existsb (fun b => b) (nonnull l))))).
Proof.
  intros other loose l r. unfold agg_logical_and, agg_logical_or. rewrite !call_unary by (apply bools_ordinary).
  unfold bools. rewrite nonnull_map, and_fold, or_fold. split; reflexivity.
Qed.
Theorem c111_empty_refuted : forall other loose (l : list (option bool)), nonnull l = [] ->
  call (val_text other) loose agg_logical_and (rows1 (bools l)) (Ok (Some (VBool true))) /\
  call (val_text other) loose agg_logical_or (rows1 (bools l)) (Ok (Some (VBool false))).
Proof.
  intros other loose l E. split.
  - apply (proj1 (c111_logical_partial other loose l _)). now rewrite E.
  - apply (proj2 (c111_logical_partial other loose l _)). now rewrite E.
Qed.
Example c111_ex : call a_text a_loose agg_logical_and (rows1 (bools [Some true; None; Some false])) (Ok (Some (VBool false))).
Proof. reflexivity. Qed.

(** ** C71: DISTINCT and IGNORE NULLS *)
(** Whatever the function, it is called for exactly the rows of [feeds], in their order. *)
Theorem c71_rows_fed : forall text loose a dist ign rs r,
  (forall v is, In (v, is) rs -> asks_distinct is = dist /\ asks_ignore is = ign) ->
  (forall x, In (Some x) (map fst rs) -> exists t, text x = Ok t /\ starts_brace t = false) ->
  (forall x y, In (Some x) (map fst rs) -> In (Some y) (map fst rs) -> text x = text y -> x = y) ->
  exists out, feeds dist ign [] rs out /\ (call text loose a (rows_with rs) r <-> result_with a out r).
Proof.
  intros text loose a dist ign rs r H T J.
  apply (call_feeds text loose (fun x => In (Some x) (map fst rs)) T J). intros v is I. destruct (H v is I) as [D G].
  split; [exact D|]. split; [exact G|]. intros x ->. apply (in_map fst) in I. exact I.
Qed.
(** ... and [feeds] is what was asked for: each value once, no NULL, or every row. *)
Theorem c71_feeds_right : forall dist ign (rs out : list (option val * list item)), feeds dist ign [] rs out ->
  (dist = true -> NoDup (map fst out)) /\ (ign = true -> ~ In None (map fst out)) /\
  (forall v, In v (map fst out) <-> In v (map fst rs) /\ (ign = true -> v <> None)) /\
  (dist = false -> ign = false -> out = rs).
Proof.
  intros dist ign rs out F. destruct (feeds_spec _ _ _ _ _ _ F) as (A1 & A2 & A3 & A4 & A5).
  split; [intros D; exact (proj1 (A1 D))|]. split; [exact A2|]. split; [|exact A5]. intros v. split.
  - intros I. split; [|intros E ->; now apply (A2 E)]. apply in_map_iff in I. destruct I as (p & <- & I). apply in_map. now apply A3.
  - intros [I N]. destruct (A4 v I N) as [J|[_ []]]. exact J.
Qed.
(** INT64 (and BOOL) values, and STRING values that are not JSON objects. *)
Theorem c71_ints : forall other loose a dist ign (rs : list (option val * list item)) r,
  (forall v is, In (v, is) rs -> asks_distinct is = dist /\ asks_ignore is = ign /\ forall x, v = Some x -> exists z, x = VInt z /\ in64 z) ->
  exists out, feeds dist ign [] rs out /\ (call (val_text other) loose a (rows_with rs) r <-> result_with a out r).
Proof.
  intros other loose a dist ign rs r H.
  assert (K : forall x, In (Some x) (map fst rs) -> exists z, x = VInt z /\ in64 z).
  { intros x X. apply in_map_iff in X. destruct X as ([v is] & E & I). destruct (H v is I) as (_ & _ & G). now apply G. }
  apply c71_rows_fed.
  - intros v is I. destruct (H v is I) as (D & G & _). auto.
  - intros x X. destruct (K x X) as (z & -> & Bz). exists (dec z). split; [reflexivity|apply dec_ordinary].
  - intros x y X Y. destruct (K x X) as (z & -> & Bz). destruct (K y Y) as (w & -> & Bw). cbn [val_text]. intros E. f_equal. apply dec_inj; [exact Bz|exact Bw|congruence].
Qed.
Theorem c71_strings : forall other loose a dist ign (rs : list (option val * list item)) r,
  (forall v is, In (v, is) rs -> asks_distinct is = dist /\ asks_ignore is = ign /\ forall x, v = Some x -> exists s, x = VStr s /\ starts_brace s = false) ->
  exists out, feeds dist ign [] rs out /\ (call (val_text other) loose a (rows_with rs) r <-> result_with a out r).
Proof.
  intros other loose a dist ign rs r H.
  assert (K : forall x, In (Some x) (map fst rs) -> exists s, x = VStr s /\ starts_brace s = false).
  { intros x X. apply in_map_iff in X. destruct X as ([v is] & E & I). destruct (H v is I) as (_ & _ & G). now apply G. }
  apply c71_rows_fed.
  - intros v is I. destruct (H v is I) as (D & G & _). auto.
  - intros x X. destruct (K x X) as (s & -> & B). exists s. split; [reflexivity|exact B].
  - intros x y X Y. destruct (K x X) as (z & -> & _). destruct (K y Y) as (w & -> & _). cbn [val_text]. congruence.
Qed.
Example c71_ex : call a_text a_loose agg_sum (rows_with [(Some (VInt 5), [IDistinct]); (Some (VInt 5), [IDistinct]); (None, [IDistinct]); (Some (VInt 2), [IDistinct])]) (Ok (Some (VInt 7))) /\
  feeds true false [] [(Some (VInt 5), tt); (Some (VInt 5), tt)] [(Some (VInt 5), tt)].
Proof.
  split; [reflexivity|]. apply f_take; [discriminate|intros _ []|]. apply f_dup; [reflexivity|now left|]. constructor.
Qed.

(** ** C73: user data as options *)
(** What holds: a value whose text does not begin with "{" is passed on as it is. *)
Lemma starts_brace_iff : forall s, starts_brace s = true <-> looks_object s.
Proof.
  induction s as [|c s IH]; cbn [starts_brace].
  - split; [discriminate|]. intros (w & r & E & _). destruct w; discriminate.
  - unfold json_space. destruct (Ascii.eqb c " " || Ascii.eqb c "009" || Ascii.eqb c "010" || Ascii.eqb c "013") eqn:Sp.
    + rewrite IH. apply orb_true_iff in Sp. rewrite !orb_true_iff, !Ascii.eqb_eq in Sp. split.
      * intros (w & r & -> & F). exists (String c w), r. split; [reflexivity|]. cbn [list_ascii_of_string]. constructor; [tauto|exact F].
      * intros (w & r & E & F). destruct w as [|x w].
        { cbn in E. assert (c = "{"%char) by congruence. subst c. exfalso. destruct Sp as [[[Sp|Sp]|Sp]|Sp]; discriminate. }
        { cbn in E, F. exists w, r. split; [congruence|now inversion F]. }
    + split.
      * intros B. apply Ascii.eqb_eq in B. subst c. exists ""%string, s. split; [reflexivity|constructor].
      * intros (w & r & E & F). destruct w as [|x w]; cbn in E, F; [assert (c = "{"%char) by congruence; subst c; reflexivity|].
        assert (c = x) by congruence. subst x. inversion F as [|? ? X _]; subst. exfalso. rewrite !orb_false_iff, !Ascii.eqb_neq in Sp. tauto.
Qed.
Theorem c73_other_values_partial : forall text loose v is, (forall x t, v = Some x -> text x = Ok t -> ~ looks_object t) ->
  fst (parse_args text loose (AVal v :: map AOpt is) [] no_opt) = [v].
Proof.
  intros text loose v is H. rewrite parse_one; [reflexivity|]. intros x E t T.
  destruct (starts_brace t) eqn:B; [|reflexivity]. exfalso. now apply (H x t E T), starts_brace_iff.
Qed.
(** Refuted: for a STRING that is the JSON text of an option, whatever reader reads it back:
    COUNT, SUM, MIN, ... of one such row crash, or fail for the text of DISTINCT, and the
    rows before are lost with it. *)
Theorem c73_option_text_refuted : forall other loose (S : Type) (i : S) f dn s, looks_object s ->
  let a := {| St := S; init := i; step := unary f; done := dn |} in
  (forall n, loose s = Some (ILimit n) -> call (val_text other) loose a (rows1 [Some (VStr s)]) GoPanic) /\
  (loose s = Some IDistinct -> call (val_text other) loose a (rows1 [Some (VStr s)]) Err) /\
  (loose s = Some IIgnore -> forall r, call (val_text other) loose a (rows1 [Some (VStr s)]) r <-> call (val_text other) loose a (rows1 []) r).
Proof.
  intros other loose S i f dn s B a. apply starts_brace_iff in B.
  assert (P : forall it, loose s = Some it -> parse_args (val_text other) loose [AVal (Some (VStr s))] [] no_opt = ([], set_item no_opt it)).
  { intros it L. cbn [parse_args]. change (val_text other (VStr s)) with (Ok s). cbn iota. unfold option_of. rewrite B, L. reflexivity. }
  split; [|split].
  - intros n L. unfold call, rows1. cbn [map outer_steps]. unfold outer_step. rewrite (P _ L). reflexivity.
  - intros L. unfold call, rows1. cbn [map outer_steps]. unfold outer_step. rewrite (P _ L). reflexivity.
  - intros L r. unfold call, rows1. cbn [map outer_steps]. unfold outer_step. rewrite (P _ L). reflexivity.
Qed.
(** The texts the library itself makes are such strings. *)
Example c73_ex : exists s, option_text (ILimit 1) = Some s /\ looks_object s /\ s = "{""type"":""aggregate_limit"",""value"":1}".
Proof. eexists. split; [reflexivity|]. split; [apply starts_brace_iff; reflexivity|reflexivity]. Qed.

(** ** C72: ORDER BY and LIMIT *)
(** Missing: NULL keys, and keys of the other types, for which it is refuted below. *)
Theorem c72_order_limit_partial : forall text loose sh lim (rs : list (val * keys)) r, rs <> [] -> sh <> [] ->
  (forall n, lim = Some n -> 0 <= n) ->
  (forall v ks, In (v, ks) rs -> shaped sh ks /\ exists t, text v = Ok t /\ starts_brace t = false) ->
  (forall v w, In v (map fst rs) -> In w (map fst rs) -> text v = text w -> v = w) ->
  call text loose agg_array_agg (rows_with (order_rows lim rs)) r ->
  exists rs', Permutation rs rs' /\
    StronglySorted (fun x y => ~ keys_before (snd y) (snd x)) rs' /\
    r = Ok (Some (VArray (first_n lim (map (fun x => Some (fst x)) rs')))).
Proof.
  intros text loose sh lim rs r NE NS NL H J C.
  assert (Ofst : map fst (order_rows lim rs) = map (fun r => Some (fst r)) rs) by (unfold order_rows; now rewrite map_map).
  assert (In1 : forall x, In (Some x) (map fst (order_rows lim rs)) -> In x (map fst rs)).
  { intros x X. rewrite Ofst in X. apply in_map_iff in X. destruct X as (p & E & I). assert (fst p = x) by congruence. subst x. now apply in_map. }
  assert (Hno : forall ks, asks_distinct (order_items ks ++ limit_item lim) = false /\ asks_ignore (order_items ks ++ limit_item lim) = false).
  { intros ks. unfold asks_distinct, asks_ignore. rewrite !existsb_app.
    assert (Z : forall f, (forall k a, f (IOrder k a) = false) -> existsb f (order_items ks) = false).
    { intros f Hf. unfold order_items. induction ks as [|k ks IH]; [reflexivity|]. cbn. now rewrite Hf, IH. }
    rewrite !Z by reflexivity. destruct lim; split; reflexivity. }
  destruct (c71_rows_fed text loose agg_array_agg false false (order_rows lim rs) r) as (out & F & E).
  - intros v is I. unfold order_rows in I. apply in_map_iff in I. destruct I as (p & Ep & _). assert (is = (order_items (snd p) ++ limit_item lim)%list) by congruence. subst is. apply Hno.
  - intros x X. apply In1 in X. apply in_map_iff in X. destruct X as ([v ks] & E & I). cbn in E. subst v. destruct (H x ks I) as [_ T]. exact T.
  - intros x y X Y. apply J; auto.
  - destruct (feeds_spec _ _ _ _ _ _ F) as (_ & _ & _ & _ & Id). rewrite (Id eq_refl eq_refl) in E.
    apply E in C. unfold result_with in C. rewrite array_steps in C. cbn [init agg_array_agg c_vals c_opt app] in C.
    destruct rs as [|r0 rs0]; [contradiction|]. set (rs := r0 :: rs0) in *. cbn [done agg_array_agg] in C.
    destruct C as (srt & S & R). cbn [c_vals c_opt] in S, R.
    assert (K0 : exists k ks, snd r0 = k :: ks).
    { destruct r0 as [v0 k0]. destruct (H v0 k0 (or_introl eq_refl)) as [Sh _]. inversion Sh; subst; [contradiction|]. cbn. eauto. }
    destruct K0 as (k & ks & K0). unfold sort_agg in S. rewrite K0 in S. cbn [map] in S. destruct S as (P & W & _).
    apply Permutation_sym, Permutation_map_inv in P. destruct P as (rs' & -> & P). exists rs'. split; [exact P|]. split.
    + assert (WO : weak_order less (map mk rs)).
      { apply (less_weak_order sh). intros x X. apply in_map_iff in X. destruct X as ([v q] & <- & I). exists q. split; [reflexivity|]. now destruct (H v q I). }
      specialize (W WO). assert (Sub : forall p, In p rs' -> In p rs) by (intros p Ip; eapply Permutation_in; [symmetry; exact P|exact Ip]).
      clear P R E F Id. induction rs' as [|x rs' IH]; [constructor|]. cbn [map] in W. inversion W as [|? ? W' Fx]; subst.
      constructor; [apply IH; auto; intros p Ip; apply Sub; now right|]. rewrite Forall_forall in *. intros y Y Kb.
      specialize (Fx (mk y) (in_map mk _ _ Y)). unfold less, mk in Fx. cbn [o_keys] in Fx.
      assert (T : less_keys (map sent (snd y)) (map sent (snd x)) = true).
      { destruct y as [vy ky], x as [vx kx]. apply (less_sent sh); [apply (H vy ky), Sub; now right|apply (H vx kx), Sub; now left|exact Kb]. }
      congruence.
    + rewrite R. unfold take_limit. cbn [a_limit]. destruct lim as [n|].
      * destruct (Z.ltb_spec n 0); [specialize (NL n eq_refl); lia|]. cbn [bind first_n]. do 3 f_equal.
        rewrite firstn_map. rewrite map_map. now rewrite firstn_map.
      * cbn [bind first_n]. do 3 f_equal. now rewrite map_map.
Qed.
(** Refuted: ORDER BY a DATE, DATETIME, TIME or TIMESTAMP is ignored (shown up to 12 rows,
    where Go's sort is insertion sort). *)
Definition clock_key (k : val) : Prop := match k with VDate _ | VDatetime _ | VTime _ | VTimestamp _ => True | _ => False end.
Theorem c72_dates_ignored_refuted : forall text loose (rs : list (val * (val * bool))) r, rs <> [] -> (List.length rs <= 12)%nat ->
  (forall v k, In (v, k) rs -> clock_key (fst k) /\ exists t, text v = Ok t /\ starts_brace t = false) ->
  (forall v w, In v (map fst rs) -> In w (map fst rs) -> text v = text w -> v = w) ->
  (call text loose agg_array_agg (rows_with (map (fun x => (Some (fst x), [IOrder (Some (fst (snd x))) (snd (snd x))])) rs)) r <->
   r = Ok (Some (VArray (map (fun x => Some (fst x)) rs)))).
Proof.
  intros text loose rs r NE Len H J.
  set (rows := map (fun x => (fst x, [snd x])) rs : list (val * keys)).
  assert (Er : map (fun x => (Some (fst x), [IOrder (Some (fst (snd x))) (snd (snd x))])) rs = order_rows None rows).
  { unfold order_rows, rows. rewrite map_map. reflexivity. }
  rewrite Er.
  assert (Ofst : map fst (order_rows None rows) = map (fun r => Some (fst r)) rs) by (unfold order_rows, rows; now rewrite !map_map).
  assert (In1 : forall x, In (Some x) (map fst (order_rows None rows)) -> In x (map fst rs)).
  { intros x X. rewrite Ofst in X. apply in_map_iff in X. destruct X as (p & E & I). assert (fst p = x) by congruence. subst x. now apply in_map. }
  destruct (c71_rows_fed text loose agg_array_agg false false (order_rows None rows) r) as (out & F & E).
  - intros v is I. unfold order_rows, rows in I. rewrite map_map in I. apply in_map_iff in I. destruct I as (p & Ep & _).
    assert (Ei : (order_items [snd p] ++ limit_item None)%list = is) by (cbn [fst snd] in Ep; congruence). rewrite <- Ei. split; reflexivity.
  - intros x X. apply In1 in X. apply in_map_iff in X. destruct X as ([v ks] & E & I). cbn in E. subst v. destruct (H x ks I) as [_ T]. exact T.
  - intros x y X Y. apply J; auto.
  - destruct (feeds_spec _ _ _ _ _ _ F) as (_ & _ & _ & _ & Id). rewrite (Id eq_refl eq_refl) in E.
    rewrite E. unfold result_with. rewrite array_steps. cbn [init agg_array_agg c_vals c_opt app done].
    assert (Cst : forall x y, In x (map mk rows) -> In y (map mk rows) -> less x y = false).
    { intros x y X Y. apply in_map_iff in X. destruct X as (p & <- & X). apply in_map_iff in Y. destruct Y as (q & <- & Y).
      unfold rows in X, Y. apply in_map_iff in X. destruct X as ([v k] & <- & X). apply in_map_iff in Y. destruct Y as ([w l] & <- & Y).
      destruct (H v k X) as [Ck _]. destruct (H w l Y) as [Cl _]. destruct k as [k asc], l as [l asc']. cbn [fst] in Ck, Cl.
      unfold less, mk. cbn [o_keys snd map]. destruct k; cbn in Ck; try contradiction; destruct l; cbn in Cl; try contradiction; destruct asc; reflexivity. }
    destruct rows as [|r0 rows0] eqn:Rows; [destruct rs; [contradiction|discriminate]|]. rewrite <- Rows in *.
    assert (K0 : exists k, snd r0 = [k]).
    { assert (I0 : In r0 rows) by (rewrite Rows; now left). unfold rows in I0. apply in_map_iff in I0. destruct I0 as (p & <- & _). cbn. eauto. }
    destruct K0 as (k0 & K0). unfold array_agg_done. cbn [c_vals c_opt]. unfold sort_agg. rewrite K0. cbn [map]. unfold take_limit. cbn [a_limit bind].
    assert (Last : map (fun x => Some (o_val x)) (map mk rows) = map (fun x => Some (fst x)) rs) by (unfold rows; rewrite !map_map; reflexivity).
    split.
    + intros (srt & (P & W & Ins) & R). rewrite R. do 3 f_equal. rewrite Ins by (unfold rows; now rewrite !map_length). rewrite insertion_id by exact Cst. exact Last.
    + intros R. exists (insertion less (map mk rows)). split; [apply go_sort_possible|]. rewrite insertion_id by exact Cst. rewrite Last. exact R.
Qed.
(** Refuted: NUMERIC keys are compared as text. *)
Theorem c72_numeric_text_refuted : exists rs, rs = [(VInt 1, VNum (10 # 1)); (VInt 2, VNum (9 # 1))] /\
  forall r, call a_text a_loose agg_array_agg (rows_with (map (fun x => (Some (fst x), [IOrder (Some (snd x)) true])) rs)) r ->
  r = Ok (Some (VArray [Some (VInt 1); Some (VInt 2)])).
Proof.
  eexists. split; [reflexivity|]. intros r H. unfold call in H. cbn [rows_with map fst snd] in H.
  match type of H with context [outer_steps ?a ?b ?c ?d ?e] => let x := eval vm_compute in (outer_steps a b c d e) in change (outer_steps a b c d e) with x in H end.
  cbn [done agg_array_agg snd] in H. destruct H as (out & (_ & _ & S) & R). cbn [c_vals c_opt] in *.
  rewrite R. rewrite S by (cbn; lia). reflexivity.
Qed.
(** Refuted: INT64 keys are rounded to 53 bits; keys that differ only beyond them count as
    equal. *)
Theorem c72_large_int_refuted : forall v w r,
  call a_text a_loose agg_array_agg (rows_with [(Some (VInt v), [IOrder (Some (VInt (2 ^ 53 + 1))) true]); (Some (VInt w), [IOrder (Some (VInt (2 ^ 53))) true])]) r ->
  r = Ok (Some (VArray [Some (VInt v); Some (VInt w)])).
Proof.
  intros v w r H. unfold call in H. cbn [rows_with map fst snd outer_steps] in H. unfold outer_step, a_text in H.
  rewrite (parse_one _ _ (Some (VInt v)) [IOrder (Some (VInt (2 ^ 53 + 1))) true]) in H by (intros x E; assert (VInt v = x) by congruence; subst x; apply ordinary_int).
  cbn [bind] in H. unfold admit_row in H. cbn [map reread fold_left set_item a_ignore a_distinct no_opt fst snd bind step agg_array_agg array_agg_step arg0 andb] in H.
  rewrite (parse_one _ _ (Some (VInt w)) [IOrder (Some (VInt (2 ^ 53))) true]) in H by (intros x E; assert (VInt w = x) by congruence; subst x; apply ordinary_int).
  cbn [bind map reread fold_left set_item a_ignore a_distinct no_opt fst snd step agg_array_agg array_agg_step arg0 andb outer_steps done] in H.
  destruct H as (out & S & R). unfold collect in S, R. cbn [c_vals c_opt app init agg_array_agg snd a_limit a_order] in *.
  unfold sort_agg in S. cbn [a_order app] in S. destruct S as (_ & _ & S). unfold take_limit in R. cbn [a_limit] in R.
  rewrite R. rewrite S by (cbn; lia). reflexivity.
Qed.
(** What holds of NULL keys: the row with it comes first with ASC and last with DESC, in
    whatever order the two rows come. *)
Theorem c72_null_key_partial : forall (asc swap : bool) v w k r,
  let x := (Some (VInt v), [IOrder None asc]) in let y := (Some (VInt w), [IOrder (Some (VInt k)) asc]) in
  call a_text a_loose agg_array_agg (rows_with (if swap then [y; x] else [x; y])) r ->
  r = Ok (Some (VArray (if asc then [Some (VInt v); Some (VInt w)] else [Some (VInt w); Some (VInt v)]))).
Proof.
  intros asc swap v w k r x y H. unfold x, y in H.
  assert (Pv : forall i, parse_args a_text a_loose (AVal (Some (VInt v)) :: map AOpt i) [] no_opt = ([Some (VInt v)], fold_left set_item (map reread i) no_opt)).
  { intros i. apply parse_one. intros u E. assert (VInt v = u) by congruence. subst u. apply ordinary_int. }
  assert (Pw : forall i, parse_args a_text a_loose (AVal (Some (VInt w)) :: map AOpt i) [] no_opt = ([Some (VInt w)], fold_left set_item (map reread i) no_opt)).
  { intros i. apply parse_one. intros u E. assert (VInt w = u) by congruence. subst u. apply ordinary_int. }
  specialize (Pv [IOrder None asc]). specialize (Pw [IOrder (Some (VInt k)) asc]). cbn [map] in Pv, Pw.
  destruct swap; unfold call in H; cbn [rows_with map fst snd outer_steps] in H; unfold outer_step in H.
  - rewrite Pw in H. cbn [bind] in H. unfold admit_row in H. cbn [map reread fold_left set_item a_ignore a_distinct no_opt fst snd bind step agg_array_agg array_agg_step arg0 andb] in H.
    rewrite Pv in H. cbn [bind map reread fold_left set_item a_ignore a_distinct no_opt fst snd step agg_array_agg array_agg_step arg0 andb outer_steps done] in H.
    destruct H as (out & S & R). unfold collect in S, R. cbn [c_vals c_opt app init agg_array_agg snd a_limit a_order] in *.
    unfold sort_agg in S. cbn [a_order app] in S. destruct S as (_ & _ & S). unfold take_limit in R. cbn [a_limit] in R.
    rewrite R. rewrite S by (cbn; lia). destruct asc; reflexivity.
  - rewrite Pv in H. cbn [bind] in H. unfold admit_row in H. cbn [map reread fold_left set_item a_ignore a_distinct no_opt fst snd bind step agg_array_agg array_agg_step arg0 andb] in H.
    rewrite Pw in H. cbn [bind map reread fold_left set_item a_ignore a_distinct no_opt fst snd step agg_array_agg array_agg_step arg0 andb outer_steps done] in H.
    destruct H as (out & S & R). unfold collect in S, R. cbn [c_vals c_opt app init agg_array_agg snd a_limit a_order] in *.
    unfold sort_agg in S. cbn [a_order app] in S. destruct S as (_ & _ & S). unfold take_limit in R. cbn [a_limit] in R.
    rewrite R. rewrite S by (cbn; lia). destruct asc; reflexivity.
Qed.
(** Refuted: a NULL key ends the comparison, so later keys do not order its rows. *)
Theorem c72_null_tie_refuted : forall r,
  call a_text a_loose agg_array_agg (rows_with [(Some (VInt 1), [IOrder None false; IOrder (Some (VInt 2)) true]); (Some (VInt 2), [IOrder None false; IOrder (Some (VInt 1)) true])]) r ->
  r = Ok (Some (VArray [Some (VInt 1); Some (VInt 2)])).
Proof.
  intros r H. unfold call in H. cbn [rows_with map fst snd] in H.
  match type of H with context [outer_steps ?a ?b ?c ?d ?e] => let x := eval vm_compute in (outer_steps a b c d e) in change (outer_steps a b c d e) with x in H end.
  cbn [done agg_array_agg snd] in H. destruct H as (out & (_ & _ & S) & R). cbn [c_vals c_opt] in *.
  rewrite R. rewrite S by (cbn; lia). reflexivity.
Qed.
Example c72_ex : shaped [(KInt, false); (KStr, true)] [(VInt 3, false); (VStr "x", true)] /\
  call a_text a_loose agg_array_agg (rows_with (order_rows (Some 2) [(VInt 1, [(VInt 1, true)]); (VInt 2, [(VInt 3, true)]); (VInt 3, [(VInt 2, true)])]))
    (Ok (Some (VArray [Some (VInt 1); Some (VInt 3)]))).
Proof.
  split; [constructor; [split; [cbn; lia|reflexivity]|constructor; [split; [exact I|reflexivity]|constructor]]|].
  unfold call. cbn [order_rows rows_with map fst snd].
  match goal with |- context [outer_steps ?a ?b ?c ?d ?e] => let x := eval vm_compute in (outer_steps a b c d e) in change (outer_steps a b c d e) with x end.
  cbn [done agg_array_agg snd]. eexists. split; [apply go_sort_possible|reflexivity].
Qed.

(** ** C109: ARRAY_AGG without ORDER BY *)
Theorem c109_array_agg : forall text loose lim (vs : list val) r,
  (forall n, lim = Some n -> 0 <= n) ->
  (forall v, In v vs -> exists t, text v = Ok t /\ starts_brace t = false) ->
  (call text loose agg_array_agg (rows_with (map (fun v => (Some v, limit_item lim)) vs)) r <->
   r = Ok (Some (VArray (first_n lim (map Some vs))))).
Proof.
  intros text loose lim vs r NL H.
  assert (St : forall vs d s, (forall v, In v vs -> exists t, text v = Ok t /\ starts_brace t = false) ->
    outer_steps text loose agg_array_agg (d, s) (rows_with (map (fun v => (Some v, limit_item lim)) vs)) =
    Ok (d, {| c_vals := c_vals s ++ map (fun v => {| o_keys := []; o_val := v |}) vs;
              c_opt := match c_opt s, vs with Some p, _ => Some p | None, [] => None | None, _ :: _ => Some {| a_distinct := false; a_ignore := false; a_limit := lim; a_order := [] |} end |})).
  { clear. intros vs. induction vs as [|v vs IH]; intros d s H.
    - destruct s as [cv [p|]]; cbn; now rewrite app_nil_r.
    - cbn [map rows_with outer_steps]. fold (rows_with (map (fun v => (Some v, limit_item lim)) vs)). unfold outer_step. cbn [fst snd].
      rewrite parse_one by (intros x E t T; assert (v = x) by congruence; subst x; destruct (H v (or_introl eq_refl)) as (t' & T' & B); congruence).
      assert (O : fold_left set_item (map reread (limit_item lim)) no_opt = {| a_distinct := false; a_ignore := false; a_limit := lim; a_order := [] |}) by now destruct lim.
      rewrite O. unfold admit_row. cbn [a_ignore a_distinct andb bind step agg_array_agg array_agg_step arg0]. rewrite IH by (intros w W; apply H; now right).
      unfold collect. cbn [c_vals c_opt a_order]. rewrite <- app_assoc. cbn [app]. f_equal. f_equal. destruct (c_opt s); reflexivity. }
  unfold call. rewrite St by exact H. cbn [snd done agg_array_agg init c_vals c_opt app]. unfold array_agg_done. cbn [c_vals c_opt].
  destruct vs as [|v vs].
  - cbn [map sort_agg take_limit bind first_n]. split.
    + intros (out & (P & _) & ->). apply Permutation_nil in P. subst out. destruct lim as [n|]; [cbn [first_n]; now rewrite firstn_nil|reflexivity].
    + intros ->. exists []. split; [exact (go_sort_possible less [])|]. destruct lim as [n|]; [cbn [first_n]; now rewrite firstn_nil|reflexivity].
  - unfold sort_agg, take_limit. cbn [a_order a_limit]. split.
    + intros (out & -> & ->). destruct lim as [n|].
      * destruct (Z.ltb_spec n 0); [specialize (NL n eq_refl); lia|]. cbn [bind first_n]. do 3 f_equal. rewrite <- firstn_map, map_map. reflexivity.
      * cbn [bind first_n]. do 3 f_equal. rewrite map_map. reflexivity.
    + intros ->. eexists. split; [reflexivity|]. destruct lim as [n|].
      * destruct (Z.ltb_spec n 0); [specialize (NL n eq_refl); lia|]. cbn [bind first_n]. do 3 f_equal. rewrite <- firstn_map, map_map. reflexivity.
      * cbn [bind first_n]. do 3 f_equal. rewrite map_map. reflexivity.
Qed.
(** A NULL among the values is an error. *)
Theorem c109_null_is_error : forall text loose a b r,
  (forall v, In v a -> exists t, text v = Ok t /\ starts_brace t = false) ->
  (call text loose agg_array_agg (rows1 (map Some a ++ None :: b)) r <-> r = Err).
Proof.
  intros text loose a b r H. unfold call, rows1. rewrite map_app.
  assert (G : forall st, outer_steps text loose agg_array_agg st (map (fun v => [AVal v]) (map Some a) ++ map (fun v => [AVal v]) (None :: b)) = Err).
  { induction a as [|v a IH]; intros [d s].
    - reflexivity.
    - cbn [map app outer_steps]. unfold outer_step. pose proof (parse_one text loose (Some v) []) as P. cbn [map fold_left] in P.
      rewrite P by (intros x E t T; assert (v = x) by congruence; subst x; destruct (H v (or_introl eq_refl)) as (t' & T' & B); congruence).
      unfold admit_row. cbn [no_opt a_ignore a_distinct andb bind step agg_array_agg array_agg_step arg0]. apply IH. intros w W. apply H. now right. }
  rewrite G. reflexivity.
Qed.
Example c109_ex : call a_text a_loose agg_array_agg (rows_with [(Some (VInt 3), [ILimit 2]); (Some (VInt 1), [ILimit 2]); (Some (VInt 2), [ILimit 2])]) (Ok (Some (VArray [Some (VInt 3); Some (VInt 1)]))).
Proof.
  apply (c109_array_agg a_text a_loose (Some 2) [VInt 3; VInt 1; VInt 2]).
  - intros n E. assert (2 = n) by congruence. lia.
  - intros v [<-|[<-|[<-|[]]]]; eexists; split; reflexivity.
  - reflexivity.
Qed.

(** ** C110: STRING_AGG *)
Definition srows (d : string) (l : list (option string)) : list (list arg) := map (fun s => [AVal (option_map VStr s); AVal (Some (VStr d))]) l.
Lemma string_steps : forall other loose d l dd s, starts_brace d = false -> (forall s, In s (nonnull l) -> starts_brace s = false) ->
  outer_steps (val_text other) loose (agg_string_agg (val_text other)) (dd, s) (srows d l) =
  Ok (dd, {| s_col := {| c_vals := c_vals (s_col s) ++ map (fun t => {| o_keys := []; o_val := VStr t |}) (nonnull l);
                         c_opt := match c_opt (s_col s), nonnull l with Some p, _ => Some p | None, [] => None | None, _ :: _ => Some no_opt end |};
             s_delim := match s_delim s, nonnull l with Some p, _ => Some p | None, [] => None | None, _ :: _ => Some (if String.eqb d "" then "," else d) end |}).
Proof.
  intros other loose d l dd. induction l as [|[t|] l IH]; intros s D H.
  - destruct s as [[cv [p|]] [q|]]; cbn; now rewrite app_nil_r.
  - cbn [srows map outer_steps]. fold (srows d l). unfold outer_step. cbn [option_map parse_args val_text]. unfold option_of.
    rewrite (H t) by now left. rewrite D. unfold admit_row. cbn [no_opt a_ignore a_distinct andb bind step agg_string_agg string_agg_step val_text arg0 app fst snd].
    change (parse_args _ _ [] _ no_opt) with ([Some (VStr t); Some (VStr d)], no_opt). cbn [a_ignore a_distinct no_opt andb bind].
    rewrite IH by (auto; intros u Iu; apply H; now right). unfold collect. cbn [s_col s_delim c_vals c_opt no_opt a_order nonnull map]. rewrite <- app_assoc. cbn [app].
    do 2 f_equal. f_equal; [f_equal; destruct (c_opt (s_col s)); reflexivity|destruct (s_delim s); reflexivity].
  - cbn [srows map outer_steps]. fold (srows d l). unfold outer_step. cbn [option_map parse_args val_text]. unfold option_of.
    rewrite D. cbn [parse_args app no_opt]. unfold admit_row. cbn [a_ignore a_distinct andb bind step agg_string_agg string_agg_step val_text arg0 fst snd nonnull].
    apply IH; auto.
Qed.
Lemma texts_strings : forall other l, texts (val_text other) (map (fun t => {| o_keys := []; o_val := VStr t |}) l) = Ok l.
Proof. induction l as [|t l IH]; [reflexivity|]. cbn [map texts o_val val_text bind]. rewrite IH. reflexivity. Qed.
Lemma string_agg_exact : forall other loose d l r, starts_brace d = false -> (forall s, In s (nonnull l) -> starts_brace s = false) ->
  (call (val_text other) loose (agg_string_agg (val_text other)) (srows d l) r <->
   r = Ok (match nonnull l with [] => None | ts => Some (VStr (join (if String.eqb d "" then "," else d) ts)) end)).
Proof.
  intros other loose d l r D H. unfold call. rewrite string_steps by assumption. cbn [snd done agg_string_agg init s_col s_delim c_vals c_opt app].
  unfold string_agg_done. cbn [s_col s_delim c_vals c_opt]. destruct (nonnull l) as [|t ts] eqn:E.
  - cbn [map]. split.
    + intros (out & (P & _) & ->). apply Permutation_nil in P. subst out. reflexivity.
    + intros ->. exists []. split; [exact (go_sort_possible less [])|]. reflexivity.
  - unfold sort_agg, take_limit. cbn [no_opt a_order a_limit bind]. split.
    + intros (out & -> & ->). rewrite texts_strings. reflexivity.
    + intros ->. eexists. split; [reflexivity|]. rewrite texts_strings. reflexivity.
Qed.
(** The non-NULL strings in order, with the delimiter between them; NULL if there is none.
    Missing: the empty delimiter, refuted below, and ORDER BY and LIMIT, see C72. *)
Theorem c110_string_agg_partial : forall other loose d l r, d <> "" -> starts_brace d = false -> (forall s, In s (nonnull l) -> starts_brace s = false) ->
  (call (val_text other) loose (agg_string_agg (val_text other)) (srows d l) r <->
   r = Ok (match nonnull l with [] => None | ts => Some (VStr (join d ts)) end)).
Proof.
  intros other loose d l r N D H. rewrite string_agg_exact by assumption. destruct (String.eqb_spec d ""); [contradiction|]. reflexivity.
Qed.
Theorem c110_empty_delimiter_refuted : forall other loose a b l, (forall s, In s (a :: b :: l) -> starts_brace s = false) ->
  call (val_text other) loose (agg_string_agg (val_text other)) (srows "" (map Some (a :: b :: l))) (Ok (Some (VStr (join "," (a :: b :: l))))).
Proof.
  intros other loose a b l H. apply string_agg_exact; [reflexivity| |].
  - assert (N : forall k : list string, nonnull (map Some k) = k) by (induction k; cbn; congruence). now rewrite N.
  - assert (N : forall k : list string, nonnull (map Some k) = k) by (induction k; cbn; congruence). now rewrite N.
Qed.
Example c110_ex : call a_text a_loose (agg_string_agg a_text) (srows "-" [Some "a"; None; Some "b"]) (Ok (Some (VStr "a-b"))).
Proof. apply string_agg_exact; [reflexivity| |reflexivity]. intros s [<-|[<-|[]]]; reflexivity. Qed.

Print Assumptions c106_count.
Print Assumptions c106_count_star.
Print Assumptions c106_countif.
Print Assumptions c107_max.
Print Assumptions c107_min.
Print Assumptions c107_any_value.
Print Assumptions c107_defined.
Print Assumptions c108_sum_int64.
Print Assumptions c108_sum_numeric.
Print Assumptions c108_order.
Print Assumptions c108_order_numeric.
Print Assumptions c69_avg_partial.
Print Assumptions c69_sum_wraps_refuted.
Print Assumptions c69_nan_order_refuted.
Print Assumptions c69_float_order_refuted.
Print Assumptions c70_bit_and_partial.
Print Assumptions c70_bit_or_partial.
Print Assumptions c70_bit_xor_partial.
Print Assumptions c70_bit_xor_refuted.
Print Assumptions c70_bit_or_refuted.
Print Assumptions c70_empty_refuted.
Print Assumptions c111_logical_partial.
Print Assumptions c111_empty_refuted.
Print Assumptions c71_rows_fed.
Print Assumptions c71_feeds_right.
Print Assumptions c71_ints.
Print Assumptions c71_strings.
Print Assumptions c73_other_values_partial.
Print Assumptions c73_option_text_refuted.
Print Assumptions c72_order_limit_partial.
Print Assumptions c72_dates_ignored_refuted.
Print Assumptions c72_numeric_text_refuted.
Print Assumptions c72_large_int_refuted.
Print Assumptions c72_null_key_partial.
Print Assumptions c72_null_tie_refuted.
Print Assumptions c109_array_agg.
Print Assumptions c109_null_is_error.
Print Assumptions c110_string_agg_partial.
Print Assumptions c110_empty_delimiter_refuted.
