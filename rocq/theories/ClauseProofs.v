(** Lemmas for C329 to C334. *)
From Coq Require Import Ascii String List ZArith QArith Lia Bool.
From Verif Require Import GoBase GoBaseFacts ValueModel ValueFacts AggModel AggSpec AggProofs AggProps WindowModel WindowSpec ScanModel TextSpec ClauseModel ClauseSpec.
Import ListNotations.
Local Open Scope string_scope.
Open Scope Z_scope.

(** ** Aggregates *)
Lemma array_agg_total text loose rows st : outer_steps text loose agg_array_agg (d_empty, init agg_array_agg) rows = Ok st ->
  exists r, AggModel.call text loose agg_array_agg rows r.
Proof.
  intros E. unfold AggModel.call. rewrite E. cbn [done agg_array_agg]. unfold array_agg_done.
  assert (S : exists out, sort_agg (c_vals (snd st)) (c_opt (snd st)) out).
  { unfold sort_agg. destruct (c_opt (snd st)) as [[d i l [|k o]]|]; eauto using go_sort_possible. }
  destruct S as (out & S). eexists. exists out. split; [exact S|reflexivity].
Qed.

Definition some_z (v : option Z) : bool := match v with Some _ => true | None => false end.
(** [feeds] is [seen_by]. *)
Lemma feeds_seen {B} (dist ign : bool) : forall seen rs (out : list (option val * B)), feeds dist ign seen rs out ->
  forall sz l, seen = map (option_map VInt) sz -> map fst rs = map (option_map VInt) l ->
  map fst out = map (option_map VInt) (let m := if ign then filter some_z l else l in if dist then firsts sz m else m).
Proof.
  assert (Inj : forall a b : option Z, option_map VInt a = option_map VInt b -> a = b) by (intros [a|] [b|]; cbn; congruence).
  assert (InIff : forall v sz, In (option_map VInt v) (map (option_map VInt) sz) <-> In v sz).
  { intros v sz. split; [|apply in_map]. intros I. apply in_map_iff in I. destruct I as (w & E & I). apply Inj in E. now subst w. }
  intros seen rs out F. induction F as [seen|seen i rs out G F IH|seen v i rs out G I F IH|seen v i rs out G N F IH]; intros sz l Es El.
  - destruct l; [|discriminate]. destruct ign, dist; reflexivity.
  - destruct l as [|z l]; [discriminate|]. cbn [map fst] in El. assert (E1 : option_map VInt z = None) by congruence. destruct z; [discriminate|].
    rewrite (IH sz l Es) by congruence. subst ign. cbn [filter some_z]. destruct dist; reflexivity.
  - destruct l as [|z l]; [discriminate|]. cbn [map fst] in El. assert (E1 : v = option_map VInt z) by congruence. subst v.
    rewrite (IH sz l Es) by congruence. subst dist seen. apply InIff in I. cbv zeta. cbn [filter].
    destruct ign; [destruct (some_z z) eqn:Z|]; try reflexivity; cbn [firsts]; destruct (in_dec _ z sz); congruence.
  - destruct l as [|z l]; [discriminate|]. cbn [map fst] in El. assert (E1 : v = option_map VInt z) by congruence. subst v.
    cbn [map fst]. rewrite (IH (z :: sz) l) by (cbn [map]; congruence). cbv zeta.
    assert (Zs : (if ign then filter some_z (z :: l) else z :: l) = z :: (if ign then filter some_z l else l)).
    { destruct ign; [|reflexivity]. cbn [filter]. destruct z; [reflexivity|]. exfalso. now apply G. }
    rewrite Zs. destruct dist; [|reflexivity]. cbn [firsts]. destruct (in_dec _ z sz) as [I|I]; [|reflexivity].
    exfalso. apply (N eq_refl). subst seen. now apply InIff.
Qed.

Definition the_opt (dist ign : bool) (lim : option Z) : aopt := {| a_distinct := dist; a_ignore := ign; a_limit := lim; a_order := [] |}.
Definition the_items (dist ign : bool) (lim : option Z) : list item :=
  ((if dist then [IDistinct] else []) ++ limit_item lim ++ (if ign then [IIgnore] else []))%list.
Lemma items_opt dist ign lim : fold_left AggModel.set_item (map reread (the_items dist ign lim)) no_opt = the_opt dist ign lim.
Proof. destruct dist, ign, lim; reflexivity. Qed.
Definition fed (dist ign : bool) (lim : option Z) (l : list (option Z)) : list (option val * list item) :=
  map (fun v => (option_map VInt v, the_items dist ign lim)) l.
Lemma array_steps_fed dist ign lim : forall l s,
  steps_with agg_array_agg s (fed dist ign lim l) =
  if forallb some_z l then Ok {| c_vals := c_vals s ++ map (fun v => {| o_keys := []; o_val := match v with Some z => VInt z | None => VInt 0 end |}) l;
                                 c_opt := match c_opt s, l with Some p, _ => Some p | None, [] => None | None, _ :: _ => Some (the_opt dist ign lim) end |}
  else Err.
Proof.
  induction l as [|[z|] l IH]; intros s.
  - cbn. rewrite app_nil_r. now destruct s as [cv [p|]].
  - cbn [fed map steps_with forallb some_z andb]. fold (fed dist ign lim l). rewrite items_opt. cbn [option_map step agg_array_agg array_agg_step arg0 bind]. rewrite IH.
    destruct (forallb some_z l); [|reflexivity]. unfold collect. cbn [c_vals c_opt the_opt a_order]. rewrite <- app_assoc. cbn [app]. do 2 f_equal. destruct (c_opt s); reflexivity.
  - reflexivity.
Qed.
Lemma count_steps_fed dist ign lim : forall l s, zlen l + (match s with Some n => n | None => 0 end) < two63 -> 0 <= (match s with Some n => n | None => 0 end) ->
  exists s', steps_with agg_count s (fed dist ign lim l) = Ok s' /\
    (match s' with Some n => n | None => 0 end) = (match s with Some n => n | None => 0 end) + zlen (filter some_z l).
Proof.
  induction l as [|[z|] l IH]; intros s L P.
  - exists s. split; [reflexivity|]. cbn. unfold zlen. cbn. lia.
  - cbn [fed map steps_with]. fold (fed dist ign lim l). rewrite items_opt. cbn [option_map step agg_count]. unfold unary. cbn [arg0 bind].
    unfold zlen in *. cbn [List.length] in L.
    assert (W : match s with None => Some 1 | Some n => Some (wrap64 (n + 1)) end = Some ((match s with Some n => n | None => 0 end) + 1)).
    { destruct s as [n|]; [|reflexivity]. rewrite GoBaseFacts.wrap64_id; [reflexivity|]. unfold in64, two63 in *. lia. }
    rewrite W. destruct (IH (Some ((match s with Some n => n | None => 0 end) + 1))) as (s' & E & Q); [lia|lia|].
    exists s'. split; [exact E|]. rewrite Q. cbn [filter some_z List.length]. lia.
  - cbn [fed map steps_with]. fold (fed dist ign lim l). rewrite items_opt. cbn [option_map step agg_count]. unfold unary. cbn [arg0 bind].
    unfold zlen in *. cbn [List.length] in L. destruct (IH s) as (s' & E & Q); [lia|lia|]. exists s'. split; [exact E|]. cbn [filter some_z]. exact Q.
Qed.
Lemma firsts_length : forall l seen, (List.length (firsts seen l) <= List.length l)%nat.
Proof. induction l as [|v l IH]; intros seen; [reflexivity|]. cbn [firsts]. destruct (in_dec _ v seen); cbn [List.length]; [specialize (IH seen)|specialize (IH (v :: seen))]; lia. Qed.
Lemma filter_le {A} (f : A -> bool) l : (List.length (filter f l) <= List.length l)%nat.
Proof. induction l as [|x l IH]; [reflexivity|]. cbn [filter List.length]. destruct (f x); cbn [List.length]; lia. Qed.
Lemma seen_length dist ign l : zlen (seen_by dist ign l) <= zlen l.
Proof.
  unfold seen_by, zlen. apply Nat2Z.inj_le. cbv zeta. destruct ign, dist; try lia; try apply filter_le; try apply firsts_length.
  etransitivity; [apply firsts_length|apply filter_le].
Qed.
(** What an aggregate over INT64 values is called for *)
Lemma fed_rows other loose a dist ign lim vs r : Forall in64 (nonnull vs) ->
  (AggModel.call (val_text other) loose a (rows_with (fed dist ign lim vs)) r <-> result_with a (fed dist ign lim (seen_by dist ign vs)) r).
Proof.
  intros F.
  assert (Hi : forall v is, In (v, is) (fed dist ign lim vs) -> asks_distinct is = dist /\ asks_ignore is = ign /\ forall x, v = Some x -> exists z, x = VInt z /\ in64 z).
  { intros v is I. unfold fed in I. apply in_map_iff in I. destruct I as (w & E & I).
    assert (E1 : v = option_map VInt w) by congruence. assert (E2 : is = the_items dist ign lim) by congruence. subst v is.
    split; [destruct dist, ign, lim; reflexivity|]. split; [destruct dist, ign, lim; reflexivity|].
    intros x X. destruct w as [z|]; [|discriminate]. exists z. split; [cbn in X; congruence|].
    eapply Forall_forall; [exact F|]. clear -I. induction vs as [|[y|] vs IH]; [destruct I| |]; cbn [nonnull]; destruct I as [I|I]; try discriminate; auto; [left; congruence|right; auto]. }
  destruct (c71_ints other loose a dist ign (fed dist ign lim vs) r Hi) as (out & Fd & E). rewrite E.
  assert (M : map fst out = map (option_map VInt) (seen_by dist ign vs)).
  { apply (feeds_seen dist ign [] (fed dist ign lim vs) out Fd [] vs eq_refl). unfold fed. rewrite map_map. reflexivity. }
  assert (O : Forall (fun p => snd p = the_items dist ign lim) out).
  { apply Forall_forall. intros p I. destruct (feeds_spec _ _ _ _ _ _ Fd) as (_ & _ & A3 & _). apply A3 in I. unfold fed in I. apply in_map_iff in I. destruct I as (w & <- & _). reflexivity. }
  assert (X : out = fed dist ign lim (seen_by dist ign vs)).
  { clear -M O. revert M. generalize (seen_by dist ign vs). induction out as [|[v i] out IH]; intros [|w l] M; try discriminate; [reflexivity|].
    inversion O as [|? ? Oi Oo]; subst. cbn [map fst snd] in *. cbn [fed map]. fold (fed dist ign lim l). rewrite Oi. f_equal; [congruence|]. apply IH; [exact Oo|congruence]. }
  now rewrite X.
Qed.

(** ** Windows of two rows *)
Lemma sort_two sort x y : sort_slice sort -> sort wless [x; y] = if wless y x then [y; x] else [x; y].
Proof.
  intros (G & _). destruct (G [x; y]) as (_ & _ & I). rewrite I by (cbn; lia). unfold insertion. cbn [fold_left ins]. destruct (wless y x); reflexivity.
Qed.

(** ** Texts *)
Lemma text_cmp s t : let z := collate (VStr s) (VStr t) in (z = 0 <-> s = t) /\ (z < 0 <-> bytes_compare s t = Lt).
Proof.
  cbv zeta. unfold collate, cmp. cbn [cmp_sw scalar_op].
  pose proof (bytes_compare_eq s t) as E. pose proof (bytes_compare_refl s) as R.
  cbn. destruct (bytes_compare s t) eqn:C; cbn; repeat split; intros H; try lia; try discriminate; auto; subst; congruence.
Qed.
