From Coq Require Import List ZArith QArith Lia Bool.
From Verif Require Import GoBase CastModel NumericModel.
Import ListNotations.
Open Scope Z_scope.

Lemma length_put : forall h a q, length (put h a q) = length h.
Proof. induction h as [|x h IH]; intros [|a] q; cbn; auto. Qed.
Lemma get_put_same : forall h a q, (a < length h)%nat -> get (put h a q) a = q.
Proof. unfold get. induction h as [|x h IH]; intros [|a] q H; cbn in *; try lia; auto. apply IH. lia. Qed.
Lemma get_put_other : forall h a b q, a <> b -> get (put h a q) b = get h b.
Proof. unfold get. induction h as [|x h IH]; intros [|a] [|b] q H; cbn; auto; try lia. Qed.
Lemma get_app : forall h l a, (a < length h)%nat -> get (h ++ l)%list a = get h a.
Proof. intros. unfold get. now rewrite app_nth1. Qed.
Lemma get_new : forall h q, get (h ++ [q])%list (length h) = q.
Proof. intros. unfold get. rewrite app_nth2, Nat.sub_diag by lia. reflexivity. Qed.

(** ** Scalar calls *)
Fixpoint eval_pure (env : list Q) (e : nexpr) : res Q :=
  match e with
  | NCol i => Ok (nth i env 0%Q)
  | NLit q => Ok q
  | NBin o a b => bind (eval_pure env a) (fun x => bind (eval_pure env b) (fun y => apply_op o x y))
  end.
Lemma evalh_pure : forall env e h,
  match evalh env h e with
  | Ok (v, h') => eval_pure env e = Ok v /\ (length h <= length h')%nat /\ forall a, (a < length h)%nat -> get h' a = get h a
  | Err => eval_pure env e = Err
  | GoPanic => eval_pure env e = GoPanic
  end.
Proof.
  intros env e. induction e as [i|q|o a IHa b IHb]; intros h; cbn [evalh eval_pure].
  - auto.
  - auto.
  - specialize (IHa h). destruct (evalh env h a) as [[x h1]| |]; cbn [bind]; [|now rewrite IHa|now rewrite IHa].
    destruct IHa as (-> & L1 & G1). cbn [bind].
    specialize (IHb h1). destruct (evalh env h1 b) as [[y h2]| |]; cbn [bind]; [|now rewrite IHb|now rewrite IHb].
    destruct IHb as (-> & L2 & G2). cbn [bind decode]. unfold heap_op.
    rewrite get_new. rewrite get_app by (rewrite app_length; cbn; lia). rewrite get_new.
    destruct (apply_op o x y) as [r| |]; cbn [bind]; auto.
    rewrite get_put_same by (rewrite !app_length; cbn; lia). split; auto.
    rewrite length_put, !app_length. cbn. split; [lia|]. intros c Hc.
    rewrite get_put_other by lia. rewrite get_app by (rewrite app_length; cbn; lia). rewrite get_app by lia.
    rewrite G2 by lia. apply G1. lia.
Qed.

(** ** Aggregates *)
Definition fed (evs : list (nat * Q)) (i : nat) : list Q := map snd (filter (fun e => Nat.eqb (fst e) i) evs).
Definition total (l : list Q) : list Q := match l with [] => [] | x :: r => [fold_left num_add r x] end.

Lemma held_hold_same : forall s i l, held (hold s i l) i = l.
Proof.
  intros s i l. induction s as [|p s IH]; cbn.
  - unfold held. cbn. now rewrite Nat.eqb_refl.
  - destruct (Nat.eqb (fst p) i) eqn:E; unfold held; cbn.
    + now rewrite Nat.eqb_refl.
    + rewrite E. exact IH.
Qed.
Lemma held_hold_other : forall s i j l, i <> j -> held (hold s i l) j = held s j.
Proof.
  intros s i j l N. induction s as [|p s IH]; cbn.
  - unfold held. cbn. apply Nat.eqb_neq in N. now rewrite N.
  - destruct (Nat.eqb_spec (fst p) i) as [E|E]; unfold held in *; cbn.
    + apply Nat.eqb_neq in N. rewrite N. rewrite E, N. reflexivity.
    + destruct (Nat.eqb (fst p) j); auto.
Qed.
Lemma total_snoc : forall l q, l <> [] -> exists t, total l = [t] /\ total (l ++ [q]) = [num_add t q].
Proof.
  intros [|x l] q H; [contradiction|]. exists (fold_left num_add l x). split; auto.
  cbn. now rewrite fold_left_app.
Qed.
Lemma fed_snoc : forall evs i j q, fed (evs ++ [(j, q)]) i = if Nat.eqb j i then (fed evs i ++ [q])%list else fed evs i.
Proof.
  intros. unfold fed. rewrite filter_app. cbn [filter fst]. destruct (Nat.eqb j i).
  - now rewrite map_app.
  - now rewrite app_nil_r.
Qed.

Definition agg_inv (kind : nat -> akind) (evs : list (nat * Q)) (st : heap * astate) : Prop :=
  let '(h, s) := st in
  (forall i a, In a (held s i) -> (a < length h)%nat) /\
  (forall i j a, i <> j -> In a (held s i) -> In a (held s j) -> False) /\
  (forall i, map (get h) (held s i) = match kind i with ASum => total (fed evs i) | AKeep => fed evs i end).
Lemma map_get_app : forall h q l, (forall a, In a l -> (a < length h)%nat) -> map (get (h ++ [q])%list) l = map (get h) l.
Proof. intros h q l H. apply map_ext_in. intros a I. apply get_app. auto. Qed.
Lemma agg_run_inv : forall kind evs, agg_inv kind evs (agg_run kind evs).
Proof.
  intros kind evs. induction evs as [|[j q] evs IH] using rev_ind.
  - split; [intros i a []|]. split; [intros i k a _ []|]. intros i. cbn. destruct (kind i); reflexivity.
  - unfold agg_run in *. rewrite fold_left_app. cbn [fold_left].
    destruct (fold_left (agg_step kind) evs ([], [])) as [h s]. destruct IH as (B & D & V).
    cbn [agg_step decode].
    assert (FR : forall i, map (get (h ++ [q])%list) (held s i) = map (get h) (held s i)).
    { intros i. apply map_get_app. apply B. }
    assert (HL : length (h ++ [q])%list = S (length h)) by (rewrite app_length; cbn; lia).
    destruct (kind j) eqn:K; [destruct (held s j) as [|a l] eqn:Hj|].
    + (* first value of a SUM *)
      split; [|split].
      * intros i a I. rewrite HL. destruct (Nat.eq_dec j i) as [<-|N].
        -- rewrite held_hold_same in I. destruct I as [<-|[]]. lia.
        -- rewrite held_hold_other in I by assumption. apply B in I. lia.
      * intros i k a N I1 I2.
        destruct (Nat.eq_dec j i) as [<-|Ni]; [|destruct (Nat.eq_dec j k) as [<-|Nk]].
        -- rewrite held_hold_same in I1. destruct I1 as [<-|[]]. rewrite held_hold_other in I2 by assumption. apply B in I2. lia.
        -- rewrite held_hold_same in I2. destruct I2 as [<-|[]]. rewrite held_hold_other in I1 by assumption. apply B in I1. lia.
        -- rewrite held_hold_other in I1 by assumption. rewrite held_hold_other in I2 by assumption. exact (D i k a N I1 I2).
      * intros i. rewrite fed_snoc. destruct (Nat.eqb_spec j i) as [<-|N].
        -- rewrite held_hold_same, K. cbn [map]. rewrite get_new. pose proof (V j) as Vj. rewrite K, Hj in Vj. cbn in Vj.
           destruct (fed evs j) as [|x r]; [reflexivity|discriminate].
        -- rewrite held_hold_other by assumption. rewrite FR. apply V.
    + (* SUM adds to its cell *)
      pose proof (V j) as Vj. rewrite K, Hj in Vj.
      assert (Fne : fed evs j <> []) by (intros E; rewrite E in Vj; discriminate).
      destruct (total_snoc (fed evs j) q Fne) as (t & T1 & T2). rewrite T1 in Vj. cbn [map] in Vj.
      assert (l = []) as -> by (destruct l; [reflexivity|discriminate]). cbn [map] in Vj. injection Vj as Ga.
      assert (Ba : (a < length h)%nat) by (apply (B j); rewrite Hj; now left).
      split; [|split].
      * intros i b I. rewrite length_put, HL. apply B in I. lia.
      * exact D.
      * intros i. rewrite fed_snoc. destruct (Nat.eqb_spec j i) as [<-|N].
        -- rewrite Hj, K, T2. cbn [map]. rewrite get_put_same by lia. rewrite get_app by lia. rewrite get_new, Ga. reflexivity.
        -- rewrite <- V. rewrite <- FR. apply map_ext_in. intros b I. apply get_put_other. intros <-. apply (D j i a N); [rewrite Hj; now left|assumption].
    + (* the pointer is kept *)
      split; [|split].
      * intros i a I. rewrite HL. destruct (Nat.eq_dec j i) as [<-|N].
        -- rewrite held_hold_same in I. apply in_app_iff in I. destruct I as [I|[<-|[]]]; [apply B in I; lia|lia].
        -- rewrite held_hold_other in I by assumption. apply B in I. lia.
      * intros i k a N I1 I2.
        destruct (Nat.eq_dec j i) as [<-|Ni]; [|destruct (Nat.eq_dec j k) as [<-|Nk]].
        -- rewrite held_hold_same in I1. rewrite held_hold_other in I2 by assumption. apply in_app_iff in I1. destruct I1 as [I1|[<-|[]]]; [eapply D; eauto|apply B in I2; lia].
        -- rewrite held_hold_same in I2. rewrite held_hold_other in I1 by assumption. apply in_app_iff in I2. destruct I2 as [I2|[<-|[]]]; [eapply D; eauto|apply B in I1; lia].
        -- rewrite held_hold_other in I1 by assumption. rewrite held_hold_other in I2 by assumption. exact (D i k a N I1 I2).
      * intros i. rewrite fed_snoc. destruct (Nat.eqb_spec j i) as [<-|N].
        -- rewrite held_hold_same, K, map_app, FR. pose proof (V j) as Vj. rewrite K in Vj. rewrite Vj. cbn [map]. now rewrite get_new.
        -- rewrite held_hold_other by assumption. rewrite FR. apply V.
Qed.

(** ** GENERATE_ARRAY: one cell, repeated *)
Lemma num_loop_alias : forall f h cur step stop up h' l,
  num_loop f h cur step stop up = Some (h', l) -> forall a, In a l -> a = cur.
Proof.
  induction f as [|f IH]; intros h cur step stop up h' l E a I; [discriminate|]. cbn [num_loop] in E.
  destruct (if up then _ else _).
  - destruct (num_loop f _ cur step stop up) as [[h2 l2]|] eqn:E2; [|discriminate]. cbn in E. injection E as <- <-.
    destruct I as [<-|I]; auto. eapply IH; eauto.
  - injection E as <- <-. destruct I as [<-|[]]. reflexivity.
Qed.
(** ** Searching *)
Lemma last_index_from : forall (P : addr -> bool) keys best i,
  let r := fst (fold_left (fun '((best, i) : Z * Z) (a : addr) => (if P a then i else best, i + 1)) keys (best, i)) in
  (r = best /\ forall a, In a keys -> P a = false) \/
  exists j a, nth_error keys j = Some a /\ P a = true /\ r = i + Z.of_nat j.
Proof.
  intros P keys. induction keys as [|a keys IH]; intros best i r.
  - left. split; auto. intros a [].
  - unfold r. cbn [fold_left]. destruct (IH (if P a then i else best) (i + 1)) as [[E A]|(j & b & N & Pb & E)].
    + destruct (P a) eqn:Pa.
      * right. exists 0%nat, a. split; auto. split; auto. rewrite E. lia.
      * left. split; [exact E|]. intros b [<-|I]; auto.
    + right. exists (S j), b. split; auto. split; auto. rewrite E. lia.
Qed.
Lemma last_index_below : forall P keys k, (forall j a, nth_error keys j = Some a -> (k <= j)%nat -> P a = false) ->
  last_index P keys < Z.of_nat k.
Proof.
  intros P keys k H. unfold last_index. destruct (last_index_from P keys (-1) 0) as [[E _]|(j & a & N & Pa & E)]; rewrite E.
  - lia.
  - destruct (Nat.le_gt_cases k j) as [L|L]; [|lia]. rewrite (H j a N L) in Pa. discriminate.
Qed.
