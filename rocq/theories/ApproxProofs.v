(** Lemmas for ApproxProps. *)
From Coq Require Import Ascii String List ZArith QArith Lia Bool Permutation Sorting.Sorted SpecFloat.
From Verif Require Import GoBase GoBaseFacts ValueModel ValueFacts CastModel CodecModel DecModel DecFacts CompareSpec CompareProofs AggModel AggSpec AggProofs ApproxModel ApproxSpec.
Import ListNotations.
Local Open Scope string_scope.
Open Scope Z_scope.

Section Calls.
  Variable text : val -> res string.
  Variable loose : string -> option item.

  Lemma parse_plain : forall is r vs o, (forall v, In (Some v) r -> ordinary text v) ->
    parse_args text loose (map AVal r ++ map AOpt is) vs o = ((vs ++ r)%list, fold_left set_item (map reread is) o).
  Proof.
    intros is. induction r as [|x r IH]; intros vs o O.
    - rewrite app_nil_r. cbn [map app]. revert o. induction is as [|i is IH]; intros o; [reflexivity|]. cbn [map parse_args fold_left]. apply IH.
    - assert (G : parse_args text loose (map AVal r ++ map AOpt is) (vs ++ [x])%list o = ((vs ++ x :: r)%list, fold_left set_item (map reread is) o)).
      { rewrite IH by (intros v I; apply O; now right). now rewrite <- app_assoc. }
      cbn [map app parse_args]. destruct x as [v|]; [|exact G].
      destruct (text v) as [t| |] eqn:T; [|exact G|exact G].
      unfold option_of. rewrite (O v ltac:(now left) t T). exact G.
  Qed.
  Lemma outer_rows : forall a l d s, plain text l ->
    outer_steps text loose a (d, s) (rows l) = bind (fold_res (fun s r => step a s r no_opt) s l) (fun s' => Ok (d, s')).
  Proof.
    intros a. induction l as [|r l IH]; intros d s P; [reflexivity|].
    cbn [rows map outer_steps fold_res]. unfold outer_step.
    pose proof (parse_plain [] r [] no_opt (fun v I => P r v ltac:(now left) I)) as Q. cbn [map fold_left] in Q. rewrite app_nil_r in Q. rewrite Q. cbn [app].
    cbn [admit_row a_ignore a_distinct no_opt andb bind fst snd].
    change (a_ignore no_opt && _) with false. cbn iota. cbn [bind].
    destruct (step a s r no_opt) as [s'| |]; cbn [bind]; try reflexivity. apply IH. intros r' v I. apply P. now right.
  Qed.
  Lemma call_rows : forall a l r, plain text l ->
    (call text loose a (rows l) r <-> finish a (fold_res (fun s r => step a s r no_opt) (init a) l) r).
  Proof.
    intros a l r P. unfold call. rewrite outer_rows by exact P. destruct (fold_res _ _ _); cbn [bind finish]; reflexivity.
  Qed.
End Calls.

(** ** Statistics *)
Lemma to_float_num : forall n, to_float (num_val n) = Ok (num_float n).
Proof. now intros []. Qed.
Lemma one_fold : forall l s, fold_res (fun s v => bind (to_float v) (fun f => Ok (s ++ [f])%list)) s (map num_val l) = Ok (s ++ map num_float l)%list.
Proof.
  induction l as [|n l IH]; intros s; cbn [map fold_res]; [now rewrite app_nil_r|].
  rewrite to_float_num. cbn [bind]. rewrite IH, <- app_assoc. reflexivity.
Qed.
Lemma pair_fold : forall l s, fold_res (fun s r => pair_step s r no_opt) s (map pair_row l) = Ok (s ++ map pair_float (both l))%list.
Proof.
  induction l as [|[[a|] [b|]] l IH]; intros s; cbn [map fold_res both pair_row pair_step fst snd option_map]; [now rewrite app_nil_r| | | |]; try (cbn [bind]; apply IH).
  rewrite !to_float_num. cbn [bind]. rewrite IH, <- app_assoc. reflexivity.
Qed.

(** ** Distinct texts *)
Lemma existsb_str : forall t s, existsb (String.eqb t) s = true <-> In t s.
Proof.
  intros t s. rewrite existsb_exists. split; [intros (x & I & E); apply String.eqb_eq in E; now subst|]. intros I. exists t. split; [exact I|apply String.eqb_refl].
Qed.
Lemma distinct_fold : forall (text : val -> res string) l ts s, Forall2 (fun v t => text v = Ok t) l ts -> NoDup s ->
  exists s', fold_res (fun s v => bind (text v) (fun t => Ok (if existsb (String.eqb t) s then s else t :: s))) s l = Ok s' /\
    NoDup s' /\ forall x, In x s' <-> In x ts \/ In x s.
Proof.
  intros text l ts s F. revert s. induction F as [|v t l ts E F IH]; intros s D; cbn [fold_res].
  - exists s. split; [reflexivity|]. split; [exact D|]. intros x. cbn. tauto.
  - rewrite E. cbn [bind]. destruct (existsb (String.eqb t) s) eqn:X.
    + apply existsb_str in X. destruct (IH s D) as (s' & R & D' & M). exists s'. split; [exact R|]. split; [exact D'|]. intros x. rewrite M. cbn [In].
      split; [tauto|]. intros [[<-|I]|I]; auto.
    + destruct (IH (t :: s)) as (s' & R & D' & M). { constructor; [|exact D]. intros I. apply existsb_str in I. congruence. }
      exists s'. split; [exact R|]. split; [exact D'|]. intros x. rewrite M. cbn [In]. tauto.
Qed.

(** ** Quantiles *)
Lemma quant_fold : forall n l s, fold_res (fun s r => quant_step s r no_opt) s (map (top_row n) l) =
  Ok {| q_num := match l with [] => q_num s | _ => keep_first (q_num s) n end; q_vals := (q_vals s ++ l)%list |}.
Proof.
  induction l as [|v l IH]; intros s; cbn [map fold_res].
  - rewrite app_nil_r. now destruct s.
  - cbn [quant_step top_row to_int bind]. rewrite IH. cbn [q_num q_vals]. rewrite <- app_assoc. cbn [app]. f_equal. f_equal. destruct l; [reflexivity|]. now destruct (q_num s).
Qed.
Lemma index_in : forall A (l : list A) k x, index l k = Ok x -> In x l.
Proof.
  unfold index. intros A l k x H. destruct (k <? 0); [discriminate|]. destruct (nth_error l (Z.to_nat k)) eqn:E; [|discriminate].
  apply nth_error_In in E. congruence.
Qed.
Lemma pick_in : forall vs i x, quant_pick vs i = Ok x -> In x vs.
Proof.
  unfold quant_pick. intros vs i x H. set (p := if flt _ _ then _ else _) in H. destruct (0 <? p); eapply index_in; eassumption.
Qed.
Lemma loop_in : forall vs ratio i r, quant_loop vs ratio i r -> match r with Ok l => forall x, In x l -> In x vs | Err => False | GoPanic => True end.
Proof.
  intros vs ratio i r H. induction H as [i E|i q r E P L IH|i E P]; [intros x []| |exact I].
  destruct r as [l| |]; cbn [bind]; auto. intros x [<-|X]; [now apply pick_in in P|now apply IH].
Qed.
Lemma loop_first : forall v l ratio r, quant_loop (v :: l) ratio fzero (Ok r) -> exists t, r = v :: t.
Proof.
  intros v l ratio r H. inversion H as [i E|i q r' E P L Eq|]; subst.
  - discriminate E.
  - assert (Z0 : fdiv fzero hundred = S754_zero false) by reflexivity.
    unfold quant_pick in P. rewrite Z0 in P.
    destruct (float_of_int (zlen (v :: l))) as [s|s| |s m e] eqn:F; [| | |].
    1, 4: change (fmul _ _) with (S754_zero s) in P || (unfold fmul in P; cbn [SFmul] in P); cbn in P; destruct r' as [t| |]; cbn [bind] in *; try discriminate; exists t; congruence.
    + exfalso. revert P. unfold fmul. cbn [SFmul]. change (int_of_float S754_nan) with (- two63). cbv [flt]. destruct (SFcompare (float_of_int (- two63)) S754_nan) as [[| |]|] eqn:C; try discriminate C; discriminate.
    + exfalso. revert P. unfold fmul. cbn [SFmul]. change (int_of_float S754_nan) with (- two63). cbv [flt]. destruct (SFcompare (float_of_int (- two63)) S754_nan) as [[| |]|] eqn:C; try discriminate C; discriminate.
Qed.
(** How often the loop runs does not depend on the values. *)
Fixpoint rounds (fuel : nat) (i ratio : float) : option nat :=
  match fuel with
  | O => None
  | S k => if flt i hundred then option_map S (rounds k (fadd i ratio) ratio) else Some O
  end.
Lemma loop_rounds : forall vs ratio i r, quant_loop vs ratio i r -> forall l, r = Ok l -> forall fuel n, rounds fuel i ratio = Some n -> List.length l = n.
Proof.
  intros vs ratio i r H. induction H as [i E|i q r E P L IH|i E P]; intros l El [|k] n R; try discriminate.
  - cbn [rounds] in R. rewrite E in R. assert (l = []) by congruence. assert (n = O) by congruence. now subst.
  - cbn [rounds] in R. rewrite E in R. destruct r as [t| |]; try discriminate. cbn [bind] in El. assert (l = q :: t) by congruence. subst.
    destruct (rounds k (fadd i ratio) ratio) as [m|] eqn:M; [|discriminate]. cbn [option_map] in R. assert (n = S m) by congruence. subst. cbn [List.length]. f_equal. now apply (IH t eq_refl k).
Qed.

(** ** The map of APPROX_TOP_COUNT and APPROX_TOP_SUM *)
Lemma go_eq_simple : forall a b, simple a -> (go_eq a b = true <-> a = b).
Proof.
  intros [[]|] [[]|] H; cbn in H |- *; try tauto; rewrite ?Z.eqb_eq, ?String.eqb_eq, ?Bool.eqb_true_iff; (split; [try congruence|try congruence]); try discriminate.
  all: intros; congruence.
Qed.
Lemma simple_hash : forall v, simple v -> unhashable v = false.
Proof. now intros [[]|]. Qed.

Section Weights.
  Context {W : Type}.
  Implicit Types (l : list (option val * W)).
  Lemma weights_snoc_here : forall v l ws w, weights v l ws -> weights v (l ++ [(v, w)])%list (ws ++ [w])%list.
  Proof. intros v l ws w H. induction H; cbn [app]; [repeat constructor|now constructor|now constructor]. Qed.
  Lemma weights_snoc_other : forall v l ws x w, x <> v -> weights v l ws -> weights v (l ++ [(x, w)])%list ws.
  Proof. intros v l ws x w N H. induction H; cbn [app]; [now repeat constructor|now constructor|now constructor]. Qed.
  Lemma weights_none : forall v l, ~ In v (map fst l) -> weights v l [].
  Proof. intros v. induction l as [|[x w] l IH]; intros N; constructor; cbn in N; [intros ->; tauto|apply IH; tauto]. Qed.
  Lemma weights_fun : forall v l ws ws', weights v l ws -> weights v l ws' -> ws = ws'.
  Proof.
    intros v l ws ws' H. revert ws'. induction H as [|w l ws H IH|x w l ws N H IH]; intros ws' K; inversion K; subst; try congruence; try tauto.
    - f_equal. now apply IH.
    - now apply IH.
  Qed.
  Lemma weights_length : forall v l ws, weights v l ws -> zlen ws <= zlen l.
  Proof. intros v l ws H. unfold zlen. induction H; cbn [List.length] in *; lia. Qed.
  Lemma weights_some : forall v l ws, weights v l ws -> In v (map fst l) -> ws <> [].
  Proof. intros v l ws H. induction H as [|w l ws H IH|x w l ws N H IH]; cbn; intros I; [destruct I|discriminate|]. destruct I as [E|I]; [congruence|auto]. Qed.
  Lemma weights_incl : forall v l ws, weights v l ws -> forall w, In w ws -> In (v, w) l.
  Proof. intros v l ws H. induction H as [|w l ws H IH|x w l ws N H IH]; intros u I; [destruct I| |right; auto]. destruct I as [->|I]; [now left|right; auto]. Qed.
End Weights.

Section Best.
  Context {S : Type}.
  Lemma best_ext : forall ds (score score' : option val -> S -> Prop) ge n out,
    (forall v s, In v ds -> (score v s <-> score' v s)) -> best ds score ge n out -> best ds score' ge n out.
  Proof.
    intros ds score score' ge n out E (L & D & I & O & M). split; [exact L|]. split; [exact D|]. split.
    - intros v s X. destruct (I v s X) as (A & B). split; [exact A|]. now apply E.
    - split; [exact O|]. intros v s w t X Y N T. apply (M v s w t); auto. now apply E.
  Qed.
End Best.

Lemma insertion_sorted_id : forall A (lt : A -> A -> bool) l, sorted_by lt l -> insertion lt l = l.
Proof.
  intros A lt l H. unfold insertion.
  assert (G : forall k p, StronglySorted (fun a b => lt b a = false) (rev p ++ k) -> fold_left (fun p x => ins lt x p) k p = (rev k ++ p)%list).
  { induction k as [|x k IH]; intros p Q; [reflexivity|]. cbn [fold_left rev].
    assert (E : ins lt x p = x :: p).
    { destruct p as [|y q]; [reflexivity|]. cbn [ins]. cbn [rev] in Q. rewrite <- app_assoc in Q. cbn [app] in Q.
      assert (R : lt x y = false).
      { clear -Q. induction (rev q) as [|z t IHt]; cbn [app] in Q; [|inversion Q; auto]. inversion Q as [|? ? _ F]; subst. now inversion F. }
      now rewrite R. }
    rewrite E, IH, <- app_assoc; [reflexivity|]. cbn [rev]. now rewrite <- app_assoc. }
  rewrite G by exact H. now rewrite app_nil_r, rev_involutive.
Qed.

Section Top.
  Context {W S : Type}.
  Variable enc : S -> option val.
  Variable start : W -> S.
  Variable up : W -> S -> S.
  Variable f : W -> option val -> res (option val).
  Hypothesis f_ok : forall w s, f w (enc s) = Ok (enc (up w s)).

  Definition encm (m : list (option val * S)) : list entry := map (fun e => (fst e, enc (snd e))) m.
  Fixpoint upd (k : option val) (w : W) (m : list (option val * S)) : list (option val * S) :=
    match m with
    | [] => []
    | (v, s) :: r => if go_eq v k then (v, up w s) :: r else (v, s) :: upd k w r
    end.
  Lemma change_upd : forall k w m, change k (f w) (encm m) =
    if existsb (fun e => go_eq (fst e) k) m then Some (Ok (encm (upd k w m))) else None.
  Proof.
    induction m as [|[v s] m IH]; [reflexivity|]. cbn [encm map change existsb upd fst snd]. destruct (go_eq v k); cbn [orb].
    - rewrite f_ok. reflexivity.
    - change (map _ m) with (encm m). rewrite IH. destruct (existsb _ m); reflexivity.
  Qed.
  Definition putm (m : list (option val * S)) (r : option val * W) : list (option val * S) :=
    if existsb (fun e => go_eq (fst e) (fst r)) m then upd (fst r) (snd r) m else (m ++ [(fst r, start (snd r))])%list.
  Lemma put_putm : forall k w m n n0, unhashable k = false ->
    put k (f w) (enc (start w)) {| t_num := n0; t_map := encm m |} n = Ok {| t_num := keep_first n0 n; t_map := encm (putm m (k, w)) |}.
  Proof.
    intros k w m n n0 U. unfold put. rewrite U. cbn [t_map t_num]. rewrite change_upd. unfold putm. cbn [fst snd].
    destruct (existsb _ m); cbn [bind]; [reflexivity|]. unfold encm. now rewrite map_app.
  Qed.

  Definition scored (ws : list W) : option S := match ws with [] => None | w :: ws => Some (fold_left (fun s w => up w s) ws (start w)) end.
  Lemma scored_snoc : forall ws w, scored (ws ++ [w])%list = Some (match scored ws with None => start w | Some s => up w s end).
  Proof. intros [|v ws] w; [reflexivity|]. cbn [app scored]. now rewrite fold_left_app. Qed.
  Definition score (l : list (option val * W)) (v : option val) (s : S) : Prop := exists ws, weights v l ws /\ scored ws = Some s.
  Lemma score_fun : forall l v s t, score l v s -> score l v t -> s = t.
  Proof. intros l v s t (ws & H & E) (ws' & H' & E'). rewrite (weights_fun v l ws ws' H H') in E. congruence. Qed.

  Definition good (l : list (option val * W)) (m : list (option val * S)) : Prop :=
    NoDup (map fst m) /\ (forall v, In v (map fst m) <-> In v (map fst l)) /\ forall v s, In (v, s) m -> score l v s.
  Lemma upd_keys : forall k w m, map fst (upd k w m) = map fst m.
  Proof. induction m as [|[v s] m IH]; [reflexivity|]. cbn [upd]. destruct (go_eq v k); cbn [map fst]; [reflexivity|]. now rewrite IH. Qed.
  Lemma upd_in : forall k w m, (forall v, In v (map fst m) -> simple v) -> NoDup (map fst m) ->
    forall v s, In (v, s) (upd k w m) -> (v = k /\ exists s0, In (v, s0) m /\ s = up w s0) \/ (v <> k /\ In (v, s) m).
  Proof.
    intros k w. induction m as [|[x t] m IH]; intros A D v s I; [destruct I|]. cbn [upd] in I. cbn [map fst] in D. inversion D as [|? ? N D']; subst.
    destruct (go_eq x k) eqn:E.
    - apply go_eq_simple in E; [|apply A; now left]. subst. destruct I as [I|I].
      + left. assert (v = k) by congruence. split; [assumption|]. exists t. split; [left; congruence|congruence].
      + right. split; [|now right]. intros ->. apply N. apply (in_map fst) in I. exact I.
    - destruct I as [I|I].
      + right. assert (v = x) by congruence. subst. split; [|left; exact I]. intros ->. rewrite (proj2 (go_eq_simple k k ltac:(apply A; now left)) eq_refl) in E. discriminate.
      + destruct (IH ltac:(intros y Y; apply A; now right) D' v s I) as [(-> & s0 & J & ->)|(X & J)]; [left; split; [reflexivity|]; exists s0; split; [now right|reflexivity]|right; split; [exact X|now right]].
  Qed.
  Lemma has_key : forall k (m : list (option val * S)), (forall v, In v (map fst m) -> simple v) ->
    (existsb (fun e => go_eq (fst e) k) m = true <-> In k (map fst m)).
  Proof.
    intros k m A. rewrite existsb_exists, in_map_iff. split.
    - intros (e & I & E). apply go_eq_simple in E; [|apply A, in_map, I]. now exists e.
    - intros (e & E & I). exists e. split; [exact I|]. apply go_eq_simple; [apply A, in_map, I|exact E].
  Qed.
  Lemma good_put : forall l m k w, (forall v, In v (map fst l) -> simple v) -> simple k -> good l m -> good (l ++ [(k, w)])%list (putm m (k, w)).
  Proof.
    intros l m k w A K (D & I & G).
    assert (A' : forall v, In v (map fst m) -> simple v) by (intros v X; apply A, I, X).
    unfold putm. cbn [fst snd]. destruct (existsb (fun e => go_eq (fst e) k) m) eqn:X.
    - apply has_key in X; [|exact A']. split; [now rewrite upd_keys|]. split.
      + intros v. rewrite upd_keys, I, map_app, in_app_iff. cbn. split; [tauto|]. intros [Y|[<-|[]]]; [exact Y|now apply I].
      + intros v s Y. apply upd_in in Y; [|exact A'|exact D]. destruct Y as [(-> & s0 & J & ->)|(N & J)].
        * destruct (G _ _ J) as (ws & Hw & E). exists (ws ++ [w])%list. split; [now apply weights_snoc_here|]. now rewrite scored_snoc, E.
        * destruct (G _ _ J) as (ws & Hw & E). exists ws. split; [|exact E]. apply weights_snoc_other; [congruence|exact Hw].
    - assert (X' : ~ In k (map fst m)) by (rewrite <- has_key by exact A'; congruence). split; [|split].
      + rewrite map_app. cbn [map fst]. apply (Permutation_NoDup (l := k :: map fst m)); [apply Permutation_cons_append|now constructor].
      + intros v. rewrite !map_app, !in_app_iff, I. tauto.
      + intros v s Y. apply in_app_or in Y. destruct Y as [Y|[Y|[]]].
        * destruct (G _ _ Y) as (ws & Hw & E). exists ws. split; [|exact E]. apply weights_snoc_other; [|exact Hw]. intros ->. apply X'. apply (in_map fst) in Y. exact Y.
        * assert (v = k) by congruence. assert (s = start w) by congruence. subst. exists [w]. split; [|reflexivity].
          change [w] with ([] ++ [w])%list. apply weights_snoc_here, weights_none. intros Y'. apply X', I, Y'.
  Qed.
  Lemma good_fold : forall k l m, (forall v, In v (map fst (l ++ k)) -> simple v) -> good l m -> good (l ++ k)%list (fold_left putm k m).
  Proof.
    induction k as [|[x w] k IH]; intros l m A G; cbn [fold_left]; [now rewrite app_nil_r|].
    change ((x, w) :: k) with ([(x, w)] ++ k)%list in *. rewrite app_assoc in *. apply IH; [exact A|]. apply good_put; [|apply A|exact G].
    - intros v I. apply A. rewrite !map_app, !in_app_iff. tauto.
    - rewrite !map_app, !in_app_iff. left. right. now left.
  Qed.

  Variable ge : S -> S -> Prop.
  Hypothesis ge_total : forall a b, ge a b \/ ge b a.
  Hypothesis ge_trans : forall a b c, ge a b -> ge b c -> ge a c.
  Hypothesis more_ge : forall k a j b, more (k, enc a) (j, enc b) = false <-> ge b a.

  Lemma more_order : forall m, weak_order more (encm m).
  Proof.
    assert (T : forall k a j b, more (k, enc a) (j, enc b) = true -> ge a b).
    { intros k a j b H. destruct (ge_total a b) as [G|G]; [exact G|]. apply (more_ge k a j b) in G. congruence. }
    intros m. unfold encm. split; [|split].
    - intros x I. apply in_map_iff in I. destruct I as (e & <- & _). apply more_ge. destruct (ge_total (snd e) (snd e)); assumption.
    - intros x y z I J K. apply in_map_iff in I, J, K. destruct I as (a & <- & _), J as (b & <- & _), K as (c & <- & _). intros P Q.
      destruct (more (fst a, enc (snd a)) (fst c, enc (snd c))) eqn:R; [reflexivity|]. apply more_ge in R. pose proof (T _ _ _ _ Q) as Q'.
      assert (more (fst a, enc (snd a)) (fst b, enc (snd b)) = false) by (apply more_ge; eauto). congruence.
    - intros x y z I J K. apply in_map_iff in I, J, K. destruct I as (a & <- & _), J as (b & <- & _), K as (c & <- & _).
      rewrite !more_ge. eauto.
  Qed.
  Lemma sorted_enc : forall m, sorted_by more (encm m) <-> StronglySorted (fun a b => ge (snd a) (snd b)) m.
  Proof.
    unfold sorted_by. induction m as [|e m IH]; [split; constructor|]. cbn [encm map]. split; intros H; inversion H as [|? ? H1 H2]; subst; constructor; try (now apply IH); rewrite Forall_forall in *.
    - intros x I. apply (more_ge (fst x) (snd x) (fst e) (snd e)). apply H2. unfold encm. apply in_map_iff. now exists x.
    - intros x I. apply in_map_iff in I. destruct I as (y & <- & I). apply more_ge. now apply H2.
  Qed.
  Lemma sorted_app : forall A (R : A -> A -> Prop) a b, StronglySorted R (a ++ b)%list <->
    StronglySorted R a /\ StronglySorted R b /\ forall x y, In x a -> In y b -> R x y.
  Proof.
    intros A R. induction a as [|x a IH]; intros b; cbn [app].
    - split; [intros H; split; [constructor|split; [exact H|intros ? ? []]]|tauto].
    - split.
      + intros H. inversion H as [|? ? H1 H2]; subst. apply IH in H1. destruct H1 as (P & Q & M). rewrite Forall_forall in H2. split; [constructor; [exact P|]|split; [exact Q|]].
        * rewrite Forall_forall. intros y I. apply H2, in_or_app. now left.
        * intros u y [<-|I] J; [apply H2, in_or_app; now right|now apply M].
      + intros (P & Q & M). inversion P as [|? ? P1 P2]; subst. constructor; [apply IH; split; [exact P1|split; [exact Q|intros u y I J; apply M; [now right|exact J]]]|].
        rewrite Forall_forall in *. intros y I. apply in_app_or in I. destruct I as [I|I]; [now apply P2|apply M; [now left|exact I]].
  Qed.
  Lemma nodup_app : forall A (a b : list A), NoDup a -> NoDup b -> (forall x, In x a -> ~ In x b) -> NoDup (a ++ b).
  Proof.
    intros A. induction a as [|x a IH]; intros b Na Nb H; cbn [app]; [exact Nb|]. inversion Na as [|? ? N1 N2]; subst. constructor.
    - intros X. apply in_app_or in X. destruct X as [X|X]; [tauto|]. apply (H x); [now left|exact X].
    - apply IH; auto. intros y Y. apply H. now right.
  Qed.
  Lemma fst_unique : forall (m : list (option val * S)) v s t, NoDup (map fst m) -> In (v, s) m -> In (v, t) m -> s = t.
  Proof.
    induction m as [|[x u] m IH]; intros v s t D I J; [destruct I|]. cbn [map fst] in D. inversion D as [|? ? N D']; subst.
    destruct I as [I|I], J as [J|J]; try congruence.
    - exfalso. apply N. assert (x = v) by congruence. subst. apply (in_map fst) in J. exact J.
    - exfalso. apply N. assert (x = v) by congruence. subst. apply (in_map fst) in I. exact I.
    - eauto.
  Qed.

  Variable name : string.
  Lemma struct_enc : forall (out : list (option val * S)), map (entry_struct name) (encm out) = map (fun e => Some (VStruct [("value", fst e); (name, enc (snd e))])) out.
  Proof. intros out. unfold encm. rewrite map_map. reflexivity. Qed.
  Lemma top_best : forall l m ds n r, (forall v, In v (map fst l) -> simple v) -> l <> [] -> good l m -> distinct (map fst l) ds -> 0 <= n <= zlen ds ->
    (top_done name {| t_num := Some n; t_map := encm m |} r <->
     exists out, best ds (score l) ge n out /\ r = Ok (top_result name enc out)).
  Proof.
    intros l m ds n r A Ln G (Dd & Id) B. pose proof G as (D & I & Sc).
    assert (Pk : Permutation (map fst m) ds) by (apply NoDup_Permutation; [exact D|exact Dd|intros v; rewrite Id; apply I]).
    assert (Ll : zlen ds = zlen m) by (unfold zlen; rewrite <- (Permutation_length Pk), map_length; reflexivity).
    assert (NE : encm m <> []).
    { destruct l as [|[x w] l]; [congruence|]. destruct m; [|discriminate]. destruct (proj2 (I x) ltac:(now left)). }
    assert (Sh : top_done name {| t_num := Some n; t_map := encm m |} r <->
      exists l0 out, Permutation (encm m) l0 /\ go_sort more l0 out /\ r = Ok (Some (VArray (map (entry_struct name) (firstn (Z.to_nat n) out))))).
    { assert (Lm : zlen (encm m) = zlen m) by (unfold zlen, encm; now rewrite map_length).
      unfold top_done. cbn [t_map t_num]. destruct (encm m) as [|e em]; [congruence|]. cbv zeta iota.
      rewrite (proj2 (Z.ltb_ge (zlen (e :: em)) n)), (proj2 (Z.ltb_ge n 0)) by lia. reflexivity. }
    rewrite Sh. clear Sh. split.
    - intros (l0 & out & P & (P1 & P2 & _) & ->).
      pose proof (Permutation_trans P P1) as P'. unfold encm in P'. apply Permutation_sym, Permutation_map_inv in P'. destruct P' as (O & -> & PO).
      assert (W0 : weak_order more l0).
      { unfold encm in P. apply Permutation_sym, Permutation_map_inv in P. destruct P as (L & -> & _). apply more_order. }
      pose proof (proj1 (sorted_enc O) (P2 W0)) as SO. fold (encm O) in *.
      rewrite <- (firstn_skipn (Z.to_nat n) O) in SO. apply sorted_app in SO. destruct SO as (S1 & _ & S3).
      exists (firstn (Z.to_nat n) O). split.
      + assert (LO : List.length O = List.length m) by (symmetry; now apply Permutation_length).
        assert (NO : NoDup (map fst O)) by (eapply Permutation_NoDup; [apply Permutation_map, PO|exact D]).
        assert (Sub : forall e, In e (firstn (Z.to_nat n) O) -> In e m).
        { intros e X. apply (Permutation_in e (Permutation_sym PO)). rewrite <- (firstn_skipn (Z.to_nat n) O). apply in_or_app. now left. }
        split; [|split; [|split; [|split]]].
        * unfold zlen in *. rewrite firstn_length. lia.
        * rewrite <- (firstn_skipn (Z.to_nat n) O), map_app in NO. clear -NO. induction (map fst (firstn (Z.to_nat n) O)) as [|x t IH]; [constructor|]. cbn [app] in NO. inversion NO as [|? ? N1 N2]; subst. constructor; [intros X; apply N1, in_or_app; now left|auto].
        * intros v s X. apply Sub in X. split; [apply Id, I; apply (in_map fst) in X; exact X|now apply Sc].
        * exact S1.
        * intros v s w t X Y N T. apply Id, I in Y. apply in_map_iff in Y. destruct Y as ((w' & t') & E & Y). cbn in E. subst w'.
          assert (t' = t) by (eapply score_fun; [apply Sc, Y|exact T]). subst.
          assert (Z0 : In (w, t) O) by (now apply (Permutation_in _ PO)). rewrite <- (firstn_skipn (Z.to_nat n) O) in Z0. apply in_app_or in Z0.
          destruct Z0 as [Z0|Z0]; [exfalso; apply N; apply (in_map fst) in Z0; exact Z0|]. exact (S3 _ _ X Z0).
      + unfold top_result. rewrite <- struct_enc. unfold encm. now rewrite firstn_map.
    - intros (out & (Lo & Do & Io & So & Mo) & ->).
      set (rest0 := filter (fun e => negb (existsb (fun x => go_eq (fst x) (fst e)) out)) m).
      set (lt := fun a b : option val * S => more (fst a, enc (snd a)) (fst b, enc (snd b))).
      set (rest := insertion lt rest0).
      assert (Ao : forall v, In v (map fst out) -> simple v).
      { intros v X. apply in_map_iff in X. destruct X as ((v' & s) & E & X). cbn in E. subst. apply A, Id. now destruct (Io _ _ X). }
      assert (InR : forall e, In e rest <-> In e m /\ ~ In (fst e) (map fst out)).
      { intros e. unfold rest. rewrite <- (Permutation_in' eq_refl (insertion_perm lt rest0)). unfold rest0. rewrite filter_In, negb_true_iff, <- not_true_iff_false, has_key by exact Ao. reflexivity. }
      assert (Om : forall e, In e out -> In e m).
      { intros (v, s) X. destruct (Io _ _ X) as (Y & T). apply Id, I in Y. apply in_map_iff in Y. destruct Y as ((v' & s') & E & Y). cbn in E. subst v'.
        now rewrite (score_fun l v s s' T (Sc _ _ Y)). }
      assert (Nm : NoDup m) by (now apply (NoDup_map_inv fst)).
      assert (Pm : Permutation m (out ++ rest)).
      { apply NoDup_Permutation; [exact Nm| |].
        - assert (NR : NoDup rest). { apply (Permutation_NoDup (insertion_perm lt rest0)). apply NoDup_filter, Nm. }
          apply nodup_app; [now apply (NoDup_map_inv fst)|exact NR|]. intros e X Y. apply InR in Y. destruct Y as (_ & N). now apply N, in_map.
        - intros e. rewrite in_app_iff, InR. split.
          + intros X. destruct (existsb (fun x => go_eq (fst x) (fst e)) out) eqn:Ex.
            * apply has_key in Ex; [|exact Ao]. left. apply in_map_iff in Ex. destruct Ex as ((v & s) & E & Y). destruct e as (v', s'). cbn in E. subst v'.
              now rewrite (fst_unique m v s' s D X (Om _ Y)).
            * right. split; [exact X|]. rewrite <- has_key by exact Ao. congruence.
          + intros [X|[X _]]; auto. }
      assert (Sa : StronglySorted (fun a b => ge (snd a) (snd b)) (out ++ rest)).
      { apply sorted_app. split; [exact So|]. split.
        - assert (Wo : weak_order lt rest0).
          { destruct (more_order rest0) as (X & Y & Z0). unfold lt. split; [|split].
            - intros x Hx. apply X. unfold encm. apply in_map_iff. now exists x.
            - intros x y z Hx Hy Hz. apply Y; unfold encm; apply in_map_iff; eexists; split; try reflexivity; assumption.
            - intros x y z Hx Hy Hz. apply Z0; unfold encm; apply in_map_iff; eexists; split; try reflexivity; assumption. }
          pose proof (insertion_sorted lt rest0 Wo) as Q. fold rest in Q. unfold sorted_by in Q. clear -Q more_ge. induction Q as [|e q Q IH F]; constructor; [exact IH|].
          rewrite Forall_forall in *. intros x X. apply (more_ge (fst x) (snd x) (fst e) (snd e)). now apply F.
        - intros (v, s) (w, t) X Y. apply InR in Y. destruct Y as (Y & N). apply (Mo v s w t X); [apply Id, I; apply (in_map fst) in Y; exact Y|exact N|now apply Sc]. }
      apply sorted_enc in Sa. exists (encm (out ++ rest)), (encm (out ++ rest)). split; [unfold encm; now apply Permutation_map|]. split.
      + split; [reflexivity|]. split; [intros _; exact Sa|]. intros _. symmetry. now apply insertion_sorted_id.
      + unfold top_result. do 3 f_equal. unfold encm. rewrite map_app, firstn_app.
        assert (Hl : (Z.to_nat n = List.length (map (fun e : option val * S => (fst e, enc (snd e))) out))%nat) by (rewrite map_length; unfold zlen in Lo; lia).
        rewrite Hl, firstn_all, Nat.sub_diag. cbn [firstn]. rewrite app_nil_r. rewrite map_map. reflexivity.
  Qed.
End Top.

(** ** The two uses *)
Definition enc_count (z : Z) : option val := Some (VInt z).
Definition count_next (_ : unit) (z : Z) : Z := wrap64 (z + 1).
Definition enc_sum (s : option Z) : option val := option_map VInt s.
Definition sum_next (w : option Z) (s : option Z) : option Z :=
  match w, s with None, _ => s | Some w, None => Some w | Some w, Some t => Some (wrap64 (t + w)) end.
Definition keyed (vs : list (option val)) : list (option val * unit) := map (fun x => (x, tt)) vs.
Lemma keyed_fst : forall vs, map fst (keyed vs) = vs.
Proof. intros vs. unfold keyed. rewrite map_map. apply map_id. Qed.
Lemma count_steps : forall n vs m n0, (forall v, In v vs -> unhashable v = false) ->
  fold_res (fun s r => top_count_step s r no_opt) {| t_num := n0; t_map := encm enc_count m |} (map (top_row n) vs) =
  Ok {| t_num := match vs with [] => n0 | _ => keep_first n0 n end; t_map := encm enc_count (fold_left (putm (fun _ => 1) count_next) (keyed vs) m) |}.
Proof.
  induction vs as [|v vs IH]; intros m n0 U; [reflexivity|]. cbn [map fold_res top_row top_count_step to_int bind keyed fold_left].
  pose proof (put_putm enc_count (fun _ : unit => 1) count_next (fun _ => count_up) (fun _ _ => eq_refl) v tt m n n0 ltac:(apply U; now left)) as P. cbv beta in P. change (enc_count 1) with (Some (VInt 1)) in P. rewrite P. cbn [bind].
  rewrite IH by (intros x I; apply U; now right). do 2 f_equal. destruct vs; [reflexivity|]. now destruct n0.
Qed.
Lemma sum_steps : forall n vs m n0, (forall v, In v (map fst vs) -> unhashable v = false) ->
  fold_res (fun s r => top_sum_step s r no_opt) {| t_num := n0; t_map := encm enc_sum m |} (map (sum_row n) vs) =
  Ok {| t_num := match vs with [] => n0 | _ => keep_first n0 n end; t_map := encm enc_sum (fold_left (putm (fun w => w) sum_next) vs m) |}.
Proof.
  induction vs as [|[v w] vs IH]; intros m n0 U; [reflexivity|]. cbn [map fold_res sum_row top_sum_step to_int bind fold_left fst snd].
  assert (Fo : forall w s, (fun w => sum_up (enc_sum w)) w (enc_sum s) = Ok (enc_sum (sum_next w s))) by (now intros [w'|] [s'|]).
  change (option_map VInt w) with (enc_sum w). rewrite (put_putm enc_sum (fun w : option Z => w) sum_next (fun w => sum_up (enc_sum w)) Fo v w m n n0) by (apply U; now left). cbn [bind].
  rewrite IH by (intros x I; apply U; now right). do 2 f_equal. destruct vs; [reflexivity|]. now destruct n0.
Qed.
Lemma count_scored : forall ws, ws <> [] -> zlen ws < two63 -> scored (fun _ : unit => 1) count_next ws = Some (zlen ws).
Proof.
  intros [|w ws] N B; [congruence|]. cbn [scored]. f_equal.
  assert (G : forall ws z, 0 <= z -> z + zlen ws < two63 -> fold_left (fun s w => count_next w s) ws z = z + zlen ws).
  { clear. induction ws as [|w ws IH]; intros z Z0 B; [cbn; lia|]. rewrite zlen_cons in B. pose proof (zlen_nonneg ws). cbn [fold_left].
    unfold count_next at 2. rewrite wrap64_id by (unfold in64, two63 in *; lia). rewrite IH, zlen_cons by lia. lia. }
  rewrite zlen_cons in *. rewrite G by lia. lia.
Qed.
Lemma sum_scored : forall ws, ws <> [] -> Forall in64 (nonnull ws) -> in64 (sum_z (nonnull ws)) -> scored (fun w : option Z => w) sum_next ws = Some (total ws).
Proof.
  intros [|w ws] N F B; [congruence|]. cbn [scored]. f_equal.
  assert (G : forall ws a, fold_left (fun s w => sum_next w s) ws (Some (wrap64 a)) = Some (wrap64 (a + sum_z (nonnull ws)))).
  { clear. induction ws as [|[w|] ws IH]; intros a; cbn [fold_left sum_next nonnull sum_z fold_right]; [now rewrite Z.add_0_r| |apply IH].
    rewrite wrap64_plus, IH. do 2 f_equal. unfold sum_z. lia. }
  assert (G0 : forall ws, Forall in64 (nonnull ws) -> in64 (sum_z (nonnull ws)) -> fold_left (fun s w => sum_next w s) ws None = total ws).
  { clear -G. induction ws as [|[w|] ws IH]; intros F B; cbn [fold_left sum_next]; [reflexivity| |apply IH; assumption].
    cbn [nonnull] in *. inversion F as [|? ? F1 F2]; subst. rewrite <- (wrap64_id w F1) at 1. rewrite G. unfold total. cbn [nonnull]. f_equal. apply wrap64_id, B. }
  specialize (G0 (w :: ws) F B). cbn [fold_left] in G0. now destruct w.
Qed.
Lemma count_more : forall k a j b, more (k, enc_count a) (j, enc_count b) = false <-> Z.ge b a.
Proof. intros k a j b. unfold more, enc_count. cbn. destruct (a ?= b) eqn:C; cbn; (split; [intros H|intros H]); try discriminate; try reflexivity; first [apply Z.compare_eq in C|rewrite Z.compare_lt_iff in C|rewrite Z.compare_gt_iff in C]; lia. Qed.
Lemma sum_more : forall k a j b, more (k, enc_sum a) (j, enc_sum b) = false <-> sum_ge b a.
Proof.
  intros k [a|] j [b|]; cbn [enc_sum option_map sum_ge]; [apply count_more| | |]; cbn; (split; [try discriminate|try tauto]); tauto.
Qed.
Lemma sum_ge_total : forall a b, sum_ge a b \/ sum_ge b a.
Proof. intros [a|] [b|]; cbn; lia. Qed.
Lemma sum_ge_trans : forall a b c, sum_ge a b -> sum_ge b c -> sum_ge a c.
Proof. intros [a|] [b|] [c|]; cbn; lia || tauto. Qed.
Lemma good_nil : forall W S (st : W -> S) up, good st up [] [].
Proof. intros. split; [constructor|]. split; [tauto|]. intros v s []. Qed.
