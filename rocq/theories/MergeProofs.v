From Coq Require Import Ascii String List ZArith Lia Bool.
From Verif Require Import GoBase GoBaseFacts ScriptModel MergeModel MergeSpec.
Import ListNotations.
Local Open Scope list_scope.
Local Open Scope nat_scope.

Lemma sql_eq_iff a b : sql_eq a b = true <-> exists k, a = Some k /\ b = Some k.
Proof.
  destruct a as [x|], b as [y|]; cbn; split; try discriminate; try (intros [k [H1 H2]]; discriminate).
  - intros H. apply Z.eqb_eq in H. subst. now exists y.
  - intros [k [H1 H2]]. injection H1 as ->. injection H2 as ->. apply Z.eqb_refl.
Qed.

Lemma in_left_join on nb A B m :
  In m (left_join on nb A B) <->
  (exists a b, In a A /\ In b B /\ on a b = true /\ m = a ++ b) \/
  (exists a, In a A /\ (forall b, In b B -> on a b = false) /\ m = a ++ repeat None nb).
Proof.
  unfold left_join. rewrite in_concat. split.
  - intros [l [Hl Hm]]. apply in_map_iff in Hl. destruct Hl as [a [<- Ha]].
    destruct (filter (on a) B) as [|b0 bs] eqn:F.
    + right. destruct Hm as [<-|[]]. exists a. split; [assumption|]. split; [|reflexivity].
      intros b Hb. destruct (on a b) eqn:E; [|reflexivity].
      assert (In b (filter (on a) B)) by (apply filter_In; auto). rewrite F in H. contradiction.
    + left. apply in_map_iff in Hm. destruct Hm as [b [<- Hb]]. rewrite <- F in Hb.
      apply filter_In in Hb. exists a, b. tauto.
  - intros [[a [b [Ha [Hb [Hon ->]]]]]|[a [Ha [Hno ->]]]].
    + assert (Hin : In b (filter (on a) B)) by (apply filter_In; auto).
      eexists. split; [apply in_map; exact Ha|]. cbn beta.
      destruct (filter (on a) B) as [|b0 bs] eqn:F; [contradiction|]. now apply in_map.
    + eexists. split; [apply in_map; exact Ha|]. cbn beta.
      destruct (filter (on a) B) as [|b0 bs] eqn:F; [now left|].
      assert (Hin : In b0 (filter (on a) B)) by (rewrite F; now left).
      apply filter_In in Hin. destruct Hin as [H1 H2]. rewrite (Hno b0 H1) in H2. discriminate.
Qed.

Section M.
  Variable L : mlayout.
  Variables Sr Tr : list crow.

  Lemma on_iff s t : sql_eq (key (ml_i L) s) (key (ml_j L) t) = true <-> rows_match L s t.
  Proof. apply sql_eq_iff. Qed.

  Lemma in_merged m : In m (merged L Sr Tr) <->
    (exists s t, In s Sr /\ In t Tr /\ rows_match L s t /\ (m = s ++ t \/ m = t ++ s)) \/
    (exists s, In s Sr /\ ~ has_target L Tr s /\ m = s ++ repeat None (ml_q L)) \/
    (exists t, In t Tr /\ ~ has_source L Sr t /\ m = t ++ repeat None (ml_p L)).
  Proof.
    unfold merged. rewrite nodup_In, in_app_iff, !in_left_join. split.
    - intros [[[s [t [H1 [H2 [H3 ->]]]]]|[s [H1 [H2 ->]]]]|[[t [s [H1 [H2 [H3 ->]]]]]|[t [H1 [H2 ->]]]]].
      + left. exists s, t. apply on_iff in H3. tauto.
      + right. left. exists s. split; [assumption|]. split; [|reflexivity].
        intros [t [Ht Hm]]. apply on_iff in Hm. rewrite (H2 t Ht) in Hm. discriminate.
      + left. exists s, t. apply on_iff in H3. tauto.
      + right. right. exists t. split; [assumption|]. split; [|reflexivity].
        intros [s [Hs Hm]]. apply on_iff in Hm. rewrite (H2 s Hs) in Hm. discriminate.
    - intros [[s [t [H1 [H2 [H3 [->| ->]]]]]]|[[s [H1 [H2 ->]]]|[t [H1 [H2 ->]]]]].
      + left. left. exists s, t. apply on_iff in H3. tauto.
      + right. left. exists t, s. apply on_iff in H3. tauto.
      + left. right. exists s. split; [assumption|]. split; [|reflexivity].
        intros t Ht. destruct (sql_eq _ _) eqn:E; [|reflexivity]. exfalso. apply H2. exists t. split; [assumption|]. now apply on_iff.
      + right. right. exists t. split; [assumption|]. split; [|reflexivity].
        intros s Hs. destruct (sql_eq _ _) eqn:E; [|reflexivity]. exfalso. apply H2. exists s. split; [assumption|]. now apply on_iff.
  Qed.

  (** Same columns on both sides, the key at the same place. *)
  Hypothesis Hpq : ml_p L = ml_q L.
  Hypothesis Hij : ml_i L = ml_j L.
  Hypothesis Hip : ml_i L < ml_p L.
  Hypothesis HS : shaped (ml_p L) Sr.
  Hypothesis HT : shaped (ml_q L) Tr.

  Lemma src_app a b : length a = ml_p L -> m_src L (a ++ b) = key (ml_i L) a.
  Proof. intros H. unfold m_src, key. apply app_nth1. lia. Qed.
  Lemma tgt_app a b : length a = ml_p L -> m_tgt L (a ++ b) = key (ml_i L) b.
  Proof.
    intros H. unfold m_tgt, key. rewrite app_nth2 by lia. f_equal. lia.
  Qed.
  Lemma key_nulls n k : key k (repeat None n) = None.
  Proof. unfold key. revert k. induction n as [|n IH]; intros [|k]; cbn; auto. Qed.

  Lemma len_s s : In s Sr -> length s = ml_p L. Proof. apply HS. Qed.
  Lemma len_t t : In t Tr -> length t = ml_p L. Proof. intros H. rewrite Hpq. now apply HT. Qed.

  Lemma matched_iff k m :
    In m (merged L Sr Tr) -> cond_matched L k m = true ->
    exists s t, In s Sr /\ In t Tr /\ rows_match L s t /\ (m = s ++ t \/ m = t ++ s) /\
      key (ml_j L) t = k /\ key (ml_i L) s = k /\ k <> None.
  Proof.
    intros Hm Hc. unfold cond_matched in Hc. apply andb_true_iff in Hc. destruct Hc as [C1 C2].
    apply sql_eq_iff in C1. destruct C1 as [x [C1 ->]].
    apply sql_eq_iff in C2. destruct C2 as [y [C2 E]]. injection E as <-.
    apply in_merged in Hm.
    destruct Hm as [[s [t [H1 [H2 [H3 Hm]]]]]|[[s [H1 [H2 ->]]]|[t [H1 [H2 ->]]]]].
    - exists s, t. split; [assumption|]. split; [assumption|]. split; [assumption|]. split; [assumption|].
      assert (key (ml_i L) s = Some x /\ key (ml_i L) t = Some x) as [E1 E2].
      { destruct Hm as [->| ->]; rewrite src_app in C1 by auto using len_s, len_t;
          rewrite tgt_app in C2 by auto using len_s, len_t; auto. }
      rewrite <- Hij. repeat split; auto. discriminate.
    - rewrite tgt_app in C2 by auto using len_s. rewrite key_nulls in C2. discriminate.
    - rewrite tgt_app in C2 by auto using len_t. rewrite key_nulls in C2. discriminate.
  Qed.

  Lemma matched_exists t :
    In t Tr -> (existsb (cond_matched L (key (ml_j L) t)) (merged L Sr Tr) = true <-> has_source L Sr t).
  Proof.
    intros Ht. rewrite existsb_exists. split.
    - intros [m [Hm Hc]]. destruct (matched_iff _ _ Hm Hc) as [s [t0 [H1 [H2 [H3 [H4 [H5 [H6 H7]]]]]]]].
      exists s. split; [assumption|]. destruct (key (ml_j L) t) as [k|] eqn:E; [|congruence]. exists k. split; assumption.
    - intros [s [Hs Hm]]. exists (s ++ t). split.
      + apply in_merged. left. exists s, t. tauto.
      + destruct Hm as [k [E1 E2]]. unfold cond_matched. rewrite E2. rewrite src_app by now apply len_s.
        rewrite tgt_app by now apply len_s. rewrite E1, Hij, E2. cbn. now rewrite Z.eqb_refl.
  Qed.

  Lemma not_by_target_exists s :
    In s Sr -> (existsb (cond_not_by_target L (key (ml_i L) s)) (merged L Sr Tr) = true <->
      key (ml_i L) s <> None /\ ~ has_target L Tr s).
  Proof.
    intros Hs. rewrite existsb_exists. split.
    - intros [m [Hm Hc]]. unfold cond_not_by_target in Hc. apply andb_true_iff in Hc. destruct Hc as [C1 C2].
      apply sql_eq_iff in C1. destruct C1 as [x [C1 E]]. split; [congruence|].
      intros [t [Ht [y [E1 E2]]]]. assert (y = x) as -> by congruence. clear E1.
      apply in_merged in Hm.
      destruct Hm as [[s0 [t0 [H1 [H2 [[z [Z1 Z2]] Hm]]]]]|[[s0 [H1 [H2 ->]]]|[t0 [H1 [H2 ->]]]]].
      + assert (m_tgt L m = Some z) as E3.
        { destruct Hm as [->| ->]; rewrite tgt_app by auto using len_s, len_t; [now rewrite Hij|assumption]. }
        rewrite E3 in C2. discriminate.
      + rewrite src_app in C1 by now apply len_s. apply H2. exists t. split; [assumption|]. exists x. auto.
      + rewrite src_app in C1 by now apply len_t. apply H2. exists s. split; [assumption|]. exists x.
        split; [assumption|]. now rewrite <- Hij.
    - intros [Hk Hno]. exists (s ++ repeat None (ml_q L)). split.
      + apply in_merged. right. left. exists s. tauto.
      + unfold cond_not_by_target. rewrite src_app, tgt_app by now apply len_s. rewrite key_nulls.
        destruct (key (ml_i L) s) as [k|]; [|congruence]. cbn. now rewrite Z.eqb_refl.
  Qed.

  Lemma not_by_source_never k m : In m (merged L Sr Tr) -> cond_not_by_source L k m = false.
  Proof.
    intros Hm. unfold cond_not_by_source. destruct (sql_eq (m_tgt L m) k) eqn:E; [|reflexivity]. cbn.
    apply sql_eq_iff in E. destruct E as [x [E ->]]. apply in_merged in Hm.
    destruct Hm as [[s0 [t0 [H1 [H2 [[z [Z1 Z2]] Hm]]]]]|[[s0 [H1 [H2 ->]]]|[t0 [H1 [H2 ->]]]]].
    - destruct Hm as [->| ->]; rewrite src_app by auto using len_s, len_t; [rewrite Z1|rewrite Hij, Z2]; reflexivity.
    - rewrite tgt_app, key_nulls in E by now apply len_s. discriminate.
    - rewrite tgt_app, key_nulls in E by now apply len_t. discriminate.
  Qed.
End M.

Lemma filter_filtered {A} (P : A -> Prop) (f : A -> bool) l :
  (forall a, In a l -> (f a = true <-> P a)) -> filtered P l (filter f l).
Proof.
  induction l as [|a l IH]; intros H; cbn; [constructor|].
  assert (filtered P l (filter f l)) by (apply IH; intros b Hb; apply H; now right).
  destruct (f a) eqn:E.
  - apply f_keep; [apply H; [now left|assumption]|assumption].
  - apply f_drop; [|assumption]. intros X. apply (H a (or_introl eq_refl)) in X. congruence.
Qed.

Definition same_layout (L : mlayout) : Prop := ml_p L = ml_q L /\ ml_i L = ml_j L /\ ml_i L < ml_p L.

Lemma merge_one L c Sr Tr Tr' :
  merge_runs L [c] Sr Tr Tr' <-> clause_runs L (merged L Sr Tr) Sr c Tr Tr'.
Proof.
  unfold merge_runs. split.
  - intros H. inversion H as [|c0 r T0 T1 T2 H1 H2]; subst. inversion H2; subst. assumption.
  - intros H. eapply run_cons; [exact H|constructor].
Qed.

Lemma delete_matched L a Sr Tr Tr' :
  same_layout L -> shaped (ml_p L) Sr -> shaped (ml_q L) Tr ->
  merge_runs L [mkcl Matched a MDelete] Sr Tr Tr' ->
  filtered (fun t => ~ has_source L Sr t) Tr Tr'.
Proof.
  intros [H1 [H2 H3]] HS HT H. apply merge_one in H. cbn in H. subst Tr'.
  apply filter_filtered. intros t Ht. rewrite negb_true_iff.
  pose proof (matched_exists L Sr Tr H1 H2 H3 HS HT t Ht) as E.
  destruct (existsb _ _); split; try discriminate; intros; try tauto. intros X. apply E in X. discriminate.
Qed.

Lemma insert_not_matched L a f Sr Tr Tr' :
  same_layout L -> shaped (ml_p L) Sr -> shaped (ml_q L) Tr ->
  merge_runs L [mkcl NotByTarget a (MInsert f)] Sr Tr Tr' ->
  exists new, Tr' = Tr ++ map f new /\
    filtered (fun s => key (ml_i L) s <> None /\ ~ has_target L Tr s) Sr new.
Proof.
  intros [H1 [H2 H3]] HS HT H. apply merge_one in H. cbn in H. subst Tr'. eexists. split; [reflexivity|].
  apply filter_filtered. intros s Hs. now apply not_by_target_exists.
Qed.

Definition updated (L : mlayout) (f : crow -> crow -> crow) (Sr Tr : list crow) (t t' : crow) : Prop :=
  (~ has_source L Sr t /\ t' = t) \/
  (exists s t0, In s Sr /\ In t0 Tr /\ rows_match L s t /\ rows_match L s t0 /\
     (t' = f t (s ++ t0) \/ t' = f t (t0 ++ s))).

Lemma update_matched L a f Sr Tr Tr' :
  same_layout L -> shaped (ml_p L) Sr -> shaped (ml_q L) Tr ->
  (merge_runs L [mkcl Matched a (MUpdate f)] Sr Tr Tr' <-> Forall2 (updated L f Sr Tr) Tr Tr').
Proof.
  intros [H1 [H2 H3]] HS HT. rewrite merge_one. cbn [clause_runs cl_type cond cl_act].
  assert (G : forall t t', In t Tr ->
    ((existsb (cond_matched L (key (ml_j L) t)) (merged L Sr Tr) = false /\ t' = t) \/
     (exists m, In m (merged L Sr Tr) /\ cond_matched L (key (ml_j L) t) m = true /\ t' = f t m)) <->
    updated L f Sr Tr t t').
  { intros t t' Ht. pose proof (matched_exists L Sr Tr H1 H2 H3 HS HT t Ht) as E. unfold updated. split.
    - intros [[X ->]|[m [Hm [Hc ->]]]].
      + left. split; [|reflexivity]. intros Y. apply E in Y. congruence.
      + right. destruct (matched_iff L Sr Tr H1 H2 H3 HS HT _ _ Hm Hc) as [s [t0 [A1 [A2 [A3 [A4 [A5 [A6 A7]]]]]]]].
        exists s, t0. split; [assumption|]. split; [assumption|]. split.
        { destruct (key (ml_j L) t) as [k|] eqn:Ek; [|congruence]. exists k. auto. }
        split; [assumption|]. destruct A4 as [->| ->]; auto.
    - intros [[X ->]|[s [t0 [A1 [A2 [A3 [A4 A5]]]]]]].
      + left. split; [|reflexivity]. destruct (existsb _ _); [|reflexivity]. exfalso. apply X. now apply E.
      + right.
        assert (Hk : forall m, m = s ++ t0 \/ m = t0 ++ s ->
           In m (merged L Sr Tr) /\ cond_matched L (key (ml_j L) t) m = true).
        { intros m Hm. split; [apply in_merged; left; exists s, t0; tauto|].
          destruct A3 as [k [E1 E2]], A4 as [k' [E3 E4]]. assert (k' = k) as -> by congruence.
          unfold cond_matched. rewrite E2.
          destruct Hm as [->| ->]; rewrite src_app, tgt_app by (auto; first [now apply HS | rewrite H1; now apply HT]);
            [rewrite E1, H2, E4|rewrite E1, H2, E4]; cbn; now rewrite Z.eqb_refl. }
        destruct A5 as [->| ->]; eexists; (split; [|split; [|reflexivity]]); apply Hk; auto. }
  clear -G. enough (forall T0, (forall t, In t T0 -> In t Tr) ->
     Forall2 (fun t t' => (existsb (cond_matched L (key (ml_j L) t)) (merged L Sr Tr) = false /\ t' = t) \/
     (exists m, In m (merged L Sr Tr) /\ cond_matched L (key (ml_j L) t) m = true /\ t' = f t m)) T0 Tr' <->
     Forall2 (updated L f Sr Tr) T0 Tr') as X by (apply X; auto).
  revert Tr'. intros Tr' T0. revert Tr'. induction T0 as [|t T0 IH]; intros Tr' Hin; split; intros H; inversion H; subst; constructor.
  - apply G; auto. apply Hin. now left.
  - apply IH; auto. intros x Hx. apply Hin. now right.
  - apply G; auto. apply Hin. now left.
  - apply IH; auto. intros x Hx. apply Hin. now right.
Qed.

Lemma update_matched_unique L a f Sr Tr Tr' :
  same_layout L -> shaped (ml_p L) Sr -> shaped (ml_q L) Tr ->
  (forall t t0, In t Tr -> In t0 Tr -> key (ml_j L) t = key (ml_j L) t0 -> key (ml_j L) t <> None -> t = t0) ->
  (forall s t, In s Sr -> In t Tr -> f t (t ++ s) = f t (s ++ t)) ->
  merge_runs L [mkcl Matched a (MUpdate f)] Sr Tr Tr' ->
  Forall2 (fun t t' => (~ has_source L Sr t /\ t' = t) \/
                       (exists s, In s Sr /\ rows_match L s t /\ t' = f t (s ++ t))) Tr Tr'.
Proof.
  intros HL HS HT Hu Hf H. apply update_matched in H; auto.
  assert (X : forall T0 T1, (forall t, In t T0 -> In t Tr) -> Forall2 (updated L f Sr Tr) T0 T1 ->
    Forall2 (fun t t' => (~ has_source L Sr t /\ t' = t) \/
                       (exists s, In s Sr /\ rows_match L s t /\ t' = f t (s ++ t))) T0 T1).
  { intros T0 T1 Hin HF. induction HF as [|t t' T0 T1 HU HF IH]; constructor.
    2:{ apply IH. intros x Hx. apply Hin. now right. }
    destruct HU as [HU|[s [t0 [A1 [A2 [A3 [A4 A5]]]]]]]; [now left|right].
    exists s. split; [assumption|]. split; [assumption|].
    assert (t = t0) as <-.
    { destruct A3 as [k [E1 E2]], A4 as [k' [E3 E4]]. apply Hu; auto; [apply Hin; now left|congruence|congruence]. }
    destruct A5 as [->| ->]; [reflexivity|]. apply Hf; auto. }
  apply X; auto.
Qed.

(** WHEN MATCHED ... WHEN NOT MATCHED INSERT: the insert sees the original source and target. *)
Lemma then_insert L c a f Sr Tr Tr' :
  same_layout L -> shaped (ml_p L) Sr -> shaped (ml_q L) Tr ->
  merge_runs L [c; mkcl NotByTarget a (MInsert f)] Sr Tr Tr' ->
  exists T1 new, merge_runs L [c] Sr Tr T1 /\ Tr' = T1 ++ map f new /\
    filtered (fun s => key (ml_i L) s <> None /\ ~ has_target L Tr s) Sr new.
Proof.
  intros HL HS HT H. unfold merge_runs in H. inversion H as [|c0 r T0 T1 T2 H1 H2]; subst.
  inversion H2 as [|c1 r1 T3 T4 T5 H3 H4]; subst. inversion H4; subst.
  exists T1. cbn in H3. subst Tr'. eexists. split; [now apply merge_one|]. split; [reflexivity|].
  destruct HL as [L1 [L2 L3]]. apply filter_filtered. intros s Hs. now apply not_by_target_exists.
Qed.

Lemma not_by_source_unchanged L a act Sr Tr Tr' :
  same_layout L -> shaped (ml_p L) Sr -> shaped (ml_q L) Tr ->
  (forall f, act <> MInsert f) ->
  merge_runs L [mkcl NotBySource a act] Sr Tr Tr' -> Tr' = Tr.
Proof.
  intros [H1 [H2 H3]] HS HT Hact H. apply merge_one in H.
  assert (E : forall k, existsb (cond_not_by_source L k) (merged L Sr Tr) = false).
  { intros k. destruct (existsb _ _) eqn:X; [|reflexivity]. apply existsb_exists in X. destruct X as [m [Hm Hc]].
    rewrite not_by_source_never with (Sr := Sr) (Tr := Tr) in Hc by assumption. discriminate. }
  destruct act as [f|f|]; [exfalso; now apply (Hact f)| |]; cbn in H.
  - clear -H E H1 H2 H3 HS HT. assert (forall T0 T1, Forall2 (fun t t' =>
        (existsb (cond_not_by_source L (key (ml_j L) t)) (merged L Sr Tr) = false /\ t' = t) \/
        (exists m, In m (merged L Sr Tr) /\ cond_not_by_source L (key (ml_j L) t) m = true /\ t' = f t m)) T0 T1 -> T1 = T0) as G.
    { intros T0 T1 HF. induction HF as [|t t' T0 T1 HU HF IH]; [reflexivity|].
      destruct HU as [[_ ->]|[m [Hm [Hc _]]]]; [now rewrite IH|].
      rewrite not_by_source_never with (Sr := Sr) (Tr := Tr) in Hc by assumption. discriminate. }
    now apply G.
  - subst Tr'. clear -E. enough (forall T0, filter (fun t => negb (existsb (cond_not_by_source L (key (ml_j L) t)) (merged L Sr Tr))) T0 = T0) as G by apply G.
    induction T0 as [|t T0 IH]; [reflexivity|]. cbn. rewrite E. cbn. now rewrite IH.
Qed.

Lemma null_keys_never_inserted L a f Sr Tr Tr' :
  merge_runs L [mkcl NotByTarget a (MInsert f)] Sr Tr Tr' ->
  exists new, Tr' = Tr ++ map f new /\ (forall s, In s new -> In s Sr /\ key (ml_i L) s <> None).
Proof.
  intros H. apply merge_one in H. cbn in H. subst. eexists. split; [reflexivity|].
  intros s Hs. apply filter_In in Hs. destruct Hs as [Hs Hc]. split; [assumption|].
  apply existsb_exists in Hc. destruct Hc as [m [_ Hc]]. unfold cond_not_by_target in Hc.
  apply andb_true_iff in Hc. destruct Hc as [Hc _]. apply sql_eq_iff in Hc. destruct Hc as [k [_ E]]. congruence.
Qed.

Lemma condition_ignored L mt act a a' Sr Tr Tr' :
  merge_runs L [mkcl mt a act] Sr Tr Tr' <-> merge_runs L [mkcl mt a' act] Sr Tr Tr'.
Proof. rewrite !merge_one. reflexivity. Qed.

(** ---- the merged table in the world of scripts (C25) ---- *)
Lemma exec_all_app w l r : exec_all w (l ++ r) = andthen (exec_all w l) (fun w1 => exec_all w1 r).
Proof.
  revert w. induction l as [|q l IH]; intros w; cbn [app exec_all].
  - reflexivity.
  - unfold andthen at 1 3. destruct (snd (sq w q)); cbn; [apply IH|reflexivity|reflexivity].
Qed.

Lemma db_get_set_other d n m o : lower n <> lower m -> db_get (db_set d n o) m = db_get d m.
Proof.
  intros H. unfold db_get, db_set. rewrite aget_aset.
  destruct (String.eqb_spec (lower n) (lower m)); [contradiction|reflexivity].
Qed.

Lemma body_keeps body : forall w,
  Forall dml_elsewhere body ->
  db_get (w_db (fst (exec_all w body))) merged_name = db_get (w_db w) merged_name.
Proof.
  induction body as [|q r IH]; intros w HF; [reflexivity|].
  inversion HF as [|q0 r0 [n [f [-> Hn]]] Hr]; subst. cbn [exec_all].
  assert (K : db_get (w_db (fst (sq w (QDml n f)))) merged_name = db_get (w_db w) merged_name).
  { unfold sq. destruct (next_fault w); [reflexivity|]. cbn [sq_apply].
    destruct (db_get (w_db w) n) as [[rows|]|]; try reflexivity.
    destruct (f rows) as [[rows' k]|]; [|reflexivity]. cbn [fst set_db w_db]. apply db_get_set_other. exact Hn. }
  unfold andthen. destruct (snd (sq w (QDml n f))); cbn [fst]; [|assumption|assumption].
  rewrite IH by assumption. assumption.
Qed.

Lemma sq_db_fault w q : next_fault w = true -> w_db (fst (sq w q)) = w_db w /\ snd (sq w q) = Err.
Proof. intros H. unfold sq. rewrite H. split; reflexivity. Qed.

Lemma merge_blocked w rows body :
  db_get (w_db w) merged_name <> None ->
  snd (action_exec w (merge_action rows body)) = Err /\
  w_db (fst (action_exec w (merge_action rows body))) = w_db w.
Proof.
  intros H. unfold merge_action. cbn [action_exec exec_all].
  assert (snd (sq w (QCreateTable merged_name false rows)) = Err /\
          w_db (fst (sq w (QCreateTable merged_name false rows))) = w_db w) as [E1 E2].
  { unfold sq. destruct (next_fault w); [split; reflexivity|]. cbn [sq_apply].
    destruct (db_get (w_db w) merged_name); [split; reflexivity|congruence]. }
  unfold andthen. rewrite E1. cbn. split; [reflexivity|assumption].
Qed.

Lemma merge_first_fails w rows body :
  snd (sq w (QCreateTable merged_name false rows)) <> Ok 0%Z ->
  snd (action_exec w (merge_action rows body)) = Err /\
  w_db (fst (action_exec w (merge_action rows body))) = w_db w.
Proof.
  intros H. unfold merge_action. cbn [action_exec exec_all].
  assert (snd (sq w (QCreateTable merged_name false rows)) = Err /\
          w_db (fst (sq w (QCreateTable merged_name false rows))) = w_db w) as [E1 E2].
  { unfold sq in *. destruct (next_fault w); [split; reflexivity|]. cbn [sq_apply] in *.
    destruct (db_get (w_db w) merged_name); [split; reflexivity|]. cbn in H. congruence. }
  unfold andthen. rewrite E1. cbn. split; [reflexivity|assumption].
Qed.

Lemma aget_aset_same {V} (m : amap V) k v : aget (aset m k v) k = Some v.
Proof. rewrite aget_aset. now rewrite String.eqb_refl. Qed.

Lemma sq_create w rows :
  next_fault w = false -> db_get (w_db w) merged_name = None ->
  snd (sq w (QCreateTable merged_name false rows)) = Ok 0%Z /\
  db_get (w_db (fst (sq w (QCreateTable merged_name false rows)))) merged_name = Some (OTable rows).
Proof.
  intros H1 H2. unfold sq. rewrite H1. cbn [sq_apply]. rewrite H2. split; [reflexivity|].
  cbn [fst set_db w_db]. unfold db_get, db_set. apply aget_aset_same.
Qed.

Lemma merge_fail_leaves w rows body :
  Forall dml_elsewhere body ->
  next_fault w = false -> db_get (w_db w) merged_name = None ->
  snd (action_exec w (merge_action rows body)) = Err ->
  db_get (w_db (fst (action_exec w (merge_action rows body)))) merged_name = Some (OTable rows).
Proof.
  intros HF H1 H2. destruct (sq_create w rows H1 H2) as [E1 E2].
  unfold merge_action. cbn [action_exec exec_all].
  assert (A : forall k, andthen (sq w (QCreateTable merged_name false rows)) k = k (fst (sq w (QCreateTable merged_name false rows)))).
  { intros k. unfold andthen. now rewrite E1. }
  rewrite A. set (w1 := fst (sq w (QCreateTable merged_name false rows))) in *.
  rewrite exec_all_app. pose proof (body_keeps body w1 HF) as K. rewrite E2 in K.
  destruct (exec_all w1 body) as [w2 r2] eqn:Eb. cbn [fst] in K.
  unfold andthen. cbn [fst snd]. destruct r2 as [z| |]; cbn [fst snd]; auto.
  cbn [exec_all]. unfold andthen. destruct (snd (sq w2 (QDropTable merged_name false))) eqn:Ed; cbn [fst snd]; [discriminate| |discriminate].
  intros _. unfold sq in *. destruct (next_fault w2); [exact K|]. cbn [sq_apply] in *. rewrite K in *. discriminate.
Qed.

Lemma db_get_del d n : db_get (db_del d n) n = None.
Proof.
  unfold db_get, db_del. rewrite aget_adel. now rewrite String.eqb_refl.
Qed.

Lemma merge_ok_clean w rows body z :
  snd (action_exec w (merge_action rows body)) = Ok z ->
  db_get (w_db (fst (action_exec w (merge_action rows body)))) merged_name = None.
Proof.
  unfold merge_action. cbn [action_exec exec_all].
  destruct (sq w (QCreateTable merged_name false rows)) as [w1 [r1| |]]; unfold andthen at 1 2; cbn [fst snd]; try discriminate.
  rewrite exec_all_app. destruct (exec_all _ body) as [w2 r2]. unfold andthen. cbn [fst snd].
  destruct r2; cbn [fst snd]; try discriminate. cbn [exec_all]. unfold andthen.
  destruct (snd (sq w2 (QDropTable merged_name false))) eqn:Ed; cbn [fst snd]; try discriminate. intros _.
  unfold sq in *. destruct (next_fault w2); [discriminate|]. cbn [sq_apply] in *.
  destruct (db_get (w_db w2) merged_name) as [[x|]|]; try discriminate. cbn [fst set_db w_db]. apply db_get_del.
Qed.
