(** Proofs about PersistModel. *)
From Coq Require Import Ascii String List ZArith Lia Bool Permutation.
From Verif Require Import GoBase GoBaseFacts NameModel NameSpec TreeModel CatalogModel CatalogSpec CatalogProofs PersistModel PersistSpec.
Import ListNotations.

(** A row whose kind fits its payload. *)
Definition good_row (r : row) : Prop :=
  match r_spec r with
  | PT s => (r_kind r = KTable \/ r_kind r = KView) /\ ts_name s = r_name r /\ ts_path s <> []
  | PF f => r_kind r = KFunction /\ fs_name f = r_name r /\ fs_path f <> []
  end.

(** ** Row operations *)
Lemma upsert_names rows n k p t :
  map r_name (upsert rows n k p t) =
  map r_name rows ++ (if existsb (fun r => String.eqb (r_name r) n) rows then [] else [n]).
Proof.
  induction rows as [|r rows IH]; simpl; [reflexivity|].
  destruct (String.eqb_spec (r_name r) n) as [E|E]; simpl; [rewrite E, app_nil_r; reflexivity|].
  rewrite IH. reflexivity.
Qed.

Lemma existsb_rname rows n : existsb (fun r => String.eqb (r_name r) n) rows = true <-> In n (map r_name rows).
Proof.
  rewrite existsb_exists, in_map_iff. split; intros [x [H1 H2]]; exists x.
  - apply String.eqb_eq in H2. tauto.
  - split; [tauto|]. apply String.eqb_eq. exact H1.
Qed.

Lemma upsert_nodup rows n k p t : NoDup (map r_name rows) -> NoDup (map r_name (upsert rows n k p t)).
Proof.
  intros H. rewrite upsert_names. destruct (existsb _ rows) eqn:E.
  - rewrite app_nil_r. exact H.
  - apply nodup_snoc; [exact H|]. intros Hin. apply existsb_rname in Hin. congruence.
Qed.

Lemma upsert_in rows n k p t : NoDup (map r_name rows) ->
  exists k', (k' = k \/ exists r0, In r0 rows /\ r_name r0 = n /\ k' = r_kind r0) /\
  forall r, In r (upsert rows n k p t) <-> (In r rows /\ r_name r <> n) \/ r = Row n k' p t.
Proof.
  induction rows as [|r0 rows IH]; simpl; intros Hnd.
  - exists k. split; [left; reflexivity|]. intros r. split; [intros [<-|[]]; right; reflexivity|intros [[[] _]| ->]; left; reflexivity].
  - inversion_clear Hnd as [|? ? Hx Hl]. destruct (String.eqb_spec (r_name r0) n) as [E|E].
    + exists (r_kind r0). split; [right; exists r0; auto|]. intros r. simpl. split.
      * intros [<-|H]; [right; reflexivity|]. left. split; [right; exact H|].
        intros E'. apply Hx. rewrite E, <- E'. apply in_map. exact H.
      * intros [[[<-|H] Hne]| ->]; [congruence|right; exact H|left; reflexivity].
    + destruct (IH Hl) as [k' [Hk H]]. exists k'. split.
      * destruct Hk as [Hk|[r1 [H1 [H2 H3]]]]; [left; exact Hk|right; exists r1; auto].
      * intros r. simpl. rewrite H. split; [intros [<-|[[H1 H2]|H1]]; auto|].
        intros [[[<-|H1] H2]|H1]; auto.
Qed.

Lemma delete_row_in rows n r : In r (delete_row rows n) <-> In r rows /\ r_name r <> n.
Proof.
  unfold delete_row. rewrite filter_In. destruct (String.eqb_spec (r_name r) n); simpl; intuition congruence.
Qed.

Lemma delete_row_nodup rows n : NoDup (map r_name rows) -> NoDup (map r_name (delete_row rows n)).
Proof. apply nodup_map_filter. Qed.

(** ** Loading rows *)
Lemma load_rows_spec rows : forall c, cinv c -> NoDup (map r_name rows) -> Forall good_row rows ->
  (forall r s, In r rows -> r_spec r = PT s -> aget (c_tmap c) (r_name r) = None) ->
  (forall r f, In r rows -> r_spec r = PF f -> aget (c_fmap c) (r_name r) = None) ->
  let c' := fold_left load_row rows c in
  cinv c' /\
  (forall n s, aget (c_tmap c') n = Some s <-> aget (c_tmap c) n = Some s \/ exists r, In r rows /\ r_name r = n /\ r_spec r = PT s) /\
  (forall n f, aget (c_fmap c') n = Some f <-> aget (c_fmap c) n = Some f \/ exists r, In r rows /\ r_name r = n /\ r_spec r = PF f) /\
  (forall s, In s (c_tables c') <-> In s (c_tables c) \/ exists r, In r rows /\ r_spec r = PT s) /\
  (forall f, In f (c_functions c') <-> In f (c_functions c) \/ exists r, In r rows /\ r_spec r = PF f).
Proof.
  induction rows as [|r rows IH]; intros c I Hnd Hg Ht Hf; simpl.
  - split; [exact I|]. repeat split; intros; try tauto;
      match goal with H : _ \/ _ |- _ => destruct H as [H|[? [[] _]]]; exact H end.
  - inversion_clear Hnd as [|? ? Hx Hl]. inversion_clear Hg as [|? ? Hr Hgs].
    assert (Hother : forall r', In r' rows -> r_name r <> r_name r').
    { intros r' Hin E. apply Hx. rewrite E. apply in_map. exact Hin. }
    unfold good_row in Hr. destruct (r_spec r) as [s|f] eqn:Es.
    + destruct Hr as [Hk [Hname Hne]].
      assert (Hload : load_row c r = fst (add_table_spec c s)).
      { unfold load_row. rewrite Es. destruct Hk as [-> | ->]; reflexivity. }
      assert (aget (c_tmap c) (ts_name s) = None) as Hnone.
      { rewrite Hname. exact (Ht r s (or_introl eq_refl) Es). }
      rewrite Hload. destruct (add_table_inv c s I Hne) as [I' _].
      unfold add_table_spec in *. rewrite Hnone in *. cbn [fst] in *.
      destruct (IH _ I' Hl Hgs) as [J [A [B [C D]]]].
      * intros r' s' Hin Hs'. simpl. rewrite aget_aset, Hname.
        destruct (String.eqb_spec (r_name r) (r_name r')) as [E|E]; [destruct (Hother r' Hin E)|].
        exact (Ht r' s' (or_intror Hin) Hs').
      * intros r' f' Hin Hs'. simpl. exact (Hf r' f' (or_intror Hin) Hs').
      * split; [exact J|]. split; [|split; [|split]].
        -- intros n s'. rewrite A. simpl. rewrite aget_aset, Hname. split.
           ++ intros [H|[r' [H1 [H2 H3]]]]; [|right; exists r'; auto].
              destruct (String.eqb_spec (r_name r) n) as [E|E]; [|left; exact H].
              right. exists r. injection H as <-. auto.
           ++ intros [H|[r' [[<-|H1] [H2 H3]]]].
              ** left. destruct (String.eqb_spec (r_name r) n) as [E|E]; [|exact H].
                 exfalso. rewrite <- E, <- Hname in H. congruence.
              ** left. rewrite H2, String.eqb_refl. congruence.
              ** right. exists r'. auto.
        -- intros n f'. rewrite B. simpl. split.
           ++ intros [H|[r' [H1 [H2 H3]]]]; [left; exact H|right; exists r'; auto].
           ++ intros [H|[r' [[<-|H1] [H2 H3]]]]; [left; exact H|congruence|right; exists r'; auto].
        -- intros s'. rewrite C. simpl. rewrite in_app_iff. simpl. split.
           ++ intros [[H|[<-|[]]]|[r' [H1 H2]]]; [left; exact H|right; exists r; auto|right; exists r'; auto].
           ++ intros [H|[r' [[<-|H1] H2]]]; [left; left; exact H|left; right; left; congruence|right; exists r'; auto].
        -- intros f'. rewrite D. simpl. split.
           ++ intros [H|[r' [H1 H2]]]; [left; exact H|right; exists r'; auto].
           ++ intros [H|[r' [[<-|H1] H2]]]; [left; exact H|congruence|right; exists r'; auto].
    + destruct Hr as [Hk [Hname Hne]].
      assert (Hload : load_row c r = fst (add_function_spec c f)).
      { unfold load_row. rewrite Es, Hk. reflexivity. }
      assert (aget (c_fmap c) (fs_name f) = None) as Hnone.
      { rewrite Hname. exact (Hf r f (or_introl eq_refl) Es). }
      rewrite Hload. destruct (add_function_inv c f I Hne) as [I' _].
      unfold add_function_spec in *. rewrite Hnone in *. cbn [fst] in *.
      destruct (IH _ I' Hl Hgs) as [J [A [B [C D]]]].
      * intros r' s' Hin Hs'. simpl. exact (Ht r' s' (or_intror Hin) Hs').
      * intros r' f' Hin Hs'. simpl. rewrite aget_aset, Hname.
        destruct (String.eqb_spec (r_name r) (r_name r')) as [E|E]; [destruct (Hother r' Hin E)|].
        exact (Hf r' f' (or_intror Hin) Hs').
      * split; [exact J|]. split; [|split; [|split]].
        -- intros n s'. rewrite A. simpl. split.
           ++ intros [H|[r' [H1 [H2 H3]]]]; [left; exact H|right; exists r'; auto].
           ++ intros [H|[r' [[<-|H1] [H2 H3]]]]; [left; exact H|congruence|right; exists r'; auto].
        -- intros n s'. rewrite B. simpl. rewrite aget_aset, Hname. split.
           ++ intros [H|[r' [H1 [H2 H3]]]]; [|right; exists r'; auto].
              destruct (String.eqb_spec (r_name r) n) as [E|E]; [|left; exact H].
              right. exists r. injection H as <-. auto.
           ++ intros [H|[r' [[<-|H1] [H2 H3]]]].
              ** left. destruct (String.eqb_spec (r_name r) n) as [E|E]; [|exact H].
                 exfalso. rewrite <- E, <- Hname in H. congruence.
              ** left. rewrite H2, String.eqb_refl. congruence.
              ** right. exists r'. auto.
        -- intros s'. rewrite C. simpl. split.
           ++ intros [H|[r' [H1 H2]]]; [left; exact H|right; exists r'; auto].
           ++ intros [H|[r' [[<-|H1] H2]]]; [left; exact H|congruence|right; exists r'; auto].
        -- intros f'. rewrite D. simpl. rewrite in_app_iff. simpl. split.
           ++ intros [[H|[<-|[]]]|[r' [H1 H2]]]; [left; exact H|right; exists r; auto|right; exists r'; auto].
           ++ intros [H|[r' [[<-|H1] H2]]]; [left; left; exact H|left; right; left; congruence|right; exists r'; auto].
Qed.

(** ** The invariant of a history with restarts *)
Record pinv (h : list p_event) (c : catalog) (rows : list row) : Prop := {
  pi_c : cinv c;
  pi_nd : NoDup (map r_name rows);
  pi_good : Forall good_row rows;
  pi_t : forall n s, saved_t h n = Some s <-> exists r, In r rows /\ r_name r = n /\ r_spec r = PT s;
  pi_f : forall n f, saved_f h n = Some f <-> exists r, In r rows /\ r_name r = n /\ r_spec r = PF f;
  pi_tmem : forall r s, In r rows -> r_spec r = PT s -> aget (c_tmap c) (r_name r) <> None;
  pi_fmem : forall r f, In r rows -> r_spec r = PF f -> aget (c_fmap c) (r_name r) <> None;
  pi_tfrom : forall n, aget (c_tmap c) n <> None -> exists t s, In (PDdl t (AddT s)) h /\ ts_name s = n;
  pi_ffrom : forall n, aget (c_fmap c) n <> None -> exists t f, In (PDdl t (AddF f)) h /\ fs_name f = n
}.

Lemma saved_t_snoc h e n : saved_t (h ++ [e]) n =
  match e with
  | PDdl _ (AddT s) => if (String.eqb (ts_name s) n && negb (ts_temp s))%bool then Some s else saved_t h n
  | PDdl _ (DelT m) => if String.eqb m n then None else saved_t h n
  | _ => saved_t h n
  end.
Proof. unfold saved_t. rewrite rev_app_distr. simpl. destruct e as [t [s|f|m|m]|]; reflexivity. Qed.
Lemma saved_f_snoc h e n : saved_f (h ++ [e]) n =
  match e with
  | PDdl _ (AddF s) => if (String.eqb (fs_name s) n && negb (fs_temp s))%bool then Some s else saved_f h n
  | PDdl _ (DelF m) => if String.eqb m n then None else saved_f h n
  | _ => saved_f h n
  end.
Proof. unfold saved_f. rewrite rev_app_distr. simpl. destruct e as [t [s|f|m|m]|]; reflexivity. Qed.

Lemma add_table_tmap c s n : aget (c_tmap (fst (add_table_spec c s))) n = if String.eqb (ts_name s) n then Some s else aget (c_tmap c) n.
Proof. unfold add_table_spec. destruct (aget (c_tmap c) (ts_name s)); simpl; apply aget_aset. Qed.
Lemma add_table_fmap c s : c_fmap (fst (add_table_spec c s)) = c_fmap c.
Proof. unfold add_table_spec. destruct (aget (c_tmap c) (ts_name s)); reflexivity. Qed.
Lemma add_function_fmap c s n : aget (c_fmap (fst (add_function_spec c s))) n = if String.eqb (fs_name s) n then Some s else aget (c_fmap c) n.
Proof. unfold add_function_spec. destruct (aget (c_fmap c) (fs_name s)); simpl; apply aget_aset. Qed.
Lemma add_function_tmap c s : c_tmap (fst (add_function_spec c s)) = c_tmap c.
Proof. unfold add_function_spec. destruct (aget (c_fmap c) (fs_name s)); reflexivity. Qed.

Lemma aget_mem_t c n : cinv c -> (aget (c_tmap c) n <> None <-> In n (map ts_name (c_tables c))).
Proof.
  intros I. pose proof (ci_tkeys c I n) as H. split.
  - intros Hn. destruct (in_dec String.string_dec n (map ts_name (c_tables c))) as [Hi|Hi]; [exact Hi|]. tauto.
  - intros Hi Hn. apply H in Hn. tauto.
Qed.
Lemma aget_mem_f c n : cinv c -> (aget (c_fmap c) n <> None <-> In n (map fs_name (c_functions c))).
Proof.
  intros I. pose proof (ci_fkeys c I n) as H. split.
  - intros Hn. destruct (in_dec String.string_dec n (map fs_name (c_functions c))) as [Hi|Hi]; [exact Hi|]. tauto.
  - intros Hi Hn. apply H in Hn. tauto.
Qed.

Lemma in_map_filter_name n m l : In m (map ts_name (filter (fun s => negb (String.eqb (ts_name s) n)) l)) <-> In m (map ts_name l) /\ m <> n.
Proof.
  rewrite !in_map_iff. split.
  - intros [x [<- Hx]]. apply filter_In in Hx. destruct Hx as [Hx Hb]. destruct (String.eqb_spec (ts_name x) n); [discriminate|].
    split; [exists x; auto|assumption].
  - intros [[x [<- Hx]] Hne]. exists x. split; [reflexivity|]. apply filter_In. split; [exact Hx|].
    destruct (String.eqb_spec (ts_name x) n); [congruence|reflexivity].
Qed.
Lemma in_map_filter_fname n m l : In m (map fs_name (filter (fun s => negb (String.eqb (fs_name s) n)) l)) <-> In m (map fs_name l) /\ m <> n.
Proof.
  rewrite !in_map_iff. split.
  - intros [x [<- Hx]]. apply filter_In in Hx. destruct Hx as [Hx Hb]. destruct (String.eqb_spec (fs_name x) n); [discriminate|].
    split; [exists x; auto|assumption].
  - intros [[x [<- Hx]] Hne]. exists x. split; [reflexivity|]. apply filter_In. split; [exact Hx|].
    destruct (String.eqb_spec (fs_name x) n); [congruence|reflexivity].
Qed.

Lemma kinds_disjoint_app h e : kinds_disjoint (h ++ [e]) -> kinds_disjoint h.
Proof. intros H t1 s t2 f H1 H2. apply (H t1 s t2 f); apply in_or_app; left; assumption. Qed.

Lemma pinv_step h c rows e : pinv h c rows -> ev_named e -> kinds_disjoint (h ++ [e]) ->
  let st := p_event_step (c, rows) e in pinv (h ++ [e]) (fst st) (snd st).
Proof.
  intros P Hn Hdis. destruct P as [Pc Pnd Pgood Pt Pf Ptm Pfm Ptf Pff].
  assert (Ptf' : forall n, aget (c_tmap c) n <> None -> exists t s, In (PDdl t (AddT s)) (h ++ [e]) /\ ts_name s = n).
  { intros n H. destruct (Ptf n H) as [t [s [H1 H2]]]. exists t, s. split; [apply in_or_app; left; exact H1|exact H2]. }
  assert (Pff' : forall n, aget (c_fmap c) n <> None -> exists t f, In (PDdl t (AddF f)) (h ++ [e]) /\ fs_name f = n).
  { intros n H. destruct (Pff n H) as [t [s [H1 H2]]]. exists t, s. split; [apply in_or_app; left; exact H1|exact H2]. }
  assert (Hclash : forall n, aget (c_tmap c) n <> None -> aget (c_fmap c) n <> None -> False).
  { intros n H1 H2. destruct (Ptf' n H1) as [t1 [s [H3 H4]]]. destruct (Pff' n H2) as [t2 [f [H5 H6]]].
    apply (Hdis t1 s t2 f H3 H5). congruence. }
  destruct e as [t [s|f|n|n]|]; simpl.
  - (* AddT *)
    simpl in Hn. destruct (add_table_inv c s Pc Hn) as [I' E]. pose proof (add_table_tmap c s) as Htm.
    pose proof (add_table_fmap c s) as Hfm.
    destruct (add_table_spec c s) as [c' err] eqn:Ea. simpl in E, I', Htm, Hfm. subst err. simpl.
    assert (Hmem : forall n, aget (c_tmap c) n <> None -> aget (c_tmap c') n <> None).
    { intros n H. rewrite Htm. destruct (String.eqb (ts_name s) n); [discriminate|exact H]. }
    assert (Hfrom : forall n, aget (c_tmap c') n <> None -> exists t0 s0, In (PDdl t0 (AddT s0)) (h ++ [PDdl t (AddT s)]) /\ ts_name s0 = n).
    { intros n H. rewrite Htm in H. destruct (String.eqb_spec (ts_name s) n) as [E|E]; [|apply Ptf'; exact H].
      exists t, s. split; [apply in_or_app; right; left; reflexivity|exact E]. }
    destruct (ts_temp s) eqn:Etemp.
    + constructor; try assumption.
      * intros n s'. rewrite saved_t_snoc, Etemp, andb_false_r. apply Pt.
      * intros n f. rewrite saved_f_snoc. apply Pf.
      * intros r s' H1 H2. apply Hmem. exact (Ptm r s' H1 H2).
      * intros r f H1 H2. rewrite Hfm. exact (Pfm r f H1 H2).
      * intros n H. rewrite Hfm in H. apply Pff'. exact H.
    + unfold save_table. pose proof (upsert_nodup rows (ts_name s) (if ts_view s then KView else KTable) (PT s) t Pnd) as Hnd'.
      destruct (upsert_in rows (ts_name s) (if ts_view s then KView else KTable) (PT s) t Pnd) as [k' [Hk Hin]].
      set (rows' := upsert rows (ts_name s) (if ts_view s then KView else KTable) (PT s) t) in *.
      assert (Hk' : k' = KTable \/ k' = KView).
      { destruct Hk as [-> | [r0 [H1 [H2 ->]]]]; [destruct (ts_view s); auto|].
        rewrite Forall_forall in Pgood. specialize (Pgood r0 H1). unfold good_row in Pgood.
        destruct (r_spec r0) as [s0|f0] eqn:E0; [tauto|]. exfalso.
        destruct (Pff' (r_name r0) (Pfm r0 f0 H1 E0)) as [t2 [f [H5 H6]]].
        apply (Hdis t s t2 f); [apply in_or_app; right; left; reflexivity|exact H5|congruence]. }
      assert (HnoF : forall r f, In r rows -> r_spec r = PF f -> r_name r <> ts_name s).
      { intros r f H1 H2 E0. destruct (Pff' (r_name r) (Pfm r f H1 H2)) as [t2 [f2 [H5 H6]]].
        apply (Hdis t s t2 f2); [apply in_or_app; right; left; reflexivity|exact H5|congruence]. }
      constructor; try assumption.
      * apply Forall_forall. intros r Hr. apply Hin in Hr. destruct Hr as [[Hr _]| ->].
        -- rewrite Forall_forall in Pgood. exact (Pgood r Hr).
        -- unfold good_row. simpl. auto.
      * intros n s'. rewrite saved_t_snoc, Etemp, andb_true_r. destruct (String.eqb_spec (ts_name s) n) as [En|En].
        -- split.
           ++ intros H. injection H as <-. eexists. split; [apply Hin; right; reflexivity|]. simpl. auto.
           ++ intros [r [H1 [H2 H3]]]. apply Hin in H1. destruct H1 as [[_ H1]| ->]; [congruence|]. simpl in H3. congruence.
        -- rewrite Pt. split; intros [r [H1 [H2 H3]]]; exists r.
           ++ split; [apply Hin; left; split; [exact H1|congruence]|auto].
           ++ apply Hin in H1. destruct H1 as [[H1 _]| ->]; [auto|simpl in H2; congruence].
      * intros n f. rewrite saved_f_snoc, Pf. split; intros [r [H1 [H2 H3]]]; exists r.
        -- split; [apply Hin; left; split; [exact H1|exact (HnoF r f H1 H3)]|auto].
        -- apply Hin in H1. destruct H1 as [[H1 _]| ->]; [auto|discriminate].
      * intros r s' H1 H2. apply Hin in H1. destruct H1 as [[H1 _]| ->]; [apply Hmem; exact (Ptm r s' H1 H2)|].
        simpl. rewrite Htm, String.eqb_refl. discriminate.
      * intros r f H1 H2. apply Hin in H1. destruct H1 as [[H1 _]| ->]; [|discriminate]. rewrite Hfm. exact (Pfm r f H1 H2).
      * intros n H. rewrite Hfm in H. apply Pff'. exact H.
  - (* AddF *)
    simpl in Hn. destruct (add_function_inv c f Pc Hn) as [I' E]. pose proof (add_function_fmap c f) as Hfm.
    pose proof (add_function_tmap c f) as Htm.
    destruct (add_function_spec c f) as [c' err] eqn:Ea. simpl in E, I', Htm, Hfm. subst err. simpl.
    assert (Hmem : forall n, aget (c_fmap c) n <> None -> aget (c_fmap c') n <> None).
    { intros n H. rewrite Hfm. destruct (String.eqb (fs_name f) n); [discriminate|exact H]. }
    assert (Hfrom : forall n, aget (c_fmap c') n <> None -> exists t0 s0, In (PDdl t0 (AddF s0)) (h ++ [PDdl t (AddF f)]) /\ fs_name s0 = n).
    { intros n H. rewrite Hfm in H. destruct (String.eqb_spec (fs_name f) n) as [E|E]; [|apply Pff'; exact H].
      exists t, f. split; [apply in_or_app; right; left; reflexivity|exact E]. }
    destruct (fs_temp f) eqn:Etemp.
    + constructor; try assumption.
      * intros n s'. rewrite saved_t_snoc. apply Pt.
      * intros n f'. rewrite saved_f_snoc, Etemp, andb_false_r. apply Pf.
      * intros r s' H1 H2. rewrite Htm. exact (Ptm r s' H1 H2).
      * intros r f' H1 H2. apply Hmem. exact (Pfm r f' H1 H2).
      * intros n H. rewrite Htm in H. apply Ptf'. exact H.
    + unfold save_function. pose proof (upsert_nodup rows (fs_name f) KFunction (PF f) t Pnd) as Hnd'.
      destruct (upsert_in rows (fs_name f) KFunction (PF f) t Pnd) as [k' [Hk Hin]].
      set (rows' := upsert rows (fs_name f) KFunction (PF f) t) in *.
      assert (Hk' : k' = KFunction).
      { destruct Hk as [-> | [r0 [H1 [H2 ->]]]]; [reflexivity|].
        rewrite Forall_forall in Pgood. specialize (Pgood r0 H1). unfold good_row in Pgood.
        destruct (r_spec r0) as [s0|f0] eqn:E0; [|tauto]. exfalso.
        destruct (Ptf' (r_name r0) (Ptm r0 s0 H1 E0)) as [t2 [s [H5 H6]]].
        apply (Hdis t2 s t f); [exact H5|apply in_or_app; right; left; reflexivity|congruence]. }
      assert (HnoT : forall r s, In r rows -> r_spec r = PT s -> r_name r <> fs_name f).
      { intros r s H1 H2 E0. destruct (Ptf' (r_name r) (Ptm r s H1 H2)) as [t2 [s2 [H5 H6]]].
        apply (Hdis t2 s2 t f); [exact H5|apply in_or_app; right; left; reflexivity|congruence]. }
      constructor; try assumption.
      * apply Forall_forall. intros r Hr. apply Hin in Hr. destruct Hr as [[Hr _]| ->].
        -- rewrite Forall_forall in Pgood. exact (Pgood r Hr).
        -- unfold good_row. simpl. auto.
      * intros n s. rewrite saved_t_snoc, Pt. split; intros [r [H1 [H2 H3]]]; exists r.
        -- split; [apply Hin; left; split; [exact H1|exact (HnoT r s H1 H3)]|auto].
        -- apply Hin in H1. destruct H1 as [[H1 _]| ->]; [auto|discriminate].
      * intros n s'. rewrite saved_f_snoc, Etemp, andb_true_r. destruct (String.eqb_spec (fs_name f) n) as [En|En].
        -- split.
           ++ intros H. injection H as <-. eexists. split; [apply Hin; right; reflexivity|]. simpl. auto.
           ++ intros [r [H1 [H2 H3]]]. apply Hin in H1. destruct H1 as [[_ H1]| ->]; [congruence|]. simpl in H3. congruence.
        -- rewrite Pf. split; intros [r [H1 [H2 H3]]]; exists r.
           ++ split; [apply Hin; left; split; [exact H1|congruence]|auto].
           ++ apply Hin in H1. destruct H1 as [[H1 _]| ->]; [auto|simpl in H2; congruence].
      * intros r s H1 H2. apply Hin in H1. destruct H1 as [[H1 _]| ->]; [|discriminate]. rewrite Htm. exact (Ptm r s H1 H2).
      * intros r s' H1 H2. apply Hin in H1. destruct H1 as [[H1 _]| ->]; [apply Hmem; exact (Pfm r s' H1 H2)|].
        simpl. rewrite Hfm, String.eqb_refl. discriminate.
      * intros n H. rewrite Htm in H. apply Ptf'. exact H.
  - (* DelT *)
    destruct (delete_table_spec c n Pc) as [H1 H2]. destruct (aget (c_tmap c) n) as [s0|] eqn:E.
    + destruct (H2 ltac:(discriminate)) as [c' [-> [I' [T' [F' _]]]]]. simpl.
      assert (HnoF : forall r f, In r rows -> r_spec r = PF f -> r_name r <> n).
      { intros r f Hr Hs En. apply (Hclash n); [rewrite E; discriminate|]. rewrite <- En. exact (Pfm r f Hr Hs). }
      assert (Htm : forall m, aget (c_tmap c') m <> None <-> aget (c_tmap c) m <> None /\ m <> n).
      { intros m. rewrite (aget_mem_t c' m I'), (aget_mem_t c m Pc), T'. apply in_map_filter_name. }
      assert (Hfm : forall m, aget (c_fmap c') m <> None <-> aget (c_fmap c) m <> None).
      { intros m. rewrite (aget_mem_f c' m I'), (aget_mem_f c m Pc), F'. reflexivity. }
      constructor; try assumption.
      * apply delete_row_nodup. exact Pnd.
      * apply Forall_forall. intros r Hr. apply delete_row_in in Hr. rewrite Forall_forall in Pgood. apply Pgood. tauto.
      * intros m s. rewrite saved_t_snoc. destruct (String.eqb_spec n m) as [En|En].
        -- split; [discriminate|]. intros [r [Hr [Hm _]]]. apply delete_row_in in Hr. destruct Hr. congruence.
        -- rewrite Pt. split; intros [r [Hr [Hm Hs]]]; exists r; rewrite delete_row_in in *; intuition congruence.
      * intros m f. rewrite saved_f_snoc, Pf. split; intros [r [Hr [Hm Hs]]]; exists r; rewrite delete_row_in in *.
        -- split; [split; [exact Hr|exact (HnoF r f Hr Hs)]|auto].
        -- tauto.
      * intros r s Hr Hs. apply delete_row_in in Hr. apply Htm. split; [exact (Ptm r s (proj1 Hr) Hs)|tauto].
      * intros r f Hr Hs. apply delete_row_in in Hr. apply Hfm. exact (Pfm r f (proj1 Hr) Hs).
      * intros m Hm. apply Htm in Hm. apply Ptf'. tauto.
      * intros m Hm. apply Hfm in Hm. apply Pff'. exact Hm.
    + rewrite (H1 eq_refl). simpl. constructor; try assumption.
      * intros m s. rewrite saved_t_snoc. destruct (String.eqb_spec n m) as [En|En]; [|apply Pt].
        split; [discriminate|]. intros [r [Hr [Hm Hs]]]. exfalso. apply (Ptm r s Hr Hs). congruence.
      * intros m f. rewrite saved_f_snoc. apply Pf.
  - (* DelF *)
    destruct (delete_function_spec c n Pc) as [H1 H2]. destruct (aget (c_fmap c) n) as [s0|] eqn:E.
    + destruct (H2 ltac:(discriminate)) as [c' [-> [I' [F' [T' _]]]]]. simpl.
      assert (HnoT : forall r f, In r rows -> r_spec r = PT f -> r_name r <> n).
      { intros r f Hr Hs En. apply (Hclash n); [|rewrite E; discriminate]. rewrite <- En. exact (Ptm r f Hr Hs). }
      assert (Htm : forall m, aget (c_tmap c') m <> None <-> aget (c_tmap c) m <> None).
      { intros m. rewrite (aget_mem_t c' m I'), (aget_mem_t c m Pc), T'. reflexivity. }
      assert (Hfm : forall m, aget (c_fmap c') m <> None <-> aget (c_fmap c) m <> None /\ m <> n).
      { intros m. rewrite (aget_mem_f c' m I'), (aget_mem_f c m Pc), F'. apply in_map_filter_fname. }
      constructor; try assumption.
      * apply delete_row_nodup. exact Pnd.
      * apply Forall_forall. intros r Hr. apply delete_row_in in Hr. rewrite Forall_forall in Pgood. apply Pgood. tauto.
      * intros m f. rewrite saved_t_snoc, Pt. split; intros [r [Hr [Hm Hs]]]; exists r; rewrite delete_row_in in *.
        -- split; [split; [exact Hr|exact (HnoT r f Hr Hs)]|auto].
        -- tauto.
      * intros m s. rewrite saved_f_snoc. destruct (String.eqb_spec n m) as [En|En].
        -- split; [discriminate|]. intros [r [Hr [Hm _]]]. apply delete_row_in in Hr. destruct Hr. congruence.
        -- rewrite Pf. split; intros [r [Hr [Hm Hs]]]; exists r; rewrite delete_row_in in *; intuition congruence.
      * intros r f Hr Hs. apply delete_row_in in Hr. apply Htm. exact (Ptm r f (proj1 Hr) Hs).
      * intros r s Hr Hs. apply delete_row_in in Hr. apply Hfm. split; [exact (Pfm r s (proj1 Hr) Hs)|tauto].
      * intros m Hm. apply Htm in Hm. apply Ptf'. exact Hm.
      * intros m Hm. apply Hfm in Hm. apply Pff'. tauto.
    + rewrite (H1 eq_refl). simpl. constructor; try assumption.
      * intros m s. rewrite saved_t_snoc. apply Pt.
      * intros m f. rewrite saved_f_snoc. destruct (String.eqb_spec n m) as [En|En]; [|apply Pf].
        split; [discriminate|]. intros [r [Hr [Hm Hs]]]. exfalso. apply (Pfm r f Hr Hs). congruence.
  - (* restart *)
    destruct (load_rows_spec rows cat_new cinv_new Pnd Pgood) as [J [A [B [C D]]]]; [reflexivity|reflexivity|].
    simpl in A, B. set (c' := fold_left load_row rows cat_new) in *.
    assert (A' : forall n, aget (c_tmap c') n <> None -> aget (c_tmap c) n <> None).
    { intros n H. destruct (aget (c_tmap c') n) as [s|] eqn:E; [|congruence]. apply A in E.
      destruct E as [E|[r [H1 [<- H3]]]]; [discriminate|]. exact (Ptm r s H1 H3). }
    assert (B' : forall n, aget (c_fmap c') n <> None -> aget (c_fmap c) n <> None).
    { intros n H. destruct (aget (c_fmap c') n) as [s|] eqn:E; [|congruence]. apply B in E.
      destruct E as [E|[r [H1 [<- H3]]]]; [discriminate|]. exact (Pfm r s H1 H3). }
    constructor; try assumption.
    + intros n s. rewrite saved_t_snoc. apply Pt.
    + intros n s. rewrite saved_f_snoc. apply Pf.
    + intros r s H1 H2. rewrite (proj2 (A (r_name r) s)) by (right; exists r; auto). discriminate.
    + intros r s H1 H2. rewrite (proj2 (B (r_name r) s)) by (right; exists r; auto). discriminate.
    + intros n H. apply Ptf', A', H.
    + intros n H. apply Pff', B', H.
Qed.

Lemma p_run_inv h : Forall ev_named h -> kinds_disjoint h -> pinv h (fst (p_run h)) (snd (p_run h)).
Proof.
  induction h as [|e h IH] using rev_ind; intros Hn Hd.
  - constructor; simpl; try apply cinv_new; try constructor; try (intros; tauto); try (intros; discriminate);
      try (intros [r [[] _]]).
  - apply Forall_app in Hn. destruct Hn as [Hn He]. inversion_clear He as [|? ? He' _].
    unfold p_run. rewrite fold_left_app. simpl. fold (p_run h).
    specialize (IH Hn (kinds_disjoint_app _ _ Hd)). destruct (p_run h) as [c rows]. simpl in IH.
    exact (pinv_step h c rows e IH He' Hd).
Qed.

Lemma good_perm rows rows' : Permutation rows rows' -> Forall good_row rows -> Forall good_row rows'.
Proof. intros P H. rewrite Forall_forall in *. intros r Hr. apply H. apply (Permutation_in r (Permutation_sym P) Hr). Qed.

Lemma opt_eq {A} (a b : option A) : (forall x, a = Some x <-> b = Some x) -> a = b.
Proof. intros H. destruct a as [x|]; [symmetry; apply H; reflexivity|]. destruct b as [y|]; [apply H; reflexivity|reflexivity]. Qed.

Lemma c09_lemma h rows : Forall ev_named h -> kinds_disjoint h -> Permutation (snd (p_run h)) rows ->
  let c := fold_left load_row rows cat_new in
  (forall n, aget (c_tmap c) n = saved_t h n) /\ (forall n, aget (c_fmap c) n = saved_f h n) /\
  (forall s, In s (c_tables c) <-> saved_t h (ts_name s) = Some s) /\
  (forall f, In f (c_functions c) <-> saved_f h (fs_name f) = Some f).
Proof.
  intros Hn Hd Hp. pose proof (p_run_inv h Hn Hd) as P. destruct P as [Pc Pnd Pgood Pt Pf _ _ _ _].
  set (rs := snd (p_run h)) in *.
  assert (Hin : forall r, In r rows <-> In r rs).
  { intros r. split; apply Permutation_in; [apply Permutation_sym|]; exact Hp. }
  destruct (load_rows_spec rows cat_new cinv_new) as [J [A [B [C D]]]].
  - apply (Permutation_NoDup (Permutation_map r_name Hp)). exact Pnd.
  - exact (good_perm _ _ Hp Pgood).
  - reflexivity.
  - reflexivity.
  - simpl in A, B, C, D. cbv zeta. set (c := fold_left load_row rows cat_new) in *. split; [|split; [|split]].
    + intros n. apply opt_eq. intros s. rewrite A, Pt. split.
      * intros [H|[r [H1 H2]]]; [discriminate|]. exists r. rewrite <- Hin. auto.
      * intros [r [H1 H2]]. right. exists r. rewrite Hin. auto.
    + intros n. apply opt_eq. intros s. rewrite B, Pf. split.
      * intros [H|[r [H1 H2]]]; [discriminate|]. exists r. rewrite <- Hin. auto.
      * intros [r [H1 H2]]. right. exists r. rewrite Hin. auto.
    + intros s. rewrite C, Pt. split.
      * intros [[]|[r [H1 H2]]]. exists r. rewrite <- Hin. split; [exact H1|]. split; [|exact H2].
        apply Hin in H1. rewrite Forall_forall in Pgood. specialize (Pgood r H1). unfold good_row in Pgood. rewrite H2 in Pgood. symmetry. tauto.
      * intros [r [H1 [H2 H3]]]. right. exists r. rewrite Hin. auto.
    + intros s. rewrite D, Pf. split.
      * intros [[]|[r [H1 H2]]]. exists r. rewrite <- Hin. split; [exact H1|]. split; [|exact H2].
        apply Hin in H1. rewrite Forall_forall in Pgood. specialize (Pgood r H1). unfold good_row in Pgood. rewrite H2 in Pgood. symmetry. tauto.
      * intros [r [H1 [H2 H3]]]. right. exists r. rewrite Hin. auto.
Qed.

(** ** Two processes *)
Record tinv (st : two) : Prop := {
  ti_c : cinv (rd_cat st);
  ti_nd : NoDup (map r_name (w_rows st));
  ti_good : Forall good_row (w_rows st);
  ti_pt : forall r f, In r (w_rows st) -> r_spec r <> PF f;
  ti_pend : forall s t, In (s, t) (w_pending st) -> ts_path s <> [] /\ (rd_last st <= t <= w_clock st)%Z;
  ti_last : (rd_last st <= w_clock st)%Z;
  ti_now : forall now, rd_now st = Some now -> (rd_last st <= now <= w_clock st)%Z;
  ti_rows : forall r s, In r (w_rows st) -> r_spec r = PT s ->
    (rd_last st <= r_stamp r)%Z \/ aget (c_tmap (rd_cat st)) (r_name r) = Some s
}.

Lemma load_other c r n : good_row r -> r_name r <> n -> aget (c_tmap (load_row c r)) n = aget (c_tmap c) n.
Proof.
  unfold good_row, load_row. intros G Hne. destruct (r_spec r) as [s|f].
  - destruct G as [[-> | ->] [E _]]; rewrite add_table_tmap; cbn [decode_table]; rewrite E;
      (destruct (String.eqb_spec (r_name r) n); [congruence|reflexivity]).
  - destruct G as [-> _]. rewrite add_function_tmap. reflexivity.
Qed.
Lemma loads_other rows n : forall c, (forall r, In r rows -> good_row r /\ r_name r <> n) ->
  aget (c_tmap (fold_left load_row rows c)) n = aget (c_tmap c) n.
Proof.
  induction rows as [|r rows IH]; simpl; intros c H; [reflexivity|].
  rewrite IH by (intros r' Hr'; apply H; right; exact Hr').
  destruct (H r (or_introl eq_refl)). apply load_other; assumption.
Qed.

Lemma load_inv c r : cinv c -> good_row r -> cinv (load_row c r).
Proof.
  intros I G. unfold good_row in G. unfold load_row. destruct (r_spec r) as [s|f].
  - destruct G as [[-> | ->] [_ G]]; exact (proj1 (add_table_inv c s I G)).
  - destruct G as [-> [_ G]]. exact (proj1 (add_function_inv c f I G)).
Qed.

Lemma loads_see rows : forall c, NoDup (map r_name rows) -> (forall r, In r rows -> good_row r) ->
  forall r s, In r rows -> r_spec r = PT s -> aget (c_tmap (fold_left load_row rows c)) (r_name r) = Some s.
Proof.
  induction rows as [|r0 rows IH]; simpl; intros c Hnd G r s Hin Hs; [destruct Hin|].
  inversion_clear Hnd as [|? ? Hx Hl]. destruct Hin as [<-|Hin].
  - rewrite loads_other.
    + specialize (G r0 (or_introl eq_refl)). unfold good_row in G. rewrite Hs in G.
      unfold load_row. rewrite Hs. destruct G as [[-> | ->] [E _]]; simpl; rewrite add_table_tmap, E, String.eqb_refl; reflexivity.
    + intros r' Hr'. split; [apply G; right; exact Hr'|]. intros E. apply Hx. rewrite <- E. apply in_map. exact Hr'.
  - apply (IH _ Hl (fun r' H => G r' (or_intror H)) r s Hin Hs).
Qed.

Lemma loads_inv rows : forall c, cinv c -> (forall r, In r rows -> good_row r) -> cinv (fold_left load_row rows c).
Proof.
  induction rows as [|r rows IH]; simpl; intros c I G; [exact I|].
  apply IH; [apply load_inv; [exact I|apply G; left; reflexivity]|]. intros r' H. apply G. right. exact H.
Qed.

Lemma tinv_query st : tinv st ->
  forall r s, In r (w_rows st) -> r_spec r = PT s ->
    aget (c_tmap (sync_rows (rd_cat st) (w_rows st) (rd_last st))) (r_name r) = Some s.
Proof.
  intros T r s Hr E. destruct T. unfold sync_rows. rewrite Forall_forall in ti_good0.
  destruct (Z.leb_spec (rd_last st) (r_stamp r)) as [H|H].
  - apply loads_see; [apply nodup_map_filter; assumption| | |exact E].
    + intros r' H'. apply filter_In in H'. apply ti_good0. tauto.
    + apply filter_In. split; [exact Hr|]. apply Z.leb_le. exact H.
  - destruct (ti_rows0 r s Hr E) as [H'|H']; [lia|]. rewrite loads_other; [exact H'|].
    intros r' Hr'. apply filter_In in Hr'. destruct Hr' as [Hr' Hst]. apply Z.leb_le in Hst.
    split; [apply ti_good0; exact Hr'|]. intros En.
    assert (r' = r) as ->; [|lia].
    clear - ti_nd0 Hr Hr' En. revert ti_nd0 Hr Hr'. induction (w_rows st) as [|x l IH]; simpl; intros Hnd H1 H2; [tauto|].
    inversion_clear Hnd as [|? ? Hx Hl]. destruct H1 as [H1|H1], H2 as [H2|H2]; try congruence; subst.
    + exfalso. apply Hx. rewrite <- En. apply in_map. exact H2.
    + exfalso. apply Hx. rewrite En. apply in_map. exact H1.
    + apply IH; assumption.
Qed.

Lemma tinv_step st e : tinv st -> ev2_named e ->
  (match e with RQuery => w_pending st = [] | _ => True end) -> tinv (two_step st e).
Proof.
  intros T Hn Hq. pose proof T as T0. destruct T. destruct e as [|s| |n| |]; simpl in *.
  - constructor; simpl; try assumption; try lia.
    + intros s t H. destruct (ti_pend0 s t H). split; [assumption|lia].
    + intros now H. specialize (ti_now0 now H). lia.
  - constructor; simpl; try assumption.
    intros s' t H. apply in_app_or in H. destruct H as [H|[H|[]]]; [exact (ti_pend0 s' t H)|].
    injection H as <- <-. split; [tauto|lia].
  - destruct (w_pending st) as [|[s t] rest] eqn:E; [exact T0|].
    destruct (ti_pend0 s t (or_introl eq_refl)) as [Hne Ht].
    destruct (upsert_in (w_rows st) (ts_name s) (if ts_view s then KView else KTable) (PT s) t ti_nd0) as [k' [Hk Hin]].
    fold (save_table (w_rows st) s t) in Hin.
    assert (Hk' : k' = KTable \/ k' = KView).
    { destruct Hk as [-> | [r0 [H1 [H2 ->]]]]; [destruct (ts_view s); auto|].
      rewrite Forall_forall in ti_good0. specialize (ti_good0 r0 H1). unfold good_row in ti_good0.
      destruct (r_spec r0) as [s0|f0] eqn:E0; [tauto|]. destruct (ti_pt0 r0 f0 H1 E0). }
    constructor; simpl; try assumption.
    + apply upsert_nodup. assumption.
    + apply Forall_forall. intros r Hr. apply Hin in Hr. destruct Hr as [[Hr _]| ->].
      * rewrite Forall_forall in ti_good0. exact (ti_good0 r Hr).
      * unfold good_row. simpl. auto.
    + intros r f Hr. apply Hin in Hr. destruct Hr as [[Hr _]| ->]; [exact (ti_pt0 r f Hr)|discriminate].
    + intros s' t' H. apply ti_pend0. right. exact H.
    + intros r s' Hr Es. apply Hin in Hr. destruct Hr as [[Hr _]| ->]; [exact (ti_rows0 r s' Hr Es)|]. left. simpl. lia.
  - constructor; simpl; try assumption.
    + apply delete_row_nodup. assumption.
    + apply Forall_forall. intros r Hr. apply delete_row_in in Hr. rewrite Forall_forall in ti_good0. apply ti_good0. tauto.
    + intros r f Hr. apply delete_row_in in Hr. apply ti_pt0. tauto.
    + intros r s' Hr Es. apply delete_row_in in Hr. apply ti_rows0; tauto.
  - destruct (rd_now st) eqn:E; [exact T0|]. constructor; simpl; try assumption.
    intros now H. injection H as <-. lia.
  - destruct (rd_now st) as [now|] eqn:E; [|exact T0]. constructor; simpl; try assumption.
    + apply loads_inv; [assumption|]. intros r Hr. apply filter_In in Hr. rewrite Forall_forall in ti_good0. apply ti_good0. tauto.
    + intros n1 n2 H. rewrite Hq in H. destruct H.
    + specialize (ti_now0 now eq_refl). lia.
    + discriminate.
    + intros r s' Hr Es. right. exact (tinv_query st T0 r s' Hr Es).
Qed.

Lemma tinv_run h : forall st, tinv st -> Forall ev2_named h -> calm st h -> tinv (two_run h st).
Proof.
  induction h as [|e h IH]; simpl; intros st T Hn Hc; [exact T|].
  inversion_clear Hn as [|? ? He Hs]. destruct Hc as [Hq Hc]. apply (IH (two_step st e)); [|exact Hs|exact Hc].
  apply tinv_step; assumption.
Qed.

Lemma tinv_init t0 : (0 <= t0)%Z -> tinv (two_init t0).
Proof.
  intros H. constructor; simpl; try apply cinv_new; try constructor; try (intros; tauto); try (intros; discriminate); exact H.
Qed.

Lemma c10_lemma t0 h : (0 <= t0)%Z -> Forall ev2_named h -> calm (two_init t0) h ->
  forall r s, In r (w_rows (two_run h (two_init t0))) -> r_spec r = PT s ->
  aget (c_tmap (rd_cat (two_run [RBegin; RQuery] (two_run h (two_init t0))))) (r_name r) = Some s /\
  In (r_name r) (map ts_name (c_tables (rd_cat (two_run [RBegin; RQuery] (two_run h (two_init t0)))))).
Proof.
  intros H0 Hn Hc r s Hr Es. pose proof (tinv_run h _ (tinv_init t0 H0) Hn Hc) as T.
  set (st := two_run h (two_init t0)) in *. cbn [two_run fold_left].
  assert (T1 : tinv (two_step st RBegin)) by (apply tinv_step; [exact T|exact I|exact I]).
  assert (Hr1 : w_rows (two_step st RBegin) = w_rows st) by (simpl; destruct (rd_now st); reflexivity).
  assert (Hnow : exists now, rd_now (two_step st RBegin) = Some now).
  { simpl. destruct (rd_now st) as [now|] eqn:E; [exists now; exact E|]. eexists. reflexivity. }
  destruct Hnow as [now Hnow]. set (st1 := two_step st RBegin) in *.
  assert (Hsee : aget (c_tmap (rd_cat (two_step st1 RQuery))) (r_name r) = Some s).
  { simpl. rewrite Hnow. simpl. apply (tinv_query st1 T1); [|exact Es]. rewrite Hr1. exact Hr. }
  split; [exact Hsee|]. apply aget_mem_t; [|congruence].
  simpl. rewrite Hnow. simpl. apply loads_inv; [exact (ti_c st1 T1)|].
  intros r' Hr'. apply filter_In in Hr'. pose proof (ti_good st1 T1) as G. rewrite Forall_forall in G. apply G. tauto.
Qed.
