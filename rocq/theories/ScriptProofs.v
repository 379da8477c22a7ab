(** Proofs about ScriptModel. *)
From Coq Require Import Ascii String List ZArith Lia Bool.
From Verif Require Import GoBase GoBaseFacts NameModel NameSpec TreeModel CatalogModel CatalogSpec CatalogProofs PersistModel PersistSpec PersistProofs ScriptModel ScriptSpec.
Import ListNotations.

(** ** The script loop (C12) *)
Lemma run_script_ok fs : forall w k0 acts w' k,
  runs w fs k0 acts w' k -> run_script w fs k0 = (w', acts, Ok k).
Proof.
  induction fs as [|f fs IH]; intros w k0 acts w' k H; inversion H; subst; simpl; [reflexivity|].
  match goal with H1 : f _ _ = Some _ |- _ => rewrite H1 end.
  match goal with H1 : action_exec _ _ = _ |- _ => rewrite H1 end.
  rewrite (IH _ _ _ _ _ ltac:(eassumption)). reflexivity.
Qed.

Lemma runs_of_run_script fs : forall w k0 acts w' k,
  run_script w fs k0 = (w', acts, Ok k) -> runs w fs k0 acts w' k.
Proof.
  induction fs as [|f fs IH]; intros w k0 acts w' k H; simpl in H; [injection H as <- <- <-; constructor|].
  destruct (f (w_cat w) (w_fmap w)) as [a|] eqn:Ea; [|discriminate].
  destruct (action_exec w a) as [w1 [k1| |]] eqn:Ee; try discriminate.
  destruct (run_script w1 fs k1) as [[w2 acts2] out] eqn:Er. injection H as <- <- ->.
  econstructor; [exact Ea|exact Ee|]. apply IH. exact Er.
Qed.

Lemma run_script_stop fs : forall w k0 acts w1 k f rest acts2 w2,
  runs w fs k0 acts w1 k -> fails w1 f acts2 w2 ->
  exists out, run_script w (fs ++ f :: rest) k0 = (w2, acts ++ acts2, out) /\ (forall k', out <> Ok k') /\
    forall rest', run_script w (fs ++ f :: rest') k0 = (w2, acts ++ acts2, out).
Proof.
  induction fs as [|g fs IH]; intros w k0 acts w1 k f rest acts2 w2 Hr Hf; inversion Hr; subst; simpl.
  - destruct Hf as [Hn|a w' r Ha He Hk].
    + rewrite Hn. exists Err. repeat split; congruence.
    + rewrite Ha, He. destruct r as [k'| |]; [destruct (Hk k' eq_refl)| |];
        eexists; repeat split; congruence.
  - match goal with H1 : g _ _ = Some _ |- _ => rewrite H1 end.
    match goal with H1 : action_exec _ _ = _ |- _ => rewrite H1 end.
    destruct (IH _ _ _ _ _ f rest acts2 w2 ltac:(eassumption) Hf) as [out [E [Hk Hrest]]].
    exists out. rewrite E. split; [reflexivity|]. split; [exact Hk|].
    intros rest'. rewrite Hrest. reflexivity.
Qed.

Lemma run_script_cases fs : forall w k0,
  (exists acts w' k, runs w fs k0 acts w' k) \/
  (exists done f rest acts w1 k acts2 w2, fs = done ++ f :: rest /\ runs w done k0 acts w1 k /\ fails w1 f acts2 w2).
Proof.
  induction fs as [|f fs IH]; intros w k0.
  - left. exists [], w, k0. constructor.
  - destruct (f (w_cat w) (w_fmap w)) as [a|] eqn:Ea.
    + destruct (action_exec w a) as [w1 r] eqn:Ee. destruct r as [k1| |].
      * destruct (IH w1 k1) as [[acts [w' [k H]]]|[dn [g [rest [acts [w2 [k [acts2 [w3 [E [H1 H2]]]]]]]]]]].
        -- left. exists (a :: acts), w', k. econstructor; eassumption.
        -- right. exists (f :: dn), g, rest, (a :: acts), w2, k, acts2, w3. subst fs.
           split; [reflexivity|]. split; [econstructor; eassumption|exact H2].
      * right. exists [], f, fs, [], w, k0, [a], w1. split; [reflexivity|]. split; [constructor|].
        eapply fails_exec; [exact Ea|exact Ee|congruence].
      * right. exists [], f, fs, [], w, k0, [a], w1. split; [reflexivity|]. split; [constructor|].
        eapply fails_exec; [exact Ea|exact Ee|congruence].
    + right. exists [], f, fs, [], w, k0, [], w. split; [reflexivity|]. split; [constructor|].
      apply fails_analysis. exact Ea.
Qed.

Lemma c12_exec_lemma : forall w np fs,
  (exists acts w1 k, runs (start_call w np) fs 0 acts w1 k /\
     fst (exec_context w np fs) = fst (cleanup_all w1 acts) /\
     snd (exec_context w np fs) = if snd (cleanup_all w1 acts) then Err else Ok k) \/
  (exists done f rest acts w1 k acts2 w2, fs = done ++ f :: rest /\
     runs (start_call w np) done 0 acts w1 k /\ fails w1 f acts2 w2 /\
     fst (exec_context w np fs) = fst (cleanup_all w2 (acts ++ acts2)) /\
     (forall k', snd (exec_context w np fs) <> Ok k') /\
     forall rest', exec_context w np (done ++ f :: rest') = exec_context w np fs).
Proof.
  intros w np fs. unfold exec_context. destruct (run_script_cases fs (start_call w np) 0) as [[acts [w' [k H]]]|H].
  - left. exists acts, w', k. split; [exact H|]. rewrite (run_script_ok _ _ _ _ _ _ H).
    destruct (cleanup_all w' acts) as [w2 b]. split; reflexivity.
  - destruct H as [dn [f [rest [acts [w1 [k [acts2 [w2 [E [H1 H2]]]]]]]]]].
    right. exists dn, f, rest, acts, w1, k, acts2, w2. split; [exact E|]. split; [exact H1|]. split; [exact H2|].
    destruct (run_script_stop dn _ _ _ _ _ f rest acts2 w2 H1 H2) as [out [Er [Hk Hrest]]].
    subst fs. rewrite Er. destruct (cleanup_all w2 (acts ++ acts2)) as [w3 b] eqn:Ec. split; [reflexivity|]. split.
    + intros k'. simpl. destruct out as [k1| |]; [destruct (Hk k1 eq_refl)|discriminate|discriminate].
    + intros rest'. rewrite Hrest, Ec. reflexivity.
Qed.

Lemma c12_query_lemma : forall w np fs,
  (exists acts w1 k, runs (start_call w np) fs 0 acts w1 k /\ query_context w np fs = (w1, Ok acts)) \/
  (exists done f rest acts w1 k acts2 w2, fs = done ++ f :: rest /\
     runs (start_call w np) done 0 acts w1 k /\ fails w1 f acts2 w2 /\
     fst (query_context w np fs) = w2 /\
     (forall l, snd (query_context w np fs) <> Ok l) /\
     forall rest', query_context w np (done ++ f :: rest') = query_context w np fs).
Proof.
  intros w np fs. unfold query_context. destruct (run_script_cases fs (start_call w np) 0) as [[acts [w' [k H]]]|H].
  - left. exists acts, w', k. split; [exact H|]. rewrite (run_script_ok _ _ _ _ _ _ H). reflexivity.
  - destruct H as [dn [f [rest [acts [w1 [k [acts2 [w2 [E [H1 H2]]]]]]]]]].
    right. exists dn, f, rest, acts, w1, k, acts2, w2. split; [exact E|]. split; [exact H1|]. split; [exact H2|].
    destruct (run_script_stop dn _ _ _ _ _ f rest acts2 w2 H1 H2) as [out [Er [Hk Hrest]]].
    subst fs. rewrite Er. destruct out as [k1| |]; [destruct (Hk k1 eq_refl)| |];
      (split; [reflexivity|]; split; [discriminate|]; intros rest'; rewrite Hrest; reflexivity).
Qed.

(** ** Basic facts about the effect of calls *)
Lemma db_get_set d n o m : db_get (db_set d n o) m = if String.eqb (lower n) (lower m) then Some o else db_get d m.
Proof. apply aget_aset. Qed.
Lemma db_get_del d n m : db_get (db_del d n) m = if String.eqb (lower n) (lower m) then None else db_get d m.
Proof. apply aget_adel. Qed.

Lemma sq_frame w q : w_cat (fst (sq w q)) = w_cat w /\ w_saved (fst (sq w q)) = w_saved w /\
  w_fmap (fst (sq w q)) = w_fmap w /\ w_cc (fst (sq w q)) = w_cc w /\ w_faults (fst (sq w q)) = tl (w_faults w).
Proof.
  unfold sq. destruct (next_fault w); [repeat split|]. destruct (sq_apply (w_db w) q) as [[d k]|]; repeat split.
Qed.
Lemma sq_db w q : w_db (fst (sq w q)) = w_db w \/
  exists d k, sq_apply (w_db w) q = Some (d, k) /\ w_db (fst (sq w q)) = d.
Proof.
  unfold sq. destruct (next_fault w); [left; reflexivity|]. destruct (sq_apply (w_db w) q) as [[d k]|] eqn:E; [|left; reflexivity].
  right. exists d, k. split; reflexivity.
Qed.
Lemma sq_saved_frame w f : w_cat (fst (sq_saved w f)) = w_cat w /\ w_db (fst (sq_saved w f)) = w_db w /\
  w_fmap (fst (sq_saved w f)) = w_fmap w /\ w_cc (fst (sq_saved w f)) = w_cc w /\
  w_faults (fst (sq_saved w f)) = tl (w_faults w).
Proof. unfold sq_saved. destruct (next_fault w); repeat split. Qed.

Lemma no_faults_next w : no_faults w -> next_fault w = false.
Proof. unfold no_faults, next_fault. destruct (w_faults w) as [|b l]; [reflexivity|]. intros H. apply H. left. reflexivity. Qed.
Lemma no_faults_tl w w' : w_faults w' = tl (w_faults w) -> no_faults w -> no_faults w'.
Proof. unfold no_faults. intros E H b Hb. rewrite E in Hb. apply H. destruct (w_faults w); [exact Hb|right; exact Hb]. Qed.
Lemma no_faults_eq w w' : w_faults w' = w_faults w -> no_faults w -> no_faults w'.
Proof. unfold no_faults. intros E H b Hb. rewrite E in Hb. exact (H b Hb). Qed.

(** ** Clean-up *)
(** delete_table_spec_sql removes the name from the catalog, faults or not. *)
Lemma del_table_cat w n : cinv (w_cat w) ->
  let w1 := fst (delete_table_spec_sql w n) in
  cinv (w_cat w1) /\ w_db w1 = w_db w /\ w_fmap w1 = w_fmap w /\ w_cc w1 = w_cc w /\
  (no_faults w -> no_faults w1) /\
  c_tables (w_cat w1) = filter (fun s => negb (String.eqb (ts_name s) n)) (c_tables (w_cat w)) /\
  c_functions (w_cat w1) = c_functions (w_cat w).
Proof.
  intros I w1. unfold w1, delete_table_spec_sql. destruct (delete_table_spec (w_cat w) n I) as [H1 H2].
  destruct (aget (c_tmap (w_cat w)) n) eqn:E.
  - destruct (H2 ltac:(discriminate)) as [c' [-> [I' [T [F _]]]]].
    set (w2 := set_cat w c'). destruct (sq_saved_frame w2 (fun rows => delete_row rows n)) as [A [B [C [D G]]]].
    rewrite A, B, C, D. split; [exact I'|]. do 3 (split; [reflexivity|]). split; [|split; assumption].
    intros Hf. exact (no_faults_tl w2 _ G (no_faults_eq w w2 eq_refl Hf)).
  - rewrite (H1 eq_refl). simpl. split; [exact I|]. do 3 (split; [reflexivity|]). split; [intros Hf; exact Hf|]. split; [|reflexivity].
    symmetry. apply filter_absent. apply (ci_tkeys _ I). exact E.
Qed.
Lemma del_func_cat w n : cinv (w_cat w) ->
  let w1 := fst (delete_function_spec_sql w n) in
  cinv (w_cat w1) /\ w_db w1 = w_db w /\ w_fmap w1 = w_fmap w /\ w_cc w1 = w_cc w /\
  (no_faults w -> no_faults w1) /\
  c_functions (w_cat w1) = filter (fun s => negb (String.eqb (fs_name s) n)) (c_functions (w_cat w)) /\
  c_tables (w_cat w1) = c_tables (w_cat w).
Proof.
  intros I w1. unfold w1, delete_function_spec_sql. destruct (delete_function_spec (w_cat w) n I) as [H1 H2].
  destruct (aget (c_fmap (w_cat w)) n) eqn:E.
  - destruct (H2 ltac:(discriminate)) as [c' [-> [I' [T [F _]]]]].
    set (w2 := set_cat w c'). destruct (sq_saved_frame w2 (fun rows => delete_row rows n)) as [A [B [C [D G]]]].
    rewrite A, B, C, D. split; [exact I'|]. do 3 (split; [reflexivity|]). split; [|split; assumption].
    intros Hf. exact (no_faults_tl w2 _ G (no_faults_eq w w2 eq_refl Hf)).
  - rewrite (H1 eq_refl). simpl. split; [exact I|]. do 3 (split; [reflexivity|]). split; [intros Hf; exact Hf|]. split; [|reflexivity].
    symmetry. apply filter_fabsent. apply (ci_fkeys _ I). exact E.
Qed.

Lemma andthen_fst (P : world -> Prop) r k : P (fst r) -> (forall w, P w -> P (fst (k w))) -> P (fst (andthen r k)).
Proof. intros H1 H2. unfold andthen. destruct (snd r); simpl; auto. Qed.

(** A clean-up only removes things. *)
Definition less (w w' : world) : Prop :=
  (forall n, db_get (w_db w') n = db_get (w_db w) n \/ db_get (w_db w') n = None) /\
  (forall n, In n (map ts_name (c_tables (w_cat w'))) -> In n (map ts_name (c_tables (w_cat w)))) /\
  (forall n, In n (map fs_name (c_functions (w_cat w'))) -> In n (map fs_name (c_functions (w_cat w)))).

Lemma less_refl w : less w w.
Proof. repeat split; auto. Qed.
Lemma less_trans a b c : less a b -> less b c -> less a c.
Proof.
  intros [A1 [A2 A3]] [B1 [B2 B3]]. repeat split; auto.
  intros n. destruct (B1 n) as [E|E]; [rewrite E; apply A1|right; exact E].
Qed.

Lemma drop_less w q : (exists n ie, q = QDropTable n ie \/ q = QDropView n ie) -> less w (fst (sq w q)).
Proof.
  intros [n [ie Hq]]. destruct (sq_frame w q) as [Hc _]. split; [|rewrite Hc; split; auto].
  destruct (sq_db w q) as [E|[d [k [E1 E2]]]]; intros m; [left; rewrite E; reflexivity|]. rewrite E2.
  destruct Hq as [-> | ->]; simpl in E1; destruct (db_get (w_db w) n) as [[rows|]|]; try discriminate;
    try (destruct ie; [|discriminate]); injection E1 as <- <-; try (left; reflexivity);
    rewrite db_get_del; destruct (String.eqb _ _); auto.
Qed.

Lemma del_table_less w n : cinv (w_cat w) -> less w (fst (delete_table_spec_sql w n)).
Proof.
  intros I. destruct (del_table_cat w n I) as [_ [D [_ [_ [_ [T F]]]]]]. split; [intros m; left; now rewrite D|].
  rewrite T, F. split; [|auto]. intros m H. apply in_map_filter_name in H. tauto.
Qed.
Lemma del_func_less w n : cinv (w_cat w) -> less w (fst (delete_function_spec_sql w n)).
Proof.
  intros I. destruct (del_func_cat w n I) as [_ [D [_ [_ [_ [F T]]]]]]. split; [intros m; left; now rewrite D|].
  rewrite T, F. split; [auto|]. intros m H. apply in_map_filter_fname in H. tauto.
Qed.

Lemma cleanup_step w a : cinv (w_cat w) ->
  let w1 := fst (action_cleanup w a) in
  cinv (w_cat w1) /\ less w w1 /\ (no_faults w -> no_faults w1) /\
  (no_faults w -> kind_kept w a -> ~ temp_left w1 a).
Proof.
  intros I w1. unfold w1.
  assert (Hsame : forall c, cinv (w_cat (set_cc w c)) /\ less w (set_cc w c) /\ (no_faults w -> no_faults (set_cc w c))).
  { intros c. split; [exact I|]. split; [repeat split; auto|]. intros H. exact H. }
  destruct a as [s m ct k|s m|f|v n ie|n ie|n f|n| | |n|l]; simpl action_cleanup;
    try (split; [exact I|]; split; [apply less_refl|]; split; [auto|]; intros _ _ H; exact H).
  - destruct (ts_temp s) eqn:Et.
    2:{ split; [exact I|]. split; [apply less_refl|]. split; [auto|]. intros _ _ [H _]. congruence. }
    set (q := QDropTable (ts_name s) true).
    pose proof (drop_less w q ltac:(exists (ts_name s), true; left; reflexivity)) as L1.
    destruct (sq_frame w q) as [Fc [_ [_ [_ Ff]]]].
    assert (I1 : cinv (w_cat (fst (sq w q)))) by (rewrite Fc; exact I).
    destruct (del_table_cat (fst (sq w q)) (ts_name s) I1) as [I2 [D2 [_ [_ [N2 [T2 _]]]]]].
    pose proof (del_table_less (fst (sq w q)) (ts_name s) I1) as L2.
    assert (Hn1 : no_faults w -> no_faults (fst (sq w q))) by (apply no_faults_tl; exact Ff).
    unfold andthen. destruct (sq w q) as [w2 r] eqn:Eq. cbn [fst snd] in *. destruct r as [k1| |]; cbn [fst].
    + split; [exact I2|]. split; [exact (less_trans _ _ _ L1 L2)|]. split; [auto|].
      intros Hf Hk [_ [H|H]].
      * apply H. unfold absent. rewrite D2. unfold sq in Eq. rewrite (no_faults_next w Hf) in Eq. unfold q in Eq. simpl in Eq.
        destruct (db_get (w_db w) (ts_name s)) as [[rows|]|] eqn:Eg; injection Eq as <- _.
        -- simpl. rewrite db_get_del, String.eqb_refl. reflexivity.
        -- exfalso. apply (Hk Et). exact Eg.
        -- exact Eg.
      * unfold in_catalog_t in H. rewrite T2 in H. apply in_map_filter_name in H. tauto.
    + split; [exact I1|]. split; [exact L1|]. split; [exact Hn1|]. intros Hf Hk _.
      unfold sq in Eq. rewrite (no_faults_next w Hf) in Eq. unfold q in Eq. simpl in Eq.
      destruct (db_get (w_db w) (ts_name s)) as [[rows|]|] eqn:Eg; try discriminate. exact (Hk Et Eg).
    + unfold sq in Eq. destruct (next_fault w); [discriminate|]. destruct (sq_apply (w_db w) q) as [[d k1]|]; discriminate.
  - destruct (ts_temp s) eqn:Et.
    2:{ destruct (Hsame (cc_add_table (w_cc w) s)) as [A [B C]]. split; [exact A|]. split; [exact B|]. split; [exact C|].
        intros _ _ [H _]. congruence. }
    set (q := QDropView (ts_name s) true).
    pose proof (drop_less w q ltac:(exists (ts_name s), true; right; reflexivity)) as L1.
    destruct (sq_frame w q) as [Fc [_ [_ [_ Ff]]]].
    assert (I1 : cinv (w_cat (fst (sq w q)))) by (rewrite Fc; exact I).
    destruct (del_table_cat (fst (sq w q)) (ts_name s) I1) as [I2 [D2 [_ [_ [N2 [T2 _]]]]]].
    pose proof (del_table_less (fst (sq w q)) (ts_name s) I1) as L2.
    assert (Hn1 : no_faults w -> no_faults (fst (sq w q))) by (apply no_faults_tl; exact Ff).
    unfold andthen. destruct (sq w q) as [w2 r] eqn:Eq. cbn [fst snd] in *. destruct r as [k1| |]; cbn [fst].
    + split; [exact I2|]. split; [exact (less_trans _ _ _ L1 L2)|]. split; [auto|].
      intros Hf Hk [_ [H|H]].
      * apply H. unfold absent. rewrite D2. unfold sq in Eq. rewrite (no_faults_next w Hf) in Eq. unfold q in Eq. simpl in Eq.
        destruct (db_get (w_db w) (ts_name s)) as [[rows|]|] eqn:Eg; injection Eq as <- _.
        -- exfalso. apply (Hk Et). exists rows. exact Eg.
        -- simpl. rewrite db_get_del, String.eqb_refl. reflexivity.
        -- exact Eg.
      * unfold in_catalog_t in H. rewrite T2 in H. apply in_map_filter_name in H. tauto.
    + split; [exact I1|]. split; [exact L1|]. split; [exact Hn1|]. intros Hf Hk _.
      unfold sq in Eq. rewrite (no_faults_next w Hf) in Eq. unfold q in Eq. simpl in Eq.
      destruct (db_get (w_db w) (ts_name s)) as [[rows|]|] eqn:Eg; try discriminate. apply (Hk Et). exists rows. exact Eg.
    + unfold sq in Eq. destruct (next_fault w); [discriminate|]. destruct (sq_apply (w_db w) q) as [[d k1]|]; discriminate.
  - destruct (fs_temp f) eqn:Et.
    2:{ split; [exact I|]. split; [apply less_refl|]. split; [auto|]. intros _ _ [H _]. congruence. }
    destruct (del_func_cat w (fs_name f) I) as [I2 [D2 [_ [_ [N2 [F2 T2]]]]]].
    pose proof (del_func_less w (fs_name f) I) as L2.
    assert (Hleft : ~ In (fs_name f) (map fs_name (c_functions (w_cat (fst (delete_function_spec_sql w (fs_name f))))))).
    { rewrite F2. intros H. apply in_map_filter_fname in H. tauto. }
    unfold andthen. destruct (delete_function_spec_sql w (fs_name f)) as [w2 r]. cbn [fst snd] in *.
    destruct r as [k1| |]; cbn [fst]; (split; [exact I2|]; split; [exact L2|]; split; [exact N2|]);
      intros _ _ [_ H]; exact (Hleft H).
Qed.

Lemma temp_left_less w w' a : less w w' -> ~ temp_left w a -> ~ temp_left w' a.
Proof.
  intros [L1 [L2 L3]] H H'. apply H. destruct a as [s m ct k|s m|f|v n ie|n ie|n f|n| | |n|l]; simpl in *; try tauto.
  - destruct H' as [H1 [H2|H2]]; (split; [exact H1|]); [left|right; apply L2; exact H2].
    intros Ha. apply H2. unfold absent in *. destruct (L1 (ts_name s)) as [E|E]; [rewrite E; exact Ha|exact E].
  - destruct H' as [H1 [H2|H2]]; (split; [exact H1|]); [left|right; apply L2; exact H2].
    intros Ha. apply H2. unfold absent in *. destruct (L1 (ts_name s)) as [E|E]; [rewrite E; exact Ha|exact E].
  - destruct H' as [H1 H2]. split; [exact H1|]. apply L3. exact H2.
Qed.
Lemma kind_kept_less w w' a : less w w' -> kind_kept w a -> kind_kept w' a.
Proof.
  intros [L1 _] H. destruct a as [s m ct k|s m|f|v n ie|n ie|n f|n| | |n|l]; simpl in *; try exact I.
  - intros Ht Hv. apply (H Ht). unfold is_view in *. destruct (L1 (ts_name s)) as [E|E]; congruence.
  - intros Ht [rows Hv]. apply (H Ht). exists rows. destruct (L1 (ts_name s)) as [E|E]; congruence.
Qed.

Lemma cleanup_all_spec l : forall w, cinv (w_cat w) ->
  cinv (w_cat (fst (cleanup_all w l))) /\ less w (fst (cleanup_all w l)) /\
  (no_faults w -> (forall a, In a l -> kind_kept w a) ->
   forall a, In a l -> ~ temp_left (fst (cleanup_all w l)) a).
Proof.
  induction l as [|a l IH]; intros w I; simpl; [split; [exact I|]; split; [apply less_refl|]; intros _ _ a []|].
  destruct (cleanup_step w a I) as [I1 [L1 [N1 T1]]]. destruct (action_cleanup w a) as [w1 r]. simpl in *.
  destruct (IH w1 I1) as [I2 [L2 T2]]. destruct (cleanup_all w1 l) as [w2 b]. simpl in *.
  split; [exact I2|]. split; [exact (less_trans _ _ _ L1 L2)|].
  intros Hf Hk b' [<-|Hb].
  - apply (temp_left_less _ _ _ L2). apply T1; auto.
  - apply T2; auto. intros c Hc. apply (kind_kept_less _ _ _ L1). apply Hk. right. exact Hc.
Qed.

(** ** Execution keeps the catalog well-formed *)
Lemma andthen_inv (P : world -> Prop) r k : P (fst r) -> (forall w, P w -> P (fst (k w))) -> P (fst (andthen r k)).
Proof. intros H1 H2. unfold andthen. destruct (snd r); simpl; auto. Qed.

Definition ci (w : world) : Prop := cinv (w_cat w).

Lemma sq_ci w q : ci w -> ci (fst (sq w q)).
Proof. unfold ci. destruct (sq_frame w q) as [-> _]. auto. Qed.
Lemma add_t_ci w s : ts_path s <> [] -> ci w -> ci (fst (add_new_table_spec w s)).
Proof.
  unfold ci, add_new_table_spec. intros Hn I. destruct (add_table_inv (w_cat w) s I Hn) as [I' E].
  destruct (add_table_spec (w_cat w) s) as [c e]. simpl in *. subst e.
  destruct (ts_temp s); [exact I'|]. match goal with |- context [sq_saved ?a ?b] => destruct (sq_saved_frame a b) as [-> _] end. exact I'.
Qed.
Lemma add_f_ci w s : fs_path s <> [] -> ci w -> ci (fst (add_new_function_spec w s)).
Proof.
  unfold ci, add_new_function_spec. intros Hn I. destruct (add_function_inv (w_cat w) s I Hn) as [I' E].
  destruct (add_function_spec (w_cat w) s) as [c e]. simpl in *. subst e.
  destruct (fs_temp s); [exact I'|]. match goal with |- context [sq_saved ?a ?b] => destruct (sq_saved_frame a b) as [-> _] end. exact I'.
Qed.
Lemma idx_ci n k : forall w, ci w -> ci (fst (create_indexes w n k)).
Proof. induction k as [|k IH]; intros w I; simpl; [exact I|]. apply andthen_inv; [apply sq_ci; exact I|exact IH]. Qed.
Lemma exec_all_ci l : forall w, ci w -> ci (fst (exec_all w l)).
Proof. induction l as [|q l IH]; intros w I; simpl; [exact I|]. apply andthen_inv; [apply sq_ci; exact I|exact IH]. Qed.

Lemma exec_ci w a : action_named a -> ci w -> ci (fst (action_exec w a)).
Proof.
  intros Hn I. destruct a as [s m ct k|s m|f|v n ie|n ie|n f|n| | |n|l]; cbn [action_exec]; simpl in Hn; try exact I;
    try (apply sq_ci; exact I).
  - apply andthen_inv; [destruct (mode_eqb m MOrReplace); [apply sq_ci; exact I|exact I]|]. intros w1 I1.
    apply andthen_inv; [apply sq_ci; exact I1|]. intros w2 I2.
    apply andthen_inv; [apply idx_ci; exact I2|]. intros w3 I3.
    apply andthen_inv; [apply add_t_ci; assumption|]. intros w4 I4. simpl. destruct (ts_temp s); exact I4.
  - apply andthen_inv; [destruct (mode_eqb m MOrReplace); [apply sq_ci; exact I|exact I]|]. intros w1 I1.
    apply andthen_inv; [apply sq_ci; exact I1|]. intros w2 I2.
    apply andthen_inv; [apply add_t_ci; assumption|]. intros w3 I3. exact I3.
  - apply andthen_inv; [apply add_f_ci; assumption|]. intros w1 I1.
    destruct (cc_add_function _ f); exact I1.
  - apply andthen_inv; [apply sq_ci; exact I|]. intros w1 I1.
    apply andthen_inv; [exact (proj1 (del_table_cat w1 n I1))|]. intros w2 I2.
    destruct (aget _ n); exact I2.
  - apply andthen_inv; [exact (proj1 (del_func_cat w n I))|]. intros w1 I1.
    destruct (cc_delete_function _ _); exact I1.
  - apply exec_all_ci. exact I.
Qed.

Lemma run_ci fs : forall w k0, script_named fs -> ci w -> ci (fst (fst (run_script w fs k0))).
Proof.
  induction fs as [|f fs IH]; intros w k0 Hn I; simpl; [exact I|].
  destruct (f (w_cat w) (w_fmap w)) as [a|] eqn:Ea; [|exact I].
  assert (action_named a) as Ha by (apply (Hn f (w_cat w) (w_fmap w) a); [left; reflexivity|exact Ea]).
  pose proof (exec_ci w a Ha I) as I1. destruct (action_exec w a) as [w1 r]. simpl in I1.
  destruct r as [k1| |]; [|exact I1|exact I1].
  specialize (IH w1 k1 (fun g c m b Hg => Hn g c m b (or_intror Hg)) I1).
  destruct (run_script w1 fs k1) as [[w2 acts] out]. exact IH.
Qed.

(** ** C13, C14 *)
Lemma c13_lemma w np fs : cinv (w_cat w) -> script_named fs ->
  let '(w1, acts, _) := run_script (start_call w np) fs 0 in
  no_faults w1 -> (forall a, In a acts -> kind_kept w1 a) ->
  forall a, In a acts -> ~ temp_left (fst (exec_context w np fs)) a.
Proof.
  intros I Hn. pose proof (run_ci fs (start_call w np) 0 Hn I) as I1. unfold exec_context.
  destruct (run_script (start_call w np) fs 0) as [[w1 acts] out]. simpl in I1.
  destruct (cleanup_all_spec acts w1 I1) as [_ [_ H]]. destruct (cleanup_all w1 acts) as [w2 b]. exact H.
Qed.

Lemma c14_close_lemma w acts : cinv (w_cat w) -> no_faults w -> (forall a, In a acts -> kind_kept w a) ->
  forall a, In a acts -> ~ temp_left (fst (rows_close w acts)) a.
Proof.
  intros I Hf Hk. unfold rows_close. destruct (cleanup_all_spec acts w I) as [_ [_ H]].
  destruct (cleanup_all w acts) as [w1 b]. exact (H Hf Hk).
Qed.

(** ** C15 *)
(** [keeps w0 w]: every object of [w0] is still in [w] with the same rows, every function is
    still in the catalog. *)
Definition keeps (w0 w : world) : Prop :=
  (forall n, db_get (w_db w0) n <> None -> db_get (w_db w) n = db_get (w_db w0) n) /\
  (forall n, in_catalog_f w0 n -> in_catalog_f w n).

Lemma keeps_eq w0 w w' : w_db w' = w_db w -> w_cat w' = w_cat w -> keeps w0 w -> keeps w0 w'.
Proof. intros E1 E2 [H1 H2]. unfold keeps, in_catalog_f. rewrite E1, E2. split; assumption. Qed.

Lemma sq_keeps w0 w q :
  (forall d k, sq_apply (w_db w) q = Some (d, k) -> forall n, db_get (w_db w0) n <> None -> db_get d n = db_get (w_db w) n) ->
  keeps w0 w -> keeps w0 (fst (sq w q)).
Proof.
  intros Hq [H1 H2]. destruct (sq_frame w q) as [Fc _]. split; [|unfold in_catalog_f in *; rewrite Fc; exact H2].
  destruct (sq_db w q) as [E|[d [k [E1 E2]]]]; intros n Hn; [rewrite E; auto|]. rewrite E2, (Hq d k E1 n Hn). auto.
Qed.

Lemma sq_create_keeps w0 w q : keeps w0 w ->
  (exists n ine rows, q = QCreateTable n ine rows) \/ (exists n ine, q = QCreateView n ine) ->
  keeps w0 (fst (sq w q)).
Proof.
  intros K Hq. apply sq_keeps; [|exact K]. intros d k Ha n Hn.
  destruct Hq as [[m [ine [rows ->]]]|[m [ine ->]]]; simpl in Ha;
    destruct (db_get (w_db w) m) eqn:Eg.
  - destruct ine; [|discriminate]. injection Ha as <- _. reflexivity.
  - injection Ha as <- _. rewrite db_get_set. destruct (String.eqb_spec (lower m) (lower n)) as [E|E]; [|reflexivity].
    exfalso. destruct K as [K _]. specialize (K n Hn). apply Hn. rewrite <- K. unfold db_get in *. rewrite <- E. exact Eg.
  - destruct ine; [|discriminate]. injection Ha as <- _. reflexivity.
  - injection Ha as <- _. rewrite db_get_set. destruct (String.eqb_spec (lower m) (lower n)) as [E|E]; [|reflexivity].
    exfalso. destruct K as [K _]. specialize (K n Hn). apply Hn. rewrite <- K. unfold db_get in *. rewrite <- E. exact Eg.
Qed.

Lemma sq_drop_keeps w0 w q : keeps w0 w ->
  (exists n ie, (q = QDropTable n ie \/ q = QDropView n ie) /\ absent (w_db w0) n) -> keeps w0 (fst (sq w q)).
Proof.
  intros K [m [ie [Hq Ha]]]. apply sq_keeps; [|exact K]. intros d k E n Hn.
  assert (Hne : lower m <> lower n) by (intros El; apply Hn; unfold absent, db_get in *; rewrite <- El; exact Ha).
  destruct Hq as [-> | ->]; simpl in E; destruct (db_get (w_db w) m) as [[rows|]|]; try discriminate;
    try (destruct ie; [|discriminate]); injection E as <- _; try reflexivity;
    rewrite db_get_del; destruct (String.eqb_spec (lower m) (lower n)); congruence.
Qed.

Lemma sq_index_keeps w0 w n : keeps w0 w -> keeps w0 (fst (sq w (QIndex n))).
Proof.
  intros K. apply sq_keeps; [|exact K]. intros d k E m Hm. simpl in E.
  destruct (db_get (w_db w) n) as [[rows|]|]; try discriminate. injection E as <- _. reflexivity.
Qed.

Lemma add_t_functions c s : c_functions (fst (add_table_spec c s)) = c_functions c.
Proof. unfold add_table_spec. destruct (aget (c_tmap c) (ts_name s)); reflexivity. Qed.

Lemma add_t_keeps w0 w s : keeps w0 w -> keeps w0 (fst (add_new_table_spec w s)).
Proof.
  intros [K1 K2]. unfold add_new_table_spec. pose proof (add_t_functions (w_cat w) s) as Ef.
  destruct (add_table_spec (w_cat w) s) as [c e]. simpl in Ef.
  assert (K : keeps w0 (set_cat w c)) by (split; [exact K1|]; unfold in_catalog_f in *; simpl; rewrite Ef; exact K2).
  destruct e; [exact K|]. destruct (ts_temp s); [exact K|].
  match goal with |- context [sq_saved ?a ?b] => destruct (sq_saved_frame a b) as [E1 [E2 _]] end.
  exact (keeps_eq _ _ _ E2 E1 K).
Qed.
Lemma add_f_keeps w0 w s : keeps w0 w -> keeps w0 (fst (add_new_function_spec w s)).
Proof.
  intros [K1 K2]. unfold add_new_function_spec.
  assert (Ef : forall n, In n (map fs_name (c_functions (w_cat w))) -> In n (map fs_name (c_functions (fst (add_function_spec (w_cat w) s))))).
  { intros n Hn. unfold add_function_spec. destruct (aget _ _); simpl; [exact Hn|]. rewrite map_app. apply in_or_app. left. exact Hn. }
  destruct (add_function_spec (w_cat w) s) as [c e]. simpl in Ef.
  assert (K : keeps w0 (set_cat w c)) by (split; [exact K1|]; unfold in_catalog_f in *; simpl; intros n Hn; apply Ef, K2, Hn).
  destruct e; [exact K|]. destruct (fs_temp s); [exact K|].
  match goal with |- context [sq_saved ?a ?b] => destruct (sq_saved_frame a b) as [E1 [E2 _]] end.
  exact (keeps_eq _ _ _ E2 E1 K).
Qed.

Lemma create_keeps w0 w a : creates_only w0 a -> keeps w0 w -> keeps w0 (fst (action_exec w a)).
Proof.
  intros Hc K. destruct a as [s m ct k|s m|f|v n ie|n ie|n f|n| | |n|l]; cbn [action_exec]; simpl in Hc; try contradiction.
  - apply andthen_inv.
    { destruct (mode_eqb m MOrReplace) eqn:Em; [|exact K]. apply sq_drop_keeps; [exact K|].
      exists (ts_name s), true. split; [left; reflexivity|]. apply Hc. right. destruct m; (reflexivity || discriminate). }
    intros w1 K1. apply andthen_inv.
    { apply sq_create_keeps; [exact K1|]. left. unfold schema_table. destruct ct; eauto. }
    intros w2 K2. apply andthen_inv.
    { clear - K2. revert w2 K2. induction k as [|k IH]; intros w2 K2; simpl; [exact K2|].
      apply andthen_inv; [apply sq_index_keeps; exact K2|exact IH]. }
    intros w3 K3. apply andthen_inv; [apply add_t_keeps; exact K3|].
    intros w4 K4. simpl. destruct (ts_temp s); [exact K4|]. exact (keeps_eq w0 w4 _ eq_refl eq_refl K4).
  - apply andthen_inv.
    { destruct (mode_eqb m MOrReplace) eqn:Em; [|exact K]. apply sq_drop_keeps; [exact K|].
      exists (ts_name s), true. split; [right; reflexivity|]. apply Hc. right. destruct m; (reflexivity || discriminate). }
    intros w1 K1. apply andthen_inv.
    { apply sq_create_keeps; [exact K1|]. right. unfold schema_view. eauto. }
    intros w2 K2. apply andthen_inv; [apply add_t_keeps; exact K2|]. intros w3 K3. exact K3.
  - apply andthen_inv; [apply add_f_keeps; exact K|]. intros w1 K1.
    destruct (cc_add_function _ f); exact (keeps_eq w0 w1 _ eq_refl eq_refl K1).
Qed.

Lemma cleanup_keeps w0 w a : ci w -> creates_only w0 a -> keeps w0 w -> keeps w0 (fst (action_cleanup w a)).
Proof.
  intros I Hc K. destruct a as [s m ct k|s m|f|v n ie|n ie|n f|n| | |n|l]; cbn [action_cleanup]; simpl in Hc; try contradiction.
  - destruct (ts_temp s) eqn:Et; [|exact K]. unfold andthen.
    assert (K1 : keeps w0 (fst (sq w (QDropTable (ts_name s) true)))).
    { apply sq_drop_keeps; [exact K|]. exists (ts_name s), true. split; [left; reflexivity|]. apply Hc. left. reflexivity. }
    pose proof (sq_ci w (QDropTable (ts_name s) true) I) as I1.
    destruct (sq w (QDropTable (ts_name s) true)) as [w1 r]. simpl in K1, I1.
    destruct (del_table_cat w1 (ts_name s) I1) as [_ [D [_ [_ [_ [_ F]]]]]].
    destruct r; simpl; try exact K1. destruct K1 as [K1 K2]. unfold keeps, in_catalog_f. rewrite D, F. split; assumption.
  - destruct (ts_temp s) eqn:Et; [|exact (keeps_eq w0 w _ eq_refl eq_refl K)]. unfold andthen.
    assert (K1 : keeps w0 (fst (sq w (QDropView (ts_name s) true)))).
    { apply sq_drop_keeps; [exact K|]. exists (ts_name s), true. split; [right; reflexivity|]. apply Hc. left. reflexivity. }
    pose proof (sq_ci w (QDropView (ts_name s) true) I) as I1.
    destruct (sq w (QDropView (ts_name s) true)) as [w1 r]. simpl in K1, I1.
    destruct (del_table_cat w1 (ts_name s) I1) as [_ [D [_ [_ [_ [_ F]]]]]].
    destruct r; simpl; try exact K1. destruct K1 as [K1 K2]. unfold keeps, in_catalog_f. rewrite D, F. split; assumption.
  - destruct (fs_temp f) eqn:Et; [|exact K]. unfold andthen.
    destruct (del_func_cat w (fs_name f) I) as [_ [D [_ [_ [_ [F _]]]]]].
    assert (K1 : keeps w0 (fst (delete_function_spec_sql w (fs_name f)))).
    { destruct K as [K1 K2]. split; [rewrite D; exact K1|]. unfold in_catalog_f in *. rewrite F. intros n Hn.
      apply in_map_filter_fname. split; [apply K2; exact Hn|]. intros ->. exact (Hc eq_refl Hn). }
    destruct (delete_function_spec_sql w (fs_name f)) as [w1 r]. simpl in K1.
    destruct r; exact (keeps_eq w0 w1 _ eq_refl eq_refl K1).
Qed.

Lemma run_keeps w0 fs : (forall f c m a, In f fs -> f c m = Some a -> creates_only w0 a) ->
  forall w k0, keeps w0 w ->
  let '(w1, acts, _) := run_script w fs k0 in keeps w0 w1 /\ forall a, In a acts -> creates_only w0 a.
Proof.
  induction fs as [|f fs IH]; intros Hc w k0 K; simpl; [split; [exact K|intros a []]|].
  destruct (f (w_cat w) (w_fmap w)) as [a|] eqn:Ea; [|split; [exact K|intros a []]].
  assert (creates_only w0 a) as Ha by (apply (Hc f (w_cat w) (w_fmap w) a); [left; reflexivity|exact Ea]).
  pose proof (create_keeps w0 w a Ha K) as K1. destruct (action_exec w a) as [w1 r]. simpl in K1.
  destruct r as [k1| |]; [|split; [exact K1|intros b [<-|[]]; exact Ha]|split; [exact K1|intros b [<-|[]]; exact Ha]].
  specialize (IH (fun g c m b Hg => Hc g c m b (or_intror Hg)) w1 k1 K1).
  destruct (run_script w1 fs k1) as [[w2 acts] out]. destruct IH as [IH1 IH2]. split; [exact IH1|].
  intros b [<-|Hb]; [exact Ha|exact (IH2 b Hb)].
Qed.

Lemma cleanup_all_keeps w0 l : (forall a, In a l -> creates_only w0 a) -> forall w, ci w -> keeps w0 w ->
  keeps w0 (fst (cleanup_all w l)).
Proof.
  induction l as [|a l IH]; intros Hc w I K; simpl; [exact K|].
  pose proof (cleanup_keeps w0 w a I (Hc a (or_introl eq_refl)) K) as K1.
  pose proof (proj1 (cleanup_step w a I)) as I1.
  destruct (action_cleanup w a) as [w1 r]. simpl in K1, I1.
  specialize (IH (fun b Hb => Hc b (or_intror Hb)) w1 I1 K1). destruct (cleanup_all w1 l) as [w2 b]. exact IH.
Qed.

Lemma c15_lemma w np fs : cinv (w_cat w) -> script_named fs ->
  (forall f c m a, In f fs -> f c m = Some a -> creates_only w a) ->
  (forall n, db_get (w_db w) n <> None -> db_get (w_db (fst (exec_context w np fs))) n = db_get (w_db w) n) /\
  (forall n, in_catalog_f w n -> in_catalog_f (fst (exec_context w np fs)) n).
Proof.
  intros I Hn Hc. assert (K0 : keeps w (start_call w np)) by (apply (keeps_eq w w); [reflexivity|reflexivity|split; auto]).
  pose proof (run_keeps w fs Hc (start_call w np) 0 K0) as H.
  pose proof (run_ci fs (start_call w np) 0 Hn I) as I1. unfold exec_context.
  destruct (run_script (start_call w np) fs 0) as [[w1 acts] out]. destruct H as [K1 Ha]. simpl in I1.
  pose proof (cleanup_all_keeps w acts Ha w1 I1 K1) as K2. destruct (cleanup_all w1 acts) as [w2 b]. exact K2.
Qed.

(** ** C19 *)
Definition no_replace (a : action) : Prop :=
  match a with ACreateTable _ m _ _ | ACreateView _ m => m <> MOrReplace | _ => True end.

Lemma sq_prepare_same w q : w_db (fst (sq_prepare w q)) = w_db w /\ w_cat (fst (sq_prepare w q)) = w_cat w /\
  w_saved (fst (sq_prepare w q)) = w_saved w /\ w_fmap (fst (sq_prepare w q)) = w_fmap w.
Proof.
  unfold sq_prepare. destruct (next_fault w); [repeat split|].
  destruct q; simpl; try (repeat split; fail); destruct (db_get (w_db w) n) as [[]|]; repeat split.
Qed.

Lemma c19_lemma fs : (forall f c m a, In f fs -> f c m = Some a -> no_replace a) -> forall w b,
  let w' := fst (prepare_loop w fs b) in
  w_db w' = w_db w /\ w_cat w' = w_cat w /\ w_saved w' = w_saved w.
Proof.
  induction fs as [|f fs IH]; intros Hn w b; simpl; [repeat split|].
  destruct (f (w_cat w) (w_fmap w)) as [a|] eqn:Ea; [|repeat split].
  assert (no_replace a) as Ha by (apply (Hn f (w_cat w) (w_fmap w) a); [left; reflexivity|exact Ea]).
  assert (Hsame : w_db (fst (action_prepare w a)) = w_db w /\ w_cat (fst (action_prepare w a)) = w_cat w /\
    w_saved (fst (action_prepare w a)) = w_saved w).
  { destruct a as [s m ct k|s m|g|v n ie|n ie|n g|n| | |n|l]; simpl in *; try (repeat split; fail).
    - assert (mode_eqb m MOrReplace = false) as -> by (destruct m; (reflexivity || congruence)).
      unfold prepare_after. cbn [fst snd]. destruct (sq_prepare_same w (schema_table s m ct)) as [A [B [C _]]]. auto.
    - assert (mode_eqb m MOrReplace = false) as -> by (destruct m; (reflexivity || congruence)).
      unfold prepare_after. cbn [fst snd]. destruct (sq_prepare_same w (schema_view s m)) as [A [B [C _]]]. auto.
    - destruct (sq_prepare_same w (QDml n g)) as [A [B [C _]]]. auto.
    - destruct (sq_prepare_same w (QSelect n)) as [A [B [C _]]]. auto. }
  destruct (action_prepare w a) as [w1 r]. simpl in Hsame. destruct Hsame as [A [B C]].
  destruct r as [b1| |]; [|auto|auto].
  destruct (IH (fun g c m b0 Hg => Hn g c m b0 (or_intror Hg)) w1 b1) as [A1 [B1 C1]].
  rewrite A1, B1, C1. auto.
Qed.

(** ** C16 *)
Definition names_t (l : list tspec) := map ts_name l.
Lemma filter_not_name n l : forall x, In x (map ts_name (filter (fun t => negb (String.eqb (ts_name t) n)) l)) <-> In x (map ts_name l) /\ x <> n.
Proof. intros x. apply in_map_filter_name. Qed.

(** The report agrees with a list of executed actions. *)
Definition agrees (c : changed) (word : string -> option bool) (wordf : string -> option bool) : Prop :=
  (forall n, In n (map ts_name (cc_tadd c)) <-> word n = Some true) /\
  (forall n, In n (map ts_name (cc_tdel c)) <-> word n = Some false) /\
  (forall n, In n (map fs_name (cc_fadd c)) <-> wordf n = Some true) /\
  (exists del, cc_fdel c = map Some del /\ forall n, In n (map fs_name del) <-> wordf n = Some false).

Lemma drop_deleted_some l n : drop_deleted (map Some l) n = Some (map Some (filter (fun f => negb (String.eqb (fs_name f) n)) l)).
Proof.
  induction l as [|f l IH]; simpl; [reflexivity|]. rewrite IH. destruct (String.eqb (fs_name f) n); reflexivity.
Qed.

Lemma agrees_add_t c w wf s : agrees c w wf ->
  agrees (cc_add_table c s) (fun n => if String.eqb (ts_name s) n then Some true else w n) wf.
Proof.
  intros [A [B [C D]]]. split; [|split; [|split; assumption]]; intros n; simpl.
  - rewrite map_app, in_app_iff. simpl. rewrite A. destruct (String.eqb_spec (ts_name s) n) as [E|E]; split; auto.
    intros [H|[H|[]]]; [exact H|congruence].
  - rewrite filter_not_name, B. destruct (String.eqb_spec (ts_name s) n) as [E|E]; split.
    + intros [_ H]. congruence.
    + discriminate.
    + tauto.
    + intros H. split; [exact H|congruence].
Qed.
Lemma agrees_del_t c w wf s : agrees c w wf ->
  agrees (cc_delete_table c s) (fun n => if String.eqb (ts_name s) n then Some false else w n) wf.
Proof.
  intros [A [B [C D]]]. split; [|split; [|split; assumption]]; intros n; simpl.
  - rewrite filter_not_name, A. destruct (String.eqb_spec (ts_name s) n) as [E|E]; split.
    + intros [_ H]. congruence.
    + discriminate.
    + tauto.
    + intros H. split; [exact H|congruence].
  - rewrite map_app, in_app_iff. simpl. rewrite B. destruct (String.eqb_spec (ts_name s) n) as [E|E]; split; auto.
    intros [H|[H|[]]]; [exact H|congruence].
Qed.
Lemma agrees_add_f c w wf s : agrees c w wf -> exists c', cc_add_function c s = Some c' /\
  agrees c' w (fun n => if String.eqb (fs_name s) n then Some true else wf n).
Proof.
  intros [A [B [C [del [D1 D2]]]]]. unfold cc_add_function. rewrite D1, drop_deleted_some. eexists. split; [reflexivity|].
  split; [exact A|]. split; [exact B|]. split; simpl.
  - intros n. rewrite map_app, in_app_iff. simpl. rewrite C. destruct (String.eqb_spec (fs_name s) n) as [E|E]; split; auto.
    intros [H|[H|[]]]; [exact H|congruence].
  - eexists. split; [reflexivity|]. intros n. rewrite in_map_filter_fname, D2.
    destruct (String.eqb_spec (fs_name s) n) as [E|E]; split.
    + intros [_ H]. congruence.
    + discriminate.
    + tauto.
    + intros H. split; [exact H|congruence].
Qed.
Lemma agrees_del_f c w wf s : agrees c w wf -> exists c', cc_delete_function c (Some s) = Some c' /\
  agrees c' w (fun n => if String.eqb (fs_name s) n then Some false else wf n).
Proof.
  intros [A [B [C [del [D1 D2]]]]]. simpl. eexists. split; [reflexivity|].
  split; [exact A|]. split; [exact B|]. split; simpl.
  - intros n. rewrite in_map_filter_fname, C. destruct (String.eqb_spec (fs_name s) n) as [E|E]; split.
    + intros [_ H]. congruence.
    + discriminate.
    + tauto.
    + intros H. split; [exact H|congruence].
  - exists (del ++ [s]). rewrite D1, map_app. split; [reflexivity|]. intros n. rewrite map_app, in_app_iff. simpl. rewrite D2.
    destruct (String.eqb_spec (fs_name s) n) as [E|E]; split; auto.
    intros [H|[H|[]]]; [exact H|congruence].
Qed.
Lemma agrees_ext c w w' wf wf' : (forall n, w n = w' n) -> (forall n, wf n = wf' n) -> agrees c w wf -> agrees c w' wf'.
Proof.
  intros E1 E2 [A [B [C [del [D1 D2]]]]]. split; [|split; [|split]].
  - intros n. rewrite <- E1. apply A.
  - intros n. rewrite <- E1. apply B.
  - intros n. rewrite <- E2. apply C.
  - exists del. split; [exact D1|]. intros n. rewrite <- E2. apply D2.
Qed.

Lemma andthen_cc r k : w_cc (fst (andthen r k)) = w_cc (fst r) \/ exists w1 z, r = (w1, Ok z) /\ andthen r k = k w1.
Proof. destruct r as [w1 [z| |]]; unfold andthen; simpl; [right; exists w1, z; auto|left; reflexivity|left; reflexivity]. Qed.

Lemma andthen_ok r k w' z : andthen r k = (w', Ok z) -> exists w1 z1, r = (w1, Ok z1) /\ k w1 = (w', Ok z).
Proof. unfold andthen. destruct r as [w1 [z1| |]]; simpl; intros H; [exists w1, z1; auto|discriminate|discriminate]. Qed.

Lemma idx_cc n k : forall w w' z, create_indexes w n k = (w', Ok z) -> w_cc w' = w_cc w /\ w_fmap w' = w_fmap w.
Proof.
  induction k as [|k IH]; intros w w' z H; simpl in H; [injection H as <- _; split; reflexivity|].
  apply andthen_ok in H. destruct H as [w1 [z1 [H1 H2]]]. apply IH in H2. destruct (sq_frame w (QIndex n)) as [_ [_ [A [B _]]]].
  rewrite H1 in A, B. simpl in A, B. destruct H2. split; congruence.
Qed.
Lemma add_t_cc w s w' z : add_new_table_spec w s = (w', z) -> w_cc w' = w_cc w /\ w_fmap w' = w_fmap w.
Proof.
  unfold add_new_table_spec. destruct (add_table_spec (w_cat w) s) as [c e]. destruct e; [intros H; injection H as <- _; split; reflexivity|].
  destruct (ts_temp s); [intros H; injection H as <- _; split; reflexivity|].
  intros H. pose proof (sq_saved_frame (set_cat w c) (fun rows => save_table rows s (w_time (set_cat w c)))) as [_ [_ [A [B _]]]].
  rewrite H in A, B. simpl in A, B. split; assumption.
Qed.
Lemma add_f_cc w s w' z : add_new_function_spec w s = (w', z) -> w_cc w' = w_cc w /\ w_fmap w' = w_fmap w.
Proof.
  unfold add_new_function_spec. destruct (add_function_spec (w_cat w) s) as [c e]. destruct e; [intros H; injection H as <- _; split; reflexivity|].
  destruct (fs_temp s); [intros H; injection H as <- _; split; reflexivity|].
  intros H. pose proof (sq_saved_frame (set_cat w c) (fun rows => save_function rows s (w_time (set_cat w c)))) as [_ [_ [A [B _]]]].
  rewrite H in A, B. simpl in A, B. split; assumption.
Qed.
Lemma exec_all_cc l : forall w w' z, exec_all w l = (w', Ok z) -> w_cc w' = w_cc w /\ w_fmap w' = w_fmap w.
Proof.
  induction l as [|q l IH]; intros w w' z H; simpl in H; [injection H as <- _; split; reflexivity|].
  apply andthen_ok in H. destruct H as [w1 [z1 [H1 H2]]]. apply IH in H2. destruct (sq_frame w q) as [_ [_ [A [B _]]]].
  rewrite H1 in A, B. simpl in A, B. destruct H2. split; congruence.
Qed.
Lemma sq_cc w q w' z : sq w q = (w', z) -> w_cc w' = w_cc w /\ w_fmap w' = w_fmap w.
Proof. intros H. destruct (sq_frame w q) as [_ [_ [A [B _]]]]. rewrite H in A, B. split; assumption. Qed.

(** The function map knows every dropped function (always so when the name path is empty). *)
Definition drops_known (w : world) (a : action) : Prop :=
  match a with ADropFunction n _ => aget (w_fmap w) n <> None | _ => True end.
Definition fmap_named (w : world) : Prop := forall n f, aget (w_fmap w) n = Some f -> fs_name f = n.

Lemma exec_agrees w a w' z word wordf : cinv (w_cat w) -> plain a -> drops_known w a -> fmap_named w ->
  action_exec w a = (w', Ok z) -> agrees (w_cc w) word wordf ->
  fmap_named w' /\
  agrees (w_cc w') (fun n => match word_t a n with Some b => Some b | None => word n end)
                   (fun n => match word_f a n with Some b => Some b | None => wordf n end).
Proof.
  intros I Hp Hd Hm H A.
  assert (Same : forall w1, w_cc w1 = w_cc w -> w_fmap w1 = w_fmap w -> (forall n, word_t a n = None) -> (forall n, word_f a n = None) ->
    fmap_named w1 /\ agrees (w_cc w1) (fun n => match word_t a n with Some b => Some b | None => word n end)
                   (fun n => match word_f a n with Some b => Some b | None => wordf n end)).
  { intros w1 E1 E2 E3 E4. split; [intros n f; rewrite E2; apply Hm|]. rewrite E1.
    apply (agrees_ext _ word _ wordf); [intros n; now rewrite E3|intros n; now rewrite E4|exact A]. }
  destruct a as [s m ct k|s m|f|v n ie|n ie|n f|n| | |n|l]; cbn [action_exec] in H; simpl in Hp; try contradiction.
  - apply andthen_ok in H. destruct H as [w1 [z1 [H1 H]]]. apply andthen_ok in H. destruct H as [w2 [z2 [H2 H]]].
    apply andthen_ok in H. destruct H as [w3 [z3 [H3 H]]]. apply andthen_ok in H. destruct H as [w4 [z4 [H4 H]]].
    rewrite Hp in H. injection H as <- _.
    assert (w_cc w1 = w_cc w /\ w_fmap w1 = w_fmap w) as [C1 F1].
    { destruct (mode_eqb m MOrReplace); [exact (sq_cc _ _ _ _ H1)|injection H1 as <- _; split; reflexivity]. }
    destruct (sq_cc _ _ _ _ H2) as [C2 F2]. destruct (idx_cc _ _ _ _ _ H3) as [C3 F3]. destruct (add_t_cc _ _ _ _ H4) as [C4 F4].
    assert (C : w_cc w4 = w_cc w) by congruence. assert (F : w_fmap w4 = w_fmap w) by congruence.
    split; [intros n f; simpl; rewrite F; apply Hm|]. simpl. rewrite C.
    eapply agrees_ext; [| |exact (agrees_add_t _ _ _ s A)]; intros n; simpl; destruct (String.eqb (ts_name s) n); reflexivity.
  - apply andthen_ok in H. destruct H as [w1 [z1 [H1 H]]]. destruct (add_f_cc _ _ _ _ H1) as [C1 F1].
    simpl in H. rewrite C1 in H. destruct (agrees_add_f _ _ _ f A) as [c' [Ec A']]. rewrite Ec in H. injection H as <- _.
    split.
    + intros n g. simpl. rewrite aget_aset, F1. destruct (String.eqb_spec (fs_name f) n) as [E|E]; [congruence|apply Hm].
    + simpl. eapply agrees_ext; [| |exact A']; intros n; simpl; destruct (String.eqb (fs_name f) n); reflexivity.
  - apply andthen_ok in H. destruct H as [w1 [z1 [H1 H]]]. apply andthen_ok in H. destruct H as [w2 [z2 [H2 H]]].
    destruct (sq_cc _ _ _ _ H1) as [C1 F1]. pose proof (sq_frame w (if v then QDropView n ie else QDropTable n ie)) as [Fc _].
    rewrite H1 in Fc. simpl in Fc. assert (I1 : cinv (w_cat w1)) by (rewrite Fc; exact I).
    destruct (del_table_cat w1 n I1) as [_ [_ [F2 [C2 _]]]]. rewrite H2 in F2, C2. simpl in F2, C2.
    destruct (aget (c_tmap (w_cat w1)) n) as [s|] eqn:Es; [|discriminate]. injection H as <- _.
    pose proof (ci_tname _ I1 n s Es) as Hn.
    split; [intros m g; simpl; rewrite F2, F1; apply Hm|]. simpl. rewrite C2, C1.
    eapply agrees_ext; [| |exact (agrees_del_t _ _ _ s A)]; intros m; simpl; try rewrite Hn; destruct (String.eqb n m); reflexivity.
  - apply andthen_ok in H. destruct H as [w1 [z1 [H1 H]]]. destruct (del_func_cat w n I) as [_ [_ [F1 [C1 _]]]].
    rewrite H1 in F1, C1. simpl in F1, C1. simpl in H, Hd. rewrite C1, F1 in H.
    destruct (aget (w_fmap w) n) as [g|] eqn:Eg; [|congruence].
    destruct (agrees_del_f _ _ _ g A) as [c' [Ec A']]. rewrite Ec in H. injection H as <- _.
    pose proof (Hm n g Eg) as Hn. split.
    + intros m h. simpl. rewrite aget_adel. destruct (String.eqb n m); [discriminate|apply Hm].
    + simpl. eapply agrees_ext; [| |exact A']; intros m; simpl; try rewrite Hn; destruct (String.eqb n m); reflexivity.
  - destruct (sq_cc _ _ _ _ H). apply Same; auto.
  - destruct (sq_cc _ _ _ _ H). apply Same; auto.
  - injection H as <- _. apply Same; auto.
  - injection H as <- _. apply Same; auto.
  - destruct (sq_cc _ _ _ _ H). apply Same; auto.
  - destruct (exec_all_cc _ _ _ _ H). apply Same; auto.
Qed.

Definition fm_covers (w : world) : Prop := forall n, in_catalog_f w n -> aget (w_fmap w) n <> None.

Lemma exec_covers w a w' z : cinv (w_cat w) -> plain a -> fm_covers w ->
  action_exec w a = (w', Ok z) -> fm_covers w' /\ drops_known w a.
Proof.
  intros I Hp Hc H.
  assert (Same : forall w1, c_functions (w_cat w1) = c_functions (w_cat w) -> w_fmap w1 = w_fmap w -> fm_covers w1).
  { intros w1 E1 E2 n. unfold in_catalog_f. rewrite E1, E2. apply Hc. }
  assert (SameC : forall w1, w_cat w1 = w_cat w -> w_fmap w1 = w_fmap w -> fm_covers w1) by (intros w1 E1 E2; apply Same; congruence).
  destruct a as [s m ct k|s m|f|v n ie|n ie|n f|n| | |n|l]; cbn [action_exec] in H; simpl in Hp; try contradiction;
    try (split; [|exact Logic.I]).
  - apply andthen_ok in H. destruct H as [w1 [z1 [H1 H]]]. apply andthen_ok in H. destruct H as [w2 [z2 [H2 H]]].
    apply andthen_ok in H. destruct H as [w3 [z3 [H3 H]]]. apply andthen_ok in H. destruct H as [w4 [z4 [H4 H]]].
    rewrite Hp in H. injection H as <- _.
    assert (w_cat w1 = w_cat w /\ w_fmap w1 = w_fmap w) as [C1 F1].
    { destruct (mode_eqb m MOrReplace); [|injection H1 as <- _; split; reflexivity].
      destruct (sq_frame w (QDropTable (ts_name s) true)) as [A [_ [B _]]]. rewrite H1 in A, B. split; assumption. }
    destruct (sq_frame w1 (schema_table s m ct)) as [C2 [_ [F2 _]]]. rewrite H2 in C2, F2. simpl in C2, F2.
    assert (w_cat w3 = w_cat w2) as C3.
    { clear - H3. revert w2 w3 z3 H3. induction k as [|k IH]; intros w2 w3 z3 H; simpl in H; [injection H as <- _; reflexivity|].
      apply andthen_ok in H. destruct H as [w1 [z1 [H1 H2]]]. apply IH in H2. destruct (sq_frame w2 (QIndex (ts_name s))) as [A _].
      rewrite H1 in A. simpl in A. congruence. }
    destruct (idx_cc _ _ _ _ _ H3) as [_ F3]. destruct (add_t_cc _ _ _ _ H4) as [_ F4].
    apply Same; simpl; [|congruence].
    rewrite <- C1, <- C2, <- C3. unfold add_new_table_spec in H4. pose proof (add_t_functions (w_cat w3) s) as E.
    destruct (add_table_spec (w_cat w3) s) as [c e]. simpl in E. destruct e; [discriminate|]. rewrite Hp in H4.
    destruct (sq_saved_frame (set_cat w3 c) (fun rows => save_table rows s (w_time (set_cat w3 c)))) as [A _].
    rewrite H4 in A. simpl in A. rewrite A. exact E.
  - apply andthen_ok in H. destruct H as [w1 [z1 [H1 H]]]. destruct (add_f_cc _ _ _ _ H1) as [_ F1].
    destruct (cc_add_function _ f) as [c'|]; [|discriminate]. injection H as <- _.
    intros n Hn. unfold in_catalog_f in Hn. simpl in *. rewrite aget_aset, F1.
    destruct (String.eqb_spec (fs_name f) n) as [E|E]; [discriminate|]. apply Hc. unfold in_catalog_f.
    unfold add_new_function_spec in H1.
    assert (forall m, In m (map fs_name (c_functions (fst (add_function_spec (w_cat w) f)))) ->
      In m (map fs_name (c_functions (w_cat w))) \/ m = fs_name f) as Hadd.
    { intros m. unfold add_function_spec. destruct (aget _ _); simpl; [auto|]. rewrite map_app, in_app_iff. simpl. intuition. }
    destruct (add_function_spec (w_cat w) f) as [c e]. simpl in Hadd. destruct e; [discriminate|]. rewrite Hp in H1.
    destruct (sq_saved_frame (set_cat w c) (fun rows => save_function rows f (w_time (set_cat w c)))) as [A _].
    rewrite H1 in A. simpl in A. rewrite A in Hn. destruct (Hadd n Hn) as [Hx|Hx]; [exact Hx|congruence].
  - apply andthen_ok in H. destruct H as [w1 [z1 [H1 H]]]. apply andthen_ok in H. destruct H as [w2 [z2 [H2 H]]].
    destruct (sq_frame w (if v then QDropView n ie else QDropTable n ie)) as [Fc [_ [Ff _]]].
    rewrite H1 in Fc, Ff. simpl in Fc, Ff. assert (I1 : cinv (w_cat w1)) by (rewrite Fc; exact I).
    destruct (del_table_cat w1 n I1) as [_ [_ [F2 [_ [_ [_ F]]]]]]. rewrite H2 in F2, F. simpl in F2, F.
    destruct (aget (c_tmap (w_cat w1)) n) as [s|]; [|discriminate]. injection H as <- _.
    apply Same; simpl; [congruence|congruence].
  - apply andthen_ok in H. destruct H as [w1 [z1 [H1 H]]]. destruct (del_func_cat w n I) as [_ [_ [F1 [_ [_ [F _]]]]]].
    rewrite H1 in F1, F. simpl in F1, F.
    assert (Hin : in_catalog_f w n).
    { unfold in_catalog_f. apply (aget_mem_f _ _ I). intros E. unfold delete_function_spec_sql in H1.
      rewrite (proj1 (delete_function_spec (w_cat w) n I) E) in H1. discriminate. }
    split; [|exact (Hc n Hin)]. rewrite F1 in H.
    destruct (cc_delete_function _ _) as [c'|]; [|discriminate]. injection H as <- _.
    intros m Hm. unfold in_catalog_f in Hm. simpl in *. rewrite F in Hm. apply in_map_filter_fname in Hm. destruct Hm as [Hm Hne].
    rewrite aget_adel. destruct (String.eqb_spec n m) as [E|E]; [congruence|]. apply Hc. exact Hm.
  - destruct (sq_frame w (QDml n f)) as [A [_ [B _]]]. rewrite H in A, B. apply SameC; assumption.
  - destruct (sq_frame w (QSelect n)) as [A [_ [B _]]]. rewrite H in A, B. apply SameC; assumption.
  - injection H as <- _. exact Hc.
  - injection H as <- _. exact Hc.
  - destruct (sq_frame w (QDml n (fun rows => Some ([], zlen rows)))) as [A [_ [B _]]]. rewrite H in A, B. apply SameC; assumption.
  - assert (w_cat w' = w_cat w /\ w_fmap w' = w_fmap w) as [A B]; [|apply SameC; assumption].
    clear - H. revert w w' z H. induction l as [|q l IH]; intros w w' z H; simpl in H; [injection H as <- _; split; reflexivity|].
    apply andthen_ok in H. destruct H as [w1 [z1 [H1 H2]]]. apply IH in H2. destruct (sq_frame w q) as [A [_ [B _]]].
    rewrite H1 in A, B. simpl in A, B. destruct H2. split; congruence.
Qed.

Lemma last_word_app word a b n : last_word word (a ++ b) n =
  match last_word word a n with Some x => Some x | None => last_word word b n end.
Proof. induction a as [|x a IH]; simpl; [reflexivity|]. destruct (word x n); [reflexivity|exact IH]. Qed.

Lemma runs_agree fs : script_named fs -> forall w k0 acts w' k, runs w fs k0 acts w' k ->
  cinv (w_cat w) -> (forall a, In a acts -> plain a) -> fm_covers w -> fmap_named w ->
  forall word wordf, agrees (w_cc w) word wordf ->
  agrees (w_cc w')
    (fun n => match last_word word_t (rev acts) n with Some b => Some b | None => word n end)
    (fun n => match last_word word_f (rev acts) n with Some b => Some b | None => wordf n end).
Proof.
  induction fs as [|f fs IH]; intros Hn w k0 acts w' k Hr I Hp Hc Hm word wordf A; inversion Hr; subst; simpl; [exact A|].
  match goal with H1 : f _ _ = Some ?b, H2 : action_exec _ _ = (?x, _) |- _ => rename b into a; rename x into w1; rename H1 into Ha; rename H2 into He end.
  assert (Hpa : plain a) by (apply Hp; left; reflexivity).
  assert (Hna : action_named a) by (apply (Hn f (w_cat w) (w_fmap w) a); [left; reflexivity|exact Ha]).
  destruct (exec_covers w a w1 _ I Hpa Hc He) as [Hc1 Hd].
  destruct (exec_agrees w a w1 _ word wordf I Hpa Hd Hm He A) as [Hm1 A1].
  pose proof (exec_ci w a Hna I) as I1. rewrite He in I1.
  match goal with H3 : runs w1 fs _ ?ac _ _ |- _ =>
    specialize (IH (fun g c m b Hg => Hn g c m b (or_intror Hg)) w1 _ _ _ _ H3 I1
                   (fun b Hb => Hp b (or_intror Hb)) Hc1 Hm1 _ _ A1) end.
  eapply agrees_ext; [| |exact IH]; intros n; cbv beta; rewrite last_word_app; simpl;
    destruct (last_word _ _ n); try reflexivity; match goal with |- context [?g a n] => destruct (g a n) end; reflexivity.
Qed.

Lemma cleanup_plain l : (forall a, In a l -> plain a) -> forall w, cleanup_all w l = (w, false).
Proof.
  induction l as [|a l IH]; intros Hp w; simpl; [reflexivity|].
  assert (action_cleanup w a = (w, Ok 0)) as ->.
  { pose proof (Hp a (or_introl eq_refl)) as H. destruct a; simpl in *; try reflexivity; try contradiction; rewrite H; reflexivity. }
  rewrite IH by (intros b Hb; apply Hp; right; exact Hb). reflexivity.
Qed.

Lemma c16_lemma w fs k acts w1 : cinv (w_cat w) -> script_named fs ->
  runs (start_call w []) fs 0 acts w1 k -> (forall a, In a acts -> plain a) ->
  let rep := w_cc (fst (exec_context w [] fs)) in
  (forall n, In n (map ts_name (cc_tadd rep)) <-> last_word word_t (rev acts) n = Some true) /\
  (forall n, In n (map ts_name (cc_tdel rep)) <-> last_word word_t (rev acts) n = Some false) /\
  (forall n, In n (map fs_name (cc_fadd rep)) <-> last_word word_f (rev acts) n = Some true) /\
  (exists del, cc_fdel rep = map Some del /\
     forall n, In n (map fs_name del) <-> last_word word_f (rev acts) n = Some false).
Proof.
  intros I Hn Hr Hp rep. unfold rep, exec_context. rewrite (run_script_ok _ _ _ _ _ _ Hr), (cleanup_plain acts Hp). simpl.
  assert (Hfind : forall n, aget (w_fmap (start_call w [])) n = find (fun s => String.eqb (fs_name s) n) (c_functions (w_cat w))).
  { intros n. simpl. unfold stmt_func_map, get_functions. apply fold_aset_find. exact (ci_fnd _ I). }
  assert (Hc : fm_covers (start_call w [])).
  { intros n Hin. rewrite Hfind. unfold in_catalog_f in Hin. simpl in Hin. apply in_map_iff in Hin. destruct Hin as [s [<- Hs]].
    rewrite (find_nodup_in _ s (ci_fnd _ I) Hs). discriminate. }
  assert (Hm : fmap_named (start_call w [])).
  { intros n s. rewrite Hfind. intros H. apply find_some in H. destruct H as [_ H]. apply String.eqb_eq. exact H. }
  pose proof (runs_agree fs Hn _ _ _ _ _ Hr I Hp Hc Hm (fun _ => None) (fun _ => None)) as H.
  assert (A0 : agrees (w_cc (start_call w [])) (fun _ => None) (fun _ => None)).
  { split; [|split; [|split]]; simpl; try (intros n; split; [intros []|discriminate]).
    exists []. split; [reflexivity|]. intros n; split; [intros []|discriminate]. }
  specialize (H A0). eapply agrees_ext; [| |exact H]; intros n; cbv beta; destruct (last_word _ _ n); reflexivity.
Qed.

(** ** C11 *)
Lemma c11_missing_lemma w np view n : cinv (w_cat w) -> ~ in_catalog_t w n ->
  forall k, snd (exec_context w np [fun _ _ => Some (ADrop view n true)]) <> Ok k.
Proof.
  intros I Hn k. unfold exec_context. cbn [run_script]. cbn [action_exec]. unfold andthen at 1.
  set (w0 := start_call w np). destruct (sq_frame w0 (if view then QDropView n true else QDropTable n true)) as [Fc _].
  destruct (sq w0 _) as [w1 r]. simpl in Fc. destruct r as [k1| |]; cbn [fst snd]; [|discriminate|discriminate].
  unfold delete_table_spec_sql. rewrite Fc.
  assert (aget (c_tmap (w_cat w)) n = None) as E by (apply (ci_tkeys _ I); exact Hn).
  rewrite (proj1 (delete_table_spec (w_cat w) n I) E). discriminate.
Qed.
Lemma c11_missing_f_lemma w np n : cinv (w_cat w) -> ~ in_catalog_f w n ->
  forall k, snd (exec_context w np [fun _ _ => Some (ADropFunction n true)]) <> Ok k.
Proof.
  intros I Hn k. unfold exec_context. cbn [run_script action_exec]. unfold andthen, delete_function_spec_sql.
  assert (aget (c_fmap (w_cat w)) n = None) as E by (apply (ci_fkeys _ I); exact Hn).
  change (w_cat (start_call w np)) with (w_cat w). rewrite (proj1 (delete_function_spec (w_cat w) n I) E). discriminate.
Qed.
Lemma c11_existing_lemma w np n ie : cinv (w_cat w) -> no_faults w -> is_table (w_db w) n -> in_catalog_t w n ->
  let r := exec_context w np [fun _ _ => Some (ADrop false n ie)] in
  snd r = Ok 0 /\ absent (w_db (fst r)) n /\ ~ in_catalog_t (fst r) n /\
  (forall m, lower m <> lower n -> db_get (w_db (fst r)) m = db_get (w_db w) m).
Proof.
  intros I Hf [rows Ht] Hn.
  enough (H : exists w2, exec_context w np [fun _ _ => Some (ADrop false n ie)] = (w2, Ok 0) /\
    w_db w2 = db_del (w_db w) n /\ c_tables (w_cat w2) = filter (fun s => negb (String.eqb (ts_name s) n)) (c_tables (w_cat w))).
  { destruct H as [w2 [E [D T]]]. cbv zeta. rewrite E. simpl. split; [reflexivity|]. split; [|split].
    - unfold absent. rewrite D, db_get_del, String.eqb_refl. reflexivity.
    - unfold in_catalog_t. rewrite T. intros H. apply in_map_filter_name in H. tauto.
    - intros m Hm. rewrite D, db_get_del. destruct (String.eqb_spec (lower n) (lower m)); congruence. }
  unfold exec_context. cbn [run_script action_exec]. unfold andthen at 1.
  set (w0 := start_call w np). assert (Hf0 : no_faults w0) by exact Hf.
  destruct (sq w0 (QDropTable n ie)) as [w1 r] eqn:Eq.
  assert (Hf1 : no_faults w1).
  { destruct (sq_frame w0 (QDropTable n ie)) as [_ [_ [_ [_ G]]]]. rewrite Eq in G. exact (no_faults_tl w0 w1 G Hf0). }
  unfold sq in Eq. rewrite (no_faults_next w0 Hf0) in Eq. simpl in Eq. rewrite Ht in Eq. injection Eq as <- <-. cbn [fst snd].
  unfold delete_table_spec_sql at 1. simpl w_cat.
  apply (aget_mem_t _ _ I) in Hn. destruct (proj2 (delete_table_spec (w_cat w) n I) Hn) as [c' [-> [I' [T [F _]]]]].
  destruct (aget (c_tmap (w_cat w)) n) as [s|]; [|congruence].
  unfold andthen. unfold sq_saved. match goal with |- context [next_fault ?x] => replace (next_fault x) with false by (symmetry; apply no_faults_next; exact Hf1) end.
  simpl. eexists. split; [reflexivity|]. split; [reflexivity|exact T].
Qed.

(** ** C85 *)
Lemma merge_single p x : np_path p = [] -> split1 "." x = [x] -> merge_path p [x] = [x].
Proof.
  intros Hp Hx. unfold merge_path, normalize_path. cbn [flat_map]. rewrite Hx. cbn [app].
  rewrite Hp. cbn [merge_loop app]. destruct (0 <? _); [destruct (_ =? _)|]; reflexivity.
Qed.
Lemma c85_lemma w np x : np_path np = [] -> split1 "." x = [x] -> no_faults w -> is_table (w_db w) (np_format np [x]) ->
  let r := exec_context w (np_path np) [fun _ _ => Some (ATruncate (truncate_target [x]))] in
  db_get (w_db (fst r)) (np_format np [x]) = Some (OTable []) /\
  forall m, lower m <> lower (np_format np [x]) -> db_get (w_db (fst r)) m = db_get (w_db w) m.
Proof.
  intros Hp Hx Hf [rows Ht]. unfold np_format in *. rewrite (merge_single np x Hp Hx) in *.
  change (format_path [x]) with x in *. cbv beta zeta. change (truncate_target [x]) with x.
  unfold exec_context. cbn [run_script action_exec]. rewrite Hp.
  unfold sq. assert (no_faults (start_call w [])) as Hf0 by exact Hf. rewrite (no_faults_next _ Hf0). simpl. rewrite Ht. simpl.
  split.
  - rewrite db_get_set, String.eqb_refl. reflexivity.
  - intros m Hm. rewrite db_get_set. destruct (String.eqb_spec (lower x) (lower m)); congruence.
Qed.
