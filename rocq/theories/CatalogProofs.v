(** Proofs about CatalogModel. *)
From Coq Require Import Ascii String List ZArith Lia Bool.
From Verif Require Import GoBase GoBaseFacts NameModel NameSpec NameProofs TreeModel TreeSpec TreeProofs CatalogModel CatalogSpec.
Import ListNotations.

Definition tpairs (l : list tspec) : list (list string * tspec) := map (fun s => (ts_path s, s)) l.
Definition fpairs (l : list fspec) : list (list string * fspec) := map (fun s => (fs_path s, s)) l.

Record cinv (c : catalog) : Prop := {
  ci_tne : forall s, In s (c_tables c) -> ts_path s <> [];
  ci_fne : forall s, In s (c_functions c) -> fs_path s <> [];
  ci_tnd : NoDup (map ts_name (c_tables c));
  ci_fnd : NoDup (map fs_name (c_functions c));
  ci_tkeys : forall n, aget (c_tmap c) n = None <-> ~ In n (map ts_name (c_tables c));
  ci_fkeys : forall n, aget (c_fmap c) n = None <-> ~ In n (map fs_name (c_functions c));
  ci_tname : forall n s, aget (c_tmap c) n = Some s -> ts_name s = n;
  ci_fname : forall n s, aget (c_fmap c) n = Some s -> fs_name s = n;
  ci_ttree : c_ttree c = add_all true (tpairs (c_tables c)) empty_tree;
  ci_ftree : c_ftree c = add_all false (fpairs (c_functions c)) empty_tree
}.

Lemma cinv_new : cinv cat_new.
Proof.
  constructor; simpl; try (intros ? []); try constructor; try tauto; try (intros; discriminate); try reflexivity.
Qed.

Lemma add_all_app {D} dotted (l : list (list string * D)) q d t :
  add_all dotted (l ++ [(q, d)]) t = add_rec dotted q d (add_all dotted l t).
Proof. unfold add_all. rewrite fold_left_app. reflexivity. Qed.

Lemma nodup_snoc {A} (l : list A) x : NoDup l -> ~ In x l -> NoDup (l ++ [x]).
Proof.
  induction l as [|y l IH]; simpl; intros Hnd Hni.
  - constructor; [intros []|constructor].
  - inversion_clear Hnd as [|? ? Hy Hl]. constructor.
    + rewrite in_app_iff. intros [H|[H|[]]]; [tauto|subst; apply Hni; left; reflexivity].
    + apply IH; tauto.
Qed.

Lemma add_table_inv c s : cinv c -> ts_path s <> [] ->
  cinv (fst (add_table_spec c s)) /\ snd (add_table_spec c s) = false.
Proof.
  intros I Hne. unfold add_table_spec. destruct (aget (c_tmap c) (ts_name s)) as [s0|] eqn:E.
  - split; [|reflexivity]. destruct I. constructor; simpl; try assumption.
    + intros n. rewrite aget_aset. destruct (String.eqb_spec (ts_name s) n) as [<-|Hn]; [|apply ci_tkeys0].
      split; [discriminate|]. intros H. apply ci_tkeys0 in H. congruence.
    + intros n s'. rewrite aget_aset. destruct (String.eqb_spec (ts_name s) n) as [<-|Hn]; [congruence|apply ci_tname0].
  - split; [|simpl; destruct (ts_path s); [congruence|reflexivity]].
    destruct I. constructor; simpl; try assumption.
    + intros s' H. apply in_app_or in H. destruct H as [H|[<-|[]]]; [exact (ci_tne0 _ H)|exact Hne].
    + rewrite map_app. simpl. apply nodup_snoc; [exact ci_tnd0|]. apply ci_tkeys0. exact E.
    + intros n. rewrite aget_aset, map_app, in_app_iff. simpl.
      destruct (String.eqb_spec (ts_name s) n) as [<-|Hn].
      * split; [discriminate|]. intros H. exfalso. apply H. right. left. reflexivity.
      * rewrite ci_tkeys0. split; [intros H [H'|[H'|[]]]; [tauto|congruence] | intros H H'; apply H; left; exact H'].
    + intros n s'. rewrite aget_aset. destruct (String.eqb_spec (ts_name s) n) as [<-|Hn]; [congruence|apply ci_tname0].
    + unfold tpairs. rewrite map_app. cbn [map]. rewrite add_all_app. unfold tpairs in ci_ttree0. now rewrite ci_ttree0.
Qed.

Lemma add_function_inv c s : cinv c -> fs_path s <> [] ->
  cinv (fst (add_function_spec c s)) /\ snd (add_function_spec c s) = false.
Proof.
  intros I Hne. unfold add_function_spec. destruct (aget (c_fmap c) (fs_name s)) as [s0|] eqn:E.
  - split; [|reflexivity]. destruct I. constructor; simpl; try assumption.
    + intros n. rewrite aget_aset. destruct (String.eqb_spec (fs_name s) n) as [<-|Hn]; [|apply ci_fkeys0].
      split; [discriminate|]. intros H. apply ci_fkeys0 in H. congruence.
    + intros n s'. rewrite aget_aset. destruct (String.eqb_spec (fs_name s) n) as [<-|Hn]; [congruence|apply ci_fname0].
  - split; [|simpl; destruct (fs_path s); [congruence|reflexivity]].
    destruct I. constructor; simpl; try assumption.
    + intros s' H. apply in_app_or in H. destruct H as [H|[<-|[]]]; [exact (ci_fne0 _ H)|exact Hne].
    + rewrite map_app. simpl. apply nodup_snoc; [exact ci_fnd0|]. apply ci_fkeys0. exact E.
    + intros n. rewrite aget_aset, map_app, in_app_iff. simpl.
      destruct (String.eqb_spec (fs_name s) n) as [<-|Hn].
      * split; [discriminate|]. intros H. exfalso. apply H. right. left. reflexivity.
      * rewrite ci_fkeys0. split; [intros H [H'|[H'|[]]]; [tauto|congruence] | intros H H'; apply H; left; exact H'].
    + intros n s'. rewrite aget_aset. destruct (String.eqb_spec (fs_name s) n) as [<-|Hn]; [congruence|apply ci_fname0].
    + unfold fpairs. rewrite map_app. cbn [map]. rewrite add_all_app. unfold fpairs in ci_ftree0. now rewrite ci_ftree0.
Qed.

(** Rebuilding from lists with distinct names restores exactly those lists, and the maps
    give back the list entries. *)
Lemma add_tables_fresh l : forall c, cinv c -> (forall s, In s l -> ts_path s <> []) ->
  NoDup (map ts_name (c_tables c ++ l)) ->
  exists c', add_tables c l = (c', false) /\ cinv c' /\ c_tables c' = c_tables c ++ l /\
    c_functions c' = c_functions c /\ c_fmap c' = c_fmap c /\
    (forall n, aget (c_tmap c') n =
       match find (fun s => String.eqb (ts_name s) n) l with Some s => Some s | None => aget (c_tmap c) n end).
Proof.
  induction l as [|s l IH]; intros c I Hne Hnd; simpl.
  - exists c. rewrite app_nil_r. split; [reflexivity|]. split; [exact I|]. repeat split; reflexivity.
  - assert (aget (c_tmap c) (ts_name s) = None) as E.
    { apply (ci_tkeys c I). rewrite map_app in Hnd. cbn [map] in Hnd. apply NoDup_remove_2 in Hnd. rewrite in_app_iff in Hnd. tauto. }
    destruct (add_table_inv c s I (Hne s (or_introl eq_refl))) as [I' He].
    destruct (add_table_spec c s) as [c1 e] eqn:Ea. simpl in I', He. subst e.
    unfold add_table_spec in Ea. rewrite E in Ea. injection Ea as Ec1 _. symmetry in Ec1; subst c1.
    set (c1 := Cat _ _ _ _ _ _) in *.
    destruct (IH c1 I') as [c' [H1 [H2 [H3 [H4 [H5 H6]]]]]].
    + intros s' H. apply Hne. right. exact H.
    + simpl. rewrite <- app_assoc. exact Hnd.
    + exists c'. split; [exact H1|]. split; [exact H2|]. split; [rewrite H3; simpl; rewrite <- app_assoc; reflexivity|].
      split; [exact H4|]. split; [exact H5|].
      intros n. rewrite H6. unfold c1. cbn [c_tmap]. rewrite aget_aset.
      destruct (String.eqb_spec (ts_name s) n) as [<-|Hn]; [|reflexivity].
      destruct (find (fun s0 => String.eqb (ts_name s0) (ts_name s)) l) as [s0|] eqn:Ef; [|reflexivity].
      exfalso. apply find_some in Ef. destruct Ef as [Hin Heq]. apply String.eqb_eq in Heq.
      rewrite map_app in Hnd. cbn [map] in Hnd. apply NoDup_remove_2 in Hnd. apply Hnd. rewrite in_app_iff. right.
      apply in_map_iff. exists s0. split; assumption.
Qed.

Lemma add_functions_fresh l : forall c, cinv c -> (forall s, In s l -> fs_path s <> []) ->
  NoDup (map fs_name (c_functions c ++ l)) ->
  exists c', add_functions c l = (c', false) /\ cinv c' /\ c_functions c' = c_functions c ++ l /\
    c_tables c' = c_tables c /\ c_tmap c' = c_tmap c /\
    (forall n, aget (c_fmap c') n =
       match find (fun s => String.eqb (fs_name s) n) l with Some s => Some s | None => aget (c_fmap c) n end).
Proof.
  induction l as [|s l IH]; intros c I Hne Hnd; simpl.
  - exists c. rewrite app_nil_r. split; [reflexivity|]. split; [exact I|]. repeat split; reflexivity.
  - assert (aget (c_fmap c) (fs_name s) = None) as E.
    { apply (ci_fkeys c I). rewrite map_app in Hnd. cbn [map] in Hnd. apply NoDup_remove_2 in Hnd. rewrite in_app_iff in Hnd. tauto. }
    destruct (add_function_inv c s I (Hne s (or_introl eq_refl))) as [I' He].
    destruct (add_function_spec c s) as [c1 e] eqn:Ea. simpl in I', He. subst e.
    unfold add_function_spec in Ea. rewrite E in Ea. injection Ea as Ec1 _. symmetry in Ec1; subst c1.
    set (c1 := Cat _ _ _ _ _ _) in *.
    destruct (IH c1 I') as [c' [H1 [H2 [H3 [H4 [H5 H6]]]]]].
    + intros s' H. apply Hne. right. exact H.
    + simpl. rewrite <- app_assoc. exact Hnd.
    + exists c'. split; [exact H1|]. split; [exact H2|]. split; [rewrite H3; simpl; rewrite <- app_assoc; reflexivity|].
      split; [exact H4|]. split; [exact H5|].
      intros n. rewrite H6. unfold c1. cbn [c_fmap]. rewrite aget_aset.
      destruct (String.eqb_spec (fs_name s) n) as [<-|Hn]; [|reflexivity].
      destruct (find (fun s0 => String.eqb (fs_name s0) (fs_name s)) l) as [s0|] eqn:Ef; [|reflexivity].
      exfalso. apply find_some in Ef. destruct Ef as [Hin Heq]. apply String.eqb_eq in Heq.
      rewrite map_app in Hnd. cbn [map] in Hnd. apply NoDup_remove_2 in Hnd. apply Hnd. rewrite in_app_iff. right.
      apply in_map_iff. exists s0. split; assumption.
Qed.

Lemma reset_ok tables functions :
  (forall s, In s tables -> ts_path s <> []) -> (forall s, In s functions -> fs_path s <> []) ->
  NoDup (map ts_name tables) -> NoDup (map fs_name functions) ->
  exists c', reset_catalog tables functions = (c', false) /\ cinv c' /\
    c_tables c' = tables /\ c_functions c' = functions /\
    (forall n, aget (c_tmap c') n = find (fun s => String.eqb (ts_name s) n) tables) /\
    (forall n, aget (c_fmap c') n = find (fun s => String.eqb (fs_name s) n) functions).
Proof.
  intros Ht Hf Hnt Hnf. unfold reset_catalog.
  destruct (add_tables_fresh tables cat_new cinv_new Ht Hnt) as [c1 [E1 [I1 [T1 [F1 [M1 G1]]]]]].
  rewrite E1.
  destruct (add_functions_fresh functions c1 I1 Hf) as [c2 [E2 [I2 [F2 [T2 [M2 G2]]]]]].
  { rewrite F1. exact Hnf. }
  exists c2. split; [exact E2|]. split; [exact I2|]. split; [rewrite T2, T1; reflexivity|].
  split; [rewrite F2, F1; reflexivity|]. split.
  - intros n. rewrite M2, G1. destruct (find _ tables); reflexivity.
  - intros n. rewrite G2, M1. destruct (find _ functions); reflexivity.
Qed.

Lemma nodup_map_filter {A B} (f : A -> B) p l : NoDup (map f l) -> NoDup (map f (filter p l)).
Proof.
  induction l as [|x l IH]; simpl; intros H; [exact H|].
  inversion_clear H as [|? ? Hx Hl]. destruct (p x); simpl; [|auto].
  constructor; [|auto]. intros Hin. apply Hx. apply in_map_iff in Hin. destruct Hin as [y [E Hy]].
  apply filter_In in Hy. apply in_map_iff. exists y. tauto.
Qed.

Lemma filter_name_ext (n : string) l :
  filter (fun s => negb (String.eqb n (format_path (ts_path s)))) l = filter (fun s => negb (String.eqb (ts_name s) n)) l.
Proof. apply filter_ext. intros s. rewrite String.eqb_sym. reflexivity. Qed.
Lemma filter_fname_ext (n : string) l :
  filter (fun s => negb (String.eqb n (format_path (fs_path s)))) l = filter (fun s => negb (String.eqb (fs_name s) n)) l.
Proof. apply filter_ext. intros s. rewrite String.eqb_sym. reflexivity. Qed.

Lemma delete_table_spec c n : cinv c ->
  (aget (c_tmap c) n = None -> delete_table c n = (c, true)) /\
  (aget (c_tmap c) n <> None ->
    exists c', delete_table c n = (c', false) /\ cinv c' /\
      c_tables c' = filter (fun s => negb (String.eqb (ts_name s) n)) (c_tables c) /\
      c_functions c' = c_functions c /\
      (forall m, aget (c_tmap c') m = find (fun s => String.eqb (ts_name s) m) (c_tables c')) /\
      (forall m, aget (c_fmap c') m = find (fun s => String.eqb (fs_name s) m) (c_functions c'))).
Proof.
  intros I. unfold delete_table. split; intros H.
  - rewrite H. reflexivity.
  - destruct (aget (c_tmap c) n) as [s|] eqn:E; [|congruence].
    assert (format_path (ts_path s) = n) as Hn by exact (ci_tname c I n s E).
    rewrite Hn, filter_name_ext.
    destruct (reset_ok (filter (fun s => negb (String.eqb (ts_name s) n)) (c_tables c)) (c_functions c)) as [c' [E1 [I1 [T1 [F1 [G1 G2]]]]]].
    + intros s' Hs. apply filter_In in Hs. exact (ci_tne c I s' (proj1 Hs)).
    + exact (ci_fne c I).
    + apply nodup_map_filter, (ci_tnd c I).
    + exact (ci_fnd c I).
    + exists c'. split; [exact E1|]. split; [exact I1|]. split; [exact T1|]. split; [exact F1|].
      rewrite T1, F1. split; assumption.
Qed.

Lemma delete_function_spec c n : cinv c ->
  (aget (c_fmap c) n = None -> delete_function c n = (c, true)) /\
  (aget (c_fmap c) n <> None ->
    exists c', delete_function c n = (c', false) /\ cinv c' /\
      c_functions c' = filter (fun s => negb (String.eqb (fs_name s) n)) (c_functions c) /\
      c_tables c' = c_tables c /\
      (forall m, aget (c_tmap c') m = find (fun s => String.eqb (ts_name s) m) (c_tables c')) /\
      (forall m, aget (c_fmap c') m = find (fun s => String.eqb (fs_name s) m) (c_functions c'))).
Proof.
  intros I. unfold delete_function. split; intros H.
  - rewrite H. reflexivity.
  - destruct (aget (c_fmap c) n) as [s|] eqn:E; [|congruence].
    assert (format_path (fs_path s) = n) as Hn by exact (ci_fname c I n s E).
    rewrite Hn, filter_fname_ext.
    destruct (reset_ok (c_tables c) (filter (fun s => negb (String.eqb (fs_name s) n)) (c_functions c))) as [c' [E1 [I1 [T1 [F1 [G1 G2]]]]]].
    + exact (ci_tne c I).
    + intros s' Hs. apply filter_In in Hs. exact (ci_fne c I s' (proj1 Hs)).
    + exact (ci_tnd c I).
    + apply nodup_map_filter, (ci_fnd c I).
    + exists c'. split; [exact E1|]. split; [exact I1|]. split; [exact F1|]. split; [exact T1|].
      rewrite T1, F1. split; assumption.
Qed.

Lemma cat_step_inv c o : cinv c -> named o -> cinv (fst (cat_step c o)).
Proof.
  intros I Hn. destruct o as [s|s|n|n]; simpl in *.
  - exact (proj1 (add_table_inv c s I Hn)).
  - exact (proj1 (add_function_inv c s I Hn)).
  - destruct (delete_table_spec c n I) as [H1 H2]. destruct (aget (c_tmap c) n) eqn:E.
    + destruct (H2 ltac:(discriminate)) as [c' [-> [I' _]]]. exact I'.
    + rewrite (H1 eq_refl). exact I.
  - destruct (delete_function_spec c n I) as [H1 H2]. destruct (aget (c_fmap c) n) eqn:E.
    + destruct (H2 ltac:(discriminate)) as [c' [-> [I' _]]]. exact I'.
    + rewrite (H1 eq_refl). exact I.
Qed.

Lemma cat_run_app a b c : cat_run (a ++ b) c = cat_run b (cat_run a c).
Proof. unfold cat_run. apply fold_left_app. Qed.

Lemma cat_run_inv ops : forall c, cinv c -> Forall named ops -> cinv (cat_run ops c).
Proof.
  induction ops as [|o ops IH]; simpl; intros c I H; [exact I|].
  inversion_clear H as [|? ? Ho Hs]. apply IH; [|exact Hs]. apply cat_step_inv; assumption.
Qed.

(** ** live lists *)
Lemma in_names_existsb n l : existsb (fun x => String.eqb (ts_name x) n) l = true <-> In n (map ts_name l).
Proof.
  rewrite existsb_exists, in_map_iff. split; intros [x [H1 H2]]; exists x.
  - apply String.eqb_eq in H2. tauto.
  - split; [tauto|]. apply String.eqb_eq. exact H1.
Qed.
Lemma in_fnames_existsb n l : existsb (fun x => String.eqb (fs_name x) n) l = true <-> In n (map fs_name l).
Proof.
  rewrite existsb_exists, in_map_iff. split; intros [x [H1 H2]]; exists x.
  - apply String.eqb_eq in H2. tauto.
  - split; [tauto|]. apply String.eqb_eq. exact H1.
Qed.

Lemma filter_absent n l : ~ In n (map ts_name l) -> filter (fun x => negb (String.eqb (ts_name x) n)) l = l.
Proof.
  induction l as [|x l IH]; simpl; intros H; [reflexivity|].
  destruct (String.eqb_spec (ts_name x) n) as [E|E]; [exfalso; apply H; left; exact E|].
  simpl. rewrite IH; [reflexivity|tauto].
Qed.
Lemma filter_fabsent n l : ~ In n (map fs_name l) -> filter (fun x => negb (String.eqb (fs_name x) n)) l = l.
Proof.
  induction l as [|x l IH]; simpl; intros H; [reflexivity|].
  destruct (String.eqb_spec (fs_name x) n) as [E|E]; [exfalso; apply H; left; exact E|].
  simpl. rewrite IH; [reflexivity|tauto].
Qed.

Lemma cat_step_live c o : cinv c ->
  c_tables (fst (cat_step c o)) = live_step (c_tables c) o /\
  c_functions (fst (cat_step c o)) = livef_step (c_functions c) o.
Proof.
  intros I. destruct o as [s|s|n|n]; simpl.
  - unfold add_table_spec. destruct (aget (c_tmap c) (ts_name s)) as [s0|] eqn:E; simpl.
    + destruct (existsb (fun x => String.eqb (ts_name x) (ts_name s)) (c_tables c)) eqn:Ex; [split; reflexivity|].
      exfalso. assert (aget (c_tmap c) (ts_name s) = None) as Hn; [|congruence].
      apply (ci_tkeys c I). intros H. apply in_names_existsb in H. congruence.
    + destruct (existsb (fun x => String.eqb (ts_name x) (ts_name s)) (c_tables c)) eqn:Ex; [|split; reflexivity].
      exfalso. apply in_names_existsb in Ex. apply (ci_tkeys c I) in E. tauto.
  - unfold add_function_spec. destruct (aget (c_fmap c) (fs_name s)) as [s0|] eqn:E; simpl.
    + destruct (existsb (fun x => String.eqb (fs_name x) (fs_name s)) (c_functions c)) eqn:Ex; [split; reflexivity|].
      exfalso. assert (aget (c_fmap c) (fs_name s) = None) as Hn; [|congruence].
      apply (ci_fkeys c I). intros H. apply in_fnames_existsb in H. congruence.
    + destruct (existsb (fun x => String.eqb (fs_name x) (fs_name s)) (c_functions c)) eqn:Ex; [|split; reflexivity].
      exfalso. apply in_fnames_existsb in Ex. apply (ci_fkeys c I) in E. tauto.
  - destruct (delete_table_spec c n I) as [H1 H2]. destruct (aget (c_tmap c) n) eqn:E.
    + destruct (H2 ltac:(discriminate)) as [c' [-> [_ [T [F _]]]]]. split; assumption.
    + rewrite (H1 eq_refl). simpl. split; [|reflexivity]. symmetry. apply filter_absent, (ci_tkeys c I), E.
  - destruct (delete_function_spec c n I) as [H1 H2]. destruct (aget (c_fmap c) n) eqn:E.
    + destruct (H2 ltac:(discriminate)) as [c' [-> [_ [F [T _]]]]]. split; assumption.
    + rewrite (H1 eq_refl). simpl. split; [reflexivity|]. symmetry. apply filter_fabsent, (ci_fkeys c I), E.
Qed.

Lemma cat_run_live ops : forall c, cinv c -> Forall named ops ->
  c_tables (cat_run ops c) = fold_left live_step ops (c_tables c) /\
  c_functions (cat_run ops c) = fold_left livef_step ops (c_functions c).
Proof.
  induction ops as [|o ops IH]; simpl; intros c I H; [split; reflexivity|].
  inversion_clear H as [|? ? Ho Hs].
  destruct (cat_step_live c o I) as [H1 H2].
  destruct (IH (fst (cat_step c o)) (cat_step_inv c o I Ho) Hs) as [H3 H4].
  rewrite H3, H4, H1, H2. split; reflexivity.
Qed.

(** ** liveness versus last CREATE/DROP *)
Lemma last_t_snoc h o n : last_t (h ++ [o]) n =
  match o with
  | AddT s => if String.eqb (ts_name s) n then Some s else last_t h n
  | DelT m => if String.eqb m n then None else last_t h n
  | _ => last_t h n
  end.
Proof. unfold last_t. rewrite rev_app_distr. destruct o; reflexivity. Qed.
Lemma last_f_snoc h o n : last_f (h ++ [o]) n =
  match o with
  | AddF s => if String.eqb (fs_name s) n then Some s else last_f h n
  | DelF m => if String.eqb m n then None else last_f h n
  | _ => last_f h n
  end.
Proof. unfold last_f. rewrite rev_app_distr. destruct o; reflexivity. Qed.

Lemma last_t_name h n s : last_t h n = Some s -> ts_name s = n.
Proof.
  unfold last_t. induction (rev h) as [|o r IH]; simpl; [discriminate|].
  destruct o as [x|x|m|m]; try exact IH.
  - destruct (String.eqb_spec (ts_name x) n); [congruence|exact IH].
  - destruct (String.eqb m n); [discriminate|exact IH].
Qed.

Lemma live_iff ops : forall n, In n (map ts_name (live ops)) <-> last_t ops n <> None.
Proof.
  induction ops as [|o ops IH] using rev_ind; intros n; [simpl; tauto|].
  unfold live in *. rewrite fold_left_app, last_t_snoc. simpl.
  set (l := fold_left live_step ops []) in *.
  destruct o as [s|s|m|m]; simpl; try apply IH.
  - destruct (existsb (fun x => String.eqb (ts_name x) (ts_name s)) l) eqn:E.
    + destruct (String.eqb_spec (ts_name s) n) as [<-|]; [|apply IH].
      apply in_names_existsb in E. split; [discriminate|intros _; exact E].
    + rewrite map_app, in_app_iff. simpl. destruct (String.eqb_spec (ts_name s) n) as [<-|Hn].
      * split; [discriminate|intros _; right; left; reflexivity].
      * rewrite <- IH. split; [intros [H|[H|[]]]; [exact H|congruence]|intros H; left; exact H].
  - destruct (String.eqb_spec m n) as [<-|Hn].
    + split; [|congruence]. intros H. apply in_map_iff in H. destruct H as [x [Hx H]].
      apply filter_In in H. destruct H as [_ H]. rewrite Hx, String.eqb_refl in H. discriminate.
    + rewrite <- IH, !in_map_iff. split; intros [x [Hx H]]; exists x; (split; [exact Hx|]).
      * apply filter_In in H. tauto.
      * apply filter_In. split; [exact H|]. rewrite Hx. destruct (String.eqb_spec n m); [congruence|reflexivity].
Qed.

Lemma livef_iff ops : forall n, In n (map fs_name (livef ops)) <-> last_f ops n <> None.
Proof.
  induction ops as [|o ops IH] using rev_ind; intros n; [simpl; tauto|].
  unfold livef in *. rewrite fold_left_app, last_f_snoc. simpl.
  set (l := fold_left livef_step ops []) in *.
  destruct o as [s|s|m|m]; simpl; try apply IH.
  - destruct (existsb (fun x => String.eqb (fs_name x) (fs_name s)) l) eqn:E.
    + destruct (String.eqb_spec (fs_name s) n) as [<-|]; [|apply IH].
      apply in_fnames_existsb in E. split; [discriminate|intros _; exact E].
    + rewrite map_app, in_app_iff. simpl. destruct (String.eqb_spec (fs_name s) n) as [<-|Hn].
      * split; [discriminate|intros _; right; left; reflexivity].
      * rewrite <- IH. split; [intros [H|[H|[]]]; [exact H|congruence]|intros H; left; exact H].
  - destruct (String.eqb_spec m n) as [<-|Hn].
    + split; [|congruence]. intros H. apply in_map_iff in H. destruct H as [x [Hx H]].
      apply filter_In in H. destruct H as [_ H]. rewrite Hx, String.eqb_refl in H. discriminate.
    + rewrite <- IH, !in_map_iff. split; intros [x [Hx H]]; exists x; (split; [exact Hx|]).
      * apply filter_In in H. tauto.
      * apply filter_In. split; [exact H|]. rewrite Hx. destruct (String.eqb_spec n m); [congruence|reflexivity].
Qed.

(** ** C06 *)
Lemma c06_live_lemma ops : Forall named ops ->
  c_tables (cat_run ops cat_new) = live ops /\ c_functions (cat_run ops cat_new) = livef ops /\
  (forall n, aget (c_tmap (cat_run ops cat_new)) n = None <-> last_t ops n = None) /\
  (forall n, aget (c_fmap (cat_run ops cat_new)) n = None <-> last_f ops n = None).
Proof.
  intros H. destruct (cat_run_live ops cat_new cinv_new H) as [H1 H2].
  pose proof (cat_run_inv ops cat_new cinv_new H) as I.
  assert (forall A (o : option A), ~ (o <> None) <-> o = None) as Hdn.
  { intros A [a|]; split; intros Hx; try reflexivity; try congruence. exfalso. apply Hx. discriminate. }
  repeat split.
  - exact H1.
  - exact H2.
  - intros Hn. apply Hdn. rewrite <- live_iff. apply (ci_tkeys _ I) in Hn. rewrite H1 in Hn. exact Hn.
  - intros Hn. apply (ci_tkeys _ I). rewrite H1. change (fold_left live_step ops (c_tables cat_new)) with (live ops).
    rewrite live_iff. apply Hdn. exact Hn.
  - intros Hn. apply Hdn. rewrite <- livef_iff. apply (ci_fkeys _ I) in Hn. rewrite H2 in Hn. exact Hn.
  - intros Hn. apply (ci_fkeys _ I). rewrite H2. change (fold_left livef_step ops (c_functions cat_new)) with (livef ops).
    rewrite livef_iff. apply Hdn. exact Hn.
Qed.

Lemma c06_failed_drop_lemma ops n : Forall named ops ->
  let c := cat_run ops cat_new in
  (last_t ops n = None -> cat_step c (DelT n) = (c, true)) /\
  (last_t ops n <> None -> snd (cat_step c (DelT n)) = false) /\
  (last_f ops n = None -> cat_step c (DelF n) = (c, true)) /\
  (last_f ops n <> None -> snd (cat_step c (DelF n)) = false).
Proof.
  intros H c. pose proof (cat_run_inv ops cat_new cinv_new H) as I. fold c in I.
  destruct (c06_live_lemma ops H) as [_ [_ [Ht Hf]]]. fold c in Ht, Hf.
  destruct (delete_table_spec c n I) as [T1 T2]. destruct (delete_function_spec c n I) as [F1 F2].
  repeat split; intros Hl; simpl.
  - apply T1, Ht, Hl.
  - destruct T2 as [c' [-> _]]; [intros Hn; apply Ht in Hn; congruence|reflexivity].
  - apply F1, Hf, Hl.
  - destruct F2 as [c' [-> _]]; [intros Hn; apply Hf in Hn; congruence|reflexivity].
Qed.

(** Without re-creation the list entry, the map entry and the last definition coincide. *)
Lemma no_recreate_snoc before ops o : no_recreate before (ops ++ [o]) ->
  no_recreate before ops /\
  match o with
  | AddT s => last_t (before ++ ops) (ts_name s) = None
  | AddF s => last_f (before ++ ops) (fs_name s) = None
  | _ => True
  end.
Proof.
  revert before. induction ops as [|a ops IH]; simpl; intros before H.
  - rewrite app_nil_r. tauto.
  - destruct H as [H1 H2]. apply IH in H2. rewrite <- app_assoc in H2. simpl in H2. tauto.
Qed.

Lemma find_none_absent n l : ~ In n (map ts_name l) -> find (fun s => String.eqb (ts_name s) n) l = None.
Proof.
  intros H. destruct (find _ l) as [s|] eqn:E; [|reflexivity]. apply find_some in E. destruct E as [E1 E2].
  exfalso. apply H. apply String.eqb_eq in E2. apply in_map_iff. exists s. tauto.
Qed.
Lemma find_fnone_absent n l : ~ In n (map fs_name l) -> find (fun s => String.eqb (fs_name s) n) l = None.
Proof.
  intros H. destruct (find _ l) as [s|] eqn:E; [|reflexivity]. apply find_some in E. destruct E as [E1 E2].
  exfalso. apply H. apply String.eqb_eq in E2. apply in_map_iff. exists s. tauto.
Qed.

Lemma find_app' {A} p (l r : list A) : find p (l ++ r) = match find p l with Some x => Some x | None => find p r end.
Proof. induction l as [|x l IH]; simpl; [reflexivity|]. destruct (p x); [reflexivity|exact IH]. Qed.

Lemma find_filter_other n m l : n <> m ->
  find (fun s => String.eqb (ts_name s) n) (filter (fun x => negb (String.eqb (ts_name x) m)) l) =
  find (fun s => String.eqb (ts_name s) n) l.
Proof.
  intros Hnm. induction l as [|x l IH]; simpl; [reflexivity|].
  destruct (String.eqb_spec (ts_name x) m) as [E|E]; simpl.
  - destruct (String.eqb_spec (ts_name x) n); [congruence|exact IH].
  - destruct (String.eqb (ts_name x) n); [reflexivity|exact IH].
Qed.
Lemma find_ffilter_other n m l : n <> m ->
  find (fun s => String.eqb (fs_name s) n) (filter (fun x => negb (String.eqb (fs_name x) m)) l) =
  find (fun s => String.eqb (fs_name s) n) l.
Proof.
  intros Hnm. induction l as [|x l IH]; simpl; [reflexivity|].
  destruct (String.eqb_spec (fs_name x) m) as [E|E]; simpl.
  - destruct (String.eqb_spec (fs_name x) n); [congruence|exact IH].
  - destruct (String.eqb (fs_name x) n); [reflexivity|exact IH].
Qed.

Lemma live_last ops : no_recreate [] ops -> forall n,
  find (fun s => String.eqb (ts_name s) n) (live ops) = last_t ops n.
Proof.
  induction ops as [|o ops IH] using rev_ind; intros Hnr n; [reflexivity|].
  apply no_recreate_snoc in Hnr. destruct Hnr as [Hnr Ho]. simpl in Ho. specialize (IH Hnr).
  unfold live in *. rewrite fold_left_app, last_t_snoc. simpl.
  set (l := fold_left live_step ops []) in *.
  destruct o as [s|s|m|m]; simpl; try apply IH.
  - destruct (existsb (fun x => String.eqb (ts_name x) (ts_name s)) l) eqn:E.
    + exfalso. apply in_names_existsb in E. change l with (live ops) in E. apply live_iff in E. congruence.
    + rewrite find_app'. simpl. destruct (String.eqb_spec (ts_name s) n) as [<-|Hn].
      * rewrite IH, Ho. reflexivity.
      * rewrite IH. destruct (last_t ops n); reflexivity.
  - destruct (String.eqb_spec m n) as [<-|Hn].
    + apply find_none_absent. intros H. apply in_map_iff in H. destruct H as [x [Hx H]].
      apply filter_In in H. destruct H as [_ H]. rewrite Hx, String.eqb_refl in H. discriminate.
    + rewrite find_filter_other by congruence. apply IH.
Qed.

Lemma livef_last ops : no_recreate [] ops -> forall n,
  find (fun s => String.eqb (fs_name s) n) (livef ops) = last_f ops n.
Proof.
  induction ops as [|o ops IH] using rev_ind; intros Hnr n; [reflexivity|].
  apply no_recreate_snoc in Hnr. destruct Hnr as [Hnr Ho]. simpl in Ho. specialize (IH Hnr).
  unfold livef in *. rewrite fold_left_app, last_f_snoc. simpl.
  set (l := fold_left livef_step ops []) in *.
  destruct o as [s|s|m|m]; simpl; try apply IH.
  - destruct (existsb (fun x => String.eqb (fs_name x) (fs_name s)) l) eqn:E.
    + exfalso. apply in_fnames_existsb in E. change l with (livef ops) in E. apply livef_iff in E. congruence.
    + rewrite find_app'. simpl. destruct (String.eqb_spec (fs_name s) n) as [<-|Hn].
      * rewrite IH, Ho. reflexivity.
      * rewrite IH. destruct (last_f ops n); reflexivity.
  - destruct (String.eqb_spec m n) as [<-|Hn].
    + apply find_fnone_absent. intros H. apply in_map_iff in H. destruct H as [x [Hx H]].
      apply filter_In in H. destruct H as [_ H]. rewrite Hx, String.eqb_refl in H. discriminate.
    + rewrite find_ffilter_other by congruence. apply IH.
Qed.

(** The maps follow the lists when nothing is re-created. *)
Definition maps_follow (c : catalog) : Prop :=
  (forall n, aget (c_tmap c) n = find (fun s => String.eqb (ts_name s) n) (c_tables c)) /\
  (forall n, aget (c_fmap c) n = find (fun s => String.eqb (fs_name s) n) (c_functions c)).

Lemma maps_follow_step c o : cinv c -> maps_follow c ->
  match o with
  | AddT s => aget (c_tmap c) (ts_name s) = None
  | AddF s => aget (c_fmap c) (fs_name s) = None
  | _ => True
  end -> maps_follow (fst (cat_step c o)).
Proof.
  intros I [MT MF] Ho. destruct o as [s|s|n|n]; simpl.
  - unfold add_table_spec. rewrite Ho. split; simpl; [|exact MF].
    intros n. rewrite aget_aset, find_app'. simpl. destruct (String.eqb_spec (ts_name s) n) as [<-|Hn].
    + rewrite <- MT, Ho. reflexivity.
    + rewrite <- MT. destruct (aget (c_tmap c) n); reflexivity.
  - unfold add_function_spec. rewrite Ho. split; simpl; [exact MT|].
    intros n. rewrite aget_aset, find_app'. simpl. destruct (String.eqb_spec (fs_name s) n) as [<-|Hn].
    + rewrite <- MF, Ho. reflexivity.
    + rewrite <- MF. destruct (aget (c_fmap c) n); reflexivity.
  - destruct (delete_table_spec c n I) as [H1 H2]. destruct (aget (c_tmap c) n) eqn:E.
    + destruct (H2 ltac:(discriminate)) as [c' [-> [_ [_ [_ [G1 G2]]]]]]. split; assumption.
    + rewrite (H1 eq_refl). split; assumption.
  - destruct (delete_function_spec c n I) as [H1 H2]. destruct (aget (c_fmap c) n) eqn:E.
    + destruct (H2 ltac:(discriminate)) as [c' [-> [_ [_ [_ [G1 G2]]]]]]. split; assumption.
    + rewrite (H1 eq_refl). split; assumption.
Qed.

Lemma Forall_snoc {A} (P : A -> Prop) l x : Forall P (l ++ [x]) -> Forall P l /\ P x.
Proof.
  intros H. split.
  - apply Forall_forall. intros y Hy. rewrite Forall_forall in H. apply H, in_or_app. left. exact Hy.
  - rewrite Forall_forall in H. apply H, in_or_app. right. left. reflexivity.
Qed.

Lemma maps_follow_run ops : Forall named ops -> no_recreate [] ops -> maps_follow (cat_run ops cat_new).
Proof.
  induction ops as [|o ops IH] using rev_ind; intros Hn Hnr.
  - split; intros n; reflexivity.
  - apply Forall_snoc in Hn. destruct Hn as [Hn Ho]. apply no_recreate_snoc in Hnr. destruct Hnr as [Hnr Hc]. simpl in Hc.
    rewrite cat_run_app. simpl.
    apply maps_follow_step; [apply cat_run_inv; [exact cinv_new|exact Hn]|exact (IH Hn Hnr)|].
    destruct (c06_live_lemma ops Hn) as [_ [_ [Ht Hf]]].
    destruct o as [s|s|m|m]; try exact I.
    + apply Ht, Hc.
    + apply Hf, Hc.
Qed.

Lemma c06_lookup_lemma ops : Forall named ops -> no_recreate [] ops -> forall n,
  aget (c_tmap (cat_run ops cat_new)) n = last_t ops n /\
  aget (c_fmap (cat_run ops cat_new)) n = last_f ops n.
Proof.
  intros Hn Hnr n. destruct (maps_follow_run ops Hn Hnr) as [MT MF].
  destruct (c06_live_lemma ops Hn) as [T [F _]].
  rewrite MT, MF, T, F. split; [apply live_last|apply livef_last]; exact Hnr.
Qed.

(** Schema look-ups through ZetaSQL: first creation since the last drop. *)
Lemma c06_find_lemma ops k path ref d : Forall named ops ->
  (forall s, In (AddT s) ops -> length (ts_path s) = k /\ forall x, In x (ts_path s) -> dot_free x) ->
  (0 < k)%nat -> length path = k -> (forall x, In x path -> dot_free x) -> spelling path ref ->
  (find_table (cat_run ops cat_new) ref = Some d <-> first_with path (tpairs (live ops)) d).
Proof.
  intros Hn Hlen Hk Hp Hd Hsp.
  pose proof (cat_run_inv ops cat_new cinv_new Hn) as I.
  destruct (c06_live_lemma ops Hn) as [T _].
  unfold find_table. rewrite (ci_ttree _ I), T.
  apply c08_lemma with (n := k); try assumption.
  assert (forall s, In s (live ops) -> In (AddT s) ops) as Hin.
  { clear. induction ops as [|o ops IH] using rev_ind; simpl; [tauto|].
    unfold live. rewrite fold_left_app. simpl. intros s H. apply in_or_app.
    destruct o as [x|x|m|m]; simpl in H; try (left; apply IH; exact H).
    - destruct (existsb _ _); [left; apply IH; exact H|]. apply in_app_or in H.
      destruct H as [H|[<-|[]]]; [left; apply IH; exact H|right; left; reflexivity].
    - apply filter_In in H. left. apply IH. tauto. }
  intros q e H. unfold tpairs in H. apply in_map_iff in H. destruct H as [s [E Hs]]. inversion E; subst.
  apply Hlen, Hin, Hs.
Qed.

(** ** C07 *)
Lemma c07_after_drop_lemma ops s : Forall named ops -> ts_path s <> [] ->
  let c := cat_run (ops ++ [DelT (ts_name s); AddT s]) cat_new in
  aget (c_tmap c) (ts_name s) = Some s /\ In s (c_tables c) /\
  (forall x, In x (c_tables c) -> ts_name x = ts_name s -> x = s).
Proof.
  intros Hn Hs c.
  assert (Forall named (ops ++ [DelT (ts_name s); AddT s])) as Hn2.
  { apply Forall_app. split; [exact Hn|]. constructor; [exact I|]. constructor; [exact Hs|constructor]. }
  destruct (c06_live_lemma _ Hn2) as [T [_ [_ _]]]. fold c in T.
  assert (live (ops ++ [DelT (ts_name s); AddT s]) =
          filter (fun x => negb (String.eqb (ts_name x) (ts_name s))) (live ops) ++ [s]) as EL.
  { unfold live. rewrite fold_left_app. simpl.
    destruct (existsb _ _) eqn:E; [|reflexivity]. exfalso. apply in_names_existsb in E.
    apply in_map_iff in E. destruct E as [x [Hx Hin]]. apply filter_In in Hin. destruct Hin as [_ Hin].
    rewrite Hx, String.eqb_refl in Hin. discriminate. }
  split; [|split].
  - unfold c. rewrite cat_run_app. simpl. 
    pose proof (cat_run_inv ops cat_new cinv_new Hn) as I0. set (c0 := cat_run ops cat_new) in *.
    unfold add_table_spec. destruct (aget (c_tmap (fst (delete_table c0 (ts_name s)))) (ts_name s)); simpl;
      rewrite aget_aset, String.eqb_refl; reflexivity.
  - rewrite T, EL. apply in_or_app. right. left. reflexivity.
  - intros x Hx Hxs. rewrite T, EL in Hx. apply in_app_or in Hx. destruct Hx as [Hx|[<-|[]]]; [|reflexivity].
    apply filter_In in Hx. destruct Hx as [_ Hx]. rewrite Hxs, String.eqb_refl in Hx. discriminate.
Qed.

Lemma find_nodup_in l s : NoDup (map fs_name l) -> In s l -> find (fun x => String.eqb (fs_name x) (fs_name s)) l = Some s.
Proof.
  induction l as [|x l IH]; simpl; intros Hnd Hin; [contradiction|].
  inversion_clear Hnd as [|? ? Hx Hl]. destruct Hin as [->|Hin].
  - rewrite String.eqb_refl. reflexivity.
  - destruct (String.eqb_spec (fs_name x) (fs_name s)) as [E|E]; [|apply IH; assumption].
    exfalso. apply Hx. rewrite E. apply in_map_iff. exists s. tauto.
Qed.

(** The function map of a statement holds first definitions. *)
Lemma fold_aset_find l : NoDup (map fs_name l) -> forall n,
  aget (fold_left (fun m s => aset m (fs_name s) s) l []) n = find (fun s => String.eqb (fs_name s) n) l.
Proof.
  induction l as [|s l IH] using rev_ind; intros Hnd n; [reflexivity|].
  rewrite fold_left_app, find_app'. simpl. rewrite aget_aset.
  rewrite map_app in Hnd. simpl in Hnd. apply NoDup_remove in Hnd. rewrite app_nil_r in Hnd. destruct Hnd as [Hnd Hni].
  rewrite (IH Hnd). destruct (String.eqb_spec (fs_name s) n) as [<-|Hn].
  - rewrite find_fnone_absent by exact Hni. reflexivity.
  - destruct (find _ l); reflexivity.
Qed.

Lemma stmt_func_map_lemma ops n : Forall named ops ->
  aget (stmt_func_map (cat_run ops cat_new) []) n = find (fun s => String.eqb (fs_name s) n) (livef ops).
Proof.
  intros Hn. unfold stmt_func_map, get_functions.
  pose proof (cat_run_inv ops cat_new cinv_new Hn) as I.
  destruct (c06_live_lemma ops Hn) as [_ [F _]]. rewrite <- F.
  apply fold_aset_find. exact (ci_fnd _ I).
Qed.
