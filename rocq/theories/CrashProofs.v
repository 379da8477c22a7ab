(** Proofs about CrashModel. *)
From Coq Require Import Ascii String List ZArith Lia Bool Permutation.
From Verif Require Import GoBase GoBaseFacts NameModel NameSpec TreeModel CatalogModel CatalogSpec CatalogProofs PersistModel PersistSpec PersistProofs ScriptModel ScriptSpec ScriptProofs CrashModel CrashSpec.
Import ListNotations.
Open Scope Z_scope.

Section Crash.
Variable T : string -> Prop.
Hypothesis TL : table_names T.

Definition sound (w : world) : Prop := cinv (w_cat w) /\ well_stored T (w_saved w).
(** Nothing changes for [n]. *)
Definition same_at (w w' : world) (n : string) : Prop :=
  (exists_in (w_db w') n <-> exists_in (w_db w) n) /\ (listed (w_saved w') n <-> listed (w_saved w) n) /\ (in_catalog_t w' n <-> in_catalog_t w n).
(** From [w] to [w'] only [m] may change. *)
Definition only (m : option string) (w w' : world) : Prop := sound w' /\ forall n, T n -> Some n <> m -> same_at w w' n.

Lemma same_refl w n : same_at w w n.
Proof. repeat split; auto. Qed.
Lemma same_trans a b c n : same_at a b n -> same_at b c n -> same_at a c n.
Proof. unfold same_at. tauto. Qed.
Lemma only_refl m w : sound w -> only m w w.
Proof. split; [assumption|intros; apply same_refl]. Qed.
Lemma only_trans m a b c : only m a b -> only m b c -> only m a c.
Proof. intros [_ H] [S H']. split; [exact S|]. intros n Tn N. eapply same_trans; [apply H|apply H']; auto. Qed.
Lemma same_in_step w w' n : same_at w w' n -> in_step w n -> in_step w' n.
Proof. unfold same_at, in_step. tauto. Qed.

Lemma lower_diff n m : T n -> T m -> n <> m -> String.eqb (lower m) (lower n) = false.
Proof. intros Tn Tm D. rewrite (TL _ Tn), (TL _ Tm). now apply String.eqb_neq; auto. Qed.

Definition names_of (q : sqstmt) : string :=
  match q with QCreateTable n _ _ | QCreateView n _ | QDropTable n _ | QDropView n _ | QDml n _ | QSelect n | QIndex n => n end.

Lemma sq_apply_other d q d' k n : T n -> T (names_of q) -> n <> names_of q -> sq_apply d q = Some (d', k) -> db_get d' n = db_get d n.
Proof.
  intros Tn Tq D H.
  assert (G : forall m o, T m -> n <> m -> db_get (db_set d m o) n = db_get d n /\ db_get (db_del d m) n = db_get d n).
  { intros m o Tm Dm. rewrite db_get_set, db_get_del, (lower_diff n m Tn Tm Dm). auto. }
  destruct q as [m i r|m i|m i|m i|m f|m|m]; cbn [sq_apply names_of] in *; destruct (db_get d m) as [[l|]|] eqn:E; try destruct i; try discriminate;
    try (assert (d' = d) by congruence; now subst);
    try (assert (Q : d' = db_set d m (OTable r)) by congruence; rewrite Q; apply G; auto);
    try (assert (Q : d' = db_set d m OView) by congruence; rewrite Q; apply G; auto);
    try (assert (Q : d' = db_del d m) by congruence; rewrite Q; apply (G m OView); auto).
  destruct (f l) as [[l' k']|]; [|discriminate]. assert (Q : d' = db_set d m (OTable l')) by congruence. rewrite Q. apply G; auto.
Qed.

Lemma sq_only w q : sound w -> T (names_of q) -> only (Some (names_of q)) w (fst (sq w q)).
Proof.
  intros S Tq. destruct (sq_frame w q) as (C & Sv & _). split.
  - unfold sound. rewrite C, Sv. exact S.
  - intros n Tn N. unfold same_at, in_catalog_t. rewrite C, Sv. repeat split; auto;
      unfold sq, exists_in; destruct (next_fault w); auto; destruct (sq_apply (w_db w) q) as [[d k]|] eqn:E; auto; cbn [fst w_db set_db];
      rewrite (sq_apply_other _ _ _ _ n Tn Tq ltac:(congruence) E); auto.
Qed.
(** A statement on rows changes no name. *)
Lemma sq_none w q : sound w -> (exists n f, q = QDml n f) \/ (exists n, q = QSelect n) \/ (exists n, q = QIndex n) -> only None w (fst (sq w q)).
Proof.
  intros S Q. destruct (sq_frame w q) as (C & Sv & _). split; [unfold sound; rewrite C, Sv; exact S|].
  intros n Tn _. unfold same_at, in_catalog_t. rewrite C, Sv. split; [|tauto].
  unfold sq, exists_in. destruct (next_fault w); [reflexivity|]. destruct (sq_apply (w_db w) q) as [[d k]|] eqn:E; [|reflexivity]. cbn [fst w_db set_db].
  destruct Q as [(m & f & ->)|[(m & ->)|(m & ->)]]; cbn [sq_apply] in E; destruct (db_get (w_db w) m) as [[l|]|] eqn:G; try discriminate;
    try (assert (d = w_db w) by congruence; subst; reflexivity).
  destruct (f l) as [[l' k']|]; [|discriminate]. assert (Q : d = db_set (w_db w) m (OTable l')) by congruence. rewrite Q.
  unfold db_get, db_set in *. rewrite aget_aset. destruct (String.eqb_spec (lower m) (lower n)) as [e|e]; [|reflexivity].
  rewrite <- e, G. split; discriminate.
Qed.

Lemma listed_upsert rows n k p t m : listed (upsert rows n k p t) m <-> listed rows m \/ m = n.
Proof.
  unfold listed. induction rows as [|r rows IH]; cbn [upsert map In r_name]; [intuition|].
  destruct (String.eqb_spec (r_name r) n) as [e|e]; cbn [map In r_name]; [rewrite e; intuition|]. rewrite IH. intuition.
Qed.
Lemma listed_delete rows n m : listed (delete_row rows n) m <-> listed rows m /\ m <> n.
Proof.
  unfold listed. rewrite !in_map_iff. split.
  - intros (r & <- & I). apply delete_row_in in I. destruct I. split; [eauto|assumption].
  - intros ((r & <- & I) & D). exists r. split; [reflexivity|]. now apply delete_row_in.
Qed.

Lemma ws_save_table rows s t : well_stored T rows -> T (ts_name s) -> ts_path s <> [] -> well_stored T (save_table rows s t).
Proof.
  intros [N A B] Ts P. unfold save_table. destruct (upsert_in rows (ts_name s) (if ts_view s then KView else KTable) (PT s) t N) as (k' & Hk & H).
  constructor.
  - now apply upsert_nodup.
  - intros r x I E. apply H in I. destruct I as [[I D]| ->]; [now apply (A r)|]. cbn in *. assert (x = s) by congruence. subst. repeat split; auto.
    destruct Hk as [-> |(r0 & I & E0 & ->)]; [destruct (ts_view s); auto|].
    destruct (r_spec r0) as [s0|f0] eqn:F; [now apply (A r0 s0)|]. destruct (B r0 f0 I F) as (Q & _). rewrite E0 in Q. contradiction.
  - intros r x I E. apply H in I. destruct I as [[I D]| ->]; [now apply (B r)|]. discriminate.
Qed.
Lemma ws_save_function rows s t : well_stored T rows -> ~ T (fs_name s) -> fs_path s <> [] -> well_stored T (save_function rows s t).
Proof.
  intros [N A B] Ts P. unfold save_function. destruct (upsert_in rows (fs_name s) KFunction (PF s) t N) as (k' & Hk & H).
  constructor.
  - now apply upsert_nodup.
  - intros r x I E. apply H in I. destruct I as [[I D]| ->]; [now apply (A r)|]. discriminate.
  - intros r x I E. apply H in I. destruct I as [[I D]| ->]; [now apply (B r)|]. cbn in *. assert (x = s) by congruence. subst. repeat split; auto.
    destruct Hk as [-> |(r0 & I & E0 & ->)]; [reflexivity|].
    destruct (r_spec r0) as [s0|f0] eqn:F; [|now apply (B r0 f0)]. destruct (A r0 s0 I F) as (Q & _). rewrite E0 in Q. contradiction.
Qed.
Lemma ws_delete rows n : well_stored T rows -> well_stored T (delete_row rows n).
Proof.
  intros [N A B]. constructor; [now apply delete_row_nodup| |]; intros r x I E; apply delete_row_in in I; destruct I; [now apply (A r)|now apply (B r)].
Qed.

Lemma sq_saved_cases w f : (exists z, snd (sq_saved w f) = Ok z /\ w_saved (fst (sq_saved w f)) = f (w_saved w)) \/
  (snd (sq_saved w f) = Err /\ w_saved (fst (sq_saved w f)) = w_saved w).
Proof. unfold sq_saved. destruct (next_fault w); cbn; [right|left; exists 0]; auto. Qed.

Lemma known_add c s n : cinv c -> ts_path s <> [] -> (In n (map ts_name (c_tables (fst (add_table_spec c s)))) <-> In n (map ts_name (c_tables c)) \/ n = ts_name s).
Proof.
  intros I P. destruct (add_table_inv c s I P) as [I' _]. rewrite <- !aget_mem_t by assumption. rewrite add_table_tmap.
  destruct (String.eqb_spec (ts_name s) n); [split; [auto|discriminate]|]. split; [auto|]. intros [H|H]; [exact H|congruence].
Qed.

Lemma add_t_only w s : sound w -> T (ts_name s) -> ts_path s <> [] -> ts_temp s = false ->
  let r := add_new_table_spec w s in
  only (Some (ts_name s)) w (fst r) /\ w_db (fst r) = w_db w /\ snd r <> GoPanic /\
  (forall z, snd r = Ok z -> listed (w_saved (fst r)) (ts_name s) /\ in_catalog_t (fst r) (ts_name s)).
Proof.
  intros (I & W) Ts P Tmp r. unfold r, add_new_table_spec. pose proof (known_add (w_cat w) s) as K. pose proof (add_table_inv (w_cat w) s I P) as (I' & E).
  destruct (add_table_spec (w_cat w) s) as [c e]. cbn [fst snd] in *. subst e. rewrite Tmp. set (w1 := set_cat w c). set (f := fun rows => save_table rows s (w_time w1)).
  destruct (sq_saved_frame w1 f) as (C & D & _). unfold only, sound, in_catalog_t, same_at, in_catalog_t. rewrite C, D. change (w_cat w1) with c. change (w_db w1) with (w_db w).
  destruct (sq_saved_cases w1 f) as [(z & -> & ->)|(-> & ->)]; change (w_saved w1) with (w_saved w).
  - unfold f. split; [split; [split; [exact I'|now apply ws_save_table]|]|split; [reflexivity|split; [discriminate|]]].
    + intros n Tn N. rewrite K by assumption. unfold save_table. rewrite listed_upsert. repeat split; auto; intros [H|H]; auto; congruence.
    + intros _ _. split; [unfold save_table; apply listed_upsert; auto|]. rewrite K by assumption. auto.
  - split; [split; [split; assumption|]|split; [reflexivity|split; discriminate]].
    intros n Tn N. rewrite K by assumption. repeat split; auto; intros [H|H]; auto; congruence.
Qed.
Lemma add_f_only w s : sound w -> ~ T (fs_name s) -> fs_path s <> [] -> fs_temp s = false ->
  only None w (fst (add_new_function_spec w s)) /\ w_db (fst (add_new_function_spec w s)) = w_db w.
Proof.
  intros (I & W) Ts P Tmp. unfold add_new_function_spec. pose proof (add_function_inv (w_cat w) s I P) as (I' & E).
  assert (Tb : c_tables (fst (add_function_spec (w_cat w) s)) = c_tables (w_cat w)) by (unfold add_function_spec; destruct (aget _ _); reflexivity).
  destruct (add_function_spec (w_cat w) s) as [c e]. cbn [fst snd] in *. subst e. rewrite Tmp. set (w1 := set_cat w c). set (f := fun rows => save_function rows s (w_time w1)).
  destruct (sq_saved_frame w1 f) as (C & D & _). unfold only, sound, same_at, in_catalog_t. rewrite C, D. change (w_cat w1) with c. change (w_db w1) with (w_db w). rewrite Tb.
  destruct (sq_saved_cases w1 f) as [(z & _ & ->)|(_ & ->)]; change (w_saved w1) with (w_saved w); (split; [|reflexivity]).
  - unfold f. split; [split; [exact I'|now apply ws_save_function]|]. intros n Tn _. unfold save_function. rewrite listed_upsert.
    repeat split; auto. intros [H| ->]; [exact H|contradiction].
  - split; [split; assumption|]. intros; repeat split; auto.
Qed.

Lemma del_t_only w n : sound w -> T n ->
  let r := delete_table_spec_sql w n in
  only (Some n) w (fst r) /\ w_db (fst r) = w_db w /\ snd r <> GoPanic /\
  (forall z, snd r = Ok z -> in_catalog_t w n /\ ~ listed (w_saved (fst r)) n /\ ~ in_catalog_t (fst r) n).
Proof.
  intros (I & W) Tn r. destruct (del_table_cat w n I) as (I' & D & _ & _ & _ & Tb & _). fold r in I', D, Tb.
  assert (K : forall m, in_catalog_t (fst r) m <-> in_catalog_t w m /\ m <> n) by (intros m; unfold in_catalog_t; rewrite Tb; apply in_map_filter_name).
  assert (L : (exists z, snd r = Ok z /\ in_catalog_t w n /\ w_saved (fst r) = delete_row (w_saved w) n) \/ (snd r = Err /\ w_saved (fst r) = w_saved w)).
  { unfold r, delete_table_spec_sql. destruct (delete_table_spec (w_cat w) n I) as [H1 H2]. destruct (aget (c_tmap (w_cat w)) n) eqn:E.
    - destruct (H2 ltac:(discriminate)) as [c' [-> _]]. destruct (sq_saved_cases (set_cat w c') (fun rows => delete_row rows n)) as [(z & A & B)|(A & B)].
      + left. exists z. split; [exact A|]. split; [|exact B]. apply aget_mem_t; [exact I|]. congruence.
      + right. split; [exact A|exact B].
    - rewrite (H1 eq_refl). now right. }
  split; [split|split; [exact D|split]].
  - split; [exact I'|]. destruct L as [(z & _ & _ & ->)|(_ & ->)]; [now apply ws_delete|exact W].
  - intros m Tm N. unfold same_at. rewrite D, K. destruct L as [(z & _ & _ & ->)|(_ & ->)]; assert (m <> n) by congruence; rewrite ?listed_delete; intuition.
  - destruct L as [(z & -> & _)|(-> & _)]; discriminate.
  - intros z E. destruct L as [(z' & _ & C & ->)|(E' & _)]; [|congruence]. rewrite K, listed_delete. repeat split; auto; intros (_ & Q); now apply Q.
Qed.
Lemma del_f_only w n : sound w -> ~ T n -> only None w (fst (delete_function_spec_sql w n)) /\ w_db (fst (delete_function_spec_sql w n)) = w_db w.
Proof.
  intros (I & W) Tn. destruct (del_func_cat w n I) as (I' & D & _ & _ & _ & _ & Tb). split; [|exact D].
  assert (L : w_saved (fst (delete_function_spec_sql w n)) = delete_row (w_saved w) n \/ w_saved (fst (delete_function_spec_sql w n)) = w_saved w).
  { unfold delete_function_spec_sql. destruct (delete_function (w_cat w) n) as [c [|]]; [now right|].
    destruct (sq_saved_cases (set_cat w c) (fun rows => delete_row rows n)) as [(z & _ & B)|(_ & B)]; [left|right]; exact B. }
  split.
  - split; [exact I'|]. destruct L as [-> | ->]; [now apply ws_delete|exact W].
  - intros m Tm _. unfold same_at, in_catalog_t. rewrite D, Tb. destruct L as [-> | ->]; assert (m <> n) by congruence; rewrite ?listed_delete; intuition.
Qed.

Lemma idx_only n k : forall w, sound w -> only None w (fst (create_indexes w n k)) /\ (exists_in (w_db (fst (create_indexes w n k))) n <-> exists_in (w_db w) n).
Proof.
  induction k as [|k IH]; intros w S; cbn [create_indexes]; [split; [now apply only_refl|reflexivity]|].
  pose proof (sq_none w (QIndex n) S ltac:(right; right; eauto)) as O.
  assert (E : exists_in (w_db (fst (sq w (QIndex n)))) n <-> exists_in (w_db w) n).
  { unfold sq. destruct (next_fault w); [reflexivity|]. cbn [sq_apply]. destruct (db_get (w_db w) n) as [[l|]|]; reflexivity. }
  unfold andthen. destruct (sq w (QIndex n)) as [w1 [z| |]]; cbn [fst snd] in *; [|now split..].
  destruct (IH w1 (proj1 O)) as (O' & E'). split; [eapply only_trans; eassumption|]. now rewrite E'.
Qed.

Lemma create_exists d q d' k : (exists n i r, q = QCreateTable n i r) \/ (exists n i, q = QCreateView n i) -> sq_apply d q = Some (d', k) -> exists_in d' (names_of q).
Proof.
  unfold exists_in. intros [(n & i & r & ->)|(n & i & ->)] H; cbn [sq_apply names_of] in *; destruct (db_get d n) eqn:E; try destruct i; try discriminate.
  all: try (assert (d' = d) by congruence; subst; congruence).
  all: match type of H with Some (db_set ?d ?n ?o, _) = _ => assert (Q : d' = db_set d n o) by congruence; rewrite Q, db_get_set, String.eqb_refl; discriminate end.
Qed.
Lemma drop_missing d q d' k : (exists n i, q = QDropTable n i) \/ (exists n i, q = QDropView n i) -> sq_apply d q = Some (d', k) -> ~ exists_in d' (names_of q).
Proof.
  unfold exists_in. intros [(n & i & ->)|(n & i & ->)] H; cbn [sq_apply names_of] in *; destruct (db_get d n) as [[l|]|] eqn:E; try destruct i; try discriminate.
  all: try (assert (d' = d) by congruence; subst; congruence).
  all: assert (Q : d' = db_del d n) by congruence; rewrite Q, db_get_del, String.eqb_refl; auto.
Qed.
Lemma sq_ok w q w1 z : sq w q = (w1, Ok z) -> exists d, sq_apply (w_db w) q = Some (d, z) /\ w_db w1 = d.
Proof.
  unfold sq. destruct (next_fault w); [discriminate|]. destruct (sq_apply (w_db w) q) as [[d k]|]; [|discriminate]. intros E.
  assert (w1 = set_db (used_fault w) d) by congruence. assert (k = z) by congruence. subst. exists d. auto.
Qed.

Lemma only_weaken m w w' : only None w w' -> only m w w'.
Proof. intros [S H]. split; [exact S|]. intros n Tn _. apply H; [exact Tn|discriminate]. Qed.
Lemma only_cc m w w' c : only m w w' -> only m w (set_cc w' c).
Proof. intros H. exact H. Qed.
Lemma only_fmap m w w' c : only m w w' -> only m w (set_fmap w' c).
Proof. intros H. exact H. Qed.

(** The effect of one statement, whatever SQLite answers. *)
Lemma exec_only w a : sound w -> tame T a ->
  let r := action_exec w a in
  only (subject a) w (fst r) /\ (forall z m, snd r = Ok z -> subject a = Some m -> in_step (fst r) m).
Proof.
  intros S Ta r. set (P0 := fun r : world * res Z => only (subject a) w (fst r) /\ (forall z m, snd r = Ok z -> subject a = Some m -> in_step (fst r) m)).
  change (P0 r). unfold r. clear r. destruct a as [s m ct k|s m|f|v n ie|n ie|n f|n| | |n|l]; cbn [action_exec subject tame] in *.
  - destruct Ta as (Ts & P & Tmp).
    set (r0 := if mode_eqb m MOrReplace then sq w (QDropTable (ts_name s) true) else (w, Ok 0)).
    assert (O0 : only (Some (ts_name s)) w (fst r0)) by (unfold r0; destruct (mode_eqb m MOrReplace); [now apply (sq_only w (QDropTable (ts_name s) true))|now apply only_refl]).
    unfold andthen at 1. destruct r0 as [w0 [z0| |]]; cbn [fst snd] in *; [|unfold P0; cbn [fst snd]; split; [exact O0|discriminate]..].
    pose proof (sq_only w0 (schema_table s m ct) (proj1 O0)) as O1. pose proof (sq_ok w0 (schema_table s m ct)) as E1.
    assert (Nm : names_of (schema_table s m ct) = ts_name s) by (destruct ct; reflexivity). rewrite Nm in O1. specialize (O1 Ts).
    pose proof (only_trans _ _ _ _ O0 O1) as O01.
    unfold andthen at 1. destruct (sq w0 (schema_table s m ct)) as [w1 [z1| |]]; cbn [fst snd] in *; [|unfold P0; cbn [fst snd]; split; [exact O01|discriminate]..].
    destruct (E1 w1 z1 eq_refl) as (d & A & Dd).
    assert (X1 : exists_in (w_db w1) (ts_name s)). { rewrite Dd, <- Nm. eapply create_exists; [|exact A]. left. destruct ct; cbn; eauto. }
    destruct (idx_only (ts_name s) k w1 (proj1 O1)) as (O2 & X2). apply (only_weaken (Some (ts_name s))) in O2. pose proof (only_trans _ _ _ _ O01 O2) as O02.
    unfold andthen at 1. destruct (create_indexes w1 (ts_name s) k) as [w2 [z2| |]]; cbn [fst snd] in *; [|unfold P0; cbn [fst snd]; split; [exact O02|discriminate]..].
    destruct (add_t_only w2 s (proj1 O2) Ts P Tmp) as (O3 & D3 & _ & K). pose proof (only_trans _ _ _ _ O02 O3) as O03.
    unfold andthen. destruct (add_new_table_spec w2 s) as [w3 [z3| |]]; cbn [fst snd] in *; [|unfold P0; cbn [fst snd]; split; [exact O03|discriminate]..].
    rewrite Tmp. unfold P0; cbn [fst snd]. split; [exact O03|]. intros z n _ E. assert (n = ts_name s) by congruence. subst n. destruct (K z3 eq_refl) as (L & C).
    unfold in_step, in_catalog_t in *. cbn [fst w_db w_saved w_cat set_cc]. rewrite D3. apply X2 in X1. split; split; intros; auto.
  - destruct Ta as (Ts & P & Tmp).
    set (r0 := if mode_eqb m MOrReplace then sq w (QDropView (ts_name s) true) else (w, Ok 0)).
    assert (O0 : only (Some (ts_name s)) w (fst r0)) by (unfold r0; destruct (mode_eqb m MOrReplace); [now apply (sq_only w (QDropView (ts_name s) true))|now apply only_refl]).
    unfold andthen at 1. destruct r0 as [w0 [z0| |]]; cbn [fst snd] in *; [|unfold P0; cbn [fst snd]; split; [exact O0|discriminate]..].
    pose proof (sq_only w0 (schema_view s m) (proj1 O0) Ts) as O1. pose proof (sq_ok w0 (schema_view s m)) as E1.
    pose proof (only_trans _ _ _ _ O0 O1) as O01.
    unfold andthen at 1. destruct (sq w0 (schema_view s m)) as [w1 [z1| |]]; cbn [fst snd] in *; [|unfold P0; cbn [fst snd]; split; [exact O01|discriminate]..].
    destruct (E1 w1 z1 eq_refl) as (d & A & Dd).
    assert (X1 : exists_in (w_db w1) (ts_name s)). { rewrite Dd. change (ts_name s) with (names_of (schema_view s m)). eapply create_exists; [|exact A]. right. unfold schema_view. eauto. }
    destruct (add_t_only w1 s (proj1 O1) Ts P Tmp) as (O3 & D3 & _ & K). pose proof (only_trans _ _ _ _ O01 O3) as O03.
    unfold andthen. destruct (add_new_table_spec w1 s) as [w3 [z3| |]]; cbn [fst snd] in *; [|unfold P0; cbn [fst snd]; split; [exact O03|discriminate]..].
    unfold P0; cbn [fst snd]. split; [exact O03|]. intros z n _ E. assert (n = ts_name s) by congruence. subst n. destruct (K z3 eq_refl) as (L & C).
    unfold in_step. cbn [fst]. rewrite D3. split; split; intros; auto.
  - destruct Ta as (Ts & P & Tmp). destruct (add_f_only w f S Ts P Tmp) as (O & _).
    unfold andthen. destruct (add_new_function_spec w f) as [w1 [z1| |]]; cbn [fst snd] in *; try (split; [exact O|discriminate]). destruct (cc_add_function _ _); (split; [exact O|discriminate]).
  - set (q := if v then QDropView n ie else QDropTable n ie). assert (Nm : names_of q = n) by (unfold q; destruct v; reflexivity).
    pose proof (sq_only w q S) as O1. rewrite Nm in O1. specialize (O1 Ta). pose proof (sq_ok w q) as E1.
    unfold andthen at 1. destruct (sq w q) as [w1 [z1| |]]; cbn [fst snd] in *; [|unfold P0; cbn [fst snd]; split; [exact O1|discriminate]..].
    destruct (E1 w1 z1 eq_refl) as (d & A & Dd).
    assert (X1 : ~ exists_in (w_db w1) n). { rewrite Dd, <- Nm. eapply drop_missing; [|exact A]. unfold q. destruct v; eauto. }
    destruct (del_t_only w1 n (proj1 O1) Ta) as (O2 & D2 & _ & K). pose proof (only_trans _ _ _ _ O1 O2) as O12.
    unfold andthen. destruct (delete_table_spec_sql w1 n) as [w2 [z2| |]]; cbn [fst snd] in *; [|unfold P0; cbn [fst snd]; split; [exact O12|discriminate]..].
    destruct (K z2 eq_refl) as (_ & L & C). unfold P0. split; [destruct (aget _ n); exact O12|]. intros z m Hz E. assert (m = n) by congruence. subst m.
    destruct (aget _ n); [|discriminate]. unfold in_step, in_catalog_t in *. cbn [fst snd w_db w_saved w_cat set_cc]. rewrite D2. tauto.
  - destruct (del_f_only w n S Ta) as (O & _). unfold andthen. destruct (delete_function_spec_sql w n) as [w1 [z1| |]]; cbn [fst snd] in *; try (split; [exact O|discriminate]).
    destruct (cc_delete_function _ _); (split; [exact O|discriminate]).
  - split; [|discriminate]. apply sq_none; eauto.
  - split; [|discriminate]. apply sq_none; eauto.
  - split; [now apply only_refl|discriminate].
  - split; [now apply only_refl|discriminate].
  - split; [|discriminate]. apply sq_none; eauto.
  - contradiction.
Qed.

(** A script: what is in step stays in step, but for the subject of the statement that failed. *)
Lemma script_step fs : forall w k0, sound w -> tame_script T fs ->
  match run_script w fs k0 with
  | (w', acts, out) => sound w' /\ (forall a, In a acts -> tame T a) /\
      ((exists z, out = Ok z) /\ (forall n, T n -> in_step w n -> in_step w' n) \/
       (exists m, forall n, T n -> n <> m -> in_step w n -> in_step w' n))
  end.
Proof.
  induction fs as [|f fs IH]; intros w k0 S Tf; cbn [run_script].
  - split; [exact S|]. split; [intros ? []|]. left. eauto.
  - destruct (f (w_cat w) (w_fmap w)) as [a|] eqn:Ea; [|split; [exact S|]; split; [intros ? []|]; right; exists EmptyString; auto].
    assert (Ta : tame T a) by (eapply Tf; [now left|exact Ea]). destruct (exec_only w a S Ta) as ((S1 & O) & K).
    destruct (action_exec w a) as [w1 r]. cbn [fst snd] in *.
    destruct r as [z| |].
    + assert (Good : forall n, T n -> in_step w n -> in_step w1 n).
      { intros n Tn I. destruct (subject a) as [m|] eqn:Sb.
        - destruct (String.string_dec n m) as [-> |D]; [now apply (K z m)|]. apply same_in_step with w; [|exact I]. apply O; [exact Tn|congruence].
        - apply same_in_step with w; [|exact I]. apply O; [exact Tn|discriminate]. }
      specialize (IH w1 z S1 (fun g c m b Hg => Tf g c m b (or_intror Hg))). destruct (run_script w1 fs z) as [[w2 acts] out].
      destruct IH as (S2 & A2 & H). split; [exact S2|]. split; [intros b [<-|Hb]; auto|].
      destruct H as [(Hz & H)|(m & H)]; [left; split; [exact Hz|auto]|right; exists m; auto].
    + split; [exact S1|]. split; [intros b [<-|[]]; exact Ta|]. right. destruct (subject a) as [m|] eqn:Sb.
      * exists m. intros n Tn D. apply same_in_step, O; [exact Tn|congruence].
      * exists EmptyString. intros n Tn _. apply same_in_step, O; [exact Tn|discriminate].
    + split; [exact S1|]. split; [intros b [<-|[]]; exact Ta|]. right. destruct (subject a) as [m|] eqn:Sb.
      * exists m. intros n Tn D. apply same_in_step, O; [exact Tn|congruence].
      * exists EmptyString. intros n Tn _. apply same_in_step, O; [exact Tn|discriminate].
Qed.
Lemma cleanup_tame l : (forall a, In a l -> tame T a) -> forall w, exists c, cleanup_all w l = (set_cc w c, false).
Proof.
  induction l as [|a l IH]; intros H w; cbn [cleanup_all]; [exists (w_cc w); destruct w; reflexivity|].
  assert (E : exists c, action_cleanup w a = (set_cc w c, Ok 0)).
  { pose proof (H a (or_introl eq_refl)) as Ta. destruct a; cbn [action_cleanup tame] in *; try (exists (w_cc w); destruct w; reflexivity).
    - destruct Ta as (_ & _ & ->). exists (w_cc w). destruct w; reflexivity.
    - destruct Ta as (_ & _ & ->). eauto.
    - destruct Ta as (_ & _ & ->). exists (w_cc w). destruct w; reflexivity. }
  destruct E as (c & ->). destruct (IH (fun b Hb => H b (or_intror Hb)) (set_cc w c)) as (c' & ->). exists c'. destruct w; reflexivity.
Qed.

Lemma exec_step w np fs : sound w -> tame_script T fs ->
  let r := exec_context w np fs in
  sound (fst r) /\
  ((exists z, snd r = Ok z) /\ (forall n, T n -> in_step w n -> in_step (fst r) n) \/
   (exists m, forall n, T n -> n <> m -> in_step w n -> in_step (fst r) n)).
Proof.
  intros S Tf r. unfold r, exec_context. pose proof (script_step fs (start_call w np) 0 S Tf) as H.
  destruct (run_script (start_call w np) fs 0) as [[w1 acts] out]. destruct H as (S1 & A & H).
  destruct (cleanup_tame acts A w1) as (c & ->). cbn [fst snd]. split; [exact S1|].
  destruct H as [((z & ->) & H)|(m & H)]; [left; split; [eauto|exact H]|right; exists m; exact H].
Qed.

Lemma reopened_sound w : well_stored T (w_saved w) -> sound (reopened w) /\ forall n, T n -> (in_catalog_t (reopened w) n <-> listed (w_saved w) n).
Proof.
  intros W. assert (G : Forall good_row (w_saved w)).
  { apply Forall_forall. intros r I. unfold good_row. destruct (r_spec r) as [s|f] eqn:E; [destruct (ws_tables T _ W r s I E) as (_ & ?)|destruct (ws_functions T _ W r f I E) as (_ & ?)]; auto. }
  destruct (load_rows_spec (w_saved w) cat_new cinv_new (ws_once T _ W) G ltac:(reflexivity) ltac:(reflexivity)) as (I & _ & _ & Tb & _).
  split; [split; [exact I|exact W]|]. intros n Tn. unfold in_catalog_t, listed. cbn [w_cat reopened]. rewrite !in_map_iff. split.
  - intros (s & <- & H). apply Tb in H. destruct H as [[]|(r & Ir & Er)]. exists r. split; [|exact Ir]. symmetry. now apply (ws_tables T _ W r s).
  - intros (r & <- & Ir). destruct (r_spec r) as [s|f] eqn:E; [|destruct (ws_functions T _ W r f Ir E) as (Q & _); contradiction].
    exists s. split; [now apply (ws_tables T _ W r s)|]. apply Tb. right. eauto.
Qed.
Lemma reopened_in_step w n : well_stored T (w_saved w) -> T n -> (in_step (reopened w) n <-> (listed (w_saved w) n <-> exists_in (w_db w) n)).
Proof. intros W Tn. unfold in_step. destruct (reopened_sound w W) as (_ & H). rewrite (H n Tn). cbn [w_saved w_db reopened]. tauto. Qed.
End Crash.
