(** Proofs about TxModel. *)
From Coq Require Import Ascii String List ZArith Lia Bool.
From Verif Require Import GoBase GoBaseFacts NameModel TreeModel CatalogModel CatalogSpec CatalogProofs PersistModel PersistProofs ScriptModel ScriptSpec ScriptProofs TxModel TxSpec.
Import ListNotations.
Local Open Scope nat_scope.

(** ** C17 *)
Lemma mem_In x l : mem x l = true <-> In x l.
Proof.
  unfold mem. rewrite existsb_exists. split; [intros [y [H E]]; apply Nat.eqb_eq in E; subst; exact H|].
  intros H. exists x. split; [exact H|apply Nat.eqb_refl].
Qed.

(** [past]: the history so far, most recent first. *)
Record tx_inv (past : list (tx_event * tx_result)) (s : txstate) : Prop := {
  ti_open : t_tx s = open_tx_rev past;
  ti_sqlite : t_sqlite s = t_tx s;
  ti_fresh : forall id, t_tx s = Some id -> id < t_next s /\ ~ In id (t_done s);
  ti_only : forall id, id < t_next s -> ~ In id (t_done s) -> t_tx s = Some id;
  ti_done : forall id, In id (t_done s) -> id < t_next s
}.

Lemma tx_inv_init : tx_inv [] tx_init.
Proof. constructor; simpl; try reflexivity; try discriminate; intros; try lia; contradiction. Qed.

Lemma tx_close_inv past s id ok e : tx_inv past s -> (e = ECommit id ok \/ e = ERollback id ok) ->
  tx_inv ((e, snd (tx_close s id ok)) :: past) (fst (tx_close s id ok)).
Proof.
  intros [H1 H2 H3 H4 H5] He.
  assert (Ho : forall r, open_tx_rev ((e, r) :: past) = match open_tx_rev past with Some j => if Nat.eqb j id then None else Some j | None => None end).
  { intros r. destruct He as [-> | ->]; reflexivity. }
  unfold tx_close. destruct (Nat.leb_spec (t_next s) id) as [Hl|Hl]; cbn [orb].
  - cbn [fst snd]. constructor; try assumption. rewrite Ho, <- H1.
    destruct (t_tx s) as [j|] eqn:E; [|reflexivity]. destruct (Nat.eqb_spec j id) as [->|]; [|reflexivity].
    destruct (H3 id eq_refl). lia.
  - destruct (mem id (t_done s)) eqn:Em.
    + apply mem_In in Em. cbn [fst snd]. constructor; try assumption. rewrite Ho, <- H1.
      destruct (t_tx s) as [j|] eqn:E; [|reflexivity]. destruct (Nat.eqb_spec j id) as [->|]; [|reflexivity].
      destruct (H3 id eq_refl). contradiction.
    + assert (Hn : ~ In id (t_done s)) by (intros H; apply mem_In in H; congruence).
      pose proof (H4 id Hl Hn) as E. cbn [fst snd]. constructor; cbn [t_tx t_sqlite t_next t_done].
      * rewrite Ho, <- H1, E, Nat.eqb_refl. reflexivity.
      * rewrite H2, E, Nat.eqb_refl. reflexivity.
      * discriminate.
      * intros j Hj Hjn. exfalso. assert (j <> id /\ ~ In j (t_done s)) as [A B] by (split; [intros ->; apply Hjn; left; reflexivity|intros Hx; apply Hjn; right; exact Hx]).
        pose proof (H4 j Hj B). congruence.
      * intros j [<-|Hj]; [exact Hl|exact (H5 j Hj)].
Qed.

Lemma tx_step_inv past s e : tx_inv past s -> tx_inv ((e, snd (tx_step s e)) :: past) (fst (tx_step s e)).
Proof.
  intros I. destruct e as [ok|id ok|id ok|].
  - destruct I as [H1 H2 H3 H4 H5]. cbn [tx_step]. rewrite H2. destruct (t_tx s) as [j|] eqn:E.
    + cbn [fst snd]. constructor; simpl; rewrite ?E; assumption.
    + destruct ok; cbn [fst snd]; constructor; simpl; rewrite ?E; try assumption; try reflexivity.
      * intros id Hid. injection Hid as <-. split; [lia|]. intros Hin. apply H5 in Hin. lia.
      * intros id Hid Hd. destruct (Nat.eq_dec id (t_next s)) as [->|Hne]; [reflexivity|].
        assert (id < t_next s) as Hlt by lia. pose proof (H4 id Hlt Hd). congruence.
      * intros id Hid. apply H5 in Hid. lia.
  - apply tx_close_inv; [exact I|left; reflexivity].
  - apply tx_close_inv; [exact I|right; reflexivity].
  - destruct I as [H1 H2 H3 H4 H5]. constructor; assumption.
Qed.

Lemma tx_run_app a : forall s b, tx_run s (a ++ b) =
  let (s1, x) := tx_run s a in let (s2, y) := tx_run s1 b in (s2, x ++ y).
Proof.
  induction a as [|e a IH]; intros s b; simpl; [destruct (tx_run s b); reflexivity|].
  destruct (tx_step s e) as [s1 x]. rewrite IH. destruct (tx_run s1 a) as [s2 xs]. destruct (tx_run s2 b) as [s3 ys]. reflexivity.
Qed.
Lemma tx_run_len h : forall s, List.length (snd (tx_run s h)) = List.length h.
Proof.
  induction h as [|e h IH]; intros s; simpl; [reflexivity|]. destruct (tx_step s e) as [s1 x]. specialize (IH s1).
  destruct (tx_run s1 h). simpl in *. congruence.
Qed.

Lemma tx_run_inv h : forall past s, tx_inv past s ->
  tx_inv (rev (combine h (snd (tx_run s h))) ++ past) (fst (tx_run s h)).
Proof.
  induction h as [|e h IH]; intros past s I; simpl; [exact I|].
  pose proof (tx_step_inv past s e I) as I1. destruct (tx_step s e) as [s1 x]. simpl in I1.
  specialize (IH _ _ I1). destruct (tx_run s1 h) as [s2 xs]. simpl in *. rewrite <- app_assoc. exact IH.
Qed.

Definition pairs (h : list tx_event) : list (tx_event * tx_result) := combine h (snd (tx_run tx_init h)).

Lemma c17_lemma h : 
  let o := open_tx (pairs h) in
  snd (tx_step (fst (tx_run tx_init h)) EStmt) = RRan (match o with Some id => InTx id | None => Auto end) o.
Proof.
  pose proof (tx_run_inv h [] tx_init tx_inv_init) as I. rewrite app_nil_r in I. destruct I as [H1 H2 _ _ _].
  cbv zeta. unfold open_tx, pairs. simpl. rewrite H2, H1. reflexivity.
Qed.

Lemma combine_app {A B} (a : list A) (x : list B) : forall b y, List.length a = List.length x -> combine (a ++ b) (x ++ y) = combine a x ++ combine b y.
Proof. revert x. induction a as [|e a IH]; intros [|z x] b y H; simpl in *; try discriminate; [reflexivity|]. f_equal. apply IH. lia. Qed.

Lemma pairs_snoc h e : pairs (h ++ [e]) = pairs h ++ [(e, snd (tx_step (fst (tx_run tx_init h)) e))].
Proof.
  unfold pairs. rewrite tx_run_app. pose proof (tx_run_len h tx_init) as Hl. destruct (tx_run tx_init h) as [s xs]. simpl in *.
  destruct (tx_step s e) as [s1 x]. simpl. rewrite combine_app by congruence. reflexivity.
Qed.

Lemma c17_close_lemma h id ok : open_tx (pairs (h ++ [ECommit id ok])) <> Some id /\ open_tx (pairs (h ++ [ERollback id ok])) <> Some id.
Proof.
  split; rewrite pairs_snoc; unfold open_tx; rewrite rev_app_distr; simpl;
    destruct (open_tx_rev (rev (pairs h))) as [j|]; try discriminate; destruct (Nat.eqb_spec j id); congruence.
Qed.

(** A transaction whose Commit or Rollback was called is never open again. *)
Lemma c17_never_reopened h id : In id (t_done (fst (tx_run tx_init h))) -> open_tx (pairs h) <> Some id.
Proof.
  pose proof (tx_run_inv h [] tx_init tx_inv_init) as I. rewrite app_nil_r in I. destruct I as [H1 H2 H3 _ _].
  unfold open_tx, pairs. rewrite <- H1. intros Hd E. destruct (H3 id E). contradiction.
Qed.

(** ** C18 *)
Lemma not_ddl_exec w a : not_ddl a -> w_cat (fst (action_exec w a)) = w_cat w.
Proof.
  intros H. destruct a as [s m ct k|s m|f|v n ie|n ie|n f|n| | |n|l]; simpl in H; try contradiction; cbn [action_exec];
    try reflexivity; try (match goal with |- context [sq w ?q] => destruct (sq_frame w q) as [-> _]; reflexivity end).
  clear H. revert w. induction l as [|q l IH]; intros w; simpl; [reflexivity|]. unfold andthen.
  destruct (sq_frame w q) as [Hc _]. destruct (sq w q) as [w1 r]. simpl in *. destruct r; simpl; [rewrite IH; exact Hc|exact Hc|exact Hc].
Qed.
Lemma not_ddl_cleanup w a : not_ddl a -> action_cleanup w a = (w, Ok 0%Z).
Proof. intros H. destruct a; simpl in *; try contradiction; reflexivity. Qed.

Lemma not_ddl_run fs : (forall f c m a, In f fs -> f c m = Some a -> not_ddl a) -> forall w k0,
  let '(w1, acts, _) := run_script w fs k0 in w_cat w1 = w_cat w /\ forall a, In a acts -> not_ddl a.
Proof.
  induction fs as [|f fs IH]; intros Hd w k0; simpl; [split; [reflexivity|intros a []]|].
  destruct (f (w_cat w) (w_fmap w)) as [a|] eqn:Ea; [|split; [reflexivity|intros a []]].
  assert (Ha : not_ddl a) by (apply (Hd f (w_cat w) (w_fmap w) a); [left; reflexivity|exact Ea]).
  pose proof (not_ddl_exec w a Ha) as E. destruct (action_exec w a) as [w1 r]. simpl in E.
  destruct r as [k1| |]; [|split; [exact E|intros b [<-|[]]; exact Ha]|split; [exact E|intros b [<-|[]]; exact Ha]].
  specialize (IH (fun g c m b Hg => Hd g c m b (or_intror Hg)) w1 k1).
  destruct (run_script w1 fs k1) as [[w2 acts] out]. destruct IH as [E2 Hb]. split; [congruence|].
  intros b [<-|H]; [exact Ha|exact (Hb b H)].
Qed.
Lemma not_ddl_cleanup_all l : (forall a, In a l -> not_ddl a) -> forall w, cleanup_all w l = (w, false).
Proof.
  induction l as [|a l IH]; intros Hd w; simpl; [reflexivity|].
  rewrite (not_ddl_cleanup w a (Hd a (or_introl eq_refl))), (IH (fun b Hb => Hd b (or_intror Hb)) w). reflexivity.
Qed.
Lemma not_ddl_context w np fs : (forall f c m a, In f fs -> f c m = Some a -> not_ddl a) ->
  w_cat (fst (exec_context w np fs)) = w_cat w.
Proof.
  intros Hd. unfold exec_context. pose proof (not_ddl_run fs Hd (start_call w np) 0%Z) as H.
  destruct (run_script (start_call w np) fs 0) as [[w1 acts] out]. destruct H as [E Ha].
  rewrite (not_ddl_cleanup_all acts Ha w1). exact E.
Qed.
Lemma c18_lemma np scripts : (forall fs f c m a, In fs scripts -> In f fs -> f c m = Some a -> not_ddl a) -> forall w,
  let w' := rollback w (tx_body w np scripts) in
  w_cat w' = w_cat w /\ w_db w' = w_db w /\ w_saved w' = w_saved w.
Proof.
  intros Hd w. cbv zeta. split; [|split; reflexivity]. simpl. unfold tx_body. revert w.
  induction scripts as [|fs l IH]; intros w; simpl; [reflexivity|].
  rewrite IH by (intros fs' f c m a H; apply (Hd fs' f c m a); right; exact H).
  apply not_ddl_context. intros f c m a. apply Hd. left. reflexivity.
Qed.

(** What a rolled-back DROP leaves: a table nobody can reach. *)
Lemma c18_lost_lemma w np n : cinv (w_cat w) -> no_faults w -> is_table (w_db w) n -> in_catalog_t w n ->
  let w' := rollback w (tx_body w np [[fun _ _ => Some (ADrop false n false)]]) in
  db_get (w_db w') n = db_get (w_db w) n /\ ~ in_catalog_t w' n.
Proof.
  intros I Hf Ht Hn. cbv zeta. split; [reflexivity|].
  destruct (c11_existing_lemma w np n false I Hf Ht Hn) as [_ [_ [H _]]]. exact H.
Qed.
Lemma c18_ghost_lemma w np s : cinv (w_cat w) -> ts_path s <> [] -> ts_temp s = false -> no_faults w -> absent (w_db w) (ts_name s) ->
  let w' := rollback w (tx_body w np [[fun _ _ => Some (ACreateTable s MDefault None 0)]]) in
  absent (w_db w') (ts_name s) /\ in_catalog_t w' (ts_name s).
Proof.
  intros I Hp Ht Hf Ha. cbv zeta. split; [exact Ha|]. unfold in_catalog_t. simpl rollback. cbn [w_cat].
  unfold tx_body. cbn [fold_left]. unfold exec_context. cbn [run_script action_exec mode_eqb]. unfold andthen at 1. cbn [snd fst].
  set (w0 := start_call w np). assert (Hf0 : no_faults w0) by exact Hf.
  unfold schema_table. cbn [mode_eqb].
  destruct (sq_frame w0 (QCreateTable (ts_name s) false [])) as [Fc [_ [_ [_ Ff]]]].
  assert (E : exists w1 z, sq w0 (QCreateTable (ts_name s) false []) = (w1, Ok z)).
  { unfold sq. rewrite (no_faults_next w0 Hf0). simpl. unfold absent in Ha. rewrite Ha. eauto. }
  destruct E as [w1 [z E]]. rewrite E in *. cbn [fst snd] in *. unfold andthen at 1. cbn [fst snd create_indexes].
  unfold andthen at 1. cbn [fst snd]. unfold add_new_table_spec. rewrite Fc. change (w_cat w0) with (w_cat w).
  destruct (add_table_inv (w_cat w) s I Hp) as [I' E'].
  assert (Hin : In (ts_name s) (map ts_name (c_tables (fst (add_table_spec (w_cat w) s))))).
  { apply (aget_mem_t _ _ I'). rewrite add_table_tmap, String.eqb_refl. discriminate. }
  destruct (add_table_spec (w_cat w) s) as [c e]. simpl in E', Hin. subst e. rewrite Ht.
  assert (Hf1 : next_fault (set_cat w1 c) = false).
  { apply no_faults_next. apply (no_faults_eq w1); [reflexivity|]. exact (no_faults_tl w0 w1 Ff Hf0). }
  unfold sq_saved. rewrite Hf1. unfold andthen. cbn [fst snd]. simpl. rewrite ?Ht. simpl. rewrite ?Ht. simpl. exact Hin.
Qed.

(** ** C20 *)
Definition holder (p : pc) : bool :=
  match p with PStart _ | PDone _ _ => false | _ => true end.
Definition name_of (p : pc) : string :=
  match p with PStart n | PLookup n | POpen n | PStoreDB n _ _ | PStoreCat n _ _ | PUnlock n _ | PDone n _ => n end.

Lemma nth_set_nth {A} (l : list A) i x : forall j, nth_error (set_nth l i x) j =
  if Nat.eqb i j then match nth_error l i with Some _ => Some x | None => None end else nth_error l j.
Proof.
  revert i. induction l as [|y l IH]; intros i j; simpl.
  - destruct i, j; simpl; try reflexivity; destruct (Nat.eqb i j); reflexivity.
  - destruct i as [|i], j as [|j]; simpl; try reflexivity. apply IH.
Qed.

(** Results already decided by a goroutine. *)
Definition result_of (p : pc) : option (nat * nat) :=
  match p with PUnlock _ r | PDone _ r => r | PStoreCat _ d c | PStoreDB _ d c => Some (d, c) | _ => None end.
Definition settled (p : pc) : option (nat * nat) :=
  match p with PUnlock _ r | PDone _ r => r | _ => None end.

Record dinv (s : dsn_state) : Prop := {
  di_lock : forall i p, nth_error (d_threads s) i = Some p -> holder p = true -> d_lock s = Some i;
  (* both maps have the same keys, except while a goroutine is between the two stores *)
  di_keys : forall n d, aget (d_dbs s) n = Some d ->
              (exists c, aget (d_cats s) n = Some c) \/
              (exists i c, nth_error (d_threads s) i = Some (PStoreCat n d c));
  di_cats : forall n c, aget (d_cats s) n = Some c -> exists d, aget (d_dbs s) n = Some d;
  di_open : forall i n, nth_error (d_threads s) i = Some (POpen n) -> aget (d_dbs s) n = None;
  di_db : forall i n d c, nth_error (d_threads s) i = Some (PStoreDB n d c) ->
            aget (d_dbs s) n = None /\ d < d_next s /\ c < d_next s /\ (forall m, aget (d_dbs s) m <> Some d) /\ (forall m, aget (d_cats s) m <> Some c) /\ c <> 0;
  di_cat : forall i n d c, nth_error (d_threads s) i = Some (PStoreCat n d c) ->
            aget (d_dbs s) n = Some d /\ aget (d_cats s) n = None /\ c < d_next s /\ (forall m, aget (d_cats s) m <> Some c) /\ c <> 0;
  di_res : forall i p d c, nth_error (d_threads s) i = Some p -> settled p = Some (d, c) ->
            aget (d_dbs s) (name_of p) = Some d /\ aget (d_cats s) (name_of p) = Some c;
  di_dinj : forall n m d, aget (d_dbs s) n = Some d -> aget (d_dbs s) m = Some d -> n = m;
  di_cinj : forall n m c, aget (d_cats s) n = Some c -> aget (d_cats s) m = Some c -> n = m;
  di_dlt : forall n d, aget (d_dbs s) n = Some d -> d < d_next s;
  di_clt : forall n c, aget (d_cats s) n = Some c -> c < d_next s /\ c <> 0;
  di_pos : 0 < d_next s
}.

Lemma dinv_init names : dinv (dsn_init names).
Proof.
  assert (H : forall i p, nth_error (map PStart names) i = Some p -> exists n, p = PStart n).
  { intros i p E. apply nth_error_In in E. apply in_map_iff in E. destruct E as [n [<- _]]. eauto. }
  constructor; simpl; try (intros; discriminate); try lia.
  - intros i p E Hh. apply H in E. destruct E as [n ->]. discriminate.
  - intros i n E. apply H in E. destruct E. discriminate.
  - intros i n d c E. apply H in E. destruct E. discriminate.
  - intros i n d c E. apply H in E. destruct E. discriminate.
  - intros i p d c E. apply H in E. destruct E as [n ->]. discriminate.
Qed.

(** A thread table after [goto]: thread [i] is at [p], the others are where they were. *)
Lemma goto_cases l i (x : pc) j p : nth_error (set_nth l i x) j = Some p -> (j = i /\ p = x) \/ (j <> i /\ nth_error l j = Some p).
Proof.
  rewrite nth_set_nth. destruct (Nat.eqb_spec i j) as [->|Hne].
  - destruct (nth_error l j); [intros E; injection E as <-; left; auto|discriminate].
  - intros E. right. split; [congruence|exact E].
Qed.

Lemma dinv_step s i ok s' : dinv s -> dsn_step s i ok = Some s' -> dinv s'.
Proof.
  intros I H. unfold dsn_step in H. destruct (nth_error (d_threads s) i) as [p|] eqn:Ei; [|discriminate].
  assert (Hex : forall j q, j <> i -> nth_error (d_threads s) j = Some q -> holder p = true -> holder q = true -> False).
  { intros j q Hne Hj Hp Hq. pose proof (di_lock _ I j q Hj Hq) as A. pose proof (di_lock _ I i p Ei Hp) as B. congruence. }
  pose proof I as [L K1 K2 Op Db Ct Rs Dj Cj Dl Cl Ps].
  destruct p as [n|n|n|n d c|n d c|n r|n r].
  - destruct (d_lock s) eqn:El; [discriminate|]. injection H as <-.
    assert (Hnone : forall j q, nth_error (d_threads s) j = Some q -> holder q = false).
    { intros j q Hj. destruct (holder q) eqn:E; [|reflexivity]. pose proof (L j q Hj E). congruence. }
    constructor; cbn [d_dbs d_cats d_next d_lock d_threads]; try assumption.
    + intros j q Hj Hh. apply goto_cases in Hj. destruct Hj as [[-> ->]|[Hne Hj]]; [reflexivity|]. rewrite (Hnone j q Hj) in Hh. discriminate.
    + intros m d Hm. destruct (K1 m d Hm) as [A|[j [c Hj]]]; [left; exact A|]. apply Hnone in Hj. discriminate.
    + intros j m Hj. apply goto_cases in Hj. destruct Hj as [[_ E]|[_ Hj]]; [discriminate|exact (Op j m Hj)].
    + intros j m d c Hj. apply goto_cases in Hj. destruct Hj as [[_ E]|[_ Hj]]; [discriminate|exact (Db j m d c Hj)].
    + intros j m d c Hj. apply goto_cases in Hj. destruct Hj as [[_ E]|[_ Hj]]; [discriminate|exact (Ct j m d c Hj)].
    + intros j q d c Hj. apply goto_cases in Hj. destruct Hj as [[_ ->]|[_ Hj]]; [discriminate|exact (Rs j q d c Hj)].
  - pose proof (L i _ Ei eq_refl) as Hl.
    assert (Hcat : forall d, aget (d_dbs s) n = Some d -> exists c, aget (d_cats s) n = Some c).
    { intros d Hd. destruct (K1 n d Hd) as [A|[j [c Hj]]]; [exact A|]. destruct (Nat.eq_dec j i) as [->|Hne]; [congruence|].
      exfalso. exact (Hex j _ Hne Hj eq_refl eq_refl). }
    destruct (aget (d_dbs s) n) as [d|] eqn:Ed; injection H as <-;
      constructor; cbn [d_dbs d_cats d_next d_lock d_threads]; try assumption.
    + intros j q Hj Hh. apply goto_cases in Hj. destruct Hj as [[-> _]|[Hne Hj]]; [exact Hl|exact (L j q Hj Hh)].
    + intros m e Hm. destruct (K1 m e Hm) as [A|[j [c Hj]]]; [left; exact A|].
      destruct (Nat.eq_dec j i) as [->|Hne]; [congruence|]. right. exists j, c. rewrite nth_set_nth.
      destruct (Nat.eqb_spec i j); [congruence|exact Hj].
    + intros j m Hj. apply goto_cases in Hj. destruct Hj as [[_ E]|[_ Hj]]; [discriminate|exact (Op j m Hj)].
    + intros j m e c Hj. apply goto_cases in Hj. destruct Hj as [[_ E]|[_ Hj]]; [discriminate|exact (Db j m e c Hj)].
    + intros j m e c Hj. apply goto_cases in Hj. destruct Hj as [[_ E]|[_ Hj]]; [discriminate|exact (Ct j m e c Hj)].
    + intros j q e c Hj. apply goto_cases in Hj. destruct Hj as [[_ ->]|[_ Hj]]; [|exact (Rs j q e c Hj)].
      simpl. intros E. injection E as <- <-. destruct (Hcat d eq_refl) as [c ->]. split; [exact Ed|reflexivity].
    + intros j q Hj Hh. apply goto_cases in Hj. destruct Hj as [[-> _]|[Hne Hj]]; [exact Hl|exact (L j q Hj Hh)].
    + intros m e Hm. destruct (K1 m e Hm) as [A|[j [c Hj]]]; [left; exact A|].
      destruct (Nat.eq_dec j i) as [->|Hne]; [congruence|]. right. exists j, c. rewrite nth_set_nth.
      destruct (Nat.eqb_spec i j); [congruence|exact Hj].
    + intros j m Hj. apply goto_cases in Hj. destruct Hj as [[_ E]|[_ Hj]]; [injection E as ->; exact Ed|exact (Op j m Hj)].
    + intros j m e c Hj. apply goto_cases in Hj. destruct Hj as [[_ E]|[_ Hj]]; [discriminate|exact (Db j m e c Hj)].
    + intros j m e c Hj. apply goto_cases in Hj. destruct Hj as [[_ E]|[_ Hj]]; [discriminate|exact (Ct j m e c Hj)].
    + intros j q e c Hj. apply goto_cases in Hj. destruct Hj as [[_ ->]|[_ Hj]]; [discriminate|exact (Rs j q e c Hj)].
  - pose proof (L i _ Ei eq_refl) as Hl. pose proof (Op i n Ei) as Hn.
    destruct ok; injection H as <-; constructor; cbn [d_dbs d_cats d_next d_lock d_threads]; try assumption.
    + intros j q Hj Hh. apply goto_cases in Hj. destruct Hj as [[-> _]|[Hne Hj]]; [exact Hl|exact (L j q Hj Hh)].
    + intros m e Hm. destruct (K1 m e Hm) as [A|[j [c Hj]]]; [left; exact A|].
      destruct (Nat.eq_dec j i) as [->|Hne]; [congruence|]. exfalso. exact (Hex j _ Hne Hj eq_refl eq_refl).
    + intros j m Hj. apply goto_cases in Hj. destruct Hj as [[_ E]|[_ Hj]]; [discriminate|exact (Op j m Hj)].
    + intros j m e c Hj. apply goto_cases in Hj. destruct Hj as [[_ E]|[Hne Hj]].
      * injection E as -> -> ->. split; [exact Hn|]. split; [lia|]. split; [lia|]. split; [|split].
        -- intros m Hm. apply Dl in Hm. lia.
        -- intros m Hm. apply Cl in Hm. lia.
        -- lia.
      * exfalso. exact (Hex j _ Hne Hj eq_refl eq_refl).
    + intros j m e c Hj. apply goto_cases in Hj. destruct Hj as [[_ E]|[Hne Hj]]; [discriminate|]. exfalso. exact (Hex j _ Hne Hj eq_refl eq_refl).
    + intros j q e c Hj. apply goto_cases in Hj. destruct Hj as [[_ ->]|[_ Hj]]; [discriminate|exact (Rs j q e c Hj)].
    + intros m e Hm. apply Dl in Hm. lia.
    + intros m c Hm. apply Cl in Hm. lia.
    + lia.
    + intros j q Hj Hh. apply goto_cases in Hj. destruct Hj as [[-> _]|[Hne Hj]]; [exact Hl|exact (L j q Hj Hh)].
    + intros m e Hm. destruct (K1 m e Hm) as [A|[j [c Hj]]]; [left; exact A|].
      destruct (Nat.eq_dec j i) as [->|Hne]; [congruence|]. exfalso. exact (Hex j _ Hne Hj eq_refl eq_refl).
    + intros j m Hj. apply goto_cases in Hj. destruct Hj as [[_ E]|[_ Hj]]; [discriminate|exact (Op j m Hj)].
    + intros j m e c Hj. apply goto_cases in Hj. destruct Hj as [[_ E]|[Hne Hj]]; [discriminate|exact (Db j m e c Hj)].
    + intros j m e c Hj. apply goto_cases in Hj. destruct Hj as [[_ E]|[Hne Hj]]; [discriminate|exact (Ct j m e c Hj)].
    + intros j q e c Hj. apply goto_cases in Hj. destruct Hj as [[_ ->]|[_ Hj]]; [discriminate|exact (Rs j q e c Hj)].
  - pose proof (L i _ Ei eq_refl) as Hl. destruct (Db i n d c Ei) as [A1 [A2 [A3 [A4 [A5 A6]]]]]. injection H as <-.
    assert (Hcn : aget (d_cats s) n = None).
    { destruct (aget (d_cats s) n) as [c0|] eqn:E; [|reflexivity]. destruct (K2 n c0 E) as [d0 Hd0]. congruence. }
    constructor; cbn [d_dbs d_cats d_next d_lock d_threads]; try assumption.
    + intros j q Hj Hh. apply goto_cases in Hj. destruct Hj as [[-> _]|[Hne Hj]]; [exact Hl|exact (L j q Hj Hh)].
    + intros m e. rewrite aget_aset. destruct (String.eqb_spec n m) as [<-|Hnm].
      * intros E. injection E as <-. right. exists i, c. rewrite nth_set_nth, Nat.eqb_refl, Ei. reflexivity.
      * intros Hm. destruct (K1 m e Hm) as [A|[j [c0 Hj]]]; [left; exact A|].
        destruct (Nat.eq_dec j i) as [->|Hne]; [congruence|]. exfalso. exact (Hex j _ Hne Hj eq_refl eq_refl).
    + intros m e Hm. rewrite aget_aset. destruct (String.eqb n m); [eauto|exact (K2 m e Hm)].
    + intros j m Hj. apply goto_cases in Hj. destruct Hj as [[_ E]|[Hne Hj]]; [discriminate|]. exfalso. exact (Hex j _ Hne Hj eq_refl eq_refl).
    + intros j m e c0 Hj. apply goto_cases in Hj. destruct Hj as [[_ E]|[Hne Hj]]; [discriminate|]. exfalso. exact (Hex j _ Hne Hj eq_refl eq_refl).
    + intros j m e c0 Hj. apply goto_cases in Hj. destruct Hj as [[_ E]|[Hne Hj]].
      * injection E as -> -> ->. rewrite aget_aset, String.eqb_refl. repeat split; assumption.
      * exfalso. exact (Hex j _ Hne Hj eq_refl eq_refl).
    + intros j q e c0 Hj Hs. apply goto_cases in Hj. destruct Hj as [[_ ->]|[_ Hj]]; [discriminate|].
      destruct (Rs j q e c0 Hj Hs) as [B1 B2]. split; [|exact B2]. rewrite aget_aset.
      destruct (String.eqb_spec n (name_of q)) as [E|_]; [congruence|exact B1].
    + intros m1 m2 e. rewrite !aget_aset. destruct (String.eqb_spec n m1) as [<-|H1], (String.eqb_spec n m2) as [<-|H2]; intros E1 E2.
      * reflexivity.
      * injection E1 as <-. exfalso. exact (A4 m2 E2).
      * injection E2 as <-. exfalso. exact (A4 m1 E1).
      * exact (Dj m1 m2 e E1 E2).
    + intros m e. rewrite aget_aset. destruct (String.eqb n m); [intros E; injection E as <-; exact A2|exact (Dl m e)].
  - pose proof (L i _ Ei eq_refl) as Hl. destruct (Ct i n d c Ei) as [A1 [A2 [A3 [A4 A5]]]]. injection H as <-.
    constructor; cbn [d_dbs d_cats d_next d_lock d_threads]; try assumption.
    + intros j q Hj Hh. apply goto_cases in Hj. destruct Hj as [[-> _]|[Hne Hj]]; [exact Hl|exact (L j q Hj Hh)].
    + intros m e Hm. left. rewrite aget_aset. destruct (String.eqb_spec n m) as [<-|Hnm]; [eauto|].
      destruct (K1 m e Hm) as [A|[j [c0 Hj]]]; [exact A|].
      destruct (Nat.eq_dec j i) as [->|Hne]; [congruence|]. exfalso. exact (Hex j _ Hne Hj eq_refl eq_refl).
    + intros m e. rewrite aget_aset. destruct (String.eqb_spec n m) as [<-|Hnm]; [eauto|exact (K2 m e)].
    + intros j m Hj. apply goto_cases in Hj. destruct Hj as [[_ E]|[Hne Hj]]; [discriminate|exact (Op j m Hj)].
    + intros j m e c0 Hj. apply goto_cases in Hj. destruct Hj as [[_ E]|[Hne Hj]]; [discriminate|]. exfalso. exact (Hex j _ Hne Hj eq_refl eq_refl).
    + intros j m e c0 Hj. apply goto_cases in Hj. destruct Hj as [[_ E]|[Hne Hj]]; [discriminate|]. exfalso. exact (Hex j _ Hne Hj eq_refl eq_refl).
    + intros j q e c0 Hj Hs. apply goto_cases in Hj. destruct Hj as [[_ ->]|[_ Hj]].
      * simpl in Hs. injection Hs as <- <-. simpl. rewrite aget_aset, String.eqb_refl. auto.
      * destruct (Rs j q e c0 Hj Hs) as [B1 B2]. split; [exact B1|]. rewrite aget_aset.
        destruct (String.eqb_spec n (name_of q)) as [E|_]; [congruence|exact B2].
    + intros m1 m2 e. rewrite !aget_aset. destruct (String.eqb_spec n m1) as [<-|H1], (String.eqb_spec n m2) as [<-|H2]; intros E1 E2.
      * reflexivity.
      * injection E1 as <-. exfalso. exact (A4 m2 E2).
      * injection E2 as <-. exfalso. exact (A4 m1 E1).
      * exact (Cj m1 m2 e E1 E2).
    + intros m e. rewrite aget_aset. destruct (String.eqb n m); [intros E; injection E as <-; auto|exact (Cl m e)].
  - injection H as <-. constructor; cbn [d_dbs d_cats d_next d_lock d_threads]; try assumption.
    + intros j q Hj Hh. apply goto_cases in Hj. destruct Hj as [[_ ->]|[Hne Hj]]; [discriminate|]. exfalso. exact (Hex j q Hne Hj eq_refl Hh).
    + intros m e Hm. destruct (K1 m e Hm) as [A|[j [c Hj]]]; [left; exact A|].
      destruct (Nat.eq_dec j i) as [->|Hne]; [congruence|]. exfalso. exact (Hex j _ Hne Hj eq_refl eq_refl).
    + intros j m Hj. apply goto_cases in Hj. destruct Hj as [[_ E]|[_ Hj]]; [discriminate|exact (Op j m Hj)].
    + intros j m e c Hj. apply goto_cases in Hj. destruct Hj as [[_ E]|[_ Hj]]; [discriminate|exact (Db j m e c Hj)].
    + intros j m e c Hj. apply goto_cases in Hj. destruct Hj as [[_ E]|[_ Hj]]; [discriminate|exact (Ct j m e c Hj)].
    + intros j q e c Hj Hs. apply goto_cases in Hj. destruct Hj as [[_ ->]|[_ Hj]]; [|exact (Rs j q e c Hj Hs)].
      exact (Rs i (PUnlock n r) e c Ei Hs).
  - discriminate.
Qed.

Lemma dinv_run sched : forall s, dinv s -> dinv (dsn_run s sched).
Proof.
  induction sched as [|[i ok] r IH]; intros s I; simpl; [exact I|].
  destruct (dsn_step s i ok) as [s'|] eqn:E; [|exact (IH s I)]. apply IH. exact (dinv_step s i ok s' I E).
Qed.

Lemma c20_lemma names sched i j ni nj di ci dj cj :
  let s := dsn_run (dsn_init names) sched in
  nth_error (d_threads s) i = Some (PDone ni (Some (di, ci))) ->
  nth_error (d_threads s) j = Some (PDone nj (Some (dj, cj))) ->
  (ni = nj -> di = dj /\ ci = cj) /\ (ni <> nj -> di <> dj /\ ci <> cj) /\ ci <> 0 /\ cj <> 0.
Proof.
  intros s Hi Hj. pose proof (dinv_run sched _ (dinv_init names)) as I. fold s in I.
  destruct (di_res _ I i _ di ci Hi eq_refl) as [A1 A2]. destruct (di_res _ I j _ dj cj Hj eq_refl) as [B1 B2]. simpl in *.
  split; [intros ->; rewrite A1 in B1; rewrite A2 in B2; split; congruence|]. split.
  - intros Hne. split; intros ->; apply Hne; [exact (di_dinj _ I ni nj dj A1 B1)|exact (di_cinj _ I ni nj cj A2 B2)].
  - split; [exact (proj2 (di_clt _ I ni ci A2))|exact (proj2 (di_clt _ I nj cj B2))].
Qed.

(** The goroutine's name does not change, and a goroutine that holds the lock can always move:
    no deadlock. *)
Lemma c20_progress_lemma names sched :
  let s := dsn_run (dsn_init names) sched in
  (forall i p, nth_error (d_threads s) i = Some p -> (forall n r, p <> PDone n r) -> exists j s', dsn_step s j true = Some s').
Proof.
  intros s i p Hi Hp. pose proof (dinv_run sched _ (dinv_init names)) as I. fold s in I.
  assert (Hstep : forall j q, nth_error (d_threads s) j = Some q -> holder q = true -> exists s', dsn_step s j true = Some s').
  { intros j q Hj Hh. unfold dsn_step. rewrite Hj. destruct q; try discriminate; eauto. destruct (aget (d_dbs s) name); eauto. }
  destruct (holder p) eqn:Eh; [destruct (Hstep i p Hi Eh) as [s' E]; eauto|].
  destruct p as [n| | | | | |n r]; try discriminate; [|destruct (Hp n r eq_refl)].
  destruct (d_lock s) as [k|] eqn:El.
  - (* the lock is held by a thread in the critical section *)
    assert (Hk : exists q, nth_error (d_threads s) k = Some q /\ holder q = true).
    { clear - El. unfold s in *. clear s.
      assert (Hgen : forall sched s0, (forall k, d_lock s0 = Some k -> exists q, nth_error (d_threads s0) k = Some q /\ holder q = true) ->
        (forall i p, nth_error (d_threads s0) i = Some p -> holder p = true -> d_lock s0 = Some i) ->
        forall k, d_lock (dsn_run s0 sched) = Some k -> exists q, nth_error (d_threads (dsn_run s0 sched)) k = Some q /\ holder q = true).
      { clear. induction sched as [|[i ok] r IH]; intros s0 H0 H1 k Hk; simpl in *; [exact (H0 k Hk)|].
        destruct (dsn_step s0 i ok) as [s'|] eqn:E; [|exact (IH s0 H0 H1 k Hk)].
        apply (IH s'); [| |exact Hk].
        - intros k' Hk'. unfold dsn_step in E. destruct (nth_error (d_threads s0) i) as [p|] eqn:Ei; [|discriminate].
          destruct p as [n|n|n|n d c|n d c|n r0|n r0]; try (destruct (d_lock s0) eqn:El0; [discriminate|]);
            try (destruct (aget (d_dbs s0) n)); try (destruct ok); try discriminate; injection E as <-; cbn [d_lock d_threads] in *;
            try discriminate; try (pose proof (H1 i _ Ei eq_refl) as Hl; assert (k' = i) as -> by congruence);
            try (injection Hk' as <-); eexists; (split; [rewrite nth_set_nth, Nat.eqb_refl, Ei; reflexivity|reflexivity]).
        - intros j q Hj Hh. unfold dsn_step in E. destruct (nth_error (d_threads s0) i) as [p|] eqn:Ei; [|discriminate].
          destruct p as [n|n|n|n d c|n d c|n r0|n r0]; try (destruct (d_lock s0) eqn:El0; [discriminate|]);
            try (destruct (aget (d_dbs s0) n)); try (destruct ok); try discriminate; injection E as <-; cbn [d_lock d_threads] in *;
            apply goto_cases in Hj; destruct Hj as [[-> ->]|[Hne Hj]]; try reflexivity; try discriminate;
            try (exact (H1 i _ Ei eq_refl)); try (exact (H1 j q Hj Hh));
            try (pose proof (H1 j q Hj Hh); congruence);
            pose proof (H1 j q Hj Hh) as A; pose proof (H1 i _ Ei eq_refl) as B; congruence. }
      apply (Hgen sched (dsn_init names)); [simpl; discriminate| |exact El].
      intros i p Hi Hh. simpl in Hi. apply nth_error_In in Hi. apply in_map_iff in Hi. destruct Hi as [n [<- _]]. discriminate. }
    destruct Hk as [q [Hq Hh]]. destruct (Hstep k q Hq Hh) as [s' E]. eauto.
  - exists i. unfold dsn_step. rewrite Hi, El. eauto.
Qed.
