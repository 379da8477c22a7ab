(** Invariants of the shared catalog. *)
From Coq Require Import Ascii String List Bool Arith Lia.
From Verif Require Import RaceModel RaceSpec.
Import ListNotations.
Local Open Scope string_scope.

Lemma mem_in n l : mem n l = true <-> In n l.
Proof.
  unfold mem. rewrite existsb_exists. split; [intros (x & I & E); apply String.eqb_eq in E; now subst|].
  intros I. exists n. split; [assumption|apply String.eqb_refl].
Qed.
Lemma in_put m n l : In m (put n l) <-> m = n \/ In m l.
Proof.
  unfold put. destruct (mem n l) eqn:E; [apply mem_in in E; split; [tauto|intros [-> |H]; assumption]|].
  rewrite in_app_iff. cbn. intuition.
Qed.

(** ** The holder of the mutex by itself *)
Inductive star : cat * list instr -> cat * list instr -> Prop :=
| star_refl x : star x x
| star_next x c k z : star x (c, k) -> solo c k = Some z -> star x z.
Lemma star_trans x y z : star x y -> star y z -> star x z.
Proof. intros A B. induction B; [assumption|]. eapply star_next; [apply IHB; assumption|eassumption]. Qed.
Lemma star_one c k z : solo c k = Some z -> star (c, k) z.
Proof. intros H. eapply star_next; [apply star_refl|exact H]. Qed.
Lemma star_det x y z : star x y -> star x z -> solo (fst z) (snd z) = None -> star y z.
Proof.
  intros A. revert z. induction A as [x|x c k y A IH H]; intros z B N; [assumption|].
  specialize (IH z B N). clear B A.
  assert (G : forall p q, star p q -> p = q \/ exists r, solo (fst p) (snd p) = Some r /\ star r q).
  { clear. intros p q S. induction S as [p|p c k q S IH H]; [now left|]. right. destruct IH as [->|(r & E & S')].
    - exists q. split; [exact H|apply star_refl].
    - exists r. split; [exact E|]. eapply star_next; eassumption. }
  destruct (G _ _ IH) as [<-|(r & E & S)]; [cbn in N; congruence|]. cbn in E. assert (r = y) by congruence. now subst.
Qed.

Lemma star_adds rows : forall c k, consistent c -> exists c', star (c, map IAdd rows ++ k)%list (c', k) /\ consistent c' /\
  same (c_tables c') (c_tables c ++ rows).
Proof.
  induction rows as [|n rows IH]; intros c k C; [exists c; split; [apply star_refl|]; split; [assumption|]; intros m; rewrite app_nil_r; tauto|].
  cbn [map app]. destruct (mem n (c_map c)) eqn:E.
  - assert (C1 : consistent (Cat (c_tables c) (put n (c_map c)) (c_found c))).
    { destruct C as [C1 C2]. split; intros m; cbn; [|apply C2]. rewrite in_put. apply mem_in in E. rewrite (C1 m). intuition congruence. }
    destruct (IH _ k C1) as (c' & S & C' & T). exists c'. split; [|split; [assumption|]].
    + eapply star_trans; [apply star_one; cbn [solo]; rewrite E; reflexivity|]. eapply star_trans; [apply star_one; reflexivity|].
      eapply star_trans; [apply star_one; reflexivity|]. exact S.
    + intros m. rewrite (T m). cbn. rewrite !in_app_iff. cbn. apply mem_in in E. apply C in E. intuition congruence.
  - assert (C1 : consistent (Cat (c_tables c ++ [n]) (put n (c_map c)) (put n (c_found c)))).
    { destruct C as [C1 C2]. split; intros m; cbn [c_tables c_map c_found]; rewrite in_put, in_app_iff; cbn; [rewrite (C1 m)|rewrite (C2 m)]; intuition. }
    destruct (IH _ k C1) as (c' & S & C' & T). exists c'. split; [|split; [assumption|]].
    + eapply star_trans; [apply star_one; cbn [solo]; rewrite E; reflexivity|]. eapply star_trans; [apply star_one; reflexivity|].
      eapply star_trans; [apply star_one; reflexivity|]. eapply star_trans; [apply star_one; reflexivity|]. eapply star_trans; [apply star_one; reflexivity|]. exact S.
    + intros m. rewrite (T m). cbn [c_tables]. rewrite !in_app_iff. cbn. intuition.
Qed.
Lemma star_rebuild rows c k : exists c', star (c, INew :: map IAdd rows ++ k)%list (c', k) /\ consistent c' /\ same (c_tables c') rows.
Proof.
  destruct (star_adds rows (Cat [] [] []) k) as (c' & S & C & T); [split; intros m; reflexivity|].
  exists c'. split; [eapply star_trans; [apply star_one; reflexivity|exact S]|]. split; [assumption|exact T].
Qed.

(** The part of an operation behind Lock *)
Definition critical (o : op) : list instr :=
  match o with
  | OSync rows => (map IAdd rows ++ [IUnlock])%list
  | OCreate n => [IAdd n; IUnlock]
  | ODrop n | OClean n => [IDel n; IUnlock]
  | ODropFn known => [IDelFn known; IUnlock]
  | OFind _ | OWild => []
  end.
Lemma star_effect o c : consistent c -> changes o = true -> exists c', star (c, critical o) (c', [IUnlock]) /\ consistent c' /\
  same (c_tables c') (effect o (c_tables c)).
Proof.
  intros C H. destruct o as [rows|n|n|n|known|n|]; try discriminate H; cbn [critical effect].
  - now apply star_adds.
  - exact (star_adds [n] c [IUnlock] C).
  - destruct (mem n (c_map c)) eqn:E.
    + destruct (star_rebuild (filter (fun m => negb (String.eqb n m)) (c_tables c)) c [IUnlock]) as (c' & S & C' & T). exists c'. split; [|split; [assumption|]].
      * eapply star_trans; [apply star_one; cbn [solo]; rewrite E; reflexivity|exact S].
      * intros m. rewrite (T m), filter_In. split; [|intros I; apply in_remove in I].
        -- intros [I N]. apply in_in_remove; [|assumption]. intros ->. rewrite String.eqb_refl in N. discriminate.
        -- destruct I as [I N]. split; [assumption|]. destruct (String.eqb_spec n m); [congruence|reflexivity].
    + exists c. split; [apply star_one; cbn [solo]; now rewrite E|]. split; [assumption|]. intros m.
      assert (N : ~ In n (c_tables c)) by (intros I; apply (proj1 C) in I; apply mem_in in I; congruence). now rewrite notin_remove.
  - destruct (mem n (c_map c)) eqn:E.
    + destruct (star_rebuild (filter (fun m => negb (String.eqb n m)) (c_tables c)) c [IUnlock]) as (c' & S & C' & T). exists c'. split; [|split; [assumption|]].
      * eapply star_trans; [apply star_one; cbn [solo]; rewrite E; reflexivity|exact S].
      * intros m. rewrite (T m), filter_In. split; [|intros I; apply in_remove in I].
        -- intros [I N]. apply in_in_remove; [|assumption]. intros ->. rewrite String.eqb_refl in N. discriminate.
        -- destruct I as [I N]. split; [assumption|]. destruct (String.eqb_spec n m); [congruence|reflexivity].
    + exists c. split; [apply star_one; cbn [solo]; now rewrite E|]. split; [assumption|]. intros m.
      assert (N : ~ In n (c_tables c)) by (intros I; apply (proj1 C) in I; apply mem_in in I; congruence). now rewrite notin_remove.
  - destruct known.
    + destruct (star_rebuild (c_tables c) c [IUnlock]) as (c' & S & C' & T). exists c'. split; [eapply star_trans; [apply star_one; reflexivity|exact S]|]. now split.
    + exists c. split; [apply star_one; reflexivity|]. split; [assumption|]. intros m. reflexivity.
Qed.

(** Code behind Lock has one Unlock, at its end, and a mark only at its head. *)
Definition inner (i : instr) : bool := match i with ILock | IUnlock | IRead | IFind _ | IWriting _ => false | _ => true end.
Definition plain (code : list instr) : Prop := exists k, code = (k ++ [IUnlock])%list /\ forallb inner k = true.
Definition behind (code : list instr) : Prop := plain code \/ exists n k, code = IWriting n :: k /\ plain k.
Lemma forallb_map_add l : forallb inner (map IAdd l) = true.
Proof. induction l; [reflexivity|assumption]. Qed.
Lemma behind_critical o : changes o = true -> plain (critical o).
Proof.
  destruct o as [rows|n|n|n|known|n|]; intros H; try discriminate H; cbn [critical].
  - exists (map IAdd rows). split; [reflexivity|apply forallb_map_add].
  - now exists [IAdd n].
  - now exists [IDel n].
  - now exists [IDel n].
  - now exists [IDelFn known].
Qed.
Lemma plain_app a k : forallb inner a = true -> plain k -> plain (a ++ k).
Proof. intros A (b & -> & B). exists (a ++ b)%list. split; [apply app_assoc|]. now rewrite forallb_app, A, B. Qed.
(** What a step of the holder makes of the code *)
Lemma solo_cases c code c' code' : behind code -> solo c code = Some (c', code') ->
  (exists n k, code = IWrite n :: k /\ code' = IWriting n :: k /\ plain k) \/ plain code'.
Proof.
  intros [(k & -> & F)|(n & k & -> & P)] S.
  2: { right. cbn [solo] in S. assert (code' = k) by congruence. now subst. }
  destruct k as [|x k]; [discriminate S|]. cbn [app forallb] in *. apply andb_true_iff in F. destruct F as [Fx F].
  assert (K : plain (k ++ [IUnlock])) by (now exists k).
  destruct x as [| | |n|n|n|n| |n|n|b|n]; try discriminate Fx; cbn [solo] in S.
  - left. exists n, (k ++ [IUnlock])%list. split; [reflexivity|]. split; [congruence|assumption].
  - right. assert (code' = k ++ [IUnlock])%list by congruence. now subst.
  - right. assert (code' = k ++ [IUnlock])%list by congruence. now subst.
  - right. assert (code' = k ++ [IUnlock])%list by congruence. now subst.
  - right. assert (E : code' = ((if mem n (c_map c) then [IWrite n] else [IAppend n; IWrite n; IEnter n]) ++ k ++ [IUnlock])%list) by congruence.
    subst code'; apply plain_app; auto; destruct (mem n (c_map c)); reflexivity.
  - right. destruct (mem n (c_map c)); [|assert (code' = k ++ [IUnlock])%list by congruence; now subst].
    assert (code' = (INew :: map IAdd (filter (fun m => negb (String.eqb n m)) (c_tables c))) ++ k ++ [IUnlock])%list by (cbn [app]; congruence).
    subst code'. apply plain_app; [|assumption]. apply forallb_map_add.
  - right. destruct b; [|assert (code' = k ++ [IUnlock])%list by congruence; now subst].
    assert (code' = (INew :: map IAdd (c_tables c)) ++ k ++ [IUnlock])%list by (cbn [app]; congruence).
    subst code'. apply plain_app; [|assumption]. apply forallb_map_add.
Qed.
Lemma behind_star x y : star x y -> behind (snd x) -> behind (snd y).
Proof.
  intros S. induction S as [x|x c k [c' k'] S IH H]; [auto|]. intros B. destruct (solo_cases c k c' k' (IH B) H) as [(n & r & -> & -> & P)|P]; [right|now left].
  now exists n, r.
Qed.
Definition marked (code : list instr) : bool := match code with IWriting _ :: _ => true | _ => false end.
Lemma plain_unmarked k : plain k -> marked k = false.
Proof. intros ([|x k'] & -> & F); [reflexivity|]. destruct x; try reflexivity. discriminate F. Qed.
Lemma plain_nonempty k : plain k -> k <> [].
Proof. intros ([|x k'] & -> & F); discriminate. Qed.

(** ** The invariant *)
Definition outside (t : thread) : Prop :=
  (t_ops t = [] /\ t_code t = []) \/
  exists o r, t_ops t = o :: r /\ (t_code t = code_of o \/ exists n, o = ODrop n /\ t_code t = tl (code_of o)).
Record inv (names : list string) (progs : list (list op)) (s : state) (log : list (nat * op)) : Prop := {
  i_alive : s_dead s = false;
  i_len : length (s_threads s) = length progs;
  i_log : forall i t, nth_error (s_threads s) i = Some t -> (of_thread i log ++ filter changes (t_ops t))%list = filter changes (nth i progs []);
  i_extra : forall i, length progs <= i -> of_thread i log = [];
  i_outside : forall i t, nth_error (s_threads s) i = Some t -> s_lock s <> Some i -> outside t;
  i_free : s_lock s = None -> s_writing s = false /\ consistent (s_cat s) /\ same (c_tables (s_cat s)) (after log names);
  i_held : forall i, s_lock s = Some i -> exists t o r c, nth_error (s_threads s) i = Some t /\ t_ops t = o :: r /\ changes o = true /\
             consistent c /\ same (c_tables c) (after log names) /\ star (c, critical o) (s_cat s, t_code t) /\
             s_writing s = marked (t_code t)
}.

Lemma set_nth_same {A} (l : list A) i x y : nth_error l i = Some y -> nth_error (set_nth l i x) i = Some x.
Proof. revert i. induction l as [|z l IH]; intros [|i] H; try discriminate; [reflexivity|]. now apply IH. Qed.
Lemma set_nth_other {A} (l : list A) i j x : i <> j -> nth_error (set_nth l i x) j = nth_error l j.
Proof. revert i j. induction l as [|z l IH]; intros [|i] [|j] H; try reflexivity; [congruence|]. cbn. apply IH. congruence. Qed.
Lemma set_nth_len {A} (l : list A) i x : length (set_nth l i x) = length l.
Proof. revert i. induction l as [|z l IH]; intros [|i]; cbn; congruence. Qed.
Lemma set_nth_cases {A} (l : list A) i j x y z : nth_error l i = Some z -> nth_error (set_nth l i x) j = Some y -> (i = j /\ y = x) \/ (i <> j /\ nth_error l j = Some y).
Proof.
  intros H E. destruct (Nat.eq_dec i j) as [<-|N]; [rewrite (set_nth_same l i x z H) in E; left; split; congruence|]. rewrite set_nth_other in E by exact N. now right.
Qed.

Lemma outside_load ops saw : outside (Th ops (load ops) saw).
Proof. destruct ops as [|o r]; [left; now split|right]. exists o, r. split; [reflexivity|now left]. Qed.
Lemma init_inv c progs : consistent c -> inv (c_tables c) progs (init c progs) [].
Proof.
  intros C. constructor; cbn [init s_dead s_threads s_lock s_writing s_cat].
  - reflexivity.
  - apply map_length.
  - intros i t E. rewrite nth_error_map in E. destruct (nth_error progs i) as [p|] eqn:P; [|discriminate]. cbn in E. assert (t = start p) by congruence. subst t.
    cbn. now rewrite (nth_error_nth progs i [] P).
  - reflexivity.
  - intros i t E _. rewrite nth_error_map in E. destruct (nth_error progs i) as [p|] eqn:P; [|discriminate]. cbn in E. assert (t = start p) by congruence. subst t. apply outside_load.
  - intros _. split; [reflexivity|]. split; [assumption|]. intros n. reflexivity.
  - intros i H. discriminate.
Qed.

Lemma of_thread_app i a b : of_thread i (a ++ b) = (of_thread i a ++ of_thread i b)%list.
Proof. unfold of_thread. now rewrite filter_app, map_app. Qed.
Lemma after_app a b l : after (a ++ b) l = after b (after a l).
Proof. unfold after. apply fold_left_app. Qed.
Lemma effect_same o a b : same a b -> same (effect o a) (effect o b).
Proof.
  intros H n. destruct o; cbn [effect]; try apply H; try (rewrite !in_app_iff; now rewrite (H n)).
  - split; intros I; apply in_remove in I; apply in_in_remove; try tauto; now apply H.
  - split; intros I; apply in_remove in I; apply in_in_remove; try tauto; now apply H.
Qed.
(** The code of an operation: a read, or Lock and the critical part *)
Lemma code_cases o : (exists n, o = OFind n) \/ o = OWild \/ (exists n, o = ODrop n) \/ (code_of o = ILock :: critical o /\ changes o = true /\ forall n, o <> ODrop n).
Proof.
  destruct o as [rows|n|n|n|known|n|]; eauto.
  - right; right; right. split; [reflexivity|]. split; [reflexivity|congruence].
  - right; right; right. split; [reflexivity|]. split; [reflexivity|congruence].
  - right; right; right. split; [reflexivity|]. split; [reflexivity|congruence].
  - right; right; right. split; [reflexivity|]. split; [reflexivity|congruence].
Qed.

Lemma solo_none_end c k c' : star (c, [IUnlock]) (c', k) -> c = c' /\ k = [IUnlock].
Proof.
  intros S. assert (G : forall a b, star a b -> a = b \/ solo (fst a) (snd a) <> None).
  { clear. intros a b S. induction S as [|x c k z S IH H]; [now left|]. right. destruct IH as [->|N]; [cbn; congruence|assumption]. }
  destruct (G _ _ S) as [Eq|N]; [split; congruence|]. now destruct N.
Qed.
(** What a step of the holder is *)
Lemma holder_step s i t x k s' : s_dead s = false -> nth_error (s_threads s) i = Some t -> t_code t = x :: k -> inner x = true \/ marked (t_code t) = true -> step s i = Some s' ->
  (touches x = true /\ s_writing s = true) \/
  exists c r, solo (s_cat s) (t_code t) = Some (c, r) /\
    s' = St c (s_lock s) (match x with IWrite _ => true | IWriting _ => false | _ => s_writing s end) false (set_nth (s_threads s) i (advance (t_ops t) r (t_saw t))).
Proof.
  intros D Nt Ek In E. unfold step in E. rewrite D, Nt in E. rewrite Ek in *.
  destruct x; try (destruct In; discriminate); cbn [touches] in *; cbn [andb] in E.
  all: try (destruct (s_writing s) eqn:Sw; [now left|]).
  all: right; cbn [solo] in *; eexists _, _; (split; [reflexivity|]); injection E as <-; rewrite ?Sw; reflexivity.
Qed.

Lemma holder_inv names progs s log i s' : inv names progs s log -> s_lock s = Some i -> step s i = Some s' -> exists log', inv names progs s' log'.
Proof.
  intros I Lk E. destruct (i_held _ _ _ _ I i Lk) as (t & o & r & c & Nt & Ops & Ch & Cc & Cs & St & Wr).
  pose proof (behind_star _ _ St (or_introl (behind_critical o Ch))) as B. cbn [snd] in B.
  assert (Cases : t_code t = [IUnlock] \/ exists x k, t_code t = x :: k /\ (inner x = true \/ marked (t_code t) = true)).
  { destruct B as [([|x k] & Ek & Fk)|(n & k & Ek & P)]; [now left| |].
    - right. exists x, (k ++ [IUnlock])%list. split; [exact Ek|]. cbn [forallb] in Fk. apply andb_true_iff in Fk. left. apply Fk.
    - right. exists (IWriting n), k. split; [exact Ek|]. right. now rewrite Ek. }
  destruct Cases as [Ek|(x & k & Ek & Ix)].
  - unfold step in E. rewrite (i_alive _ _ _ _ I), Nt, Ek in E. cbn [advance] in E. exists (log ++ [(i, o)])%list.
    destruct (star_effect o c Cc Ch) as (c' & S' & C' & T').
    pose proof (star_det _ _ _ St S' eq_refl) as Sd. rewrite Ek in Sd. destruct (solo_none_end _ _ _ Sd) as [Ec _].
    assert (Ew : s_writing s = false) by (rewrite Wr, Ek; reflexivity).
    assert (s' = RaceModel.St (s_cat s) None (s_writing s) false (set_nth (s_threads s) i (Th (tl (t_ops t)) (load (tl (t_ops t))) (t_saw t)))) by congruence. subst s'. clear E.
    constructor; cbn [s_dead s_threads s_lock s_writing s_cat].
    + reflexivity.
    + rewrite set_nth_len. apply I.
    + intros j u Nu. rewrite of_thread_app. destruct (set_nth_cases _ _ _ _ _ _ Nt Nu) as [[<- ->]|[N Nu']].
      * pose proof (i_log _ _ _ _ I i t Nt) as L. rewrite Ops in L |- *. cbn [t_ops tl filter] in *. rewrite Ch in L. unfold of_thread at 2. cbn [filter fst map snd]. rewrite Nat.eqb_refl. cbn [map snd].
        rewrite <- app_assoc. exact L.
      * unfold of_thread at 2. cbn [filter fst]. destruct (Nat.eqb_spec i j); [congruence|]. cbn [map]. rewrite app_nil_r. now apply (i_log _ _ _ _ I).
    + intros j Hj. rewrite of_thread_app, (i_extra _ _ _ _ I j Hj). unfold of_thread. cbn [filter fst].
      assert (i < length (s_threads s)) by (apply nth_error_Some; congruence). rewrite (i_len _ _ _ _ I) in *.
      destruct (Nat.eqb_spec i j); [lia|reflexivity].
    + intros j u Nu _. destruct (set_nth_cases _ _ _ _ _ _ Nt Nu) as [[<- ->]|[N Nu']]; [apply outside_load|]. apply (i_outside _ _ _ _ I j u Nu'). congruence.
    + intros _. split; [exact Ew|]. rewrite Ec. split; [assumption|]. rewrite after_app. intros n. rewrite (T' n). cbn. now apply effect_same.
    + intros j H. discriminate.
  - destruct (holder_step s i t x k s' (i_alive _ _ _ _ I) Nt Ek Ix E) as [[Tx Sw]|(c' & r' & So & ->)].
    { exfalso. rewrite Wr, Ek in Sw. destruct x; discriminate. }
    exists log. pose proof (star_next _ _ _ _ St So) as St'. pose proof (solo_cases _ _ _ _ B So) as K.
    assert (Nr : r' <> []) by (destruct K as [(n & q & _ & -> & _)|P]; [discriminate|now apply plain_nonempty]).
    assert (Ad : advance (t_ops t) r' (t_saw t) = Th (t_ops t) r' (t_saw t)) by (destruct r'; [congruence|reflexivity]). rewrite Ad.
    constructor; cbn [s_dead s_threads s_lock s_writing s_cat].
    + reflexivity.
    + rewrite set_nth_len. apply I.
    + intros j u Nu. destruct (set_nth_cases _ _ _ _ _ _ Nt Nu) as [[<- ->]|[N Nu']]; [exact (i_log _ _ _ _ I i t Nt)|now apply (i_log _ _ _ _ I)].
    + apply I.
    + intros j u Nu Nl. destruct (set_nth_cases _ _ _ _ _ _ Nt Nu) as [[<- ->]|[N Nu']]; [congruence|now apply (i_outside _ _ _ _ I j u Nu')].
    + congruence.
    + intros j Hj. assert (j = i) by congruence. subst j. exists (Th (t_ops t) r' (t_saw t)), o, r, c. split; [eapply set_nth_same; exact Nt|].
      split; [exact Ops|]. split; [exact Ch|]. split; [exact Cc|]. split; [exact Cs|]. split; [exact St'|]. cbn [t_code].
      destruct K as [(n & q & En & -> & _)|P].
      * rewrite Ek in En. assert (x = IWrite n) by congruence. now subst x.
      * rewrite (plain_unmarked _ P). destruct x; try reflexivity; try (rewrite Wr, Ek; reflexivity).
        exfalso. rewrite Ek in So. cbn [solo] in So. assert (r' = IWriting n :: k) by congruence. subst r'. apply plain_unmarked in P. discriminate P.
Qed.
(** A goroutine without the mutex only reads or takes it. *)
Lemma outside_inv names progs s log i s' : inv names progs s log -> s_lock s <> Some i -> step s i = Some s' ->
  (s_dead s' = true /\ exists t o r, nth_error (s_threads s) i = Some t /\ t_ops t = o :: r /\ (o = OWild \/ exists n, o = ODrop n)) \/ inv names progs s' log.
Proof.
  intros I Nl E. pose proof E as E0. unfold step in E. rewrite (i_alive _ _ _ _ I) in E. destruct (nth_error (s_threads s) i) as [t|] eqn:Nt; [|discriminate].
  (* a step that changes nothing but the goroutine *)
  assert (Go : forall t', t_ops t' = t_ops t \/ (exists o, t_ops t = o :: t_ops t' /\ changes o = false) -> outside t' ->
             inv names progs (St (s_cat s) (s_lock s) (s_writing s) false (set_nth (s_threads s) i t')) log).
  { intros t' Ho Out. constructor; cbn [s_dead s_threads s_lock s_writing s_cat]; try apply I.
    - reflexivity.
    - rewrite set_nth_len. apply I.
    - intros j u Nu. destruct (set_nth_cases _ _ _ _ _ _ Nt Nu) as [[<- ->]|[N Nu']]; [|now apply (i_log _ _ _ _ I)].
      pose proof (i_log _ _ _ _ I i t Nt) as L. destruct Ho as [->|(o & Eo & Co)]; [exact L|]. rewrite Eo in L. cbn [filter] in L. now rewrite Co in L.
    - intros j u Nu Nj. destruct (set_nth_cases _ _ _ _ _ _ Nt Nu) as [[<- ->]|[N Nu']]; [exact Out|now apply (i_outside _ _ _ _ I j u Nu')].
    - intros j Hj. destruct (i_held _ _ _ _ I j Hj) as (u & o & r & c & Nu & H). exists u, o, r, c. split; [|exact H]. rewrite set_nth_other; [exact Nu|congruence]. }
  destruct (i_outside _ _ _ _ I i t Nt Nl) as [[_ Ec]|(o & r & Eo & Hc)]; [rewrite Ec in E; discriminate|].
  (* taking the mutex *)
  assert (Take : t_code t = ILock :: critical o -> changes o = true -> inv names progs s' log).
  { intros Ec Ch. rewrite Ec in E. destruct (s_lock s) eqn:Lk; [discriminate|]. pose proof (plain_nonempty _ (behind_critical o Ch)) as Nc.
    assert (Ad : advance (t_ops t) (critical o) (t_saw t) = Th (t_ops t) (critical o) (t_saw t)) by (destruct (critical o); [congruence|reflexivity]). rewrite Ad in E.
    assert (s' = St (s_cat s) (Some i) (s_writing s) false (set_nth (s_threads s) i (Th (t_ops t) (critical o) (t_saw t)))) by congruence. subst s'.
    destruct (i_free _ _ _ _ I Lk) as (Fw & Fc & Fs).
    constructor; cbn [s_dead s_threads s_lock s_writing s_cat]; try apply I.
    - reflexivity.
    - rewrite set_nth_len. apply I.
    - intros j u Nu. destruct (set_nth_cases _ _ _ _ _ _ Nt Nu) as [[<- ->]|[N Nu']]; [exact (i_log _ _ _ _ I i t Nt)|now apply (i_log _ _ _ _ I)].
    - intros j u Nu Nj. destruct (set_nth_cases _ _ _ _ _ _ Nt Nu) as [[<- ->]|[N Nu']]; [congruence|]. apply (i_outside _ _ _ _ I j u Nu'). congruence.
    - discriminate.
    - intros j Hj. assert (j = i) by congruence. subst j. exists (Th (t_ops t) (critical o) (t_saw t)), o, r, (s_cat s).
      split; [eapply set_nth_same; exact Nt|]. split; [exact Eo|]. split; [exact Ch|]. split; [exact Fc|]. split; [exact Fs|]. split; [apply star_refl|].
      cbn [t_code]. now rewrite (plain_unmarked _ (behind_critical o Ch)). }
  destruct Hc as [Hc|(n & -> & Hc)]; [|right; now apply Take].
  destruct (code_cases o) as [[n ->]|[->|[[n ->]|(Ec & Ch & _)]]].
  - right. rewrite Hc in E. cbn [code_of advance] in E. rewrite Eo in E. cbn [tl] in E.
    assert (s' = St (s_cat s) (s_lock s) (s_writing s) false (set_nth (s_threads s) i (Th r (load r) (t_saw t ++ [(n, mem n (c_found (s_cat s)))])))) by congruence. subst s'.
    apply Go; [right; exists (OFind n); now split|apply outside_load].
  - rewrite Hc in E. cbn [code_of] in E. destruct (s_writing s) eqn:Sw.
    + left. split; [assert (s' = St (s_cat s) (s_lock s) true true (s_threads s)) by congruence; now subst|]. exists t, OWild, r. auto.
    + right. cbn [advance] in E. rewrite Eo in E. cbn [tl] in E.
      assert (s' = St (s_cat s) (s_lock s) false false (set_nth (s_threads s) i (Th r (load r) (t_saw t)))) by congruence. subst s'. 
      apply Go; [right; exists OWild; now split|apply outside_load].
  - rewrite Hc in E. cbn [code_of] in E. destruct (s_writing s) eqn:Sw.
    + left. split; [assert (s' = St (s_cat s) (s_lock s) true true (s_threads s)) by congruence; now subst|]. exists t, (ODrop n), r. split; [reflexivity|]. split; [exact Eo|]. right. now exists n.
    + right. cbn [advance] in E.
      assert (s' = St (s_cat s) (s_lock s) false false (set_nth (s_threads s) i (Th (t_ops t) [ILock; IDel n; IUnlock] (t_saw t)))) by congruence. subst s'.
      apply Go; [now left|]. right. exists (ODrop n), r. split; [exact Eo|]. right. exists n. now split.
  - right. apply Take; [|exact Ch]. now rewrite Hc.
Qed.
Lemma step_inv names progs s log i s' : inv names progs s log -> step s i = Some s' ->
  (s_dead s' = true /\ exists t o r, nth_error (s_threads s) i = Some t /\ t_ops t = o :: r /\ (o = OWild \/ exists n, o = ODrop n)) \/ exists log', inv names progs s' log'.
Proof.
  intros I E. destruct (s_lock s) as [h|] eqn:Lk; [destruct (Nat.eq_dec h i) as [->|N]|].
  - right. eapply holder_inv; eassumption.
  - destruct (outside_inv names progs s log i s' I) as [H|H]; auto; [congruence|]. right. now exists log.
  - destruct (outside_inv names progs s log i s' I) as [H|H]; auto; [congruence|]. right. now exists log.
Qed.
Lemma dead_stays s sched : s_dead s = true -> run s sched = s.
Proof. intros D. induction sched as [|i r IH]; [reflexivity|]. cbn [run]. unfold step. now rewrite D. Qed.
Lemma run_inv names progs sched : forall s log, inv names progs s log -> s_dead (run s sched) = true \/ exists log', inv names progs (run s sched) log'.
Proof.
  induction sched as [|i r IH]; intros s log I; [right; now exists log|]. cbn [run]. destruct (step s i) as [s'|] eqn:E; [|now apply (IH s log)].
  destruct (step_inv names progs s log i s' I E) as [[D _]|[log' I']]; [left; now rewrite dead_stays|]. now apply (IH s' log').
Qed.
