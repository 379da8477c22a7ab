(** Goroutines sharing a database: C226-C231. *)
From Coq Require Import Ascii String List Bool Arith Lia.
From Verif Require Import RaceModel RaceSpec RaceProofs.
Import ListNotations.
Local Open Scope string_scope.

(** The operations left are among those of the programs. *)
Definition all_ops (P : op -> Prop) (s : state) : Prop := forall t, In t (s_threads s) -> Forall P (t_ops t).
Lemma in_set_nth {A} (l : list A) i x y : In y (set_nth l i x) -> y = x \/ In y l.
Proof. revert i. induction l as [|z l IH]; intros [|i] H; cbn in *; try tauto; [destruct H; auto|]. destruct H as [->|H]; [auto|]. apply IH in H. tauto. Qed.
Lemma step_threads s i s' : step s i = Some s' -> s_threads s' = s_threads s \/
  exists t code saw, nth_error (s_threads s) i = Some t /\ s_threads s' = set_nth (s_threads s) i (advance (t_ops t) code saw).
Proof.
  unfold step. intros E. destruct (s_dead s); [discriminate|]. destruct (nth_error (s_threads s) i) as [t|]; [|discriminate].
  destruct (t_code t) as [|x k]; [discriminate|].
  destruct x; cbn [touches andb solo] in E; try (destruct (s_lock s); try discriminate); try (destruct (s_writing s)); injection E as <-; cbn [s_threads]; auto;
    right; try (eexists _, _, _; split; reflexivity).
  all: exists t, (IWriting n :: k), (t_saw t); split; reflexivity.
Qed.
Lemma step_ops P s i s' : all_ops P s -> step s i = Some s' -> all_ops P s'.
Proof.
  intros H E t I. destruct (step_threads s i s' E) as [->|(u & code & saw & Nu & ->)] in I; [now apply H|]. apply in_set_nth in I. destruct I as [->|I]; [|now apply H].
  apply nth_error_In in Nu. apply H in Nu. destruct code; cbn [advance t_ops]; [destruct Nu; [constructor|assumption]|assumption].
Qed.
Lemma init_ops (P : op -> Prop) c progs : (forall p o, In p progs -> In o p -> P o) -> all_ops P (init c progs).
Proof. intros H t I. cbn in I. apply in_map_iff in I. destruct I as (p & <- & I). cbn. apply Forall_forall. intros o Io. now apply (H p). Qed.

Lemma run_cons s i r s' : step s i = Some s' -> run s (i :: r) = run s' r.
Proof. intros E. cbn [run]. now rewrite E. Qed.
(** A given schedule, one step at a time *)
Ltac one E := erewrite run_cons by (unfold step; cbn -[mem put run]; rewrite ?E; cbn -[mem put run]; reflexivity).
Ltac along E := unfold init; cbn -[mem put run]; repeat one E; cbn [run].

(** ** C226 *)
Definition reads_unlocked (o : op) : bool := match o with ODrop _ | OWild => true | _ => false end.
Theorem c226_no_crash_partial : forall c progs sched, consistent c ->
  (forall p o, In p progs -> In o p -> reads_unlocked o = false) ->
  s_dead (run (init c progs) sched) = false.
Proof.
  intros c progs sched C H.
  enough (G : forall s log, inv (c_tables c) progs s log -> all_ops (fun o => reads_unlocked o = false) s -> s_dead (run s sched) = false) by
    (apply (G _ [] (init_inv c progs C)); now apply init_ops).
  induction sched as [|i r IH]; intros s log I A; [apply I|]. cbn [run]. destruct (step s i) as [s'|] eqn:E; [|now apply (IH s log)].
  pose proof (step_ops _ s i s' A E) as A'. destruct (step_inv _ _ s log i s' I E) as [(D & t & o & q & Nt & Eo & Ho)|[log' I']]; [|now apply (IH s' log')].
  exfalso. apply nth_error_In in Nt. apply A in Nt. rewrite Eo in Nt. inversion Nt as [|x y X Y]. destruct Ho as [->|[n ->]]; discriminate.
Qed.
(** Any DROP TABLE or DROP VIEW beside any CREATE TABLE or CREATE VIEW, and a wildcard query
    beside such a statement *)
Theorem c226_refuted : forall c a b,
  (exists sched, s_dead (run (init c [drop_stmt [] a; create_stmt [] b]) sched) = true) /\
  (exists sched, s_dead (run (init c [[OSync []; OWild]; create_stmt [] b]) sched) = true).
Proof.
  intros [tb mp fd] a b. split.
  - destruct (mem b mp) eqn:E.
    + exists [0; 0; 1; 1; 1; 1; 1; 0]. along E. reflexivity.
    + exists [0; 0; 1; 1; 1; 1; 1; 1; 0]. along E. reflexivity.
  - destruct (mem b mp) eqn:E.
    + exists [0; 0; 1; 1; 1; 1; 1; 0]. along E. reflexivity.
    + exists [0; 0; 1; 1; 1; 1; 1; 1; 0]. along E. reflexivity.
Qed.
Example c226_example : consistent (Cat ["t"] ["t"] ["t"]) /\
  (forall p o, In p [create_stmt ["x"] "u"; select_stmt [] ["t"]; [OSync []; OClean "u"]] -> In o p -> reads_unlocked o = false).
Proof. split; [split; intros n; reflexivity|]. intros p o [<-|[<-|[<-|[]]]] I; cbn in I; intuition; now subst. Qed.

(** ** C227: an object that is there all the time *)
Theorem c227_refuted : forall c a b, consistent c -> In a (c_tables c) -> In b (c_tables c) -> a <> b ->
  exists sched t, nth_error (s_threads (run (init c [drop_stmt [] a; select_stmt [] [b]]) sched)) 1 = Some t /\ t_ops t = [] /\ t_saw t = [(b, false)].
Proof.
  intros [tb mp fd] a b [C1 _] Ia Ib N. cbn in *. apply C1 in Ia. apply mem_in in Ia.
  exists [1; 1; 0; 0; 0; 0; 0; 0; 1]. along Ia. cbn. eexists. split; [reflexivity|]. split; reflexivity.
Qed.
Example c227_example : let c := Cat ["t"; "u"] ["t"; "u"] ["t"; "u"] in consistent c /\ In "t" (c_tables c) /\ In "u" (c_tables c) /\ "t" <> "u".
Proof. split; [split; intros n; reflexivity|]. cbn. split; [auto|]. split; [auto|discriminate]. Qed.

(** ** C228: without DROP, nothing disappears *)
Definition gentle (x : instr) : bool := match x with INew | IDel _ | IDelFn _ => false | _ => true end.
Definition kept (names : list string) (s : state) : Prop :=
  (forall n, In n names -> In n (c_found (s_cat s))) /\
  forall t, In t (s_threads s) -> forallb gentle (t_code t) = true /\ forall n b, In (n, b) (t_saw t) -> In n names -> b = true.
Lemma gentle_code o : removes o = false -> forallb gentle (code_of o) = true.
Proof.
  destruct o as [rows|n|n|n|known|n|]; intros H; try discriminate H; try reflexivity. cbn [code_of forallb]. rewrite forallb_app.
  cbn. rewrite andb_true_r. clear H. induction rows; [reflexivity|assumption].
Qed.
Lemma gentle_load ops : Forall (fun o => removes o = false) ops -> forallb gentle (load ops) = true.
Proof. intros H. destruct H as [|o r H _]; [reflexivity|]. now apply gentle_code. Qed.
Lemma gentle_advance ops code saw : Forall (fun o => removes o = false) ops -> forallb gentle code = true -> forallb gentle (t_code (advance ops code saw)) = true.
Proof. intros H G. destruct code; [|exact G]. cbn [advance t_code]. apply gentle_load. destruct H; [constructor|assumption]. Qed.
Lemma saw_advance ops code saw : t_saw (advance ops code saw) = saw.
Proof. now destruct code. Qed.
Lemma kept_step names s i s' : kept names s -> all_ops (fun o => removes o = false) s -> step s i = Some s' -> kept names s'.
Proof.
  intros [F K] A E. unfold step in E. destruct (s_dead s); [discriminate|]. destruct (nth_error (s_threads s) i) as [t|] eqn:Nt; [|discriminate].
  pose proof (nth_error_In _ _ Nt) as It. destruct (K t It) as [Gt St0]. pose proof (A t It) as At.
  assert (Go : forall c l w code saw, (forall n, In n (c_found (s_cat s)) -> In n (c_found c)) -> forallb gentle code = true -> (forall n b, In (n, b) saw -> In n names -> b = true) ->
             kept names (St c l w false (set_nth (s_threads s) i (advance (t_ops t) code saw)))).
  { intros c l w code saw Fc Gc Sc. split; [intros n I; cbn; auto|]. cbn [s_threads]. intros u I. apply in_set_nth in I. destruct I as [->|I]; [|now apply K].
    rewrite saw_advance. split; [now apply gentle_advance|assumption]. }
  destruct (t_code t) as [|x k] eqn:Ek; [discriminate|]. cbn [forallb] in Gt. apply andb_true_iff in Gt. destruct Gt as [Gx Gk].
  destruct x as [| | |n|n|n|n| |n|n|b|n]; try discriminate Gx; cbn [touches andb solo] in E.
  - destruct (s_lock s); [discriminate|]. injection E as <-. apply Go; auto.
  - injection E as <-. apply Go; auto.
  - destruct (s_writing s); injection E as <-; [split; [exact F|exact K]|]. apply Go; auto.
  - destruct (s_writing s); injection E as <-; [split; [exact F|exact K]|]. apply (Go (s_cat s) (s_lock s) true (IWriting n :: k) (t_saw t)); auto.
  - injection E as <-. apply Go; auto.
  - injection E as <-. apply Go; auto.
  - injection E as <-. apply Go; auto. intros m I. cbn. apply in_put. auto.
  - destruct (s_writing s); injection E as <-; [split; [exact F|exact K]|]. apply Go; auto. destruct (mem n (c_map (s_cat s))); exact Gk.
  - injection E as <-. apply Go; auto. intros m b I In0. apply in_app_or in I. destruct I as [I|[I|[]]]; [now apply (St0 m)|].
    assert (m = n) by congruence. subst m. assert (Eb : mem n (c_found (s_cat s)) = b) by congruence. rewrite <- Eb. apply mem_in. auto.
Qed.
Theorem c228_found : forall c progs sched, consistent c ->
  (forall p o, In p progs -> In o p -> removes o = false) ->
  forall t n b, In t (s_threads (run (init c progs) sched)) -> In (n, b) (t_saw t) -> In n (c_tables c) -> b = true.
Proof.
  intros c progs sched C H t n b It Is In0.
  enough (G : forall s, kept (c_tables c) s -> all_ops (fun o => removes o = false) s -> kept (c_tables c) (run s sched)).
  { assert (K : kept (c_tables c) (run (init c progs) sched)).
    { apply G; [|now apply init_ops]. split; [intros m I; now apply C|]. cbn. intros u I. apply in_map_iff in I. destruct I as (p & <- & I).
      split; [|intros ? ? []]. cbn. apply gentle_load. apply Forall_forall. intros o Io. now apply (H p). }
    destruct K as [_ K]. destruct (K t It) as [_ K']. now apply (K' n b). }
  clear -H. induction sched as [|i r IH]; intros s K A; [assumption|]. cbn [run]. destruct (step s i) as [s'|] eqn:E; [|now apply IH].
  apply IH; [now apply (kept_step _ s i)|now apply (step_ops _ s i)].
Qed.
Example c228_example :
  let s := run (init (Cat ["t"] ["t"] ["t"]) [create_stmt [] "u"; select_stmt [] ["t"]]) [0; 0; 1; 1; 0; 0; 1; 0; 0; 0; 0; 0] in
  (forall p o, In p [create_stmt [] "u"; select_stmt [] ["t"]] -> In o p -> removes o = false) /\ map t_saw (s_threads s) = [[]; [("t", true)]].
Proof. intros s. split; [clear s|vm_compute; reflexivity]. intros p o [<-|[<-|[]]] I; repeat (destruct I as [<-|I]; [reflexivity|]); destruct I. Qed.

(** ** C229: in the end, the catalog is what some order of the statements gives *)
Theorem c229_serial : forall c progs sched, consistent c -> finished (run (init c progs) sched) ->
  let s := run (init c progs) sched in
  consistent (s_cat s) /\ exists log, merges progs log /\ same (c_tables (s_cat s)) (after log (c_tables c)).
Proof.
  intros c progs sched C [D Fin] s. destruct (run_inv (c_tables c) progs sched _ [] (init_inv c progs C)) as [X|[log I]]; [congruence|]. fold s in I.
  assert (Lk : s_lock s = None).
  { destruct (s_lock s) as [i|] eqn:Lk; [|reflexivity]. destruct (i_held _ _ _ _ I i Lk) as (t & o & r & c' & Nt & Eo & _). rewrite (Fin t) in Eo; [discriminate|]. now apply nth_error_In in Nt. }
  destruct (i_free _ _ _ _ I Lk) as (_ & Fc & Fs). split; [exact Fc|]. exists log. split; [|exact Fs].
  intros i. destruct (nth_error (s_threads s) i) as [t|] eqn:Nt.
  - rewrite <- (i_log _ _ _ _ I i t Nt). rewrite (Fin t) by (now apply nth_error_In in Nt). cbn. now rewrite app_nil_r.
  - apply nth_error_None in Nt. rewrite (i_len _ _ _ _ I) in Nt. rewrite (i_extra _ _ _ _ I i Nt). now rewrite nth_overflow.
Qed.
Example c229_example :
  let s := run (init (Cat ["t"] ["t"] ["t"]) [create_stmt [] "u"; drop_stmt [] "t"]) (repeat 1 8 ++ repeat 0 10 ++ repeat 1 20 ++ repeat 0 10) in
  finished s /\ c_tables (s_cat s) = ["u"].
Proof. vm_compute. split; [|reflexivity]. split; [reflexivity|]. intros t [<-|[<-|[]]]; reflexivity. Qed.

(** ** C230: no deadlock on the catalog *)
Theorem c230_progress : forall c progs sched, consistent c ->
  let s := run (init c progs) sched in
  s_dead s = true \/ (forall t, In t (s_threads s) -> t_ops t = []) \/ exists i s', step s i = Some s'.
Proof.
  intros c progs sched C s. destruct (run_inv (c_tables c) progs sched _ [] (init_inv c progs C)) as [X|[log I]]; [now left|]. fold s in I. right.
  destruct (s_lock s) as [i|] eqn:Lk.
  - right. exists i. destruct (i_held _ _ _ _ I i Lk) as (t & o & r & c' & Nt & Eo & Ch & _ & _ & St & _).
    pose proof (behind_star _ _ St (or_introl (behind_critical o Ch))) as B. cbn [snd] in B. unfold step. rewrite (i_alive _ _ _ _ I), Nt.
    destruct B as [([|x k] & Ek & Fk)|(n & k & Ek & P)].
    + rewrite Ek. cbn [app]. eexists. reflexivity.
    + rewrite Ek. cbn [app forallb] in *. apply andb_true_iff in Fk. destruct Fk as [Fx _].
      destruct x; try discriminate Fx; cbn [touches andb solo]; try (destruct (s_writing s)); eexists; reflexivity.
    + rewrite Ek. cbn [touches andb solo]. eexists. reflexivity.
  - destruct (forallb (fun t => match t_ops t with [] => true | _ => false end) (s_threads s)) eqn:Fa.
    + left. intros t It. rewrite forallb_forall in Fa. specialize (Fa t It). now destruct (t_ops t).
    + right. assert (X : exists t, In t (s_threads s) /\ t_ops t <> []).
      { clear -Fa. induction (s_threads s) as [|t l IH]; [discriminate|]. cbn in Fa. destruct (t_ops t) eqn:E; [destruct (IH Fa) as (u & U & N); exists u; cbn; auto|].
        exists t. split; [now left|congruence]. }
      destruct X as (t & It & Nt). apply In_nth_error in It. destruct It as [i Ei]. exists i. unfold step. rewrite (i_alive _ _ _ _ I), Ei.
      destruct (i_outside _ _ _ _ I i t Ei ltac:(congruence)) as [[Z _]|(o & r & Eo & Hc)]; [congruence|].
      destruct Hc as [Hc|(n & -> & Hc)]; rewrite Hc; [|cbn [code_of tl]; rewrite Lk; eexists; reflexivity].
      destruct o; cbn [code_of]; rewrite ?Lk; try (destruct (s_writing s)); eexists; reflexivity.
Qed.
(** While one goroutine holds the mutex another waits, and the first can go on. *)
Example c230_example : let s := run (init (Cat ["t"] ["t"] ["t"]) [create_stmt [] "u"; drop_stmt [] "t"]) [0] in
  step s 1 = None /\ step s 0 <> None.
Proof. vm_compute. split; [reflexivity|discriminate]. Qed.

(** ** C231: temporary tables *)
(** CREATE TEMP TABLE n beside a query of n on another connection *)
Theorem c231_refuted : forall c n, consistent c -> ~ In n (c_tables c) ->
  exists sched t, let s := run (init c [[OSync []; OCreate n; OClean n]; select_stmt [] [n]]) sched in
    nth_error (s_threads s) 1 = Some t /\ t_ops t = [] /\ t_saw t = [(n, true)].
Proof.
  intros [tb mp fd] n [C1 C2] N. cbn in *. assert (Nm : mem n mp = false) by (destruct (mem n mp) eqn:E; [apply mem_in in E; apply C1 in E; contradiction|reflexivity]).
  assert (Nf : mem n fd = false) by (destruct (mem n fd) eqn:E; [apply mem_in in E; apply C2 in E; contradiction|reflexivity]).
  exists [0; 0; 0; 0; 0; 0; 0; 0; 0; 1; 1; 1]. along Nm. unfold put at 1 2 3. rewrite ?Nf.
  eexists. split; [reflexivity|]. split; [reflexivity|]. cbn. f_equal. f_equal. apply mem_in. apply in_or_app. right. now left.
Qed.
Example c231_example : consistent (Cat ["t"] ["t"] ["t"]) /\ ~ In "tmp" (c_tables (Cat ["t"] ["t"] ["t"])).
Proof. split; [split; intros n; reflexivity|]. cbn. intuition discriminate. Qed.

Print Assumptions c226_no_crash_partial.
Print Assumptions c226_refuted.
Print Assumptions c227_refuted.
Print Assumptions c228_found.
Print Assumptions c229_serial.
Print Assumptions c230_progress.
Print Assumptions c231_refuted.
