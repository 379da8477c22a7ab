(** Prepare, Exec and Query: C232-C244. *)
From Coq Require Import Ascii String List ZArith Lia Bool.
From Verif Require Import GoBase ParamModel PrepModel PrepSpec PrepProofs.
Import ListNotations.
Local Open Scope string_scope.

Section Props.
Context {V T W : Type} (enc : T -> V -> option W).
Notation hist := (history (W := W)).
Notation act := (action (T := T)).
Variable fails : hist -> call (W := W) -> option error.
Variable query_fails : hist -> string -> list (string * W) -> option error.
Variable prepare_fails : hist -> string -> option error.
Variable count : hist -> call (W := W) -> Z.
Notation exec_script := (exec_script enc fails count).
Notation query_script := (query_script enc fails query_fails count).
Notation prepare := (prepare (T := T) fails prepare_fails count).
Notation prepare_script := (prepare_script enc fails prepare_fails count).
Notation stmt_exec := (stmt_exec enc fails count).
Notation stmt_query := (stmt_query enc query_fails).

(** ** C232: positional arguments, as many as there are parameters *)
Theorem c232_dml : forall h text ps args s, positional args -> length args = length (get_params ps) ->
  prepare h (ADml text ps) = (h, Done s) ->
  fst (stmt_exec h s args) = fst (exec_script h args [ADml text ps]) /\
  snd (stmt_exec h s args) <> Panic /\
  (forall r, snd (stmt_exec h s args) = Done r <-> snd (exec_script h args [ADml text ps]) = Done r).
Proof.
  intros h text ps args s P L E. cbn [PrepModel.prepare params_of] in E. unfold compiled in E. destruct (prepare_fails h text); [discriminate|].
  assert (s = PDml text (get_params ps)) by congruence. subst s. clear E.
  unfold PrepModel.stmt_exec, checked. cbn [num_input]. rewrite (proj2 (Nat.eqb_eq _ _) L), (positional_check _ P). cbn [negb].
  unfold PrepModel.exec_script. cbn [exec_loop]. unfold args_of. cbn [takes_args params_of]. rewrite (get_args_positional enc args _ P L).
  destruct (encode_all enc (map (@a_val V) args) (get_params ps)) as [ws|]; [|split; [reflexivity|split; [discriminate|intros r; split; discriminate]]].
  cbn [PrepModel.exec]. unfold made. destruct (fails h (CExec text (unnamed ws))) as [e|]; cbn; (split; [reflexivity|split; [discriminate|]]); intros r; split; congruence.
Qed.
Theorem c232_query : forall h text ps args s, positional args -> length args = length (get_params ps) ->
  prepare h (AQuery text ps false) = (h, Done s) ->
  fst (stmt_query h s args) = fst (query_script h args [AQuery text ps false]) /\
  snd (stmt_query h s args) <> Panic /\
  (forall q, (exists r, snd (stmt_query h s args) = Done r /\ r_query r = Some q) <->
             (exists r, snd (query_script h args [AQuery text ps false]) = Done (Some r) /\ r_query r = Some q)).
Proof.
  intros h text ps args s P L E. cbn [PrepModel.prepare params_of] in E. unfold compiled in E. destruct (prepare_fails h text); [discriminate|].
  assert (s = PQuery text (get_params ps)) by congruence. subst s. clear E.
  unfold PrepModel.stmt_query, checked. cbn [num_input]. rewrite (proj2 (Nat.eqb_eq _ _) L), (positional_check _ P). cbn [negb].
  unfold PrepModel.query_script. cbn [query_loop]. unfold args_of. cbn [takes_args params_of]. rewrite (get_args_positional enc args _ P L).
  destruct (encode_all enc (map (@a_val V) args) (get_params ps)) as [ws|].
  - cbn [PrepModel.query]. destruct (query_fails h text (unnamed ws)) as [e|]; cbn; (split; [reflexivity|split; [discriminate|]]); intros q; split; intros (r & R & Q); try discriminate.
    + eexists. split; [reflexivity|]. assert (r = Rs (Some (text, unnamed ws)) false []) by congruence. subst r. exact Q.
    + eexists. split; [reflexivity|]. assert (r = Rs (Some (text, unnamed ws)) true [AQuery text ps false]) by congruence. subst r. exact Q.
  - cbn. split; [reflexivity|split; [discriminate|]]. intros q; split; intros (r & R & Q); discriminate.
Qed.

(** ** C233: a prepared CREATE TABLE or CREATE VIEW never creates anything; with OR REPLACE the
    old object is gone *)
Theorem c233_refuted : forall h a h' s args,
  match a with ATable _ _ _ _ _ _ | AView _ _ _ _ => True | _ => False end ->
  prepare h a = (h', Done s) ->
  fst (stmt_exec h' s args) = h' /\ (exists e, snd (stmt_exec h' s args) = Fail e) /\
  h' = (h ++ match a with
            | ATable n _ _ true _ _ => [CExec ("DROP TABLE IF EXISTS `" ++ n ++ "`") []]
            | AView n _ true _ => [CExec ("DROP VIEW IF EXISTS `" ++ n ++ "`") []]
            | _ => [] end)%list.
Proof.
  intros h a h' s args Ha E.
  assert (G : forall n sch h0, compiled prepare_fails h0 sch (PTable n sch) = (h', Done s) \/ compiled prepare_fails h0 sch (PView n sch) = (h', Done s) ->
              h' = h0 /\ fst (stmt_exec h' s args) = h' /\ exists e, snd (stmt_exec h' s args) = Fail e).
  { intros n sch h0 [X|X]; unfold compiled in X; destruct (prepare_fails h0 sch); try discriminate; (split; [congruence|]).
    - assert (s = PTable n sch) by congruence. subst s. unfold PrepModel.stmt_exec, checked. destruct (negb _); cbn; [eauto|]. destruct (existsb _ args); cbn; eauto.
    - assert (s = PView n sch) by congruence. subst s. unfold PrepModel.stmt_exec, checked. destruct (negb _); cbn; [eauto|]. destruct (existsb _ args); cbn; eauto. }
  destruct a as [n sch ps rep tmp idx|n sch rep tmp| | | | | | | |]; try contradiction; cbn [PrepModel.prepare] in E; apply then_done in E; destruct E as (h1 & z & E1 & E2).
  - destruct (G n sch h1 (or_introl E2)) as (-> & X & Y). split; [exact X|]. split; [exact Y|]. destruct rep; [apply made_done in E1; apply E1|]. rewrite app_nil_r. congruence.
  - destruct (G n sch h1 (or_intror E2)) as (-> & X & Y). split; [exact X|]. split; [exact Y|]. destruct rep; [apply made_done in E1; apply E1|]. rewrite app_nil_r. congruence.
Qed.

(** ** C234 *)
Theorem c234_refuted : forall h a args,
  match a with ADrop _ _ _ _ | ATruncate _ | AMerge _ | ABegin | ACommit => True | _ => False end ->
  exists s, prepare h a = (h, Done s) /\ stmt_exec h s args = (h, Panic) /\ stmt_query h s args = (h, Panic).
Proof. intros h a args Ha. exists PNil. destruct a; try contradiction; repeat split. Qed.

(** ** C235: named arguments *)
Theorem c235_refuted : forall h a h' s args v, prepare h a = (h', Done s) -> In v args -> a_name v <> "" ->
  (forall h2 r, stmt_exec h' s args <> (h2, Done r)) /\ (forall h2 r, stmt_query h' s args <> (h2, Done r)).
Proof.
  intros h a h' s args v _ I N.
  assert (B : existsb (fun v => negb (String.eqb (a_name v) "")) args = true).
  { apply existsb_exists. exists v. split; [assumption|]. destruct (String.eqb_spec (a_name v) ""); [contradiction|reflexivity]. }
  split; intros h2 r; unfold PrepModel.stmt_exec, PrepModel.stmt_query, checked; rewrite B; destruct s; try discriminate; destruct (negb _); discriminate.
Qed.
(** Executed directly, the same arguments may be fine. *)
Theorem c235_direct : forall h text p v w, p_name p <> "" -> lower (a_name v) = p_name p -> enc (p_ty p) (a_val v) = Some w ->
  fails h (CExec text [(p_name p, w)]) = None ->
  exec_script h [v] [ADml text [p]] = ((h ++ [CExec text [(p_name p, w)]])%list, Done (Some (count h (CExec text [(p_name p, w)])))).
Proof.
  intros h text p v w N Ev Ew F. unfold PrepModel.exec_script. cbn [exec_loop]. unfold args_of. cbn [takes_args params_of].
  assert (G : get_params [p] = [p]) by (unfold get_params; cbn; destruct (String.eqb (p_name p) ""); reflexivity). rewrite G.
  unfold get_args. cbn -[lower]. unfold pick. cbn -[lower]. destruct (String.eqb_spec (p_name p) ""); [contradiction|]. rewrite Ev, String.eqb_refl. cbn -[lower].
  unfold encode_named. rewrite Ew, Ev. cbn. unfold made. now rewrite F.
Qed.

(** ** C236: scripts *)
Theorem c236_single_partial : forall h a, prepare_script h PNil [a] = prepare h a.
Proof.
  intros h a. cbn [PrepModel.prepare_script]. assert (A : exists l, args_of enc None a = Done l) by (unfold args_of; destruct (takes_args a); eexists; reflexivity).
  destruct A as [l ->]. destruct (prepare h a) as [h1 [s|e|]]; reflexivity.
Qed.
Theorem c236_refuted : forall h t1 t2, fails h (CExec t1 []) = None -> fails (h ++ [CExec t1 []])%list (CExec t2 []) = None ->
  fails h (CExec t2 []) = None -> prepare_fails h t1 = None -> prepare_fails h t2 = None ->
  exists s, prepare_script h PNil [ADml t1 []; ADml t2 []] = (h, Done s) /\
    fst (stmt_exec h s []) = (h ++ [CExec t2 []])%list /\
    fst (exec_script h [] [ADml t1 []; ADml t2 []]) = (h ++ [CExec t1 []; CExec t2 []])%list.
Proof.
  intros h t1 t2 F1 F2 F3 P1 P2. exists (PDml t2 []). split; [|split].
  - cbn. unfold compiled, then_. rewrite P1. cbn. rewrite P2. reflexivity.
  - cbn. unfold made. rewrite F3. reflexivity.
  - unfold PrepModel.exec_script. cbn. unfold made. rewrite F1. cbn. rewrite F2. cbn. now rewrite <- app_assoc.
Qed.

(** ** C237: CREATE FUNCTION *)
Theorem c237_permanent_partial : forall h n, exists s, prepare h (AFunction n false) = (h, Done s) /\
  fst (stmt_exec h s []) = fst (exec_script h [] [AFunction n false]) /\
  ((exists e, snd (stmt_exec h s []) = Fail e) <-> (exists e, snd (exec_script h [] [AFunction n false]) = Fail e)).
Proof.
  intros h n. exists (PFunction n). split; [reflexivity|]. unfold PrepModel.exec_script. cbn. unfold made. destruct (fails h (CAddFunction n)); cbn; (split; [reflexivity|]);
    split; intros [x X]; eauto; discriminate.
Qed.
(** A temporary one stays, and the result has no RowsAffected ([None] is a nil driver.Result). *)
Theorem c237_refuted : forall h n, fails h (CAddFunction n) = None -> fails (h ++ [CAddFunction n])%list (CDelFunction n) = None ->
  exists s, prepare h (AFunction n true) = (h, Done s) /\
    stmt_exec h s [] = ((h ++ [CAddFunction n])%list, Done None) /\
    exec_script h [] [AFunction n true] = ((h ++ [CAddFunction n; CDelFunction n])%list, Done (Some 0%Z)).
Proof.
  intros h n F1 F2. exists (PFunction n). split; [reflexivity|]. unfold PrepModel.exec_script. cbn. unfold made. rewrite F1. cbn. unfold made. rewrite F2. cbn. split; [reflexivity|].
  now rewrite <- app_assoc.
Qed.

(** ** C238: RowsAffected *)
Lemma exec_loop_app values l a h last sofar h' s r : exec_loop enc fails count h values last sofar (l ++ [a]) = (h', s, Done r) ->
  exists h0 args n, args_of enc (Some values) a = Done args /\ exec (T := T) fails count h0 a args = (h', Done n) /\ r = Some n.
Proof.
  revert h last sofar. induction l as [|b l IH]; intros h last sofar E; cbn [app exec_loop] in E.
  - destruct (args_of enc (Some values) a) as [args| |]; try discriminate. destruct (exec fails count h a args) as [h1 [n| |]] eqn:X; try discriminate.
    exists h, args, n. split; [reflexivity|]. split; congruence.
  - destruct (args_of enc (Some values) b) as [args| |]; try discriminate. destruct (exec fails count h b args) as [h1 [n| |]]; try discriminate. eauto.
Qed.
Theorem c238_dml_partial : forall h values l text ps h' r, exec_script h values (l ++ [ADml text ps]) = (h', Done r) ->
  exists h0 args rest, h' = (h0 ++ CExec text args :: rest)%list /\ r = Some (count h0 (CExec text args)).
Proof.
  intros h values l text ps h' r E. unfold PrepModel.exec_script in E. destruct (exec_loop enc fails count h values None [] (l ++ [ADml text ps])) as [[h1 s] o] eqn:X.
  destruct (cleanups fails count h1 s) as [h2 es] eqn:C. destruct o as [r0|e|]; try discriminate. destruct es as [|e es]; [|discriminate]. assert (h2 = h') by congruence. assert (r0 = r) by congruence. subst.
  apply exec_loop_app in X. destruct X as (h0 & args & n & _ & X & ->). cbn [exec] in X. apply wrapped_done, made_done in X. destruct X as [-> ->].
  apply cleanups_done in C. rewrite <- app_assoc in C. cbn in C. eauto.
Qed.
(** TRUNCATE and MERGE report none. *)
Theorem c238_refuted : forall h values l a h' r, exec_script h values (l ++ [a]) = (h', Done r) ->
  match a with ATruncate _ | AMerge _ => True | _ => False end -> r = Some 0%Z.
Proof.
  intros h values l a h' r E Ha. unfold PrepModel.exec_script in E. destruct (exec_loop enc fails count h values None [] (l ++ [a])) as [[h1 s] o] eqn:X.
  destruct (cleanups fails count h1 s) as [h2 es] eqn:C. destruct o as [r0|e|]; try discriminate. destruct es as [|e es]; [|discriminate]. assert (r0 = r) by congruence. subst.
  apply exec_loop_app in X. destruct X as (h0 & args & n & _ & X & ->). destruct a; try contradiction; cbn [exec] in X.
  - apply then_done in X. destruct X as (? & ? & _ & X). congruence.
  - apply each_done in X. destruct X as [_ ->]. reflexivity.
Qed.

(** ** C239: Exec succeeds only if every call was made, and otherwise says what went wrong *)
Theorem c239_success : forall h values l h' r, exec_script h values l = (h', Done r) ->
  exists argss, Forall2 (fun a args => args_of enc (Some values) a = Done args) l argss /\
    h' = (h ++ concat (map (fun p => statement_calls (fst p) (snd p)) (combine l argss)) ++ flat_map cleanup_calls l)%list.
Proof.
  intros h values l h' r E. unfold PrepModel.exec_script in E. destruct (exec_loop enc fails count h values None [] l) as [[h1 s] o] eqn:X.
  destruct (cleanups fails count h1 s) as [h2 es] eqn:C. destruct o as [r0|e|]; try discriminate. destruct es as [|e es]; [|discriminate]. assert (h2 = h') by congruence. subst.
  apply exec_loop_done in X. destruct X as (-> & argss & F & ->). cbn [app] in C. apply cleanups_done in C. exists argss. split; [exact F|]. now rewrite app_assoc.
Qed.
Theorem c239_failure : forall h values l h' e, exec_script h values l = (h', Fail e) ->
  exists h1 s o es, exec_loop enc fails count h values None [] l = (h1, s, o) /\ cleanups fails count h1 s = (h', es) /\
    (forall x, o = Fail x \/ In x es -> part_of (error_text x) (error_text e)) /\ (o = Done None \/ (exists r, o = Done (Some r)) -> es <> []).
Proof.
  intros h values l h' e E. unfold PrepModel.exec_script in E. destruct (exec_loop enc fails count h values None [] l) as [[h1 s] o] eqn:X.
  destruct (cleanups fails count h1 s) as [h2 es] eqn:C. destruct o as [r0|e0|]; try discriminate.
  - destruct es as [|e1 es]; [discriminate|]. assert (h2 = h') by congruence. subst. exists h1, s, (Done r0), (e1 :: es). split; [reflexivity|]. split; [exact C|].
    split; [|discriminate]. intros x [Hx|Hx]; [discriminate|]. assert (e = Group (e1 :: es)) by congruence. subst e. cbn [error_text]. apply join_parts. now apply in_map.
  - assert (h2 = h') by congruence. subst. exists h1, s, (Fail e0), es. split; [reflexivity|]. split; [exact C|]. split; [|intros [Hx|[r Hx]]; discriminate].
    intros x Hx. assert (e = Group (e0 :: es)) by congruence. subst e. cbn [error_text]. apply join_parts. apply in_map. destruct Hx as [Hx|Hx]; [left; congruence|now right].
Qed.
(** The process survives whatever the calls answer, as far as the arguments can be encoded. *)
Theorem c239_no_panic : forall h values l, (forall a, In a l -> args_of enc (Some values) a <> Panic) -> snd (exec_script h values l) <> Panic.
Proof.
  intros h values l H. unfold PrepModel.exec_script.
  assert (G : forall h last sofar, snd (exec_loop enc fails count h values last sofar l) <> Panic).
  { induction l as [|a l IH]; intros h0 last sofar; cbn [exec_loop]; [discriminate|]. pose proof (H a (or_introl eq_refl)) as Ha. destruct (args_of enc (Some values) a) as [args| |]; try discriminate; [|congruence].
    pose proof (exec_no_panic fails count h0 a args) as X. destruct (exec fails count h0 a args) as [h1 [n|e|]]; cbn in *; [|discriminate|congruence]. apply IH. intros b I. apply H. now right. }
  specialize (G h None []). destruct (exec_loop enc fails count h values None [] l) as [[h1 s] o]. destruct (cleanups fails count h1 s) as [h2 es]. cbn in G. destruct o; [|discriminate|congruence].
  destruct es; discriminate.
Qed.

(** ** C240: errors.Is *)
Definition stands_for (e0 : error) : Prop := (exists h c, fails h c = Some e0) \/ (exists h t args, query_fails h t args = Some e0).
Theorem c240_refuted : forall h values l h' e e0, exec_script h values l = (h', Fail e) -> (forall es, e0 <> Group es) -> ~ In e0 (chain e).
Proof.
  intros h values l h' e e0 E N I. assert (G : exists es, e = Group es).
  { unfold PrepModel.exec_script in E. destruct (exec_loop enc fails count h values None [] l) as [[h1 s] o]. destruct (cleanups fails count h1 s) as [h2 es]. destruct o as [r0|x|]; try discriminate; [|exists (x :: es); congruence].
    destruct es as [|x es]; [discriminate|]. exists (x :: es). congruence. }
  destruct G as [es ->]. destruct I as [I|[]]. now apply (N es).
Qed.
Lemma chain_self e : In e (chain e).
Proof. destruct e; now left. Qed.
Lemma exec_cause h a args h' e : exec (T := T) fails count h a args = (h', Fail e) -> exists e0, stands_for e0 /\ In e0 (chain e).
Proof.
  assert (M : forall h c h' e, made fails count h c = (h', Fail e) -> stands_for e).
  { intros h0 c h1 e0 X. unfold made in X. destruct (fails h0 c) as [x|] eqn:F; [|discriminate]. left. exists h0, c. congruence. }
  assert (Wr : forall A m (x : hist * outcome A) h' e, wrapped m x = (h', Fail e) -> exists e1, x = (h', Fail e1) /\ e = Wrap m e1).
  { intros A m [h0 [x|x|]] h1 e1 X; unfold wrapped in X; cbn in X; try discriminate. exists x. split; congruence. }
  assert (Th : forall A B (x : hist * outcome A) (f : hist -> A -> hist * outcome B) h' e, then_ x f = (h', Fail e) -> x = (h', Fail e) \/ exists h1 a, x = (h1, Done a) /\ f h1 a = (h', Fail e)).
  { intros A B [h0 [x|x|]] f h1 e1 X; unfold then_ in X; cbn in X; try discriminate; [right; eauto|left; congruence]. }
  assert (Ws : forall m h c h' e, wrapped m (made fails count h c) = (h', Fail e) -> exists e0, stands_for e0 /\ In e0 (chain e)).
  { intros m h0 c h1 e1 X. apply Wr in X. destruct X as (e2 & X & ->). exists e2. split; [now apply (M h0 c h1)|]. right. apply chain_self. }
  assert (Ea : forall m l h h' e, each fails count h m l = (h', Fail e) -> exists e0, stands_for e0 /\ In e0 (chain e)).
  { intros m l. induction l as [|t r IH]; intros h0 h1 e1 X; cbn [each] in X; [discriminate|]. apply Th in X. destruct X as [X|(h2 & z & _ & X)]; eauto. }
  destruct a as [nm sch ps rep tmp idx|nm sch rep tmp|nm tmp|fn nm t ps|t ps|t ps ex| | |t|ts]; cbn [exec]; intros E; try discriminate; eauto; try (destruct fn);
    repeat match type of E with then_ _ _ = _ => apply Th in E; let h1 := fresh "h" in let z := fresh "z" in destruct E as [E|(h1 & z & _ & E)] end; try discriminate; eauto;
    try (destruct rep; [apply M in E; exists e; split; [exact E|apply chain_self]|discriminate]).
Qed.
Lemma cleanup_cause h a h' e : cleanup (T := T) fails count h a = (h', Fail e) -> exists e0, stands_for e0 /\ In e0 (chain e).
Proof.
  assert (M : forall m h c h' e, wrapped m (made fails count h c) = (h', Fail e) -> exists e0, stands_for e0 /\ In e0 (chain e)).
  { intros m h0 c h1 e0 X. unfold made in X. destruct (fails h0 c) as [x|] eqn:F; [|discriminate]. unfold wrapped in X. cbn in X. exists x. split; [left; eauto|].
    assert (Y : e0 = Wrap m x) by congruence. subst e0. right. apply chain_self. }
  assert (Two : forall m1 m2 h c1 c2 h' e, then_ (wrapped m1 (made fails count h c1)) (fun h _ => wrapped m2 (made fails count h c2)) = (h', Fail e) -> exists e0, stands_for e0 /\ In e0 (chain e)).
  { intros m1 m2 h0 c1 c2 h1 e0 X. destruct (wrapped m1 (made fails count h0 c1)) as [h2 [z|z|]] eqn:Y; unfold then_ in X; cbn [fst snd] in X; [eauto| |discriminate].
    assert (z = e0) by congruence. subst z. eauto. }
  destruct a as [nm sch ps rep [|] idx|nm sch rep [|]|nm [|]|fn nm t ps|t ps|t ps ex| | |t|ts]; cbn [cleanup]; intros E; try discriminate; eauto.
Qed.
Theorem c240_query_partial : forall h values l h' e, query_script h values l = (h', Fail e) ->
  (exists a, In a l /\ args_of enc (Some values) a = Fail e) \/ exists e0, stands_for e0 /\ In e0 (chain e).
Proof.
  intros h values l h' e. unfold PrepModel.query_script. generalize (@None (rows (T := T) (W := W))). generalize (@nil act). revert h.
  induction l as [|a l IH]; intros h sofar last E; cbn [query_loop] in E; [discriminate|].
  destruct (args_of enc (Some values) a) as [args|x|] eqn:A; [|left; exists a; split; [now left|congruence]|discriminate].
  destruct (query fails query_fails count h a args) as [h1 [x|x|]] eqn:Q; [|right|discriminate].
  - apply IH in E. destruct E as [(b & I & B)|E]; [left; exists b; split; [now right|exact B]|now right].
  - assert (x = e) by congruence. subst x. destruct a as [nm sch ps rep tmp idx|nm sch rep tmp|nm tmp|fn nm t ps|t ps|t ps [|]| | |t|ts]; cbn [query] in Q;
      try (match type of Q with then_ (exec _ _ ?h0 ?a0 ?args0) _ = _ => let X := fresh in destruct (exec fails count h0 a0 args0) as [h2 [z|z|]] eqn:X; unfold then_ in Q; cbn [fst snd] in Q; try discriminate;
           assert (z = e) by congruence; subst z; now apply exec_cause in X end).
    + destruct (query_fails h (explained t) args) as [x|] eqn:F; [|discriminate]. exists x. split; [right; eauto|]. assert (E1 : e = Wrap "explain" x) by congruence. subst e. right. apply chain_self.
    + destruct (query_fails h t args) as [x|] eqn:F; [|discriminate]. exists x. split; [right; eauto|]. assert (E1 : e = Wrap "query" x) by congruence. subst e. right. apply chain_self.
Qed.

(** The text of the error has the first thing that went wrong. *)
Lemma part_refl x : part_of x x.
Proof. exists "", "". cbn. now rewrite sapp_nil. Qed.
Lemma part_trans x y z : part_of x y -> part_of y z -> part_of x z.
Proof. intros (a & b & ->) (c & d & ->). exists (c ++ a), (b ++ d). now rewrite !sapp_assoc. Qed.
Lemma chain_part e0 e : In e0 (chain e) -> part_of (error_text e0) (error_text e).
Proof.
  induction e as [m|m e IH|l]; cbn [chain In]; intros [<-|H]; try apply part_refl; try contradiction.
  apply (part_trans _ _ _ (IH H)). exists (m ++ ": "), "". cbn [error_text]. now rewrite sapp_nil, !sapp_assoc.
Qed.
Theorem c239_cause : forall h values l h' e, exec_script h values l = (h', Fail e) ->
  exists e0, ((exists a, In a l /\ args_of enc (Some values) a = Fail e0) \/ stands_for e0) /\ part_of (error_text e0) (error_text e).
Proof.
  intros h values l h' e E. destruct (c239_failure h values l h' e E) as (h1 & s & o & es & X & C & P & N).
  assert (L : forall l h last sofar h1 s e1, exec_loop enc fails count h values last sofar l = (h1, s, Fail e1) ->
      (exists a, In a l /\ args_of enc (Some values) a = Fail e1) \/ exists e0, stands_for e0 /\ In e0 (chain e1)).
  { clear. induction l as [|a l IH]; intros h last sofar h1 s e1 X; cbn [exec_loop] in X; [discriminate|].
    destruct (args_of enc (Some values) a) as [args|x|] eqn:A; [|left; exists a; split; [now left|congruence]|discriminate].
    destruct (exec fails count h a args) as [h2 [n|x|]] eqn:Q; [|right|discriminate].
    - apply IH in X. destruct X as [(b & I & B)|X]; [left; exists b; split; [now right|exact B]|now right].
    - assert (x = e1) by congruence. subst x. now apply exec_cause in Q. }
  assert (K : forall (s : list act) h1 h2 es x, cleanups fails count h1 s = (h2, es) -> In x es -> exists e0, stands_for e0 /\ In e0 (chain x)).
  { clear. induction s as [|a s IH]; intros h1 h2 es x C I; cbn [cleanups] in C.
    - assert (es = []) by congruence. subst es. contradiction.
    - destruct (cleanup fails count h1 a) as [h3 o] eqn:D. destruct (cleanups fails count h3 s) as [h4 es'] eqn:C'.
      destruct o as [z|y|]; try (assert (es = es') by congruence; subst es'; now apply (IH _ _ _ _ C')).
      assert (es = y :: es') by congruence. subst es. destruct I as [<-|I]; [|now apply (IH _ _ _ _ C')]. clear C C' IH. now apply cleanup_cause in D. }
  destruct o as [r|e1|].
  - assert (N' : es <> []) by (apply N; destruct r; eauto). destruct es as [|x es]; [contradiction|]. destruct (K _ _ _ _ x C (or_introl eq_refl)) as (e0 & S0 & I).
    exists e0. split; [now right|]. apply (part_trans _ _ _ (chain_part _ _ I)). apply P. right. now left.
  - destruct (L _ _ _ _ _ _ _ X) as [A|(e0 & S0 & I)]; [exists e1|exists e0]; (split; [auto|]); [|apply (part_trans _ _ _ (chain_part _ _ I))]; apply P; now left.
  - exfalso. unfold PrepModel.exec_script in E. rewrite X, C in E. discriminate.
Qed.

(** ** C241: BEGIN TRANSACTION ... COMMIT TRANSACTION *)
Theorem c241_refuted : forall h t1 t2 e, fails h (CExec t1 []) = None -> fails (h ++ [CExec t1 []])%list (CExec t2 []) = Some e ->
  exists e', exec_script h [] [ABegin; ADml t1 []; ADml t2 []; ACommit] = ((h ++ [CExec t1 []])%list, Fail e').
Proof. intros h t1 t2 e F1 F2. eexists. unfold PrepModel.exec_script. cbn. unfold made. rewrite F1. cbn. rewrite F2. cbn. reflexivity. Qed.

(** ** C242: explain mode *)
Theorem c242_query_partial : forall h values text ps h' o, query_script h values [AQuery text ps true] = (h', o) ->
  h' = h /\ (forall r, o = Done r -> exists x, r = Some x /\ r_query x = None).
Proof.
  intros h values text ps h' o E. unfold PrepModel.query_script in E. cbn [query_loop query] in E. destruct (args_of enc (Some values) (AQuery text ps true)) as [l|x|].
  - destruct (query_fails h (explained text) l) as [x|]; cbn [query_loop app r_query r_conn] in E; pose proof (f_equal fst E) as E1; pose proof (f_equal snd E) as E2; cbn [fst snd] in E1, E2; subst h' o; (split; [reflexivity|]); intros r R; [discriminate|].
    assert (Y : Some (Rs None false [AQuery text ps true]) = r) by congruence. subst r. eexists. split; reflexivity.
  - pose proof (f_equal fst E) as E1; pose proof (f_equal snd E) as E2; cbn [fst snd] in E1, E2. subst h' o. split; [reflexivity|discriminate].
  - pose proof (f_equal fst E) as E1; pose proof (f_equal snd E) as E2; cbn [fst snd] in E1, E2. subst h' o. split; [reflexivity|discriminate].
Qed.
Theorem c242_exec_refuted : forall h text ex, fails h (CExec text []) = None ->
  exec_script h [] [AQuery text [] ex] = ((h ++ [CExec text []])%list, Done (Some 0%Z)).
Proof. intros h text ex F. unfold PrepModel.exec_script. cbn. unfold made. rewrite F. reflexivity. Qed.
(** After CREATE TEMP TABLE and an explained query in one script, Close crashes. *)
Theorem c242_close_refuted : forall h n schema idx text h' r, query_script h [] [ATable n schema [] false true idx; AQuery text [] true] = (h', Done (Some r)) ->
  close fails count h' r = (h', Panic).
Proof.
  intros h n schema idx text h' r. unfold PrepModel.query_script. cbn [query_loop]. change (args_of enc (Some []) (ATable n schema [] false true idx)) with (@Done (list (string * W)) []).
  cbn [app]. destruct (query fails query_fails count h (ATable n schema [] false true idx) []) as [h1 [x|x|]]; try discriminate.
  change (args_of enc (Some []) (AQuery text [] true)) with (@Done (list (string * W)) []). cbn [query]. destruct (query_fails h1 (explained text) []); try discriminate. intros E.
  assert (R : r = Rs None false [ATable n schema [] false true idx; AQuery text [] true]) by (cbn in E; congruence). subst r. reflexivity.
Qed.

(** ** C244: ChangedCatalogFromRows *)
Theorem c244_direct_partial : forall h values l h' r, query_script h values l = (h', Done (Some r)) ->
  (forall t ps, ~ In (AQuery t ps true) l) -> changed_from_rows r = Done tt.
Proof.
  intros h values l h' r E N. unfold PrepModel.query_script in E. unfold changed_from_rows.
  enough (G : forall l h sofar (last : option (rows (T := T) (W := W))), (forall t ps, ~ In (AQuery t ps true) l) -> (forall x, last = Some x -> r_conn x = true) ->
            query_loop enc fails query_fails count h values last sofar l = (h', Done (Some r)) -> r_conn r = true) by (rewrite (G l h [] None N ltac:(discriminate) E); reflexivity).
  clear. induction l as [|a l IH]; intros h sofar last N L E; cbn [query_loop] in E.
  - destruct last as [x|]; [|discriminate]. assert (R : r = Rs (r_query x) (r_conn x) sofar) by congruence. subst r. cbn. now apply L.
  - destruct (args_of enc (Some values) a) as [args| |]; try discriminate. destruct (query fails query_fails count h a args) as [h1 [x| |]] eqn:Q; try discriminate.
    apply IH in E; [exact E|intros t ps I; apply (N t ps); now right|]. intros y Y. assert (x = y) by congruence. subst y.
    destruct a as [nm sch ps rep tmp idx|nm sch rep tmp|nm tmp|fn nm t ps|t ps|t ps [|]| | |t|ts]; cbn [query] in Q;
      try (apply then_done in Q; destruct Q as (h2 & z & _ & Q); assert (x = Rs None true []) by congruence; subst x; reflexivity).
    + exfalso. apply (N t ps). now left.
    + destruct (query_fails h t args); [discriminate|]. assert (X : x = Rs (Some (t, args)) true []) by congruence. subst x. reflexivity.
Qed.
Theorem c244_refuted : forall h s args h' r, stmt_query h s args = (h', Done r) -> changed_from_rows r = Panic.
Proof.
  intros h s args h' r. unfold PrepModel.stmt_query, checked. destruct s; try discriminate; destruct (negb _); try discriminate; destruct (existsb _ args); try discriminate.
  destruct (encode_all enc (map (@a_val V) args) ps); try discriminate. destruct (query_fails h text (unnamed l)); try discriminate. intros E.
  assert (R : r = Rs (Some (text, unnamed l)) false []) by congruence. subst r. reflexivity.
Qed.
End Props.

(** ** C243: auto index mode *)
Lemma sapp_inj_l a b c : (a ++ b = a ++ c)%string -> b = c.
Proof. induction a as [|x a IH]; [exact (fun H => H)|]. cbn. intros H. apply IH. congruence. Qed.
Lemma no_tick_app a b : no_backtick a -> no_backtick b -> no_backtick (a ++ b).
Proof. unfold no_backtick. rewrite every_app. now intros -> ->. Qed.
Lemma no_tick_join l : Forall no_backtick l -> no_backtick (join "_" l).
Proof.
  induction 1 as [|x l H F IH]; [reflexivity|]. destruct l as [|y l]; [exact H|]. change (join "_" (x :: y :: l)) with (x ++ "_" ++ join "_" (y :: l)).
  apply no_tick_app; [exact H|]. apply no_tick_app; [reflexivity|exact IH].
Qed.
Lemma id_no_tick s : every id_char s = true -> no_backtick s.
Proof.
  unfold no_backtick. induction s as [|c s IH]; [reflexivity|]. cbn. intros H. apply andb_true_iff in H. destruct H as [H1 H2]. rewrite (IH H2), andb_true_r.
  destruct (Ascii.eqb_spec c "`"); [|reflexivity]. subst c. discriminate H1.
Qed.
Lemma every_sapp f a b : every f (a ++ b) = every f a && every f b.
Proof. induction a as [|c a IH]; [reflexivity|]. cbn. rewrite IH. apply andb_assoc. Qed.
Lemma index_name_chars path col : every id_char (index_name path col) = every id_char col && forallb (every id_char) path.
Proof.
  unfold index_name. rewrite !every_sapp. change (every id_char "zetasqlite_autoindex_") with true. change (every id_char "_") with true. cbn [andb]. f_equal.
  induction path as [|x path IH]; [reflexivity|]. cbn [forallb]. rewrite <- IH. destruct path as [|y path]; [cbn; now rewrite andb_true_r|].
  change (join "_" (x :: y :: path)) with (x ++ "_" ++ join "_" (y :: path)). rewrite !every_sapp. reflexivity.
Qed.
(** The index is accepted exactly when the column and every part of the table path are plain. *)
Theorem c243_accepted_partial : forall path col, Forall no_backtick path -> no_backtick col ->
  (is_create_index (index_text path col) <-> every id_char col && forallb (every id_char) path = true).
Proof.
  intros path col P C. rewrite <- index_name_chars. pose proof (no_tick_join path P) as J. split.
  - intros (i & t & c & E & I & Ht & Hc). unfold index_text in E.
    change (" ON `" ++ join "_" path ++ "`(`" ++ col ++ "`)") with (" ON " ++ String "`" (join "_" path ++ "`(`" ++ col ++ "`)")) in E.
    change (" ON `" ++ t ++ "`(`" ++ c ++ "`)") with (" ON " ++ String "`" (t ++ "`(`" ++ c ++ "`)")) in E.
    rewrite <- !sapp_assoc in E. apply first_char in E.
    + destruct E as [E _]. rewrite !sapp_assoc in E. apply sapp_inj_l in E. apply sapp_inj_r in E. now rewrite E.
    + apply no_tick_app; [|reflexivity]. apply no_tick_app; [reflexivity|]. unfold index_name. apply no_tick_app; [reflexivity|]. apply no_tick_app; [exact C|]. now apply no_tick_app.
    + apply no_tick_app; [|reflexivity]. apply no_tick_app; [reflexivity|]. now apply id_no_tick.
  - intros I. exists (index_name path col), (join "_" path), col. repeat split; assumption.
Qed.
(** With a name that is not a plain identifier CREATE TABLE fails and leaves the SQLite table,
    which the catalog does not know. *)
Theorem c243_refuted : forall T V W (enc : T -> V -> option W) fails count (h : history (W := W)) n schema path col,
  Forall no_backtick path -> no_backtick col -> every id_char col && forallb (every id_char) path = false ->
  (forall h, ~ is_create_index (index_text path col) -> fails h (CExec (index_text path col) []) <> None) ->
  fails h (CExec schema []) = None ->
  exists e, exec_script enc fails count h [] [ATable n schema [] false false [index_text path col]] = ((h ++ [CExec schema []])%list, Fail e).
Proof.
  intros T V W enc fails count h n schema path col P C N F S0. assert (X : ~ is_create_index (index_text path col)) by (rewrite (c243_accepted_partial path col P C); congruence).
  specialize (F (h ++ [CExec schema []])%list X). unfold exec_script. cbn -[index_text]. unfold made. rewrite S0. cbn -[index_text].
  destruct (fails (h ++ [CExec schema []])%list (CExec (index_text path col) [])) as [e|]; [|congruence]. cbn. eexists. reflexivity.
Qed.

(** ** Examples *)
Section Examples.
  Let enc (_ : unit) (v : Z) : option Z := if Z.ltb v 0 then None else Some v.
  (** A database that refuses one text *)
  Let fails (h : history (W := Z)) (c : call (W := Z)) : option error :=
    match c with CExec t _ => if String.eqb t "BAD" then Some (Base "no such table") else None | _ => None end.
  Let qfails (h : history (W := Z)) (t : string) (args : list (string * Z)) : option error := if String.eqb t "BAD" then Some (Base "no such table") else None.
  Let pfails (h : history (W := Z)) (t : string) : option error := None.
  Let count (h : history (W := Z)) (c : call (W := Z)) : Z := 3%Z.
  Let p (n : string) : param unit := mkparam n tt.
  Let v (n : string) (z : Z) : arg Z := mkarg n z.
  Let prepare := prepare (T := unit) fails pfails count.
  Let sexec := stmt_exec enc fails count.
  Let squery := stmt_query enc qfails.
  Let script := exec_script enc fails count.
  Let queries := query_script enc fails qfails count.

  Example ex_c232 : prepare [] (ADml "DELETE" [p ""; p ""]) = ([], Done (PDml "DELETE" [p ""; p ""])) /\
    sexec [] (PDml "DELETE" [p ""; p ""]) [v "" 5; v "" 6] = ([CExec "DELETE" [("", 5%Z); ("", 6%Z)]], Done (Some 3%Z)) /\
    script [] [v "" 5; v "" 6] [ADml "DELETE" [p ""; p ""]] = ([CExec "DELETE" [("", 5%Z); ("", 6%Z)]], Done (Some 3%Z)) /\
    snd (squery [] (PQuery "SELECT" [p ""]) [v "" 5]) = Done (Rs (Some ("SELECT", [("", 5%Z)])) false []).
  Proof. repeat split. Qed.
  Example ex_c233 : prepare [] (ATable "t" "CREATE" [] true false []) = ([CExec "DROP TABLE IF EXISTS `t`" []], Done (PTable "t" "CREATE")) /\
    sexec [] (PTable "t" "CREATE") [] = ([], Fail (Base "unsupported type []driver.Value")) /\
    script [] [] [ATable "t" "CREATE" [] true false []] = ([CExec "DROP TABLE IF EXISTS `t`" []; CExec "CREATE" []; CAddTable "t"], Done (Some 0%Z)).
  Proof. repeat split. Qed.
  Example ex_c234 : prepare [] (ADrop false "t" "DROP" []) = ([], Done PNil) /\ sexec [] PNil [] = ([], Panic) /\
    script [] [] [ADrop false "t" "DROP" []] = ([CExec "DROP" []; CDelTable "t"], Done (Some 0%Z)).
  Proof. repeat split. Qed.
  Example ex_c235 : (exists e, sexec [] (PDml "DELETE" [p "x"]) [v "x" 5] = ([], Fail e)) /\
    script [] [v "X" 5] [ADml "DELETE" [p "x"]] = ([CExec "DELETE" [("x", 5%Z)]], Done (Some 3%Z)).
  Proof. split; [eexists|]; reflexivity. Qed.
  Example ex_c236 : prepare_script enc fails pfails count [] PNil [ADml "A" []; ADml "B" []] = ([], Done (PDml "B" [])) /\
    script [] [] [ADml "A" []; ADml "B" []] = ([CExec "A" []; CExec "B" []], Done (Some 3%Z)).
  Proof. repeat split. Qed.
  Example ex_c237 : script [] [] [AFunction "f" true] = ([CAddFunction "f"; CDelFunction "f"], Done (Some 0%Z)) /\
    sexec [] (PFunction "f") [] = ([CAddFunction "f"], Done None).
  Proof. repeat split. Qed.
  Example ex_c238 : snd (script [] [] [ABegin; ADml "DELETE" []]) = Done (Some 3%Z) /\ snd (script [] [] [ATruncate "DELETE"]) = Done (Some 0%Z) /\
    snd (script [] [] [AMerge ["UPDATE"; "INSERT"]]) = Done (Some 0%Z).
  Proof. repeat split. Qed.
  Example ex_c239 : script [] [] [ATable "t" "CREATE" [] false true []; ADml "BAD" []; ADml "INSERT" []] =
    ([CExec "CREATE" []; CAddTable "t"; CExec "DROP TABLE IF EXISTS `t`" []; CDelTable "t"], Fail (Group [Wrap "exec" (Base "no such table")])) /\
    (exists e, snd (script [] [v "" (-1)] [ADml "INSERT" [p ""]]) = Fail e).
  Proof. split; [|eexists]; reflexivity. Qed.
  Example ex_c240 : chain (Group [Wrap "exec" (Base "no such table")]) = [Group [Wrap "exec" (Base "no such table")]] /\
    (exists e, snd (queries [] [] [AQuery "BAD" [] false]) = Fail e /\ In (Base "no such table") (chain e)).
  Proof. split; [reflexivity|]. eexists. split; [reflexivity|]. right. now left. Qed.
  Example ex_c241 : fst (script [] [] [ABegin; ADml "INSERT" []; ADml "BAD" []; ACommit]) = [CExec "INSERT" []].
  Proof. reflexivity. Qed.
  Example ex_c242 : queries [] [] [ATable "t" "CREATE" [] false true []; AQuery "SELECT" [] true] =
    ([CExec "CREATE" []; CAddTable "t"], Done (Some (Rs None false [ATable "t" "CREATE" [] false true []; AQuery "SELECT" [] true]))) /\
    script [] [] [AQuery "SELECT" [] true] = ([CExec "SELECT" []], Done (Some 0%Z)).
  Proof. repeat split. Qed.
  Example ex_c244 : exists r, snd (queries [] [] [ADml "INSERT" []; AQuery "SELECT" [] false]) = Done (Some r) /\ changed_from_rows r = Done tt.
  Proof. eexists. split; reflexivity. Qed.
End Examples.
Example ex_c243 : is_create_index (index_text ["p"; "d"; "t"] "id") /\ ~ is_create_index (index_text ["my-project"; "d"; "t"] "id").
Proof.
  assert (N : Forall no_backtick ["p"; "d"; "t"]) by (repeat constructor). assert (N2 : Forall no_backtick ["my-project"; "d"; "t"]) by (repeat constructor).
  rewrite !c243_accepted_partial; try assumption; try reflexivity. split; [reflexivity|]. vm_compute. discriminate.
Qed.

Print Assumptions c232_dml.
Print Assumptions c232_query.
Print Assumptions c233_refuted.
Print Assumptions c234_refuted.
Print Assumptions c235_refuted.
Print Assumptions c235_direct.
Print Assumptions c236_single_partial.
Print Assumptions c236_refuted.
Print Assumptions c237_permanent_partial.
Print Assumptions c237_refuted.
Print Assumptions c238_dml_partial.
Print Assumptions c238_refuted.
Print Assumptions c239_success.
Print Assumptions c239_failure.
Print Assumptions c239_no_panic.
Print Assumptions c240_refuted.
Print Assumptions c240_query_partial.
Print Assumptions c239_cause.
Print Assumptions c241_refuted.
Print Assumptions c242_query_partial.
Print Assumptions c242_exec_refuted.
Print Assumptions c242_close_refuted.
Print Assumptions c244_direct_partial.
Print Assumptions c244_refuted.
Print Assumptions c243_accepted_partial.
Print Assumptions c243_refuted.
