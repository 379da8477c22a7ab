(** Properties of views (C351 to C354). *)
From Coq Require Import Ascii String List ZArith Lia Bool.
From Verif Require Import GoBase DecModel DecFacts QueryModel QuerySpec QueryProofs AcceptSpec AcceptProofs QueryProps AcceptProps WithModel WithSpec WithProofs ViewModel ViewSpec ViewProofs.
Import ListNotations.
Local Open Scope list_scope.

(** ** C351: a view shows the rows its query means *)
(** Whatever views are created one after another, and whatever the tables hold when a query is run:
    a query over tables and views gives the rows it means when each view stands for the rows that its
    query means over the tables as they are now. *)
Theorem c351_views stacked vs : views_ok stacked vs ->
  exists st, exec_views [] (map (VCreate Default) vs) = Some st /\
  forall fn db d names s cols rows, shows fn db vs d -> query_ok stacked names s cols -> mean_query fn d names s cols = Some rows ->
    exists q, query_sql names s cols = Some q /\ read_views fn db st q = Some rows.
Proof.
  intros H. exists (map text_of vs). split; [exact (creates stacked vs H)|]. intros fn db d names s cols rows S Q M.
  apply (read_back stacked fn db vs (map text_of vs) H) with (d := d); try assumption.
  apply (keeps_texts stacked); [exact H|apply map_length|reflexivity].
Qed.

(** ** C352: CREATE OR REPLACE VIEW *)
Lemma drop_texts stacked a v b n : views_ok stacked (a ++ v :: b) -> same_name (v_name v) n = true ->
  drop_view (map text_of (a ++ v :: b)) n = map text_of (a ++ b).
Proof.
  intros H S. unfold drop_view.
  assert (K : forall l, (forall w, In w l -> same_name (v_name w) n = false) -> filter (fun e => negb (same_name (fst e) n)) (map text_of l) = map text_of l).
  { induction l as [|w l IH]; intros N; [reflexivity|]. cbn [map filter text_of fst]. rewrite (N w (or_introl eq_refl)). cbn [negb]. f_equal. apply IH. intros x I. apply N. now right. }
  assert (X : forall w, same_name (v_name w) (v_name v) = false -> same_name (v_name w) n = false).
  { intros w. unfold same_name in *. apply String.eqb_eq in S. now rewrite S. }
  rewrite !map_app, filter_app. cbn [map filter text_of fst]. rewrite S. cbn [negb]. rewrite !K; [reflexivity| |].
  - intros w I. apply X. destruct (H a v b eq_refl) as (_ & _ & N & _). now apply N.
  - intros w I. apply X. exact (ok_apart _ _ _ _ _ H I).
Qed.
(** Views made from the view show the new definition as well, and no other view changes. *)
Theorem c352_replace stacked a v v' b : views_ok stacked (a ++ v :: b) -> views_ok stacked (a ++ v' :: b) -> same_name (v_name v') (v_name v) = true ->
  exists st, exec_views [] (map (VCreate Default) (a ++ v :: b) ++ [VCreate Replace v']) = Some st /\
  forall fn db d names s cols rows, shows fn db (a ++ v' :: b) d -> query_ok stacked names s cols -> mean_query fn d names s cols = Some rows ->
    exists q, query_sql names s cols = Some q /\ read_views fn db st q = Some rows.
Proof.
  intros H H' E.
  assert (App : forall l l' st, exec_views st (l ++ l') = obind (exec_views st l) (fun st' => exec_views st' l')).
  { induction l as [|x l IH]; intros l' st; [reflexivity|]. cbn [app exec_views]. destruct (exec_view st x); [apply IH|reflexivity]. }
  rewrite App, (creates stacked _ H). cbn [obind exec_views exec_view].
  destruct (H' a v' b eq_refl) as (Q & _ & N & _). destruct (view_text stacked v' Q) as (q & V). rewrite V. cbn [obind].
  assert (E' : same_name (v_name v) (v_name v') = true) by now rewrite same_sym.
  rewrite (drop_texts stacked a v b _ H E').
  assert (Nw : has_view (map text_of (a ++ b)) (v_name v') = false).
  { unfold has_view. destruct (existsb _ _) eqn:X; [|reflexivity]. apply existsb_exists in X. destruct X as (e & I & Se). apply in_map_iff in I. destruct I as (w & <- & I). cbn [text_of fst] in Se.
    apply in_app_or in I. destruct I as [I|I]; [rewrite (ok_apart _ _ _ _ _ H' I) in Se|rewrite (N w I) in Se]; discriminate. }
  rewrite Nw. cbn [obind]. eexists. split; [reflexivity|]. intros fn db d names s cols rows S Qo M.
  assert (T : (v_name v', q) = text_of v') by (unfold text_of; now rewrite V). rewrite T.
  eapply (read_back stacked fn db (a ++ v' :: b)); [exact H'| |exact S|exact Qo|exact M]. apply (keeps_texts stacked); [exact H'| |].
  - rewrite !app_length, !map_length, !app_length. cbn [length]. lia.
  - intros e. rewrite !map_app, !in_app_iff. cbn [map In]. tauto.
Qed.

(** ** C353: DROP VIEW *)
(** The others stay as they are, and the name stands for the table again, if there is one. *)
Theorem c353_drop stacked a v b n : views_ok stacked (a ++ v :: b) -> views_ok stacked (a ++ b) -> same_name (v_name v) n = true ->
  exists st, exec_views [] (map (VCreate Default) (a ++ v :: b) ++ [VDrop n]) = Some st /\
  has_view st n = false /\
  forall fn db d names s cols rows, shows fn db (a ++ b) d -> query_ok stacked names s cols -> mean_query fn d names s cols = Some rows ->
    exists q, query_sql names s cols = Some q /\ read_views fn db st q = Some rows.
Proof.
  intros H H' E.
  assert (App : forall l l' st, exec_views st (l ++ l') = obind (exec_views st l) (fun st' => exec_views st' l')).
  { induction l as [|x l IH]; intros l' st; [reflexivity|]. cbn [app exec_views]. destruct (exec_view st x); [apply IH|reflexivity]. }
  rewrite App, (creates stacked _ H). cbn [obind exec_views exec_view].
  assert (Has : has_view (map text_of (a ++ v :: b)) n = true).
  { unfold has_view. apply existsb_exists. exists (text_of v). split; [|exact E]. apply in_map, in_or_app. right. now left. }
  rewrite Has. cbn [obind]. rewrite (drop_texts stacked a v b n H E). eexists. split; [reflexivity|]. split.
  - rewrite <- (drop_texts stacked a v b n H E). unfold has_view, drop_view. destruct (existsb _ _) eqn:X; [|reflexivity]. apply existsb_exists in X. destruct X as (e & I & Se). apply filter_In in I. rewrite Se in I. destruct I as [_ I]. discriminate.
  - intros fn db d names s cols rows S Qo M. eapply (read_back stacked fn db (a ++ b)); [exact H'| |exact S|exact Qo|exact M].
    apply (keeps_texts stacked); [exact H'|apply map_length|reflexivity].
Qed.

(** ** C354: CREATE VIEW of a name that is taken *)
(** Without OR REPLACE it changes nothing: it fails, or with IF NOT EXISTS it does nothing.  Of a name
    that is free, IF NOT EXISTS and OR REPLACE create the view as the plain statement does. *)
Theorem c354_taken st v : view_sql v <> None -> (exists e, In e st /\ same_name (fst e) (v_name v) = true) ->
  exec_view st (VCreate Default v) = None /\ exec_view st (VCreate IfNotExists v) = Some st.
Proof.
  intros V (e & I & S). cbn [exec_view]. destruct (view_sql v) as [q|]; [|contradiction]. cbn [obind].
  assert (H : has_view st (v_name v) = true) by (apply existsb_exists; now exists e). rewrite H. now split.
Qed.
Theorem c354_free st v m : view_sql v <> None -> (forall e, In e st -> same_name (fst e) (v_name v) = false) ->
  exists q, view_sql v = Some q /\ exec_view st (VCreate m v) = Some (st ++ [(v_name v, q)]).
Proof.
  intros V N. destruct (view_sql v) as [q|] eqn:E; [|contradiction]. exists q. split; [reflexivity|]. cbn [exec_view]. rewrite E. cbn [obind].
  assert (D : drop_view st (v_name v) = st).
  { unfold drop_view. clear V E. induction st as [|e st IH]; [reflexivity|]. cbn [filter]. rewrite (N e (or_introl eq_refl)). cbn [negb]. f_equal. apply IH. intros x I. apply N. now right. }
  assert (H : has_view st (v_name v) = false).
  { unfold has_view. destruct (existsb _ _) eqn:X; [|reflexivity]. apply existsb_exists in X. destruct X as (e & I & Se). rewrite (N e I) in Se. discriminate. }
  destruct m; [|rewrite D|]; now rewrite H.
Qed.

(** *** Examples *)
(** CREATE VIEW a AS SELECT k AS x FROM t WHERE k > 1; CREATE VIEW b AS SELECT x AS y FROM A;
    SELECT y FROM b.  Then a with 0 instead of 1. *)
Definition over (n : Z) : scan := SProject (SFilter (STable "t" [1%Z]) (ECall "greater" (ECons (ECol 1) (ECons (ELit (Some n)) ENil)))) CNil [1%Z].
Definition view_a (n : Z) : view := View "a" (fun _ => "k"%string) (over n) [1%Z] ["x"%string].
Definition view_b : view := View "b" (fun _ => "x"%string) (SProject (STable "A" [1%Z]) CNil [1%Z]) [1%Z] ["y"%string].
Definition ask_b : scan := SProject (STable "B" [1%Z]) CNil [1%Z].
Definition view_db (t : string) : list frame := if String.eqb t "t" then [[("k"%string, Some 1%Z)]; [("k"%string, Some 2%Z)]] else [].
Lemma ask_ok n : query_ok false (fun _ => n) ask_b [1%Z].
Proof. split; [wf_tac|]. repeat split; try reflexivity; try discriminate. intros c [<-|[]]. now left. Qed.
Lemma a_ok n : (0 <= n <= 1)%Z -> query_ok false (fun _ => "k"%string) (over n) [1%Z].
Proof. intros N. assert (n = 0 \/ n = 1)%Z as [-> | ->] by lia; (split; [wf_tac|]; repeat split; try reflexivity; try discriminate; intros c [<-|[]]; now left). Qed.
Lemma b_ok : query_ok false (v_names view_b) (v_scan view_b) (v_ids view_b).
Proof. split; [wf_tac|]. repeat split; try reflexivity; try discriminate. intros c [<-|[]]. now left. Qed.
Lemma ab_ok n : (0 <= n <= 1)%Z -> views_ok false [view_a n; view_b].
Proof.
  intros N x v y E. destruct x as [|x1 [|x2 x]]; cbn [app] in E.
  - assert (v = view_a n /\ y = [view_b]) as [-> ->] by (split; congruence). split; [exact (a_ok n N)|]. split; [reflexivity|]. split.
    + intros w [<-|[]]. reflexivity.
    + intros t c w [I|[]] Iw. assert (t = "t"%string) as -> by congruence. destruct Iw as [<-|[<-|[]]]; reflexivity.
  - assert (v = view_b /\ y = []) as [-> ->] by (split; congruence). split; [exact b_ok|]. split; [reflexivity|]. split.
    + intros w [].
    + intros t c w [I|[]] Iw. assert (t = "A"%string) as -> by congruence. destruct Iw as [<-|[]]; reflexivity.
  - destruct x; discriminate.
Qed.
Example c351_example : views_ok false [view_a 1; view_b] /\ query_ok false (fun _ => "y"%string) ask_b [1%Z] /\
  (exists d, shows ex_fn view_db [view_a 1; view_b] d /\ mean_query ex_fn d (fun _ => "y"%string) ask_b [1%Z] = Some [[Some 2%Z]]) /\
  match exec_views [] (map (VCreate Default) [view_a 1; view_b]), query_sql (fun _ => "y"%string) ask_b [1%Z] with
  | Some st, Some q => read_views ex_fn view_db st q = Some [[Some 2%Z]]
  | _, _ => False
  end.
Proof.
  split; [apply ab_ok; lia|]. split; [apply ask_ok|]. split.
  - eexists. split.
    + change [view_a 1; view_b] with (([] ++ [view_a 1]) ++ [view_b]). eapply shows_view; [eapply shows_view; [apply shows_none|reflexivity]|reflexivity].
    + reflexivity.
  - reflexivity.
Qed.
Example c352_example : views_ok false ([] ++ view_a 1 :: [view_b]) /\ views_ok false ([] ++ view_a 0 :: [view_b]) /\
  (exists d, shows ex_fn view_db [view_a 0; view_b] d /\ mean_query ex_fn d (fun _ => "y"%string) ask_b [1%Z] = Some [[Some 1%Z]; [Some 2%Z]]) /\
  match exec_views [] (map (VCreate Default) [view_a 1; view_b] ++ [VCreate Replace (view_a 0)]), query_sql (fun _ => "y"%string) ask_b [1%Z] with
  | Some st, Some q => read_views ex_fn view_db st q = Some [[Some 1%Z]; [Some 2%Z]]
  | _, _ => False
  end.
Proof.
  split; [apply (ab_ok 1); lia|]. split; [apply (ab_ok 0); lia|]. split.
  - eexists. split.
    + change [view_a 0; view_b] with (([] ++ [view_a 0]) ++ [view_b]). eapply shows_view; [eapply shows_view; [apply shows_none|reflexivity]|reflexivity].
    + reflexivity.
  - reflexivity.
Qed.
Example c353_example : views_ok false ([view_a 1] ++ view_b :: []) /\ views_ok false ([view_a 1] ++ []) /\ same_name (v_name view_b) "B" = true.
Proof. split; [apply (ab_ok 1); lia|]. split; [|reflexivity]. apply (ok_prefix false _ [view_b]). apply (ab_ok 1). lia. Qed.
Example c354_example : view_sql (view_a 1) <> None /\ match view_sql (view_a 0) with Some q => exec_view [("A"%string, q)] (VCreate Default (view_a 1)) = None | None => False end.
Proof. split; [discriminate|reflexivity]. Qed.

Print Assumptions c351_views.
Print Assumptions c352_replace.
Print Assumptions c353_drop.
Print Assumptions c354_taken.
Print Assumptions c354_free.
