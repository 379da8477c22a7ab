(** Queries of the described shapes are accepted and return what they mean (C137); set operations
    and aggregates that do not (C223-C225). *)
From Coq Require Import Ascii String List ZArith Lia Bool.
From Verif Require Import GoBase DecModel DecFacts QueryModel QuerySpec QueryProofs QueryProps AcceptSpec AcceptProofs.
Import ListNotations.
Local Open Scope string_scope.

Lemma ok_with_id names c : ok (names c) -> ok (with_id names c).
Proof. intros H. unfold with_id. apply ok_app; [exact H|]. apply ok_app; [split; reflexivity|apply ok_dec]. Qed.
Lemma accepted stacked names s cols : wf_scan in64 True [] [] s -> top s = true -> shape stacked s = true ->
  (stacked = true -> clean s = true /\ forall c, tame (names c) = true) -> exists q, query_sql names s cols = Some q.
Proof.
  intros W Sd Sh Cl.
  destruct (accept stacked names (with_id names) in64 True (in64_inj names) (no_json_id names)) as (_ & _ & A & _).
  { intros St c. apply ok_with_id, tame_ok. now apply Cl. }
  { intros St c. apply tame_ok. now apply Cl. }
  destruct (A s [] [] [] W) as (r & E & _ & K); try assumption.
  { intros c []. }
  { intros c []. }
  { intros k x []. }
  { intros St. now apply Cl. }
  { intros St k x []. }
  unfold query_sql, format_query. rewrite E. cbn [obind fst].
  destruct s; try discriminate Sd; cbn [kind] in K.
  - destruct K as (x & -> & _). eexists. reflexivity.
  - destruct K as (x & -> & _). eexists. reflexivity.
  - destruct K as (x & -> & _). eexists. reflexivity.
  - destruct K as (i & f & w & -> & _). eexists. reflexivity.
  - destruct K as [x ->]. eexists. reflexivity.
  - destruct K as (i & f & w & ks & -> & _). eexists. reflexivity.
  - destruct K as (i & f & ->). eexists. reflexivity.
  - destruct K as (i & f & w & -> & _). eexists. reflexivity.
Qed.

(** C137.  [mean_query] is defined only where every scalar subquery gives at most one row, and
    [wf_scan] has no join whose right side is a join. *)
Theorem c137_query : forall stacked fn db names s cols rows,
  wf_scan in64 True [] [] s -> top s = true -> shape stacked s = true ->
  (stacked = true -> clean s = true /\ forall c, tame (names c) = true) ->
  (forall c, In c cols -> In c (out s)) -> cols <> [] ->
  mean_query fn db names s cols = Some rows ->
  exists q, query_sql names s cols = Some q /\ eval_query fn db [] q = Some rows.
Proof.
  intros stacked fn db names s cols rows W Sd Sh Cl Sub Ne M. destruct (accepted stacked names s cols W Sd Sh Cl) as [q Q].
  exists q. split; [exact Q|]. now apply (query_accepted fn db names s cols q rows).
Qed.
(** SELECT k, (SELECT v FROM u WHERE u.k = t.k) FROM t WHERE EXISTS (...), as in QueryProps *)
Example c137_query_example : wf_scan in64 True [] [] ex_scan /\ top ex_scan = true /\ shape false ex_scan = true /\
  mean_query ex_fn ex_db ex_names ex_scan [1; 7]%Z = Some [[Some 2%Z; Some 20%Z]].
Proof. split; [wf_tac|]. repeat split; reflexivity. Qed.
(** SELECT k FROM (SELECT k FROM t WHERE k > 1) WHERE 3 > k *)
Definition stacked_scan : scan :=
  SProject (SFilter (SProject (SFilter (STable "t" [1%Z]) (ECall "greater" (ECons (ECol 1) (ECons (ELit (Some 1%Z)) ENil)))) CNil [1%Z])
             (ECall "greater" (ECons (ELit (Some 3%Z)) (ECons (ECol 1) ENil)))) CNil [1%Z].
Example c137_stacked_example : wf_scan in64 True [] [] stacked_scan /\ top stacked_scan = true /\ shape true stacked_scan = true /\
  clean stacked_scan = true /\ (forall c, tame (ex_names c) = true) /\
  mean_query ex_fn ex_db ex_names stacked_scan [1%Z] = Some [[Some 2%Z]].
Proof.
  split; [wf_tac|]. repeat split; try reflexivity. intros c. unfold ex_names. destruct (_ || _)%bool; [reflexivity|]. destruct (_ || _)%bool; reflexivity.
Qed.
(** SELECT t.k FROM t JOIN (SELECT k FROM u LIMIT 1) AS d ON t.k = d.k *)
Definition join_scan : scan :=
  SProject (SJoin JInner (STable "t" [1%Z]) (SLimit (SProject (STable "u" [2%Z]) CNil [2%Z]) 1 None [2%Z]) (eq2 1 2)) CNil [1%Z].
Example c137_join_example : wf_scan in64 True [] [] join_scan /\ top join_scan = true /\ shape false join_scan = true /\
  mean_query ex_fn ex_db ex_names join_scan [1%Z] = Some [[Some 2%Z]].
Proof. split; [wf_tac|]. repeat split; reflexivity. Qed.

(** ORDER BY, set operations, GROUP BY with HAVING, RIGHT and FULL JOIN *)
Definition ex_db3 (t : string) : list frame :=
  if String.eqb t "t" then [[("k", Some 1%Z); ("v", None)]; [("k", Some 2%Z); ("v", Some 7%Z)]; [("k", Some 1%Z); ("v", Some 9%Z)]; [("k", Some 3%Z); ("v", Some 7%Z)]]
  else if String.eqb t "u" then [[("k", Some 2%Z)]; [("k", Some 4%Z)]; [("k", Some 2%Z)]]
  else [].
Definition ex_names3 (c : Z) : string :=
  if Z.eqb c 1 then "k" else if Z.eqb c 2 then "v" else if Z.eqb c 3 then "k" else "$col1".
(** COUNT( * ) is the number of rows. *)
Definition ex_fn3 (f : string) (l : list val) : val :=
  if String.eqb f "count_star" then match l with n :: _ => n | [] => None end else ex_fn f l.
Lemma tame3 c : tame (ex_names3 c) = true.
Proof. unfold ex_names3. destruct (Z.eqb c 1); [reflexivity|]. destruct (Z.eqb c 2); [reflexivity|]. destruct (Z.eqb c 3); reflexivity. Qed.
(** SELECT k, v FROM t ORDER BY v NULLS LAST, k DESC *)
Definition order_scan : scan := SOrder (SProject (STable "t" [1; 2]%Z) CNil [1; 2]%Z) [(2%Z, false, NLast); (1%Z, true, NDefault)] [1; 2]%Z.
Example c137_order_example : wf_scan in64 True [] [] order_scan /\ top order_scan = true /\ shape false order_scan = true /\
  mean_query ex_fn3 ex_db3 ex_names3 order_scan [1; 2]%Z = Some [[Some 3; Some 7]; [Some 2; Some 7]; [Some 1; Some 9]; [Some 1; None]]%Z.
Proof. split; [wf_tac|]. repeat split; reflexivity. Qed.
(** (SELECT k FROM t) EXCEPT DISTINCT (SELECT k FROM u) *)
Definition set_scan : scan :=
  SSet ExceptDistinct (NCons (SProject (STable "t" [1%Z]) CNil [1%Z]) [1%Z] (NCons (SProject (STable "u" [3%Z]) CNil [3%Z]) [3%Z] NNil)) [4%Z].
Example c137_set_example : wf_scan in64 True [] [] set_scan /\ top set_scan = true /\ shape false set_scan = true /\
  mean_query ex_fn3 ex_db3 ex_names3 set_scan [4%Z] = Some [[Some 1]; [Some 3]]%Z.
Proof. split; [wf_tac|]. repeat split; reflexivity. Qed.
(** SELECT k, COUNT( * ) FROM t GROUP BY k HAVING COUNT( * ) > 1 *)
Definition having_scan : scan :=
  SProject (SFilter (SAgg (STable "t" [1%Z]) (CCons 5 (ECol 1) CNil) (ACons 6 "count_star" ENil ANil) [5; 6]%Z)
             (ECall "greater" (ECons (ECol 6) (ECons (ELit (Some 1%Z)) ENil)))) CNil [5; 6]%Z.
Example c137_having_example : wf_scan in64 True [] [] having_scan /\ top having_scan = true /\ shape true having_scan = true /\
  clean having_scan = true /\ (forall c, tame (ex_names3 c) = true) /\
  mean_query ex_fn3 ex_db3 ex_names3 having_scan [5; 6]%Z = Some [[Some 1; Some 2]]%Z.
Proof. split; [wf_tac|]. repeat split; try reflexivity. exact tame3. Qed.
(** SELECT t.k, u.k FROM t FULL JOIN u ON t.k = u.k *)
Definition full_scan : scan := SProject (SJoin JFull (STable "t" [1%Z]) (STable "u" [3%Z]) (eq2 1 3)) CNil [1; 3]%Z.
Example c137_full_example : wf_scan in64 True [] [] full_scan /\ top full_scan = true /\ shape false full_scan = true /\
  mean_query ex_fn3 ex_db3 ex_names3 full_scan [1; 3]%Z =
    Some [[Some 1; None]; [Some 2; Some 2]; [Some 2; Some 2]; [Some 1; None]; [Some 3; None]; [None; Some 4]]%Z.
Proof. split; [wf_tac|]. repeat split; reflexivity. Qed.

(** UNNEST.  10 is the array [100, 101] and 20 the empty one. *)
Definition ex_fn4 (f : string) (l : list val) : val :=
  if String.eqb f "array.length" then match l with [Some 10%Z] => Some 2%Z | [Some 20%Z] => Some 0%Z | _ => None end
  else if String.eqb f "array.at" then match l with [Some 10%Z; Some i] => Some (100 + i)%Z | _ => None end
  else ex_fn f l.
Definition ex_db4 (t : string) : list frame :=
  if String.eqb t "t" then [[("k", Some 1%Z); ("a", Some 10%Z)]; [("k", Some 101%Z); ("a", Some 10%Z)]; [("k", Some 3%Z); ("a", Some 20%Z)]; [("k", Some 4%Z); ("a", None)]] else [].
Definition ex_names4 (c : Z) : string := if Z.eqb c 1 then "k" else if Z.eqb c 2 then "a" else if Z.eqb c 3 then "x" else if Z.eqb c 4 then "i" else "$col1".
Lemma tame4 c : tame (ex_names4 c) = true.
Proof. unfold ex_names4. destruct (Z.eqb c 1); [reflexivity|]. destruct (Z.eqb c 2); [reflexivity|]. destruct (Z.eqb c 3); [reflexivity|]. destruct (Z.eqb c 4); reflexivity. Qed.
(** SELECT k, x, i FROM t, UNNEST(t.a) AS x WITH OFFSET AS i WHERE x > 100 *)
Definition unnest_scan : scan :=
  SProject (SFilter (SArray (STable "t" [1; 2]%Z) (ECol 2) 3 (Some 4%Z) (JComma false)) (ECall "greater" (ECons (ECol 3) (ECons (ELit (Some 100%Z)) ENil)))) CNil [1; 3; 4]%Z.
Example c137_unnest_example : wf_scan in64 True [] [] unnest_scan /\ top unnest_scan = true /\ shape false unnest_scan = true /\
  mean_query ex_fn4 ex_db4 ex_names4 unnest_scan [1; 3; 4]%Z = Some [[Some 1; Some 101; Some 1]; [Some 101; Some 101; Some 1]]%Z.
Proof. split; [wf_tac|]. repeat split; reflexivity. Qed.
(** SELECT k, x FROM t LEFT JOIN UNNEST(t.a) AS x ON x = t.k *)
Definition unnest_left : scan := SProject (SArray (STable "t" [1; 2]%Z) (ECol 2) 3 None (JOn true (eq2 3 1))) CNil [1; 3]%Z.
Example c137_unnest_left_example : wf_scan in64 True [] [] unnest_left /\ top unnest_left = true /\ shape true unnest_left = true /\
  clean unnest_left = true /\ (forall c, tame (ex_names4 c) = true) /\
  mean_query ex_fn4 ex_db4 ex_names4 unnest_left [1; 3]%Z = Some [[Some 1; None]; [Some 101; Some 101]; [Some 3; None]; [Some 4; None]]%Z.
Proof. split; [wf_tac|]. repeat split; try reflexivity. exact tame4. Qed.
(** SELECT k FROM t WHERE EXISTS (SELECT 1 FROM UNNEST(t.a) AS x WHERE x = t.k) *)
Definition unnest_sub : scan :=
  SProject (SFilter (STable "t" [1; 2]%Z) (EExists (SProject (SFilter (SArray SSingle (ECol 2) 3 None (JComma false)) (eq2 3 1)) (CCons 5 (ELit (Some 1%Z)) CNil) [5%Z]))) CNil [1%Z].
Example c137_unnest_sub_example : wf_scan in64 True [] [] unnest_sub /\ top unnest_sub = true /\ shape false unnest_sub = true /\
  mean_query ex_fn4 ex_db4 ex_names4 unnest_sub [1%Z] = Some [[Some 101%Z]].
Proof. split; [wf_tac|]. repeat split; reflexivity. Qed.

(** ** C245: LEFT JOIN UNNEST without ON *)
(** The text is that of the inner join, wherever the scan stands, and a row whose array is empty
    is lost. *)
Lemma array_outer_text u names s a elem off m :
  format_scan u names (SArray s a elem off (JComma true)) m = format_scan u names (SArray s a elem off (JComma false)) m.
Proof. reflexivity. Qed.
Definition left_scan (t : string) (outer : bool) : scan := SProject (SArray (STable t [1; 2]%Z) (ECol 2) 3 None (JComma outer)) CNil [1; 3]%Z.
Lemma left_rows fn db names t rows :
  mean_query fn db names (left_scan t true) [1; 3]%Z = Some rows -> forall l, every (of_table names [1; 2]%Z) (db t) = Some l ->
  (forall z v, In z l -> col 2 z = Some v -> elements fn v = []) -> length rows = length (db t) /\ mean_query fn db names (left_scan t false) [1; 3]%Z = Some [].
Proof.
  intros M l T Em. unfold mean_query, left_scan in *. rewrite !mn_project, !mn_array, !mn_table in *. rewrite T in *.
  pose proof (proj1 (every_forall2 _ _ _) T) as T2. pose proof (forall2_len _ _ _ T2) as Ln.
  assert (Me : forall z, In z l -> exists v, col 2 z = Some v /\ elements fn v = []).
  { intros z I. clear M. assert (K : map fst z = [1; 2]%Z).
    { clear -T2 I. induction T2 as [|r z0 rs l E T2 IH]; [destruct I|]. destruct I as [->|I]; [|auto]. unfold of_table in E. apply every_forall2 in E.
      clear -E. revert E. generalize [1; 2]%Z. intros cs E. induction E as [|c p cs z E1 E IH]; [reflexivity|]. cbn [map]. rewrite IH. destruct (in_frame (names c) r); [|discriminate]. now assert (p = (c, v)) as -> by congruence. }
    assert (C : exists v, col 2 z = Some v) by (apply col_some; rewrite K; cbn; tauto). destruct C as [v C]. exists v. split; [exact C|]. now apply (Em z). }
  assert (Ev : forall (outer : bool) k, (forall z, In z k -> In z l) ->
     every (fun z => match mean fn db names (z ++ [])%list (ECol 2) with
        | Some v => let xs := map (fun y => (z ++ y)%list) (array_rows 3 None (elements fn v)) in
            Some (match xs with [] => if outer then [(z ++ blank (array_ids 3 None))%list] else [] | _ => xs end)
        | None => None end) k = Some (map (fun z => if outer then [(z ++ blank (array_ids 3 None))%list] else []) k)).
  { intros outer. induction k as [|z k IH]; intros Sub; [reflexivity|]. rewrite every_cons, IH by (intros; apply Sub; now right).
    destruct (Me z (Sub z (or_introl eq_refl))) as (v & C & E). change (mean fn db names (z ++ [])%list (ECol 2)) with (col 2 (z ++ [])%list). rewrite app_nil_r, C, E. reflexivity. }
  split.
  - match type of M with context [every ?F l] => replace (every F l) with (Some (map (fun z : binding => [(z ++ blank (array_ids 3 None))%list]) l)) in M by (symmetry; apply (Ev true l); auto) end.
    match type of M with context [every ?F (concat ?X)] => destruct (every F (concat X)) as [l1|] eqn:E1 end; [|discriminate].
    destruct (every (pick [1; 3]%Z) l1) as [l2|] eqn:E2; [|discriminate]. assert (rows = map (map snd) l2) by congruence. subst rows.
    apply every_forall2 in E1, E2. apply forall2_len in E1, E2. rewrite map_length. etransitivity; [symmetry; exact E2|]. etransitivity; [symmetry; exact E1|]. etransitivity; [|symmetry; exact Ln]. clear. induction l as [|z l IH]; [reflexivity|]. cbn [map concat app length]. now rewrite IH.
  - match goal with |- context [every ?F l] => replace (every F l) with (Some (map (fun z : binding => ([] : list binding)) l)) by (symmetry; apply (Ev false l); auto) end.
    assert (C : forall k : list binding, concat (map (fun _ : binding => ([] : list binding)) k) = []) by (intros k; induction k as [|z k IH]; [reflexivity|exact IH]). cbv beta iota. pose proof (C l) as Cl. unfold binding in *. rewrite Cl. reflexivity.
Qed.
Theorem c245_refuted : forall fn db names t rows l,
  mean_query fn db names (left_scan t true) [1; 3]%Z = Some rows -> every (of_table names [1; 2]%Z) (db t) = Some l ->
  (forall z v, In z l -> col 2 z = Some v -> elements fn v = []) ->
  length rows = length (db t) /\ exists q, query_sql names (left_scan t true) [1; 3]%Z = Some q /\ eval_query fn db [] q = Some [].
Proof.
  intros fn db names t rows l M T Em. destruct (left_rows fn db names t rows M l T Em) as [L M0]. split; [exact L|].
  destruct (c137_query false fn db names (left_scan t false) [1; 3]%Z []) as (q & Q & E); auto; try reflexivity; try discriminate.
  { clear. unfold left_scan. wf_tac. }
  exists q. split; [|exact E]. rewrite <- Q. reflexivity.
Qed.
Example c245_example : mean_query ex_fn4 ex_db4 ex_names4 (left_scan "t" true) [1; 3]%Z =
    Some [[Some 1; Some 100]; [Some 1; Some 101]; [Some 101; Some 100]; [Some 101; Some 101]; [Some 3; None]; [Some 4; None]]%Z /\
  obind (query_sql ex_names4 (left_scan "t" true) [1; 3]%Z) (eval_query ex_fn4 ex_db4 []) =
    Some [[Some 1; Some 100]; [Some 1; Some 101]; [Some 101; Some 100]; [Some 101; Some 101]]%Z /\
  (let db := fun _ => [[("k", Some 3%Z); ("a", Some 20%Z)]; [("k", Some 4%Z); ("a", None)]] in
   mean_query ex_fn4 db ex_names4 (left_scan "t" true) [1; 3]%Z = Some [[Some 3; None]; [Some 4; None]]%Z /\
   exists l, every (of_table ex_names4 [1; 2]%Z) (db "t") = Some l /\ forall z v, In z l -> col 2 z = Some v -> elements ex_fn4 v = []).
Proof.
  split; [reflexivity|]. split; [reflexivity|]. split; [reflexivity|]. eexists. split; [reflexivity|].
  intros z v [<-|[<-|[]]] C; cbn in C; injection C as <-; reflexivity.
Qed.

(** ** C246: columns called like those of json_each, in DELETE and UPDATE *)
(** DELETE FROM t WHERE EXISTS (SELECT 1 FROM UNNEST(a) AS x WHERE x = t.value) compares the
    elements with themselves.  What array the literal stands for is up to [fn]. *)
Definition json_names_ex (c : Z) : string := if Z.eqb c 1 then "value" else if Z.eqb c 2 then "x" else "$col1".
Definition json_cond : expr :=
  EExists (SProject (SFilter (SArray SSingle (ELit (Some 10%Z)) 2 None (JComma false)) (eq2 2 1)) (CCons 3 (ELit (Some 1%Z)) CNil) [3%Z]).
Definition json_arr : arr := Arr FNone (XLit (Some 10%Z)) "x" None OComma (WSome (XCall "equal" (XCons (XCol "x") (XCons (XCol "value") XNil)))).
Definition json_text : sexpr := XExists (Select (IAs (XLit (Some 1%Z)) "$col1" INil) (FJoins (KArr json_arr KNil)) WNone None).
Lemma each_self fn db env (ps : list (val * val)) : (forall p, In p ps -> fn "equal" [snd p; snd p] = Some 1%Z) ->
  ofilter (fun y => eval_expr fn db (each_scope "x" None y :: env) (XCall "equal" (XCons (XCol "x") (XCons (XCol "value") XNil)))) (map (pair ([] : row)) ps) = Some (map (pair ([] : row)) ps).
Proof.
  induction ps as [|p ps IH]; intros H; [reflexivity|]. cbn [map ofilter].
  assert (L : lookup "x" (each_scope "x" None ([] : row, p) :: env) = Some (snd p) /\ lookup "value" (each_scope "x" None ([] : row, p) :: env) = Some (snd p)) by (split; reflexivity).
  destruct L as [L1 L2]. rewrite ev_call, !ev_cons, !ev_col, ev_nil, L1, L2. cbn [obind]. rewrite (H p (or_introl eq_refl)), IH by (intros; apply H; now right). reflexivity.
Qed.
Theorem c246_refuted : delete_sql json_names_ex json_cond = Some json_text /\
  (forall fn db, each fn (Some 10%Z) <> [] -> (forall p, In p (each fn (Some 10%Z)) -> fn "equal" [snd p; snd p] = Some 1%Z) ->
    delete_rows fn db "t" json_text = Some []) /\
  mean_delete ex_fn4 (fun _ => [[("value", Some 100%Z)]; [("value", Some 7%Z)]]) json_names_ex "t" [1%Z] json_cond = Some [[("value", Some 7%Z)]].
Proof.
  split; [reflexivity|]. split; [|reflexivity]. intros fn db Ne Eq. unfold delete_rows.
  match goal with |- context [omap ?F (db "t")] => assert (O : omap F (db "t") = Some (map (fun _ => Some 1%Z) (db "t"))) end.
  { apply omap_forall2. induction (db "t") as [|r l IH]; cbn [map]; constructor; [|exact IH]. clear IH.
    unfold json_text, json_arr. rewrite ev_exists, ev_select, ev_from_joins, ev_group_arr, ev_arr, ev_from_none by discriminate. cbn [obind omap concat].
    change (eval_expr fn db [([], []); ([r], [])] (XLit (Some 10%Z))) with (Some (Some 10%Z)). cbn [obind concat]. rewrite app_nil_r.
    match goal with |- context [ofilter ?G ?L] => replace (ofilter G L) with (Some L) by (symmetry; apply (each_self fn db [([r], [])]); exact Eq) end.
    cbn [obind]. rewrite ev_joins_nil. cbn [obind]. destruct (each fn (Some 10%Z)) as [|p ps] eqn:Ep; [congruence|]. cbn [map].
    match goal with |- context [ofilter ?G ?L] => replace (ofilter G L) with (Some L) by (symmetry; apply ofilter_always) end. cbn [obind omap].
    rewrite ev_items_as, ev_items_nil. cbn [eval_expr obind]. match goal with |- context [omap ?G ?L] => assert (Z0 : exists z, omap G L = Some z) end.
    { clear. induction ps as [|q ps IH]; [now exists []|]. destruct IH as [z IH]. cbn [map omap]. rewrite ev_items_as, ev_items_nil. cbn [eval_expr obind]. rewrite IH. cbn [obind]. eauto. }
    destruct Z0 as [z ->]. reflexivity. }
  rewrite O. cbn [obind]. f_equal. clear. induction (db "t") as [|r l IH]; [reflexivity|exact IH].
Qed.
(** The array of 10 has elements, and "equal" is reflexive on them. *)
Example c246_example : each ex_fn4 (Some 10%Z) = [(Some 0, Some 100); (Some 1, Some 101)]%Z /\
  (forall p, In p (each ex_fn4 (Some 10%Z)) -> ex_fn4 "equal" [snd p; snd p] = Some 1%Z).
Proof. split; [reflexivity|]. intros p [<-|[<-|[]]]; reflexivity. Qed.

Lemma no_rows fn db env i f w lim : eval_from fn db env f = None -> eval_query fn db env (Select i f w lim) = None.
Proof. intros E. destruct i; [reflexivity| |]; rewrite ev_select, E by discriminate; reflexivity. Qed.

(** ** C223: INTERSECT ALL and EXCEPT ALL *)
Theorem c223_refuted : forall fn db names op s1 c1 s2 c2 r cols outs q,
  op = IntersectAll \/ op = ExceptAll ->
  query_sql names (SSet op (NCons s1 c1 (NCons s2 c2 r)) cols) outs = Some q -> eval_query fn db [] q = None.
Proof.
  intros fn db names op s1 c1 s2 c2 r cols outs q Op Q. unfold query_sql, format_query in Q. rewrite fm_set in Q.
  set (u := with_id names) in *. destruct (format_inputs u names _ []) as [[qs m]|] eqn:F; [|discriminate]. cbn [obind fst] in Q.
  assert (Ev : forall env, eval_query fn db env (Compound op qs) = None).
  { rewrite fm_ncons in F. destruct (format_scan u names s1 []) as [p1|]; [|discriminate]. cbn [obind] in F.
    rewrite fm_ncons in F. destruct (format_scan u names s2 (snd p1)) as [p2|]; [|discriminate]. cbn [obind] in F.
    destruct (format_inputs u names r (snd p2)) as [p3|]; [|discriminate]. cbn [obind] in F. destruct (input_from (fst p2)) as [f2 w2]. cbn [fst snd] in F.
    destruct (input_from (fst p1)) as [f1 w1]. cbn [obind fst snd] in F. assert (qs = QCons (Select (plain_items u c1) f1 w1 None) (QCons (Select (plain_items u c2) f2 w2 None) (fst p3))) by congruence. subst qs.
    intros env. change (obind (eval_query fn db env (Select (plain_items u c1) f1 w1 None)) (fun l => obind (eval_query fn db env (Select (plain_items u c2) f2 w2 None))
      (fun l' => obind (set_step op l l') (fun acc => eval_compound fn db env op acc (fst p3)))) = None).
    destruct (eval_query fn db env (Select (plain_items u c1) _ _ _)); [|reflexivity]. cbn [obind]. destruct (eval_query fn db env (Select (plain_items u c2) _ _ _)); [|reflexivity].
    cbn [obind]. destruct Op as [-> | ->]; reflexivity. }
  cbn [first_cols] in Q. assert (q = Select (out_items u names outs) (FJoins (KItem (Select (set_items u c1 cols) (FJoins (KItem (Compound op qs) KNil)) WNone None) KNil)) WNone None) by congruence. subst q.
  assert (In1 : eval_query fn db [] (Select (set_items u c1 cols) (FJoins (KItem (Compound op qs) KNil)) WNone None) = None) by
    (apply no_rows; rewrite ev_from_joins, ev_group_item, Ev; reflexivity).
  apply no_rows. rewrite ev_from_joins, ev_group_item, In1. reflexivity.
Qed.
(** Such statements are sent. *)
Example c223_example : exists q, query_sql ex_names3 (SSet IntersectAll (NCons (STable "t" [1%Z]) [1%Z] (NCons (STable "u" [3%Z]) [3%Z] NNil)) [4%Z]) [4%Z] = Some q.
Proof. eexists. reflexivity. Qed.
(** The other four operations return what they mean, in [c137_set_example] and: *)
Example c223_distinct_example :
  obind (query_sql ex_names3 (SSet IntersectDistinct (NCons (STable "t" [1%Z]) [1%Z] (NCons (STable "u" [3%Z]) [3%Z] NNil)) [4%Z]) [4%Z]) (eval_query ex_fn3 ex_db3 []) = Some [[Some 2%Z]].
Proof. reflexivity. Qed.

(** ** C224: the same column twice in the first input of a set operation *)
Lemma set_items_same fn db u env : forall a b vs i j c, length a = length b ->
  eval_items fn db env (set_items u a b) = Some vs -> nth_error a i = Some c -> nth_error a j = Some c ->
  exists v, nth_error vs i = Some v /\ nth_error vs j = Some v.
Proof.
  assert (G : forall a b vs, length a = length b -> eval_items fn db env (set_items u a b) = Some vs ->
          forall i c, nth_error a i = Some c -> exists v, lookup (u c) env = Some v /\ nth_error vs i = Some v).
  { induction a as [|x a IH]; intros [|y b] vs L E i c N; try discriminate L; [destruct i; discriminate|].
    cbn [set_items eval_items eval_expr] in E. destruct (lookup (u x) env) as [v|] eqn:V; [|discriminate]. cbn [obind] in E.
    destruct (eval_items fn db env (set_items u a b)) as [l|] eqn:El; [|discriminate]. cbn [obind] in E. assert (vs = v :: l) by congruence. subst vs.
    destruct i as [|i]; cbn in N |- *; [assert (c = x) by congruence; subst; now exists v|]. apply (IH b l); auto. }
  intros a b vs i j c L E Ni Nj. destruct (G a b vs L E i c Ni) as (v & V & R). destruct (G a b vs L E j c Nj) as (w & W & R'). exists v. split; [exact R|congruence].
Qed.
Lemma omap_in {A B} (f : A -> option B) l : forall r y, omap f l = Some r -> In y r -> exists x, In x l /\ f x = Some y.
Proof.
  induction l as [|x l IH]; intros r y E I; cbn in E; [assert (r = []) by congruence; subst; contradiction|].
  destruct (f x) as [b|] eqn:F; [|discriminate]. cbn [obind] in E. destruct (omap f l) as [t|]; [|discriminate]. cbn [obind] in E. assert (r = b :: t) by congruence. subst r.
  destruct I as [<-|I]; [exists x; split; [now left|assumption]|]. destruct (IH t y eq_refl I) as (z & ? & ?). exists z. split; [now right|assumption].
Qed.
(** Whatever the other inputs are, the two columns are equal in every row. *)
Theorem c224_refuted :
  (forall fn db names op s1 c1 rest cols q m i j c rows row,
     length c1 = length cols -> nth_error c1 i = Some c -> nth_error c1 j = Some c ->
     format_scan (with_id names) names (SSet op (NCons s1 c1 rest) cols) [] = Some (RSelect q, m) ->
     eval_query fn db [] q = Some rows -> In row rows ->
     exists v, nth_error row i = Some v /\ nth_error row j = Some v) /\
  (exists s, top s = true /\ shape false s = true /\
     mean_query ex_fn3 ex_db3 ex_names3 s [7; 8]%Z = Some [[Some 2; Some 2]; [Some 4; Some 4]; [Some 2; Some 2]; [Some 1; None]; [Some 2; Some 7]; [Some 1; Some 9]; [Some 3; Some 7]]%Z /\
     obind (query_sql ex_names3 s [7; 8]%Z) (eval_query ex_fn3 ex_db3 []) =
       Some [[Some 2; Some 2]; [Some 4; Some 4]; [Some 2; Some 2]; [Some 1; Some 1]; [Some 2; Some 2]; [Some 1; Some 1]; [Some 3; Some 3]]%Z).
Proof.
  split.
  - intros fn db names op s1 c1 rest cols q m i j c rows row L Ni Nj F E I. rewrite fm_set in F. destruct (format_inputs _ _ _ _) as [[qs m0]|]; [|discriminate]. cbn [obind fst snd] in F.
    assert (q = Select (set_items (with_id names) c1 cols) (FJoins (KItem (Compound op qs) KNil)) WNone None) by (cbn [first_cols] in F; congruence). subst q.
    assert (Z : exists x, eval_items fn db x (set_items (with_id names) c1 cols) = Some row).
    { assert (Ni0 : set_items (with_id names) c1 cols <> INil) by (destruct c1, cols; try discriminate; destruct i; discriminate).
      rewrite ev_select in E by exact Ni0. destruct (eval_from fn db [] _) as [l|]; [|discriminate]. cbn [obind] in E. match type of E with obind ?o _ = _ => destruct o as [k|] end; [|discriminate E]. cbn [obind] in E.
      match type of E with obind ?o _ = _ => destruct o as [z|] eqn:Om end; [|discriminate E]. cbn [obind page] in E. assert (z = rows) by congruence. subst z.
      destruct (omap_in _ _ _ _ Om I) as (x & _ & Ex). eexists. exact Ex. }
    destruct Z as [x X]. exact (set_items_same fn db _ x c1 cols row i j c L X Ni Nj).
  - exists (SSet UnionAll (NCons (STable "u" [3%Z]) [3; 3]%Z (NCons (STable "t" [1; 2]%Z) [1; 2]%Z NNil)) [7; 8]%Z). repeat split; reflexivity.
Qed.
(** SELECT k, k FROM u UNION ALL SELECT k, v FROM t reaches SQLite. *)
Example c224_example : exists q m, format_scan (with_id ex_names3) ex_names3 (SSet UnionAll (NCons (STable "u" [3%Z]) [3; 3]%Z (NCons (STable "t" [1; 2]%Z) [1; 2]%Z NNil)) [7; 8]%Z) [] = Some (RSelect q, m).
Proof. eexists _, _. reflexivity. Qed.

(** ** C225: a condition on an aggregate without GROUP BY *)
(** SELECT COUNT( * ) FROM t HAVING FALSE *)
Definition bare_scan (e : expr) : scan := SProject (SFilter (SAgg (STable "t" [1%Z]) CNil (ACons 6 "count_star" ENil ANil) [6%Z]) e) CNil [6%Z].
Lemma filter_none (l : list row) : ofilter (fun _ => Some (Some 0%Z)) l = Some [].
Proof. induction l as [|x l IH]; [reflexivity|]. cbn [ofilter]. cbn. now rewrite IH. Qed.
Lemma every_zero fn db names env (l : list binding) : every (fun r => mean fn db names (r ++ env)%list (ELit (Some 0%Z))) l = Some (map (fun _ => Some 0%Z) l).
Proof. induction l as [|x l IH]; [reflexivity|]. change (match every (fun r => mean fn db names (r ++ env)%list (ELit (Some 0%Z))) l with Some k => Some (Some 0%Z :: k) | None => None end = Some (map (fun _ => Some 0%Z) (x :: l))). now rewrite IH. Qed.
Theorem c225_refuted :
  (forall fn db rows, mean_query fn db ex_names3 (bare_scan (ELit (Some 0%Z))) [6%Z] = Some rows -> rows = [] /\
     obind (query_sql ex_names3 (bare_scan (ELit (Some 0%Z))) [6%Z]) (eval_query fn db []) <> Some rows) /\
  (* HAVING COUNT( * ) > 1 makes the statement fail *)
  (forall fn db, db "t" <> [] -> obind (query_sql ex_names3 (bare_scan (ECall "greater" (ECons (ECol 6) (ECons (ELit (Some 1%Z)) ENil)))) [6%Z]) (eval_query fn db []) = None).
Proof.
  split.
  - intros fn db rows M.
    assert (R : rows = []).
    { unfold mean_query, bare_scan in M. rewrite mn_project, mn_filter in M. destruct (mean_scan fn db ex_names3 [] (SAgg _ _ _ _)) as [l|]; [|discriminate].
      assert (E : forall l : list binding, where_true l (map (fun _ => Some 0%Z) l) = []) by (intros k; induction k as [|x k IH]; [reflexivity|exact IH]).
      rewrite every_zero in M. rewrite E in M. cbn in M. congruence. }
    split; [exact R|]. subst rows.
    set (t := Select (IAs (XCol "k") "k#1" INil) (FTable "t") WNone None).
    set (g := Grouped (IAs (XAgg "count_star" XNil) "$col1#6" INil) (FJoins (KItem t KNil)) (WSome (XLit (Some 0%Z))) []).
    change (eval_query fn db [] (Select (IAs (XCol "$col1#6") "$col1" INil) (FJoins (KItem (Select (ICol "$col1#6" INil) (FJoins (KItem g KNil)) WNone None) KNil)) WNone None) <> Some []).
    assert (Eg : eval_query fn db [] g = None \/ eval_query fn db [] g = Some [[fn "count_star" [Some 0%Z]]]).
    { unfold g. rewrite ev_grouped by discriminate. destruct (eval_from fn db [] (FJoins (KItem t KNil))) as [l|]; [|now left]. cbn [obind eval_expr].
      rewrite filter_none. right. reflexivity. }
    destruct Eg as [Eg|Eg].
    + rewrite no_rows; [discriminate|]. rewrite ev_from_joins, ev_group_item, no_rows; [reflexivity|]. now rewrite ev_from_joins, ev_group_item, Eg.
    + rewrite ev_select, ev_from_joins, ev_group_item by discriminate. rewrite ev_select, ev_from_joins, ev_group_item, Eg by discriminate. cbn. discriminate.
  - intros fn db Ne.
    set (t := Select (IAs (XCol "k") "k#1" INil) (FTable "t") WNone None).
    set (g := Grouped (IAs (XAgg "count_star" XNil) "$col1#6" INil) (FJoins (KItem t KNil)) (WSome (XCall "greater" (XCons (XCol "$col1#6") (XCons (XLit (Some 1%Z)) XNil)))) []).
    change (eval_query fn db [] (Select (IAs (XCol "$col1#6") "$col1" INil) (FJoins (KItem (Select (ICol "$col1#6" INil) (FJoins (KItem g KNil)) WNone None) KNil)) WNone None) = None).
    apply no_rows. rewrite ev_from_joins, ev_group_item, no_rows; [reflexivity|]. rewrite ev_from_joins, ev_group_item.
    assert (Eg : eval_query fn db [] g = None); [|now rewrite Eg].
    unfold g. rewrite ev_grouped, ev_from_joins, ev_group_item by discriminate. destruct (eval_query fn db [] t) as [l|] eqn:Et; [|reflexivity].
    assert (Nl : l <> []).
    { unfold t in Et. rewrite ev_select, ev_from_table in Et by discriminate. cbn [obind] in Et. destruct (db "t") as [|f fs]; [congruence|]. cbn [map ofilter] in Et. cbn in Et. clear -Et. intros ->.
      match type of Et with obind (obind ?o _) _ = _ => destruct o as [k|] end; [|discriminate Et]. cbn in Et.
      match type of Et with obind (obind ?o _) _ = _ => destruct o end; [|discriminate Et]. cbn in Et.
      match type of Et with obind (obind ?o _) _ = _ => destruct o end; discriminate Et. }
    destruct l as [|x l]; [congruence|]. cbn [obind item_rows map]. rewrite ev_joins_nil. cbn [obind ofilter]. destruct x; reflexivity.
Qed.
(** On a table of four rows, HAVING FALSE gives one row and means none. *)
Example c225_example : mean_query ex_fn3 ex_db3 ex_names3 (bare_scan (ELit (Some 0%Z))) [6%Z] = Some [] /\
  obind (query_sql ex_names3 (bare_scan (ELit (Some 0%Z))) [6%Z]) (eval_query ex_fn3 ex_db3 []) = Some [[Some 0%Z]] /\ ex_db3 "t" <> [].
Proof. repeat split; try reflexivity. discriminate. Qed.

Print Assumptions c137_query.
Print Assumptions c245_refuted.
Print Assumptions c246_refuted.
Print Assumptions c223_refuted.
Print Assumptions c224_refuted.
Print Assumptions c225_refuted.
