(** INSERT, UPDATE, NOT NULL and PRIMARY KEY, and the types of columns (C247-C257). *)
From Coq Require Import Ascii String List ZArith Lia Bool.
From Verif Require Import GoBase DecModel QueryModel QuerySpec QueryProofs QueryProps AcceptSpec AcceptProofs AcceptProps EncModel CodecModel DmlModel DmlSpec DmlProofs.
Import ListNotations.
Local Open Scope string_scope.

(** What INSERT must do with rows whose values are known *)
Definition inserts fn other name t0 names cols key old listed text (vss : list (list val)) : Prop :=
  let new := map (filled names cols listed) vss in
  (lawful names cols key (old ++ new) -> exec_dml fn other name (set_rows t0 old) text = Some (set_rows t0 (old ++ new))) /\
  (~ lawful names cols key (old ++ new) -> exec_dml fn other name (set_rows t0 old) text = None).
Definition tables (other : string -> list frame) (name : string) (rows : list frame) (n : string) : list frame :=
  if String.eqb n name then rows else other n.

Lemma insert_ok fn other name names cols key old listed i vss :
  distinct (map (fun c => names (k_id c)) cols) = true -> NoDup (map k_id cols) -> incl listed (map k_id cols) ->
  (forall vs, In vs vss -> length vs = length listed) -> lawful names cols key old ->
  new_rows fn (tables other name old) (the_table names cols key old) i = Some (map (filled names cols listed) vss) ->
  inserts fn other name (the_table names cols key []) names cols key old listed (MInsert i) vss.
Proof.
  intros D N Sub Ln L E. unfold inserts. set (new := map (filled names cols listed) vss) in *. change (set_rows (the_table names cols key []) old) with (the_table names cols key old).
  change (set_rows (the_table names cols key []) (old ++ new)) with (the_table names cols key (old ++ new)).
  assert (X : exec_dml fn other name (the_table names cols key old) (MInsert i) = add_rows (the_table names cols key old) new).
  { cbn [exec_dml]. change (s_rows (the_table names cols key old)) with old.
    change (fun n => if String.eqb n name then old else other n) with (tables other name old). now rewrite E. }
  rewrite X. split.
  - intros W. apply (add_rows_iff names cols key new old _ L). now split.
  - intros W. destruct (add_rows (the_table names cols key old) new) as [t'|] eqn:A; [|reflexivity].
    apply (add_rows_iff names cols key new old t' L) in A as [A _]. contradiction.
Qed.

(** ** C247: INSERT ... VALUES *)
Theorem c247_values : forall fn db other name names cols key t0 old listed l,
  exec_create fn db (create_sql (table_def names cols key None)) = Some t0 -> NoDup (map k_id cols) ->
  lawful names cols key old -> incl listed (map k_id cols) ->
  (forall r, In r l -> length r = length listed) -> Forall (Forall simple) l ->
  exists vss text, mean_source fn (tables other name old) names (Values l) = Some vss /\
    insert_stmt names (Insert OrError listed (Values l) None) = Some text /\
    inserts fn other name t0 names cols key old listed text vss.
Proof.
  intros fn db other name names cols key t0 old listed l C N L Sub Ln Sm. apply created in C as [-> D].
  destruct (simple_rows fn (tables other name old) names l Sm) as (vss & M & Lv & F). destruct (F []) as (xs & Fx & Ex).
  exists vss, (MInsert (IValues (map names listed) xs)). split; [exact M|]. split.
  - unfold insert_stmt, insert_sql. cbn [i_cols i_source]. rewrite Fx. reflexivity.
  - assert (Lv' : forall vs, In vs vss -> length vs = length listed).
    { clear -Lv Ln. induction Lv as [|v r vss l E Lv IH]; intros vs I; [contradiction|]. destruct I as [<-|I].
      - rewrite E. apply Ln. now left.
      - apply IH; [|assumption]. intros; apply Ln; now right. }
    apply insert_ok; auto. cbn [new_rows]. rewrite Ex. cbn [obind]. now apply new_rows_ok.
Qed.
(** CREATE TABLE t (id INT64 NOT NULL, v INT64, PRIMARY KEY (id)); INSERT INTO t (v, id) VALUES (7, 1), (NULL, 2) *)
Definition dml_names (c : Z) : string := if (c =? 1)%Z then "id" else if (c =? 2)%Z then "v" else if (c =? 4)%Z then "ID" else "$col".
Definition dml_cols : list cdef := [Cdef 1 KInt64 true None; Cdef 2 KInt64 false None].
Definition no_fn (f : string) (l : list val) : val := None.
Definition no_db (t : string) : list frame := [].
Definition dml_lit (o : option Z) : dml_value := DExpr (ELit o).
Definition id_row (z : Z) : frame := [("id", Some z); ("v", None)].
Lemma dml_lawful a b : a <> b -> lawful dml_names dml_cols [1%Z] [id_row a; id_row b].
Proof.
  intros Ne. split.
  - intros r c I J N. destruct J as [<-|[<-|[]]]; [|discriminate N]. destruct I as [<-|[<-|[]]]; eexists; reflexivity.
  - intros _ i j x y N X Y E. destruct (E 1%Z (or_introl eq_refl)) as (z & A & B).
    destruct i as [|[|i]], j as [|[|j]]; cbn in X, Y; try congruence; try (destruct i; discriminate); try (destruct j; discriminate);
      injection X as <-; injection Y as <-; cbv in A, B; congruence.
Qed.
Example c247_example : exists t0, exec_create no_fn no_db (create_sql (table_def dml_names dml_cols [1%Z] None)) = Some t0 /\
  lawful dml_names dml_cols [1%Z] [id_row 3; id_row 4] /\
  forall text, insert_stmt dml_names (Insert OrError [2; 1]%Z (Values [[dml_lit (Some 7); dml_lit (Some 1)]; [dml_lit None; dml_lit (Some 2)]]%Z) None) = Some text ->
    exec_dml no_fn no_db "t" (set_rows t0 [id_row 3]) text = Some (set_rows t0 [id_row 3; [("id", Some 1%Z); ("v", Some 7%Z)]; id_row 2]) /\
    exec_dml no_fn no_db "t" (set_rows t0 [id_row 2]) text = None.
Proof.
  eexists. split; [reflexivity|]. split; [apply dml_lawful; discriminate|]. intros text H. vm_compute in H. injection H as <-. split; reflexivity.
Qed.

(** ** C248: INSERT ... SELECT *)
Theorem c248_select : forall stacked fn db other name names cols key t0 old listed s vss,
  exec_create fn db (create_sql (table_def names cols key None)) = Some t0 -> NoDup (map k_id cols) ->
  lawful names cols key old -> incl listed (map k_id cols) -> length (out s) = length listed ->
  wf_scan in64 True [] [] s -> selects s = true -> shape stacked s = true ->
  (stacked = true -> clean s = true /\ forall c, tame (names c) = true) ->
  mean_source fn (tables other name old) names (From s) = Some vss ->
  exists text, insert_stmt names (Insert OrError listed (From s) None) = Some text /\
    inserts fn other name t0 names cols key old listed text vss.
Proof.
  intros stacked fn db other name names cols key t0 old listed s vss C N L Sub Ln W Se Sh Cl M. apply created in C as [-> D].
  destruct (accept stacked names (with_id names) in64 True (in64_inj names) (no_json_id names)) as (_ & _ & A & _).
  { intros St c. apply ok_with_id, tame_ok. now apply Cl. }
  { intros St c. apply tame_ok. now apply Cl. }
  destruct (A s [] [] [] W) as (r & E & _ & K); try assumption.
  { intros c []. }
  { intros c []. }
  { intros k x []. }
  { intros St. now apply Cl. }
  { intros St k x []. }
  assert (Q : exists q, r = RSelect q).
  { exact (kind_select _ s r K Se). }
  destruct Q as [q ->]. exists (MInsert (ISelect (map names listed) q)). split.
  { unfold insert_stmt, insert_sql. cbn [i_cols i_source]. rewrite E. reflexivity. }
  cbn [mean_source] in M. destruct (mean_scan fn (tables other name old) names [] s) as [l|] eqn:Ml; [|discriminate].
  assert (vss = map (map snd) l) by (cbn in M; congruence). subst vss.
  destruct (refine fn (tables other name old) names (with_id names) in64 True (in64_inj names) (no_json_id names)) as (_ & _ & R & _).
  destruct (R s [] [] [] (RSelect q) [] W ltac:(intros c []) ltac:(intros c []) ltac:(intros k x []) E) as [_ H].
  destruct (H [] [] l ltac:(intros c v []) Ml) as [Kl P]. cbn [part_ok] in P. destruct P as (Nq & Eq & _).
  assert (Hn : forall vs, In vs (map (map snd) l) -> length vs = length listed).
  { intros vs I. apply in_map_iff in I as (b & <- & I). rewrite map_length. rewrite Forall_forall in Kl. rewrite <- Ln, <- (Kl b I). now rewrite map_length. }
  apply insert_ok; auto. cbn [new_rows]. rewrite Eq. cbn [obind]. now apply new_rows_ok.
Qed.

(** INSERT INTO t (id) SELECT id + 1 FROM t *)
Definition succ_fn (f : string) (l : list val) : val :=
  if String.eqb f "add" then match l with [Some a; Some b] => Some (a + b)%Z | _ => None end else None.
Definition succ (c : Z) : expr := ECall "add" (ECons (ECol c) (ECons (ELit (Some 1%Z)) ENil)).
Definition succ_scan : scan := SProject (STable "t" [4%Z]) (CCons 5 (succ 4) CNil) [5%Z].
Example c248_example : exists t0, exec_create succ_fn no_db (create_sql (table_def dml_names dml_cols [1%Z] None)) = Some t0 /\
  wf_scan in64 True [] [] succ_scan /\ selects succ_scan = true /\ shape false succ_scan = true /\
  mean_source succ_fn (tables no_db "t" [id_row 3; id_row 5]) dml_names (From succ_scan) = Some [[Some 4]; [Some 6]]%Z /\
  forall text, insert_stmt dml_names (Insert OrError [1%Z] (From succ_scan) None) = Some text ->
    exec_dml succ_fn no_db "t" (set_rows t0 [id_row 3; id_row 5]) text = Some (set_rows t0 (map id_row [3; 5; 4; 6]%Z)) /\
    exec_dml succ_fn no_db "t" (set_rows t0 [id_row 3; id_row 4]) text = None.
Proof.
  eexists. split; [reflexivity|]. split; [wf_tac|]. repeat (split; [reflexivity|]). intros text H. vm_compute in H. injection H as <-. split; reflexivity.
Qed.

(** ** C249: NOT NULL and PRIMARY KEY hold after any statements *)
Theorem c249_lawful : forall fn db name names cols key t0 history,
  exec_create fn db (create_sql (table_def names cols key None)) = Some t0 ->
  lawful names cols key (s_rows (exec_all name t0 history)).
Proof.
  intros fn db name names cols key t0 history C. apply created in C as [-> _].
  destruct (exec_all_lawful name names cols key history []) as (rows & -> & L); [|exact L].
  split; [intros r c []|]. intros _ [|i] j a b _ H; discriminate.
Qed.
Example c249_example : exists t0, exec_create no_fn no_db (create_sql (table_def dml_names dml_cols [1%Z] None)) = Some t0 /\
  let add z := (no_fn, no_db, MInsert (IValues ["id"] [[Some (XLit z)]])) in
  s_rows (exec_all "t" t0 [add (Some 1); add (Some 2); add (Some 1); add None; (no_fn, no_db, MUpdate [("id", XLit (Some 9))] (XLit (Some 1)))])%Z = map id_row [1; 2]%Z.
Proof. eexists. split; reflexivity. Qed.

(** ** C250: the columns of CREATE TABLE ... AS *)
Theorem c250_refuted : forall stacked fn db names cols key s ids rows,
  wf_scan in64 True [] [] s -> top s = true -> shape stacked s = true ->
  (stacked = true -> clean s = true /\ forall c, tame (names c) = true) ->
  (forall c, In c ids -> In c (out s)) -> ids <> [] -> mean_query fn db names s ids = Some rows ->
  exists q t, query_sql names s ids = Some q /\ exec_create fn db (create_sql (table_def names cols key (Some q))) = Some t /\
    s_rows t = map (combine (map names ids)) rows /\ s_key t = [] /\ forall c, In c (s_cols t) -> snd c = false.
Proof.
  intros stacked fn db names cols key s ids rows W T Sh Cl Sub Ne M. destruct (c137_query stacked fn db names s ids rows W T Sh Cl Sub Ne M) as (q & Q & E).
  exists q. eexists. split; [exact Q|]. split; [cbn [create_sql table_def d_query exec_create]; rewrite E; reflexivity|].
  assert (Nm : query_names q = map names ids).
  { unfold query_sql, format_query in Q. destruct (format_scan (with_id names) names s []) as [[r m]|]; [|discriminate]. cbn [obind fst] in Q.
    destruct r; try discriminate Q; match type of Q with Some ?x = _ => assert (X : q = x) by congruence end; rewrite X; cbn [query_names]; apply out_names. }
  rewrite Nm. cbn [s_rows s_key s_cols]. repeat split. intros c I. apply in_map_iff in I as (n & <- & _). reflexivity.
Qed.
(** CREATE TABLE t (id INT64 NOT NULL) AS SELECT NULL *)
Example c250_example : exists q t, query_sql dml_names (SProject SSingle (CCons 1 (ELit None) CNil) [1%Z]) [1%Z] = Some q /\
  exec_create no_fn no_db (create_sql (table_def dml_names [Cdef 1 KInt64 true None] [] (Some q))) = Some t /\
  s_rows t = [[("id", None)]] /\ ~ lawful dml_names [Cdef 1 KInt64 true None] [] (s_rows t).
Proof.
  eexists. eexists. split; [reflexivity|]. split; [reflexivity|]. split; [reflexivity|]. intros [H _].
  destruct (H _ _ (or_introl eq_refl) (or_introl eq_refl) eq_refl) as (z & E). discriminate.
Qed.

(** ** C251: UPDATE and the constraints *)
Definition col_items (l : list (Z * expr)) : list (target * dml_value) := map (fun p => (ToCol (fst p), DExpr (snd p))) l.
Lemma col_items_plain l : omap plain_item (col_items l) = Some l.
Proof. unfold col_items. induction l as [|[c e] l IH]; [reflexivity|]. cbn [map omap plain_item fst snd]. now rewrite IH. Qed.
Lemma shaped_plain names cols other name old : distinct (map (fun c => names (k_id c)) cols) = true -> shaped names cols old -> plain_rows (tables other name old) name.
Proof.
  intros D Sh r I. unfold tables in I. rewrite String.eqb_refl in I. rewrite <- (map_map fst lower), (Sh r I).
  revert D. generalize (map (fun c => names (k_id c)) cols). intros l. induction l as [|n l IH]; intros D; [constructor|]. cbn in D. apply andb_prop in D as [X D].
  cbn. constructor; [|now apply IH]. intros J. apply in_map_iff in J as (k & E & J). apply negb_true_iff in X. assert (Y : existsb (same_name n) l = true).
  { apply existsb_exists. exists k. split; [exact J|]. unfold same_name. rewrite E. apply String.eqb_refl. }
  congruence.
Qed.
Lemma all2_impl {A B} (P Q : A -> B -> Prop) : (forall a b, P a b -> Q a b) -> forall l m, Forall2 P l m -> Forall2 Q l m.
Proof. intros H l m F. induction F; constructor; auto. Qed.
Lemma in_frame_set names ids vs c : apart_names names ids -> In c ids -> incl (map fst vs) ids -> ~ In c (map fst vs) -> forall r : frame,
  in_frame (names c) (set_cols names vs r) = in_frame (names c) r.
Proof.
  intros Inj Ic Sub Ni r. induction r as [|[n v] r IH]; [reflexivity|]. unfold in_frame in *. cbn [set_cols map find fst snd].
  destruct (find (fun q => same_name (names (fst q)) n) vs) as [q|] eqn:F; cbn [fst snd].
  - destruct (same_name n (names c)) eqn:E.
    + exfalso. apply find_some in F as [I S']. assert (X : same_name (names (fst q)) (names c) = true) by (rewrite (same_trans _ _ _ S'); exact E).
      apply Inj in X; [|apply Sub; now apply in_map|assumption]. subst. apply Ni. now apply in_map.
    + exact IH.
  - destruct (same_name n (names c)) eqn:E; [reflexivity|exact IH].
Qed.
(** Missing: keys that change, see c251_refuted.  When the statement succeeds it makes the rows
    it should; one that does not set columns of the key fails only if a NOT NULL column would
    be NULL. *)
Theorem c251_partial : forall fn db other name names cols key t0 ids old l w text rows,
  exec_create fn db (create_sql (table_def names cols key None)) = Some t0 ->
  apart_names names ids -> incl (map k_id cols) ids -> incl key ids -> incl (map fst l) ids -> NoDup (map fst l) ->
  wf (fun c => In c ids) (apart_json names ids) (map k_id cols) [] w ->
  (forall p, In p l -> wf (fun c => In c ids) (apart_json names ids) (map k_id cols) [] (snd p)) ->
  shaped names cols old -> lawful names cols key old ->
  update_stmt names (Update (col_items l) w None) = Some text ->
  mean_update fn (tables other name old) names name (map k_id cols) l w = Some rows ->
  (exec_dml fn other name (set_rows t0 old) text = Some (set_rows t0 rows) /\ lawful names cols key rows \/
   exec_dml fn other name (set_rows t0 old) text = None) /\
  ((forall c, In c key -> ~ In c (map fst l)) ->
   exec_dml fn other name (set_rows t0 old) text = Some (set_rows t0 rows) <-> lawful names cols key rows).
Proof.
  intros fn db other name names cols key t0 ids old l w text rows C Inj Sc Sk Sl Nd W Wl Sh L T M. apply created in C as [-> D].
  unfold update_stmt in T. cbn [u_items u_where] in T. rewrite col_items_plain in T. cbn [obind] in T.
  destruct (update_sql names l None w) as [[its x]|] eqn:U; [|discriminate]. assert (text = MUpdate its x) by (cbn in T; congruence). subst text.
  pose proof (c138_update_partial fn (tables other name old) names ids name (map k_id cols) l w its x rows Inj Sc Sl Nd (shaped_plain _ _ _ _ _ D Sh) W Wl U M) as R.
  change (set_rows (the_table names cols key []) old) with (the_table names cols key old).
  change (set_rows (the_table names cols key []) rows) with (the_table names cols key rows).
  assert (X : exec_dml fn other name (the_table names cols key old) (MUpdate its x) =
    obind (change_rows (the_table names cols key old) [] (combine old rows)) (fun r => Some (the_table names cols key r))).
  { cbn [exec_dml]. change (s_rows (the_table names cols key old)) with old.
    change (fun n => if String.eqb n name then old else other n) with (tables other name old). rewrite R. reflexivity. }
  assert (Ln : length old = length rows).
  { unfold update_rows in R. apply omap_length in R. unfold tables in R. rewrite String.eqb_refl in R. congruence. }
  assert (L' : lawful names cols key ([] ++ map fst (combine old rows))) by (cbn [app]; now rewrite map_fst_combine).
  rewrite X. split.
  - destruct (change_iff names cols key (combine old rows) [] old L') as [[E Q]|E]; rewrite E; [left|now right].
    cbn [app obind] in *. rewrite map_snd_combine in * by assumption. now split.
  - intros Nk. split.
    + destruct (change_iff names cols key (combine old rows) [] old L') as [[E Q]|E]; [|rewrite E; discriminate]. intros _. cbn [app] in Q. now rewrite map_snd_combine in Q.
    + intros Q. rewrite (change_keys names cols key (combine old rows) [] old L').
      * cbn [app obind]. now rewrite map_snd_combine.
      * intros p c I J.
        assert (H : Forall2 (fun r n => in_frame (names c) n = in_frame (names c) r) old rows).
        { unfold mean_update in M. replace (tables other name old name) with old in M by (unfold tables; now rewrite String.eqb_refl). apply every_forall2 in M. eapply all2_impl; [|exact M].
          intros r n E. cbn beta in E. destruct (of_table names (map k_id cols) r) as [b|]; [|discriminate]. destruct (mean _ _ _ b w) as [v|]; [|discriminate].
          destruct (holds v); [|congruence]. destruct (values _ _ _ b l) as [vs|] eqn:V; [|discriminate]. assert (n = set_cols names vs r) by congruence. subst n.
          assert (Kv : map fst vs = map fst l).
          { unfold values in V. apply every_forall2 in V. clear -V. induction V as [|p q l vs E V IH]; [reflexivity|]. cbn. f_equal; [|exact IH].
            destruct (mean _ _ _ b (snd p)); [|discriminate]. assert (q = (fst p, v)) by congruence. now subst. }
          apply (in_frame_set names ids); auto; [rewrite Kv; assumption|rewrite Kv; now apply Nk]. }
        clear -H I. induction H as [|r n old rows E H IH]; [contradiction|]. destruct I as [<-|I]; [exact E|now apply IH].
      * rewrite map_snd_combine by assumption. now apply lawful_iff in Q as [F _].
Qed.

Example c251_example : exists t0 text, exec_create succ_fn no_db (create_sql (table_def dml_names dml_cols [1%Z] None)) = Some t0 /\
  update_stmt dml_names (Update (col_items [(2%Z, succ 1)]) (ELit (Some 1%Z)) None) = Some text /\
  mean_update succ_fn (tables no_db "t" [id_row 3; id_row 4]) dml_names "t" (map k_id dml_cols) [(2%Z, succ 1)] (ELit (Some 1%Z)) =
    Some [[("id", Some 3); ("v", Some 4)]; [("id", Some 4); ("v", Some 5)]]%Z /\
  exec_dml succ_fn no_db "t" (set_rows t0 [id_row 3; id_row 4]) text = Some (set_rows t0 [[("id", Some 3); ("v", Some 4)]; [("id", Some 4); ("v", Some 5)]]%Z).
Proof. eexists. eexists. split; [reflexivity|]. split; [reflexivity|]. split; reflexivity. Qed.

(** UPDATE t SET id = id + 1 WHERE TRUE on the rows k and k + 1: the result would be fine. *)
Definition key_cols (nn : bool) : list cdef := [Cdef 1 KInt64 nn None].
Definition two_rows (names : Z -> string) (k : Z) : list frame := [[(names 1%Z, Some k)]; [(names 1%Z, Some (k + 1)%Z)]].
Definition step_update : update := Update (col_items [(1%Z, succ 1)]) (ELit (Some 1%Z)) None.
Lemma two_lawful names nn k : lawful names (key_cols nn) [1%Z] (two_rows names k).
Proof.
  assert (S1 : same_name (names 1%Z) (names 1%Z) = true) by (unfold same_name; apply String.eqb_refl). split.
  - intros r c I [<-|[]] _. destruct I as [<-|[<-|[]]]; unfold in_frame; cbn [find fst snd k_id]; rewrite S1; eexists; reflexivity.
  - intros _ i j x y N X Y E. destruct (E 1%Z (or_introl eq_refl)) as (z & A & B).
    destruct i as [|[|i]], j as [|[|j]]; cbn in X, Y; try congruence; try (destruct i; discriminate); try (destruct j; discriminate);
      injection X as <-; injection Y as <-; unfold in_frame in A, B; cbn [find fst snd] in A, B; rewrite S1 in A, B; cbn in A, B;
      assert (Some k = Some (k + 1)%Z) by congruence; assert (k = k + 1)%Z by congruence; lia.
Qed.
Theorem c251_refuted : forall (fn : string -> list val -> val) db other name names nn t0 text k,
  (forall a b, fn "add" [Some a; Some b] = Some (a + b)%Z) ->
  exec_create fn db (create_sql (table_def names (key_cols nn) [1%Z] None)) = Some t0 ->
  update_stmt names step_update = Some text ->
  lawful names (key_cols nn) [1%Z] (two_rows names k) /\
  mean_update fn (tables other name (two_rows names k)) names name [1%Z] [(1%Z, succ 1)] (ELit (Some 1%Z)) = Some (two_rows names (k + 1)) /\
  lawful names (key_cols nn) [1%Z] (two_rows names (k + 1)) /\
  exec_dml fn other name (set_rows t0 (two_rows names k)) text = None.
Proof.
  intros fn db other name names nn t0 text k Fn C T. apply created in C as [-> _].
  assert (S1 : same_name (names 1%Z) (names 1%Z) = true) by (unfold same_name; apply String.eqb_refl).
  split; [apply two_lawful|]. split; [|split; [apply two_lawful|]].
  - unfold mean_update. replace (tables other name (two_rows names k) name) with (two_rows names k) by (unfold tables; now rewrite String.eqb_refl).
    apply every_forall2. unfold two_rows. apply Forall2_cons; [|apply Forall2_cons; [|apply Forall2_nil]]; unfold of_table, every, in_frame; cbn [find fst snd fold_right]; rewrite S1;
      unfold values, every; cbn [fold_right mean mean_list succ snd fst col find Z.eqb Pos.eqb holds negb]; rewrite Fn;
      unfold set_cols; cbn [map find fst snd]; rewrite S1; reflexivity.
  - assert (If : forall v : val, in_frame (names 1%Z) [(names 1%Z, v)] = Some v) by (intros v; unfold in_frame; cbn [find fst snd]; now rewrite S1).
    assert (As : forall v w : val, assign (names 1%Z) w [(names 1%Z, v)] = [(names 1%Z, w)]) by (intros v w; unfold assign; now rewrite S1).
    cbn in T. assert (text = MUpdate [(names 1%Z, XCall "add" (XCons (XCol (names 1%Z)) (XCons (XLit (Some 1%Z)) XNil)))] (XLit (Some 1%Z))) by congruence. subst text.
    assert (U : update_rows fn (tables other name (two_rows names k)) name [(names 1%Z, XCall "add" (XCons (XCol (names 1%Z)) (XCons (XLit (Some 1%Z)) XNil)))] (XLit (Some 1%Z)) =
      Some (two_rows names (k + 1))).
    { unfold update_rows. replace (tables other name (two_rows names k) name) with (two_rows names k) by (unfold tables; now rewrite String.eqb_refl).
      unfold two_rows at 2. unfold update_row. cbn. rewrite !If. cbn [obind]. rewrite !Fn. cbn [obind fold_left fst snd]. rewrite !As. reflexivity. }
    cbn [exec_dml]. change (s_rows (set_rows (the_table names (key_cols nn) [1%Z] []) (two_rows names k))) with (two_rows names k).
    change (fun n => if String.eqb n name then two_rows names k else other n) with (tables other name (two_rows names k)). rewrite U. cbn [obind].
    unfold two_rows. cbn [combine change_rows map fst app]. unfold may_add. 
    match goal with |- context [clashes ?t ?r ?o] => assert (X : clashes t r o = true) end.
    { unfold clashes, key_of. cbn. rewrite !If. cbn. rewrite Z.eqb_refl. reflexivity. }
    rewrite X. rewrite andb_false_r. reflexivity.
Qed.
Example c251_refuted_example : (forall a b, succ_fn "add" [Some a; Some b] = Some (a + b)%Z) /\
  exists t0 text, exec_create succ_fn no_db (create_sql (table_def dml_names (key_cols true) [1%Z] None)) = Some t0 /\ update_stmt dml_names step_update = Some text.
Proof. split; [reflexivity|]. eexists. eexists. split; reflexivity. Qed.

(** ** C252: the names of key columns *)
Theorem c252_partial : forall fn db names cols key,
  apart_names names (map k_id cols) -> NoDup (map k_id cols) -> incl key (map k_id cols) ->
  (exists t0, exec_create fn db (create_sql (table_def names cols key None)) = Some t0) <-> forall c, In c key -> bare (names c) = true.
Proof.
  intros fn db names cols key Ap Nd Sub. cbn. rewrite !map_map. cbn.
  assert (D : distinct (map (fun c => names (k_id c)) cols) = true).
  { rewrite <- (map_map k_id names). revert Ap Nd. generalize (map k_id cols). clear. induction l as [|c l IH]; intros Ap Nd; [reflexivity|]. cbn.
    apply andb_true_iff. split.
    - apply negb_true_iff. destruct (existsb _ _) eqn:E; [|reflexivity]. apply existsb_exists in E as (n & I & E). apply in_map_iff in I as (d & <- & I).
      apply Ap in E; [|now left|now right]. subst. inversion Nd. contradiction.
    - apply IH; [|now inversion Nd]. intros a b I J. apply Ap; now right. }
  rewrite D. cbn [andb].
  assert (K : forallb (fun k => existsb (fun n => same_name n k) (map (fun c => names (k_id c)) cols)) (map names key) = true).
  { apply forallb_forall. intros n I. apply in_map_iff in I as (c & <- & I). apply Sub in I. apply existsb_exists. exists (names c).
    split; [rewrite <- (map_map k_id names); now apply in_map|unfold same_name; apply String.eqb_refl]. }
  rewrite K, andb_true_r. split.
  - intros [t0 H] c I. destruct (forallb bare (map names key)) eqn:B; [|discriminate]. rewrite forallb_forall in B. apply B. now apply in_map.
  - intros H. replace (forallb bare (map names key)) with true; [eexists; reflexivity|]. symmetry. apply forallb_forall. intros n I. apply in_map_iff in I as (c & <- & I). now apply H.
Qed.
(** CREATE TABLE t (Order INT64, PRIMARY KEY (Order)), and so for every word that SQLite reserves *)
Theorem c252_reserved_refuted : forall fn db names cols key c, In c key -> In (lower (names c)) reserved ->
  exec_create fn db (create_sql (table_def names cols key None)) = None.
Proof.
  intros fn db names cols key c I R. cbn. match goal with |- (if ?b then _ else _) = _ => assert (X : b = false) end; [|now rewrite X].
  assert (B : forallb bare (map names key) = false).
  { destruct (forallb bare (map names key)) eqn:E; [|reflexivity]. rewrite forallb_forall in E. specialize (E (names c) (in_map names _ _ I)).
    unfold bare in E. apply andb_prop in E as [_ E]. apply negb_true_iff in E. assert (Y : existsb (String.eqb (lower (names c))) reserved = true).
    { apply existsb_exists. exists (lower (names c)). split; [exact R|apply String.eqb_refl]. }
    congruence. }
  rewrite B. now rewrite andb_false_r.
Qed.
Example c252_example : let names c := if (c =? 1)%Z then "Order" else "index_no" in
  In (lower (names 1%Z)) reserved /\
  (exists t0, exec_create no_fn no_db (create_sql (table_def names [Cdef 1 KInt64 false None; Cdef 2 KInt64 false None] [2%Z] None)) = Some t0).
Proof. split; [|eexists; reflexivity]. repeat (try (left; reflexivity); right). Qed.

(** ** C253: DEFAULT *)
Lemma default_row names l : forall m r m', In DDefault l -> format_row names l m = Some (r, m') -> In None r.
Proof.
  induction l as [|v l IH]; intros m r m' I F; [contradiction|]. cbn [format_row] in F.
  destruct (format_value names v m) as [[x m1]|] eqn:V; [|discriminate]. cbn [obind fst snd] in F.
  destruct (format_row names l m1) as [[xs m2]|] eqn:R; [|discriminate]. cbn [obind fst snd] in F. assert (r = x :: xs) by congruence. subst r.
  destruct I as [->|I]; [left; cbn in V; congruence|right; eapply IH; eassumption].
Qed.
Lemma omap_none {A B} (f : A -> option B) l x : In x l -> f x = None -> omap f l = None.
Proof.
  intros I F. induction l as [|y l IH]; [contradiction|]. cbn. destruct I as [->|I]; [now rewrite F|]. rewrite (IH I). now destruct (f y).
Qed.
Lemma default_rows names l row : In row l -> In DDefault row -> forall m rs m', format_rows names l m = Some (rs, m') -> exists r, In r rs /\ In None r.
Proof.
  intros I J. induction l as [|v l IH]; intros m rs m' F; [contradiction|]. cbn [format_rows] in F.
  destruct (format_row names v m) as [[x m1]|] eqn:V; [|discriminate]. cbn [obind fst snd] in F.
  destruct (format_rows names l m1) as [[xs m2]|] eqn:R; [|discriminate]. cbn [obind fst snd] in F. assert (rs = x :: xs) by congruence. subst rs.
  destruct I as [->|I]; [exists x; split; [now left|eapply default_row; eassumption]|].
  destruct (IH I _ _ _ R) as (r & A & B). exists r. split; [now right|exact B].
Qed.
Theorem c253_insert_refuted : forall fn other name names t mode listed l row n, In row l -> In DDefault row ->
  forall text, insert_stmt names (Insert mode listed (Values l) n) = Some text -> exec_dml fn other name t text = None.
Proof.
  intros fn other name names t mode listed l row n I J text T. unfold insert_stmt, insert_sql in T. cbn [i_cols i_source] in T.
  destruct (format_rows names l []) as [[rs m]|] eqn:F; [|discriminate]. cbn [obind fst] in T.
  assert (text = MInsert (IValues (map names listed) rs)) by congruence. subst text. destruct (default_rows _ _ _ I J _ _ _ F) as (r & A & B).
  cbn [exec_dml new_rows]. match goal with |- context [omap ?f rs] => assert (X : omap f rs = None) end; [|now rewrite X].
  apply omap_none with (x := r); [exact A|]. cbn beta. now rewrite (omap_none (fun o : option sexpr => o) r None B eq_refl).
Qed.
Theorem c253_update_refuted : forall names items w n c, In (c, DDefault) items -> update_stmt names (Update items w n) = None.
Proof.
  intros names items w n c I. unfold update_stmt. cbn [u_items]. rewrite (omap_none plain_item items (c, DDefault) I); [reflexivity|]. now destruct c.
Qed.
(** INSERT INTO t (id, v) VALUES (1, DEFAULT) *)
Example c253_example : exists text, insert_stmt dml_names (Insert OrError [1; 2]%Z (Values [[dml_lit (Some 1%Z); DDefault]]) None) = Some text /\
  mean_source no_fn no_db dml_names (Values [[dml_lit (Some 1%Z); DDefault]]) = Some [[Some 1%Z; None]].
Proof. eexists. split; reflexivity. Qed.

(** ** C254: INSERT OR IGNORE, OR REPLACE and OR UPDATE *)
Theorem c254_refuted : forall fn db other name names cols key t0 old listed l mode,
  exec_create fn db (create_sql (table_def names cols key None)) = Some t0 -> NoDup (map k_id cols) ->
  lawful names cols key old -> incl listed (map k_id cols) ->
  (forall r, In r l -> length r = length listed) -> Forall (Forall simple) l ->
  exists vss text, mean_source fn (tables other name old) names (Values l) = Some vss /\
    insert_stmt names (Insert mode listed (Values l) None) = Some text /\
    (~ lawful names cols key (old ++ map (filled names cols listed) vss) -> exec_dml fn other name (set_rows t0 old) text = None).
Proof.
  intros fn db other name names cols key t0 old listed l mode C N L Sub Ln Sm.
  destruct (c247_values fn db other name names cols key t0 old listed l C N L Sub Ln Sm) as (vss & text & M & T & [_ H]). exists vss, text. now repeat split.
Qed.
(** INSERT OR IGNORE INTO t (id) VALUES (3) *)
Example c254_example : exists t0 text, exec_create no_fn no_db (create_sql (table_def dml_names dml_cols [1%Z] None)) = Some t0 /\
  insert_stmt dml_names (Insert OrIgnore [1%Z] (Values [[dml_lit (Some 3%Z)]]) None) = Some text /\
  ~ lawful dml_names dml_cols [1%Z] ([id_row 3] ++ map (filled dml_names dml_cols [1%Z]) [[Some 3%Z]]) /\
  exec_dml no_fn no_db "t" (set_rows t0 [id_row 3]) text = None.
Proof.
  eexists. eexists. split; [reflexivity|]. split; [reflexivity|]. split; [|reflexivity]. intros [_ U].
  apply (U ltac:(discriminate) 0%nat 1%nat (id_row 3) (id_row 3)); [discriminate|reflexivity|reflexivity|]. intros c [<-|[]]. exists 3%Z. split; reflexivity.
Qed.

(** ** C255: ASSERT_ROWS_MODIFIED *)
Theorem c255_insert_refuted : forall fn db other name names cols key t0 old listed l n,
  exec_create fn db (create_sql (table_def names cols key None)) = Some t0 -> NoDup (map k_id cols) ->
  lawful names cols key old -> incl listed (map k_id cols) ->
  (forall r, In r l -> length r = length listed) -> Forall (Forall simple) l ->
  exists vss text, mean_source fn (tables other name old) names (Values l) = Some vss /\
    insert_stmt names (Insert OrError listed (Values l) (Some n)) = Some text /\
    inserts fn other name t0 names cols key old listed text vss.
Proof.
  intros fn db other name names cols key t0 old listed l n C N L Sub Ln Sm. exact (c247_values fn db other name names cols key t0 old listed l C N L Sub Ln Sm).
Qed.
(** UPDATE t SET v = 1 WHERE FALSE ASSERT_ROWS_MODIFIED 1 *)
Theorem c255_update_refuted : forall fn db other name names cols key t0 ids old l w n text rows,
  exec_create fn db (create_sql (table_def names cols key None)) = Some t0 ->
  apart_names names ids -> incl (map k_id cols) ids -> incl key ids -> incl (map fst l) ids -> NoDup (map fst l) ->
  wf (fun c => In c ids) (apart_json names ids) (map k_id cols) [] w ->
  (forall p, In p l -> wf (fun c => In c ids) (apart_json names ids) (map k_id cols) [] (snd p)) ->
  shaped names cols old -> lawful names cols key old -> (forall c, In c key -> ~ In c (map fst l)) ->
  update_stmt names (Update (col_items l) w (Some n)) = Some text ->
  mean_update fn (tables other name old) names name (map k_id cols) l w = Some rows -> lawful names cols key rows ->
  exec_dml fn other name (set_rows t0 old) text = Some (set_rows t0 rows).
Proof.
  intros fn db other name names cols key t0 ids old l w n text rows C Inj Sc Sk Sl Nd W Wl Sh L Nk T M Lr.
  destruct (c251_partial fn db other name names cols key t0 ids old l w text rows C Inj Sc Sk Sl Nd W Wl Sh L T M) as [_ H]. now apply H.
Qed.
Example c255_example : exists t0 text, exec_create no_fn no_db (create_sql (table_def dml_names dml_cols [1%Z] None)) = Some t0 /\
  update_stmt dml_names (Update (col_items [(2%Z, ELit (Some 1%Z))]) (ELit (Some 0%Z)) (Some 1%nat)) = Some text /\
  exec_dml no_fn no_db "t" (set_rows t0 [id_row 3]) text = Some (set_rows t0 [id_row 3]).
Proof. eexists. eexists. split; [reflexivity|]. split; reflexivity. Qed.

(** ** C256, C257: column types *)
Theorem c257_column : forall F whole of_int number_text text_number k (g : go F), for_kind k g ->
  through_column F whole of_int number_text text_number k g = g.
Proof.
  intros F whole of_int number_text text_number k g H.
  assert (N : forall s, value_text s -> read_number F text_number s = None).
  { intros s (rest & ->). destruct (base64_head rest) as (t & ->). reflexivity. }
  destruct k, g as [|z|f|b|s|]; try contradiction; try reflexivity; try (destruct b; reflexivity); unfold through_column; cbn in H |- *; now rewrite (N s H).
Qed.
Example c257_example : for_kind KJson (GText Z (base64_text "{""header"":""Date"",""body"":""MjAyMC0wMS0wMQ==""}")) /\ for_kind KBool (GBool Z true).
Proof. split; [|exact I]. eexists. reflexivity. Qed.
(** A text of any length is stored in a column STRING(L). *)
Theorem c256_refuted : forall F whole of_int number_text text_number fn db names c rest key q l s, value_text s ->
  exec_create fn db (create_sql (table_def names (Cdef c KString false (Some l) :: rest) key q)) =
  exec_create fn db (create_sql (table_def names (Cdef c KString false None :: rest) key q)) /\
  through_column F whole of_int number_text text_number KString (GText F s) = GText F s.
Proof. intros F whole of_int number_text text_number fn db names c rest key q l s H. split; [reflexivity|]. now apply c257_column. Qed.

Print Assumptions c247_values.
Print Assumptions c248_select.
Print Assumptions c249_lawful.
Print Assumptions c250_refuted.
Print Assumptions c251_partial.
Print Assumptions c251_refuted.
Print Assumptions c252_partial.
Print Assumptions c252_reserved_refuted.
Print Assumptions c253_insert_refuted.
Print Assumptions c253_update_refuted.
Print Assumptions c254_refuted.
Print Assumptions c255_insert_refuted.
Print Assumptions c255_update_refuted.
Print Assumptions c257_column.
Print Assumptions c256_refuted.
