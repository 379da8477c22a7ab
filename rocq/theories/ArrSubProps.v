(** C365: ARRAY(subquery). *)
From Coq Require Import Ascii String List ZArith Lia Bool.
From Verif Require Import GoBase DecModel QueryModel QuerySpec QueryProofs QueryProps AcceptSpec AcceptProofs AcceptProps ArrSubModel ArrSubSpec ArrSubProofs.
From Verif Require ValueModel AggModel AggSpec AggProofs.
Import ListNotations.
Local Open Scope string_scope.
Local Open Scope list_scope.

(** The subquery s has one column, c, and may read the columns [vis] of the queries around it,
    to any depth; [rows] is what it means there.  [busy] are the columns being computed around
    the text, [m] their texts. *)
Theorem c365_array : forall stacked fn db names text loose conv fin vis busy m s c env b rows a,
  wf_scan in64 True vis busy s -> Forall in64 (vis ++ busy) -> apart vis busy -> keys_in (with_id names) m busy -> (stacked = true -> good_map m) ->
  selects s = true -> shape stacked s = true ->
  (stacked = true -> clean s = true /\ forall c, tame (names c) = true) ->
  out s = [c] -> in_scope names vis env b -> mean_scan fn db names b s = Some rows -> array_of conv c rows a ->
  (forall x, In (Some x) a -> no_option text loose x) ->
  runs_aggregate text loose agg_array conv fin (fn "array") ->
  exists x, format_array names s (out s) m = Some (x, m) /\
    eval_expr fn db env x = Some (fin (Ok (Some (ValueModel.VArray a)))).
Proof.
  intros stacked fn db names text loose conv fin vis busy m s c env b rows a W D Ap Km Gm Sel Sh Cl O Sc M A Or Ag.
  assert (D' : forall c, In c (vis ++ busy) -> in64 c) by now apply Forall_forall.
  destruct (accept stacked names (with_id names) in64 True (in64_inj names) (no_json_id names)) as (_ & _ & Ac & _).
  { intros St k. apply ok_with_id, tame_ok. now apply Cl. }
  { intros St k. apply tame_ok. now apply Cl. }
  destruct (Ac s vis busy m W D' Ap Km Sh) as (r & E & _ & K); [intros St; now apply Cl|exact Gm|].
  destruct (kind_select _ s r K Sel) as [q ->].
  destruct (refine fn db names (with_id names) in64 True (in64_inj names) (no_json_id names)) as (_ & _ & R & _).
  destruct (R s vis busy m (RSelect q) m W D' Ap Km E) as [_ H]. destruct (H env b rows Sc M) as (Ks & Nq & Ev & _).
  rewrite O in *. destruct (column conv c rows a Ks A) as (vs & Vs & -> & L). clear H.
  exists (array_text (with_id names c) q). unfold format_array. rewrite E. cbn [obind fst snd]. split; [reflexivity|].
  unfold array_text. rewrite ev_scalar, ev_grouped by discriminate. rewrite ev_from_joins, ev_group_item, Ev, Vs, Nq. cbn [obind]. rewrite ev_joins_nil. cbn [obind].
  assert (Fil : forall l, ofilter (fun _ : row => Some (Some 1%Z)) l = Some l) by exact ofilter_always.
  rewrite Fil. cbn [obind omap]. 
  assert (Keyed : forall (l : list row), omap (fun r : row => obind (Some (@nil val)) (fun k => Some (k, r))) l = Some (map (fun r => ([], r)) l)).
  { induction l as [|x l IH]; cbn [omap map]; [reflexivity|]. cbn [obind] in *. rewrite IH. reflexivity. }
  match goal with |- context [omap ?f (item_rows ?n ?l)] => replace (omap f (item_rows n l)) with (Some (map (fun r : row => (@nil val, r)) (item_rows n l))) by (symmetry; exact (Keyed (item_rows n l))) end.
  cbn [obind omap]. rewrite ev_gitems_agg.
  assert (Args : forall vs, omap (fun x => eval_exprs fn db ((x, []) :: env) (XCons (XCol (with_id names c)) XNil)) (item_rows (map (with_id names) [c]) (map (fun v => [v]) vs)) = Some (map (fun v => [v]) vs)).
  { clear. induction vs as [|v vs IH]; [reflexivity|]. unfold item_rows in *. cbn [map omap] in *. rewrite IH. cbn [eval_exprs eval_expr lookup in_frames combine]. unfold in_frame. cbn [find fst snd].
    assert (Sm : same_name (with_id names c) (with_id names c) = true) by (unfold same_name; apply String.eqb_refl). rewrite Sm. reflexivity. }
  rewrite Args. cbn [obind]. rewrite ev_gitems_nil. cbn [obind]. f_equal.
  assert (Cc : concat (map (fun v : val => [v]) vs) = vs) by (clear; induction vs as [|v vs IH]; cbn; [reflexivity|now rewrite IH]). rewrite Cc.
  assert (Ln : length (item_rows (map (with_id names) [c]) (map (fun v : val => [v]) vs)) = length vs) by (unfold item_rows; now rewrite !map_length). rewrite Ln.
  apply Ag. rewrite <- (map_map conv (fun v => [AggModel.AVal v])). now apply array_call.
Qed.
(** As a column of a query: SELECT cols FROM o, where c among cols is ARRAY(s) and s may read the
    columns of o.  In o no condition is put on a subquery with a condition, an order or groups
    of its own. *)
Theorem c365_select : forall stacked fn db names text loose conv fin o s c k cols l rows,
  wf_scan in64 True [] [c] o -> shape false o = true ->
  wf_scan in64 True (out o) [c] s -> selects s = true -> shape stacked s = true ->
  (stacked = true -> clean s = true /\ forall c, tame (names c) = true) -> out s = [k] ->
  in64 c -> ~ In c (out o) -> count_occ Z.eq_dec cols c = 1%nat -> (forall d, In d cols -> d = c \/ In d (out o)) ->
  mean_scan fn db names [] o = Some l -> every (with_array fn db names conv fin s c k cols) l = Some rows ->
  (forall z r a x, In z l -> mean_scan fn db names z s = Some r -> column_values conv k r = Some a -> In (Some x) a -> no_option text loose x) ->
  runs_aggregate text loose agg_array conv fin (fn "array") ->
  exists q, format_array_select names o s c (out s) cols = Some q /\ query_names q = map (with_id names) cols /\
    eval_query fn db [] q = Some (map (map snd) rows).
Proof.
  intros stacked fn db names text loose conv fin o s c k cols l rows Wo Sho Ws Sel Sh Cl O C64 Nc Cnt Sub Ml Ev No Ag.
  pose proof (fresh_out in64 True o [] [c] Wo) as FO.
  assert (Dv : forall d, In d (out o ++ [c]) -> in64 d).
  { intros d I. apply in_app_or in I. destruct I as [I|[<-|[]]]; [now apply FO|exact C64]. }
  assert (Ap : apart (out o) [c]) by (intros d I [<-|[]]; contradiction).
  assert (Ne : cols <> []) by (intros ->; discriminate Cnt).
  (* the text of the array *)
  destruct (accept stacked names (with_id names) in64 True (in64_inj names) (no_json_id names)) as (_ & _ & Ac & _).
  { intros St d. apply ok_with_id, tame_ok. now apply Cl. }
  { intros St d. apply tame_ok. now apply Cl. }
  destruct (Ac s (out o) [c] [] Ws Dv Ap) as (r & E & _ & K); [intros ? ? []|exact Sh|intros St; now apply Cl|intros St ? ? []|]. clear Ac.
  destruct (kind_select _ s r K Sel) as [q0 ->]. clear K.
  assert (Fa : format_array names s (out s) [] = Some (array_text (with_id names k) q0, [])) by (unfold format_array; rewrite E, O; reflexivity).
  set (x := array_text (with_id names k) q0) in *.
  assert (Hx : forall env z r a, in_scope names (out o) env z -> In z l -> mean_scan fn db names z s = Some r -> column_values conv k r = Some a ->
    eval_expr fn db env x = Some (fin (Ok (Some (ValueModel.VArray a))))).
  { intros env z r a Sc I M A.
    destruct (c365_array stacked fn db names text loose conv fin (out o) [c] [] s k env z r a Ws) as (x' & Fx & Ex); auto.
    - now apply Forall_forall.
    - intros ? ? [].
    - intros _ ? ? [].
    - now apply values_array.
    - intros y Iy. exact (No z r a y I M A Iy).
    - assert (x' = x) by congruence. now subst. }
  (* the input *)
  destruct (accept false names (with_id names) in64 True (in64_inj names) (no_json_id names)) as (_ & _ & Ac & _); [discriminate|discriminate|].
  assert (Km : keys_in (with_id names) [(with_id names c, x)] [c]).
  { intros n y [H|[]]. exists c. split; [now left|congruence]. }
  destruct (Ac o [] [c] [(with_id names c, x)] Wo) as (ro & Eo & _ & _); auto; [intros d [<-|[]]; exact C64|intros d []|discriminate|discriminate|]. clear Ac.
  destruct (refine fn db names (with_id names) in64 True (in64_inj names) (no_json_id names)) as (_ & _ & R & _).
  destruct (R o [] [c] [(with_id names c, x)] ro [(with_id names c, x)] Wo) as [_ H]; [intros d [<-|[]]; exact C64|intros d []|exact Km|exact Eo|].
  destruct (H [] [] l) as [Kl P]; [intros d v []|exact Ml|]. clear H R.
  assert (Dc : forall d, In d cols -> in64 d) by (intros d I; destruct (Sub d I) as [->|J]; [exact C64|now apply FO]).
  assert (T : take_items (with_id names) cols [(with_id names c, x)] = (mk_items (with_id names) (by_id [(c, x)]) cols, [])).
  { apply (take_items_ok fn db names (with_id names) in64 (in64_inj names) cols [(c, x)] [] []).
    - intros d [<-|[]]. exact C64.
    - intros ? ? [].
    - intros d [].
    - intros d I. split; [now apply Dc|intros []].
    - intros d [<-|[]]. exact Cnt. }
  unfold format_array_select. rewrite Fa. cbn [obind fst snd].
  change (set [] (with_id names c) x) with [(with_id names c, x)]. rewrite Eo. cbn [obind fst snd]. rewrite T, (surjective_pairing (input_from ro)).
  eexists. split; [reflexivity|]. split; [apply mk_names|].
  destruct (select_ok fn db (with_id names) in64 (in64_inj names) [] (out o) cols [] l rows ro (mk_items (with_id names) (by_id [(c, x)]) cols) None
             (with_array fn db names conv fin s c k cols)) as (_ & R2 & _); auto.
  - intros d I. rewrite app_nil_r in I. now apply FO.
  - intros d _ [].
  - apply mk_names.
  - intros d _ [].
  - intros z zs z' Iz Rz Fz. unfold with_array in Fz.
    destruct (mean_scan fn db names z s) as [rz|] eqn:Mz; [|discriminate]. destruct (column_values conv k rz) as [a|] eqn:Ca; [|discriminate].
    assert (Az : in_scope names (out o) [(zs, [])] z).
    { assert (A : agree (with_id names) (out o ++ []) [(zs, [])] (z ++ [])).
      { apply (agree_ext (with_id names) in64); auto; [intros d v []|intros d I; rewrite app_nil_r in I; now apply FO|intros d _ []]. }
      rewrite !app_nil_r in A. exact A. }
    pose proof (Hx _ z rz a Az Iz Mz Ca) as Ex.
    split; [now apply pick_keys in Fz|]. split.
    + apply (mk_items_eval fn db (with_id names) _ _ _ _ _ Fz). intros d v Id Cd. unfold by_id. cbn [find fst snd].
      unfold col in Cd. cbn [find fst snd] in Cd. revert Cd. destruct (Z.eqb_spec c d) as [->|N]; intros Cd.
      * cbn [snd] in *. rewrite <- Cd. exact Ex.
      * destruct (Sub d Id) as [->|J]; [congruence|]. apply Az; [exact J|exact Cd].
    + intros d Id Io. rewrite (pick_col _ _ _ d Fz Id). unfold col. cbn [find fst snd]. destruct (Z.eqb_spec c d) as [->|N]; [contradiction|reflexivity].
Qed.
(** ** C366: values whose text is read as an option *)
(** The row is left out, the query fails or the process panics: never the array of all values. *)
Theorem c366_option_refuted : forall text loose before x after t i r,
  (forall y, In (Some y) before -> no_option text loose y) -> (forall y, In (Some y) after -> no_option text loose y) ->
  text x = Ok t -> AggModel.starts_brace t = true -> loose t = Some i ->
  AggModel.call text loose agg_array (map (fun v => [AggModel.AVal v]) (before ++ Some x :: after)) r ->
  r = match i with
      | AggModel.IIgnore => Ok (Some (ValueModel.VArray (before ++ after)))
      | AggModel.IDistinct => Err
      | _ => GoPanic
      end.
Proof.
  intros text loose before x after t i r Hb Ha T B L C. unfold AggModel.call in C. rewrite map_app in C.
  assert (App : forall l1 l2 st, AggModel.outer_steps text loose agg_array st (l1 ++ l2) =
    bind (AggModel.outer_steps text loose agg_array st l1) (fun st' => AggModel.outer_steps text loose agg_array st' l2)).
  { induction l1 as [|y l1 IH]; intros l2 st; [reflexivity|]. cbn [app AggModel.outer_steps].
    destruct (AggModel.outer_step text loose agg_array st y); cbn [bind]; [apply IH|reflexivity|reflexivity]. }
  rewrite App in C. cbn [AggModel.init agg_array] in C.
  pose proof (array_steps text loose before AggModel.d_empty [] Hb) as S. cbn [agg_array] in S. rewrite S in C. clear S. cbn [bind app map AggModel.outer_steps] in C.
  unfold AggModel.outer_step in C. cbn [AggModel.parse_args] in C. rewrite T in C. unfold AggModel.option_of in C. rewrite B, L in C.
  destruct i; try exact C.
  change (match AggModel.outer_steps text loose agg_array (AggModel.d_empty, before) (map (fun v => [AggModel.AVal v]) after) with
          | Ok st => AggModel.exactly array_done (snd st) r
          | Err => r = Err
          | GoPanic => r = GoPanic
          end) in C.
  pose proof (array_steps text loose after AggModel.d_empty before Ha) as S.
  match type of C with context [AggModel.outer_steps ?p ?q ?x ?y ?z] => assert (S' : AggModel.outer_steps p q x y z = Ok (AggModel.d_empty, before ++ after)) by exact S; rewrite S' in C end.
  exact C.
Qed.

(** ** Cases *)
(** SELECT ARRAY(SELECT v FROM w WHERE w.k = t.k) ... *)
Definition arr_db (t : string) : list frame :=
  if String.eqb t "w" then [[("k", Some 2%Z); ("v", Some 5%Z)]; [("k", Some 3%Z); ("v", Some 4%Z)]; [("k", Some 2%Z); ("v", None)]; [("k", Some 2%Z); ("v", Some 1%Z)]] else [].
Definition arr_conv (v : val) : option ValueModel.val := match v with Some z => Some (ValueModel.VInt z) | None => None end.
(** The elements as digits behind a 1, 9 for NULL *)
Definition arr_fin (r : res (option ValueModel.val)) : val :=
  match r with
  | Ok (Some (ValueModel.VArray l)) => Some (fold_left (fun n x => n * 10 + match x with Some (ValueModel.VInt z) => z | _ => 9 end)%Z l 1%Z)
  | _ => None
  end.
Definition arr_fn (f : string) (l : list val) : val :=
  if String.eqb f "array" then match l with [] => None | _ :: r => arr_fin (Ok (Some (ValueModel.VArray (map arr_conv r)))) end else ex_fn f l.
Definition arr_sub : scan := SProject (SFilter (STable "w" [5; 6]%Z) (eq2 5 1)) CNil [6%Z].
Definition arr_text_of (v : ValueModel.val) : res string := Ok "x".
Example c365_example :
  wf_scan in64 True [1%Z] [] arr_sub /\ selects arr_sub = true /\ shape false arr_sub = true /\ out arr_sub = [6%Z] /\
  in_scope ex_names [1%Z] [([[(with_id ex_names 1, Some 2%Z)]], [])] [(1%Z, Some 2%Z)] /\
  mean_scan arr_fn arr_db ex_names [(1%Z, Some 2%Z)] arr_sub = Some [[(6%Z, Some 5%Z)]; [(6%Z, None)]; [(6%Z, Some 1%Z)]] /\
  array_of arr_conv 6 [[(6%Z, Some 5%Z)]; [(6%Z, None)]; [(6%Z, Some 1%Z)]] [Some (ValueModel.VInt 5); None; Some (ValueModel.VInt 1)] /\
  runs_aggregate arr_text_of (fun _ => None) agg_array arr_conv arr_fin (arr_fn "array") /\
  obind (format_array ex_names arr_sub [6%Z] []) (fun p => eval_expr arr_fn arr_db [([[(with_id ex_names 1, Some 2%Z)]], [])] (fst p)) = Some (Some 1591%Z) /\
  obind (format_array ex_names arr_sub [6%Z] []) (fun p => eval_expr arr_fn arr_db [([[(with_id ex_names 1, Some 7%Z)]], [])] (fst p)) = Some (Some 1%Z).
Proof.
  split; [wf_tac|]. split; [reflexivity|]. split; [reflexivity|]. split; [reflexivity|].
  split; [intros c v [<-|[]] E; assert (v = Some 2%Z) by (vm_compute in E; congruence); subst v; reflexivity|].
  split; [reflexivity|]. split.
  { apply (ao_row arr_conv 6 _ (Some 5%Z)); [reflexivity|]. apply (ao_row arr_conv 6 _ None); [reflexivity|]. apply (ao_row arr_conv 6 _ (Some 1%Z)); [reflexivity|]. apply ao_nil. }
  split; [|split; reflexivity].
  intros l r C. rewrite <- (map_map arr_conv (fun v => [AggModel.AVal v])) in C. apply array_call in C; [subst r; reflexivity|]. intros x _ t _ _. reflexivity.
Qed.
(** SELECT k, ARRAY(SELECT v FROM w WHERE w.k = t.k) FROM t: t has the keys 1, 2 and 3. *)
Definition arr_db2 (t : string) : list frame := if String.eqb t "t" then ex_db "t" else arr_db t.
Example c365_select_example :
  wf_scan in64 True [] [7%Z] (STable "t" [1%Z]) /\ shape false (STable "t" [1%Z]) = true /\ wf_scan in64 True [1%Z] [7%Z] arr_sub /\
  every (with_array arr_fn arr_db2 ex_names arr_conv arr_fin arr_sub 7 6 [1; 7]%Z) [[(1%Z, Some 1%Z)]; [(1%Z, Some 2%Z)]; [(1%Z, Some 3%Z)]] =
    Some [[(1%Z, Some 1%Z); (7%Z, Some 1%Z)]; [(1%Z, Some 2%Z); (7%Z, Some 1591%Z)]; [(1%Z, Some 3%Z); (7%Z, Some 14%Z)]] /\
  obind (format_array_select ex_names (STable "t" [1%Z]) arr_sub 7 [6%Z] [1; 7]%Z) (eval_query arr_fn arr_db2 []) =
    Some [[Some 1%Z; Some 1%Z]; [Some 2%Z; Some 1591%Z]; [Some 3%Z; Some 14%Z]].
Proof. split; [wf_tac|]. split; [reflexivity|]. split; [wf_tac|]. split; reflexivity. Qed.
Example c366_example : let loose (t : string) := if String.eqb t "{""type"":""aggregate_ignore_nulls"",""value"":null}" then Some AggModel.IIgnore else None in
  let text (v : ValueModel.val) := match v with ValueModel.VStr s => Ok s | _ => Ok "x" end in
  AggModel.option_text AggModel.IIgnore = Some "{""type"":""aggregate_ignore_nulls"",""value"":null}" /\
  AggModel.call text loose agg_array [[AggModel.AVal (Some (ValueModel.VStr "a"))]; [AggModel.AVal (Some (ValueModel.VStr "{""type"":""aggregate_ignore_nulls"",""value"":null}"))]]
    (Ok (Some (ValueModel.VArray [Some (ValueModel.VStr "a")]))).
Proof. split; reflexivity. Qed.

Print Assumptions c365_array.
Print Assumptions c365_select.
Print Assumptions c366_option_refuted.
