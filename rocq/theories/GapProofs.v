(** Lemmas for C328. *)
From Coq Require Import Ascii String List ZArith Lia Bool.
From Verif Require Import GoBase DecModel QueryModel GapModel GapSpec.
Import ListNotations.
Local Open Scope string_scope.

Scheme reads_mut := Minimality for reads Sort Prop
  with reads_some_mut := Minimality for reads_some Sort Prop.

Lemma same_name_refl n : same_name n n = true.
Proof. unfold same_name. apply String.eqb_refl. Qed.
Lemma get_set m n e : get (set m n e) n = Some e.
Proof. unfold get, set. cbn [find fst]. now rewrite String.eqb_refl. Qed.

Section Facts.
Variable names : Z -> string.
Variable fn : string -> list val -> val.
Variable db : string -> list frame.

(** Without FROM a column has no value. *)
Lemma reads_fails : forall e, reads e -> forall u nm m p, format_expr u nm e m = Some p -> eval_expr fn db [([], [])] (fst p) = None.
Proof.
  apply (reads_mut
    (fun e => forall u nm m p, format_expr u nm e m = Some p -> eval_expr fn db [([], [])] (fst p) = None)
    (fun a => forall u nm m p, format_exprs u nm a m = Some p -> eval_exprs fn db [([], [])] (fst p) = None)).
  - intros c u nm m p F. cbn [format_expr] in F. destruct (get m (u c)); [congruence|].
    assert (p = (XCol (u c), m)) by congruence. subst p. reflexivity.
  - intros f a _ IH u nm m p F. change (format_expr u nm (ECall f a) m) with (obind (format_exprs u nm a m) (fun p => Some (XCall f (fst p), snd p))) in F. destruct (format_exprs u nm a m) as [q|] eqn:E; cbn [obind] in F; [|congruence].
    assert (p = (XCall f (fst q), snd q)) by congruence. subst p. assert (X := IH _ _ _ _ E).
    change (obind (eval_exprs fn db [([], [])] (fst q)) (fun l => Some (fn f l)) = None). now rewrite X.
  - intros e r _ IH u nm m p F. change (format_exprs u nm (ECons e r) m) with (obind (format_expr u nm e m) (fun p => obind (format_exprs u nm r (snd p)) (fun q => Some (XCons (fst p) (fst q), snd q)))) in F. destruct (format_expr u nm e m) as [q|] eqn:E; cbn [obind] in F; [|congruence].
    destruct (format_exprs u nm r (snd q)) as [q'|] eqn:E'; cbn [obind] in F; [|congruence].
    assert (p = (XCons (fst q) (fst q'), snd q')) by congruence. subst p. change (obind (eval_expr fn db [([], [])] (fst q)) (fun v => obind (eval_exprs fn db [([], [])] (fst q')) (fun l => Some (v :: l))) = None).
    assert (X := IH _ _ _ _ E). now rewrite X.
  - intros e r _ IH u nm m p F. change (format_exprs u nm (ECons e r) m) with (obind (format_expr u nm e m) (fun p => obind (format_exprs u nm r (snd p)) (fun q => Some (XCons (fst p) (fst q), snd q)))) in F. destruct (format_expr u nm e m) as [q|] eqn:E; cbn [obind] in F; [|congruence].
    destruct (format_exprs u nm r (snd q)) as [q'|] eqn:E'; cbn [obind] in F; [|congruence].
    assert (p = (XCons (fst q) (fst q'), snd q')) by congruence. subst p. change (obind (eval_expr fn db [([], [])] (fst q)) (fun v => obind (eval_exprs fn db [([], [])] (fst q')) (fun l => Some (v :: l))) = None).
    assert (X := IH _ _ _ _ E'). rewrite X. destruct (eval_expr fn db [([], [])] (fst q)); reflexivity.
Qed.

(** SELECT e AS c FROM source *)
Lemma one_item s c e x m : format_expr (with_id names) names e [] = Some (x, m) ->
  run names fn db (Project (From s) (CCons c e CNil) [c]) [c] =
  obind (eval_expr fn db [([], [])] x) (fun v => Some [[v]]).
Proof.
  intros F. unfold run, query_sql, format_query.
  assert (G : format_scan (with_id names) names (placed (Project (From s) (CCons c e CNil) [c])) [] =
              Some (RSelect (Select (IAs x (with_id names c) INil) FNone WNone None), del (set m (with_id names c) x) (with_id names c))).
  { change (format_scan (with_id names) names (placed (Project (From s) (CCons c e CNil) [c])) []) with
      (obind (format_comps (with_id names) names (CCons c e CNil) []) (fun m1 => obind (format_scan (with_id names) names (source_scan s) m1) (fun p =>
        let (i, m2) := take_items (with_id names) [c] (snd p) in let (f, w) := input_from (fst p) in Some (RSelect (Select i f w None), m2)))).
    change (format_comps (with_id names) names (CCons c e CNil) []) with
      (obind (format_expr (with_id names) names e []) (fun p => Some (set (snd p) (with_id names c) (fst p)))).
    rewrite F. cbn [obind fst snd].
    assert (S1 : forall k, format_scan (with_id names) names (source_scan s) k = Some (RNone, k)) by (intros k; destruct s; reflexivity).
    rewrite S1. cbn [obind fst snd take_items]. rewrite get_set. reflexivity. }
  rewrite G. cbn [obind fst snd].
  set (n := with_id names c).
  change (eval_query fn db [] (Select (out_items (with_id names) names [c]) (FJoins (KItem (Select (IAs x n INil) FNone WNone None) KNil)) WNone None)) with
    (obind (obind (obind (obind (obind (eval_expr fn db [([], [])] x) (fun v => Some [v])) (fun y => Some [y])) (fun out => Some out))
       (fun l => Some (item_rows [n] l)))
       (fun rows => obind (ofilter (fun _ => Some (Some 1%Z)) rows) (fun kept =>
          obind (omap (fun r => obind (lookup n [(r, [])]) (fun v => Some [v])) kept) (fun out => Some out)))).
  destruct (eval_expr fn db [([], [])] x) as [v|]; [|reflexivity].
  cbn [obind item_rows map combine ofilter truth negb Z.eqb omap lookup in_frames in_frame find fst]. unfold in_frame. cbn [find fst]. rewrite same_name_refl. reflexivity.
Qed.
(** SELECT f( * ) AS c FROM source, f an aggregate function without argument *)
Lemma one_aggregate s c f : run names fn db (Aggregate (From s) CNil (ACons c f ENil ANil) [c]) [c] = Some [[fn f [Some 1%Z]]].
Proof.
  unfold run, query_sql, format_query.
  assert (G : format_scan (with_id names) names (placed (Aggregate (From s) CNil (ACons c f ENil ANil) [c])) [] =
              Some (RSelect (Grouped (IAs (XAgg f XNil) (with_id names c) INil) FNone WNone []), del (set [] (with_id names c) (XAgg f XNil)) (with_id names c))).
  { change (format_scan (with_id names) names (placed (Aggregate (From s) CNil (ACons c f ENil ANil) [c])) []) with
      (obind (format_scan (with_id names) names (source_scan s) (set [] (with_id names c) (XAgg f XNil))) (fun p =>
        let (i, m3) := take_items (with_id names) [c] (snd p) in let (f, w) := input_from (fst p) in Some (RSelect (Grouped i f w []), m3))).
    assert (S1 : forall k, format_scan (with_id names) names (source_scan s) k = Some (RNone, k)) by (intros k; destruct s; reflexivity).
    rewrite S1. cbn [obind fst snd take_items]. rewrite get_set. reflexivity. }
  rewrite G. cbn [obind fst snd]. set (n := with_id names c).
  cbn. unfold in_frame. cbn [find fst]. unfold n. rewrite same_name_refl. reflexivity.
Qed.
(** A condition on a source *)
Lemma condition_fails s e cs cols out : run names fn db (Project (Where (From s) e) cs cols) out = None.
Proof.
  unfold run, query_sql, format_query.
  change (format_scan (with_id names) names (placed (Project (Where (From s) e) cs cols)) []) with
    (obind (format_comps (with_id names) names cs []) (fun m1 => obind (format_scan (with_id names) names (SFilter (source_scan s) e) m1) (fun p =>
        let (i, m2) := take_items (with_id names) cols (snd p) in let (f, w) := input_from (fst p) in Some (RSelect (Select i f w None), m2)))).
  destruct (format_comps (with_id names) names cs []) as [m1|]; [|reflexivity]. cbn [obind].
  assert (S1 : format_scan (with_id names) names (SFilter (source_scan s) e) m1 = None).
  { change (format_scan (with_id names) names (SFilter (source_scan s) e) m1) with
      (obind (format_scan (with_id names) names (source_scan s) m1) (fun p => obind (format_expr (with_id names) names e (snd p)) (fun q =>
        obind (add_filter (fst p) (fst q)) (fun r => Some (r, snd q))))).
    assert (S1 : format_scan (with_id names) names (source_scan s) m1 = Some (RNone, m1)) by (destruct s; reflexivity).
    rewrite S1. cbn [obind fst snd]. destruct (format_expr (with_id names) names e m1); reflexivity. }
  now rewrite S1.
Qed.
(** The columns of a source *)
Lemma columns_fail s c cols out : run names fn db (Project (From s) CNil (c :: cols)) out = None.
Proof.
  unfold run, query_sql, format_query.
  assert (T : forall l, exists i, take_items (with_id names) l [] = (i, []) /\ (l = c :: cols -> exists r, i = ICol (with_id names c) r)).
  { induction l as [|d l (i & E & _)]; [exists INil; split; [reflexivity|discriminate]|].
    cbn [take_items]. change (get [] (with_id names d)) with (@None sexpr). rewrite E. exists (ICol (with_id names d) i). split; [reflexivity|].
    intros X. assert (d = c) by congruence. subst d. eauto. }
  destruct (T (c :: cols)) as (i & E & H). destruct (H eq_refl) as (r & ->). clear T H.
  assert (G : format_scan (with_id names) names (placed (Project (From s) CNil (c :: cols))) [] = Some (RSelect (Select (ICol (with_id names c) r) FNone WNone None), [])).
  { change (format_scan (with_id names) names (placed (Project (From s) CNil (c :: cols))) []) with
      (obind (format_scan (with_id names) names (source_scan s) []) (fun p =>
        let (i, m2) := take_items (with_id names) (c :: cols) (snd p) in let (f, w) := input_from (fst p) in Some (RSelect (Select i f w None), m2))).
    assert (S1 : format_scan (with_id names) names (source_scan s) [] = Some (RNone, [])) by (destruct s; reflexivity).
    rewrite S1. cbn [obind fst snd]. rewrite E. reflexivity. }
  rewrite G. cbn [obind fst snd]. destruct out; reflexivity.
Qed.
End Facts.

Lemma part_nil_r : forall A (k : list A), part k [] -> k = [].
Proof. intros A k H. inversion H. reflexivity. Qed.
Lemma part_nothing : forall A (l : list A), part [] l.
Proof. induction l; constructor; assumption. Qed.
