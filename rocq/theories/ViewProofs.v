(** Proofs about views. *)
From Coq Require Import Ascii String List ZArith Lia Bool.
From Verif Require Import GoBase DecModel DecFacts QueryModel QuerySpec QueryProofs AcceptSpec AcceptProofs QueryProps AcceptProps WithModel WithSpec WithProofs ViewModel ViewSpec.
Import ListNotations.
Local Open Scope list_scope.

(** ** A meaning depends on the tables that are read only *)
Definition no_sub (t : string) (cols : list Z) : option scan := None.
Lemma put_nothing :
  (forall e, put_expr no_sub e = e) /\ (forall a, put_exprs no_sub a = a) /\ (forall s, put_scan no_sub s = s) /\ (forall l, put_inputs no_sub l = l) /\
  (forall l, put_aggs no_sub l = l) /\ (forall cs, put_comps no_sub cs = cs) /\ (forall j, put_join no_sub j = j).
Proof.
  assert (G : forall sub, (forall t cols, sub t cols = None) -> (forall e, put_expr sub e = e) /\ (forall a, put_exprs sub a = a) /\ (forall s, put_scan sub s = s) /\ (forall l, put_inputs sub l = l) /\
    (forall l, put_aggs sub l = l) /\ (forall cs, put_comps sub cs = cs) /\ (forall j, put_join sub j = j)); [|now apply G].
  intros sub N. apply tree_ind.
  - reflexivity.
  - reflexivity.
  - intros f a H. exact (f_equal (ECall f) H).
  - intros s H. exact (f_equal EExists H).
  - intros s H. exact (f_equal EScalar H).
  - reflexivity.
  - intros e He r Hr. exact (f_equal2 ECons He Hr).
  - reflexivity.
  - intros t cols. exact (f_equal (fun o => match o with Some s' => s' | None => STable t cols end) (N t cols)).
  - intros l Hl r Hr. exact (f_equal2 SCross Hl Hr).
  - intros k l Hl r Hr e He. exact (f_equal3 (SJoin k) Hl Hr He).
  - intros s Hs e He. exact (f_equal2 SFilter Hs He).
  - intros s Hs cs Hc cols. exact (f_equal2 (fun a b => SProject a b cols) Hs Hc).
  - intros s Hs n off cols. exact (f_equal (fun a => SLimit a n off cols) Hs).
  - intros s Hs keys cols. exact (f_equal (fun a => SOrder a keys cols) Hs).
  - intros op l Hl cols. exact (f_equal (fun a => SSet op a cols) Hl).
  - intros s Hs g Hg a Ha cols. exact (f_equal3 (fun a b c => SAgg a b c cols) Hs Hg Ha).
  - intros s Hs a Ha elem off j Hj. exact (f_equal3 (fun a b c => SArray a b elem off c) Hs Ha Hj).
  - reflexivity.
  - intros s Hs cols r Hr. exact (f_equal2 (fun a b => NCons a cols b) Hs Hr).
  - reflexivity.
  - intros c f a Ha r Hr. exact (f_equal2 (ACons c f) Ha Hr).
  - reflexivity.
  - intros c e He r Hr. exact (f_equal2 (CCons c) He Hr).
  - reflexivity.
  - intros o e He. exact (f_equal (JOn o) He).
Qed.
Lemma mean_ext fn db db' names s env : (forall t cols, In (t, cols) (tables s) -> db' t = db t) -> mean_scan fn db' names env s = mean_scan fn db names env s.
Proof.
  intros H. destruct (put_mean fn db db' names names no_sub) as (_ & _ & P & _). destruct (P s) as [E _].
  - intros t cols I. split; [|reflexivity]. intros e. cbn [no_sub]. rewrite !mn_table. now rewrite (H t cols I).
  - rewrite E. destruct put_nothing as (_ & _ & N & _). now rewrite N.
Qed.
Lemma mean_query_ext fn db db' names s cols : (forall t c, In (t, c) (tables s) -> db' t = db t) -> mean_query fn db' names s cols = mean_query fn db names s cols.
Proof. intros H. unfold mean_query. now rewrite (mean_ext fn db db' names s [] H). Qed.

(** ** The text of a view *)
Lemma alias_eval fn db env u names : forall ids al, length al = length ids -> eval_items fn db env (alias_items u ids al) = eval_items fn db env (out_items u names ids).
Proof.
  induction ids as [|c ids IH]; intros [|a al] L; try discriminate L; [reflexivity|]. cbn [alias_items out_items eval_items]. rewrite (IH al) by (cbn in L; lia). reflexivity.
Qed.
Lemma alias_query fn db u names ids al f : length al = length ids ->
  eval_query fn db [] (Select (alias_items u ids al) f WNone None) = eval_query fn db [] (Select (out_items u names ids) f WNone None).
Proof.
  intros L. destruct ids as [|c ids], al as [|a al]; try discriminate L; [reflexivity|].
  rewrite !ev_select by discriminate. destruct (eval_from fn db [] f) as [rows|]; [|reflexivity]. cbn [obind].
  match goal with |- obind ?x _ = _ => destruct x as [kept|] end; [|reflexivity]. cbn [obind].
  assert (E : forall l, omap (fun r => eval_items fn db [(r, [])] (alias_items u (c :: ids) (a :: al))) l = omap (fun r => eval_items fn db [(r, [])] (out_items u names (c :: ids))) l).
  { induction l as [|r l IH]; [reflexivity|]. cbn [omap]. rewrite (alias_eval fn db [(r, [])] u names (c :: ids) (a :: al) L), IH. reflexivity. }
  now rewrite E.
Qed.
Lemma alias_names u : forall ids al, length al = length ids -> item_names (alias_items u ids al) = al.
Proof. induction ids as [|c ids IH]; intros [|a al] L; try discriminate L; [reflexivity|]. cbn [alias_items item_names]. f_equal. apply IH. cbn in L. lia. Qed.
Lemma query_parts names s cols q : query_sql names s cols = Some q ->
  exists f, q = Select (out_items (with_id names) names cols) f WNone None /\
    (forall n al, view_sql (View n names s cols al) = Some (Select (alias_items (with_id names) cols al) f WNone None)) /\
    (forall t, In t (reads_from f) -> exists c, In (t, c) (tables s)).
Proof.
  unfold query_sql, format_query, view_sql. cbn [v_names v_scan v_ids v_alias]. intros Q.
  destruct (format_scan (with_id names) names s []) as [[r m]|] eqn:F; [|discriminate]. cbn [obind fst] in *.
  assert (R : forall t, In t (reads_frag r) -> exists c, In (t, c) (tables s)).
  { destruct (reads_all (with_id names) names (fun t => exists cols, In (t, cols) (tables s))) as (_ & _ & H & _).
    destruct (H s [] r m) as [X _]; [|intros k x []|assumption|exact X].
    intros t' I'. apply in_map_iff in I'. destruct I' as ([t1 c] & <- & I1). now exists c. }
  destruct r; try discriminate Q; match type of Q with Some ?x = _ => assert (X : q = x) by congruence end; rewrite X; eexists; (split; [reflexivity|]; split; [reflexivity|]); intros t' I; apply R; cbn [reads_from reads_toks reads_frag] in *.
  all: apply in_app_or in I; destruct I as [I|[]]; exact I.
Qed.
Lemma out_reads u names cols : reads_items (out_items u names cols) = [].
Proof. induction cols as [|c cols IH]; [reflexivity|exact IH]. Qed.
Lemma alias_reads u : forall cols al, reads_items (alias_items u cols al) = [].
Proof. induction cols as [|c cols IH]; intros [|a al]; try reflexivity. exact (IH al). Qed.

(** ** Looking up *)
Lemma same_sym a b : same_name a b = same_name b a.
Proof. unfold same_name. apply String.eqb_sym. Qed.
Lemma same_trans a b c : same_name a b = true -> same_name b c = same_name a c.
Proof. unfold same_name. intros E. apply String.eqb_eq in E. now rewrite E. Qed.
Definition finds (st : stored) (t : string) : option (string * query) := find (fun e => same_name (fst e) t) st.
(** The views as they are stored, in any order *)
Record keeps_views (vs : list view) (st : stored) : Prop := {
  as_many : length st = length vs;
  each_found : forall v t, In v vs -> same_name (v_name v) t = true -> exists q, view_sql v = Some q /\ option_map snd (finds st t) = Some q;
  none_else : forall t, (forall v, In v vs -> same_name (v_name v) t = false) -> finds st t = None }.

Section Look.
  Variable stacked : bool.
  Variable fn : string -> list val -> val.
  Variable db : string -> list frame.
  Variable vs : list view.
  Variable st : stored.
  Hypothesis ok : views_ok stacked vs.
  Hypothesis keeps : keeps_views vs st.
  Lemma look : forall a d, shows fn db a d -> forall b, vs = a ++ b -> forall t, (forall w, In w b -> same_name (v_name w) t = false) ->
    forall k, (length a <= k)%nat -> cte fn db st k t = Some (d t).
  Proof.
    intros a d S. induction S as [|a d v rows S IH M]; intros b E t Nb k Lk.
    - assert (F : finds st t = None) by (apply (none_else _ _ keeps); rewrite E; exact Nb). unfold finds in F. destruct k; cbn [cte]; now rewrite F.
    - rewrite <- app_assoc in E. cbn [app] in E. destruct (same_name (v_name v) t) eqn:Sv.
      + destruct (ok a v b E) as (Q & La & _ & Tb). destruct Q as (W & Tp & Sh & Cl & Sub & Ne).
        rewrite app_length in Lk. cbn [length] in Lk. destruct k as [|k]; [lia|].
        assert (G : forall t' c, In (t', c) (tables (v_scan v)) -> cte fn db st k t' = Some (d t')).
        { intros t' c I. apply (IH (v :: b) E t'); [intros w Iw; exact (Tb t' c w I Iw)|lia]. }
        destruct (c137_query stacked fn (fun t' => rows_or_none (cte fn db st k t')) (v_names v) (v_scan v) (v_ids v) rows W Tp Sh Cl Sub Ne) as (q & Qq & Ev).
        { rewrite (mean_query_ext fn d _ (v_names v) (v_scan v) (v_ids v)); [exact M|]. intros t' c I. now rewrite (G t' c I). }
        destruct (query_parts _ _ _ _ Qq) as (f & -> & V & R).
        destruct (each_found _ _ keeps v t) as (q & Vq & Fq); [rewrite E; apply in_or_app; right; now left|exact Sv|].
        specialize (V (v_name v) (v_alias v)). assert (Eta : View (v_name v) (v_names v) (v_scan v) (v_ids v) (v_alias v) = v) by now destruct v. rewrite Eta in V.
        assert (q = Select (alias_items (with_id (v_names v)) (v_ids v) (v_alias v)) f WNone None) by congruence. subst q. cbn [cte]. unfold finds in Fq.
        destruct (find (fun e => same_name (fst e) t) st) as [[n q]|]; [|discriminate]. cbn [option_map snd] in Fq.
        assert (q = Select (alias_items (with_id (v_names v)) (v_ids v) (v_alias v)) f WNone None) by congruence. subst q.
        assert (K : forallb (fun t' => known (cte fn db st k t')) (reads (Select (alias_items (with_id (v_names v)) (v_ids v) (v_alias v)) f WNone None)) = true).
        { apply forallb_forall. intros t' I. cbn [reads reads_cond] in I. rewrite alias_reads, app_nil_r in I. cbn [app] in I. destruct (R t' I) as (c & It). now rewrite (G t' c It). }
        rewrite K, (alias_query _ _ _ (v_names v)) by exact La. rewrite Ev. cbn [option_map query_names]. now rewrite alias_names.
      + apply (IH (v :: b) E t); [intros w [<-|Iw]; [exact Sv|now apply Nb]|]. rewrite app_length in Lk. lia.
  Qed.
  Lemma read_back d names s cols rows : shows fn db vs d -> query_ok stacked names s cols -> mean_query fn d names s cols = Some rows ->
    exists q, query_sql names s cols = Some q /\ read_views fn db st q = Some rows.
  Proof.
    intros S (W & Tp & Sh & Cl & Sub & Ne) M.
    assert (G : forall t, cte fn db st (length st) t = Some (d t)).
    { intros t. apply (look vs d S [] (eq_sym (app_nil_r vs)) t); [intros w []|]. now rewrite (as_many _ _ keeps). }
    destruct (c137_query stacked fn (fun t => rows_or_none (cte fn db st (length st) t)) names s cols rows W Tp Sh Cl Sub Ne) as (q & Q & E).
    { rewrite (mean_query_ext fn d _ names s cols); [exact M|]. intros t c _. now rewrite G. }
    exists q. split; [exact Q|]. unfold read_views. rewrite (proj2 (forallb_forall _ _)); [exact E|]. intros t _. now rewrite G.
  Qed.
End Look.

(** ** Creating *)
Definition text_of (v : view) : string * query := (v_name v, match view_sql v with Some q => q | None => Select INil FNone WNone None end).
Lemma view_text stacked v : query_ok stacked (v_names v) (v_scan v) (v_ids v) -> exists q, view_sql v = Some q.
Proof.
  intros (W & Tp & Sh & Cl & Sub & Ne). destruct (accepted stacked (v_names v) (v_scan v) (v_ids v) W Tp Sh Cl) as (q & Q).
  destruct (query_parts _ _ _ _ Q) as (f & _ & V & _). specialize (V (v_name v) (v_alias v)). destruct v. eauto.
Qed.
Lemma ok_prefix stacked a b : views_ok stacked (a ++ b) -> views_ok stacked a.
Proof.
  intros H x v y E. destruct (H x v (y ++ b)) as (Q & L & N & T); [rewrite E, <- app_assoc; reflexivity|]. split; [exact Q|]. split; [exact L|]. split.
  - intros w I. apply N, in_or_app. now left.
  - intros t c w I [J|J]; apply (T t c w I); [now left|right; apply in_or_app; now left].
Qed.
Lemma ok_apart stacked a v b w : views_ok stacked (a ++ v :: b) -> In w a -> same_name (v_name w) (v_name v) = false.
Proof.
  intros H I. apply in_split in I. destruct I as (x & y & ->). destruct (H x w (y ++ v :: b)) as (_ & _ & N & _); [rewrite <- app_assoc; reflexivity|].
  rewrite same_sym. apply N, in_or_app. right. now left.
Qed.
Lemma creates stacked vs : views_ok stacked vs -> exec_views [] (map (VCreate Default) vs) = Some (map text_of vs).
Proof.
  assert (G : forall b a, views_ok stacked (a ++ b) -> exec_views (map text_of a) (map (VCreate Default) b) = Some (map text_of (a ++ b))).
  { induction b as [|v b IH]; intros a H; cbn [map exec_views]; [now rewrite app_nil_r|].
    destruct (H a v b eq_refl) as (Q & _). destruct (view_text stacked v Q) as (q & V). cbn [exec_view]. rewrite V. cbn [obind].
    assert (N : has_view (map text_of a) (v_name v) = false).
    { unfold has_view. destruct (existsb _ _) eqn:X; [|reflexivity]. apply existsb_exists in X. destruct X as (e & I & Se). apply in_map_iff in I. destruct I as (w & <- & I). cbn [text_of fst] in Se. rewrite (ok_apart _ _ _ _ _ H I) in Se. discriminate. }
    rewrite N. assert (T : map text_of a ++ [(v_name v, q)] = map text_of (a ++ [v])) by (rewrite map_app; cbn [map]; unfold text_of at 3; now rewrite V). rewrite T. cbn [obind]. rewrite IH; [now rewrite <- app_assoc|]. now rewrite <- app_assoc. }
  intros H. exact (G vs [] H).
Qed.
Lemma keeps_texts stacked vs st : views_ok stacked vs -> length st = length vs -> (forall e, In e st <-> In e (map text_of vs)) -> keeps_views vs st.
Proof.
  intros H L P. split; [exact L| |].
  - intros v t I Sv. assert (Q : exists q, view_sql v = Some q). { apply in_split in I. destruct I as (a & b & E). destruct (H a v b E) as (Q & _). exact (view_text stacked v Q). }
    destruct Q as (q & V). exists q. split; [exact V|]. unfold finds. destruct (find (fun e => same_name (fst e) t) st) as [e|] eqn:F.
    + apply find_some in F. destruct F as [Ie Se]. apply P in Ie. apply in_map_iff in Ie. destruct Ie as (w & <- & Iw). cbn [text_of fst] in Se.
      assert (w = v).
      { apply in_split in Iw. destruct Iw as (a & b & E). rewrite E in I. apply in_app_or in I. destruct I as [I|[I|I]]; [|exact I|].
        - rewrite E in H. pose proof (ok_apart _ _ _ _ _ H I) as D. rewrite same_sym in Se. rewrite (same_sym (v_name v)), (same_trans _ _ _ Se) in Sv || rewrite <- (same_trans _ _ _ Sv) in D; unfold same_name in *; apply String.eqb_eq in Se, Sv; apply String.eqb_neq in D; congruence.
        - destruct (H a w b E) as (_ & _ & D & _). specialize (D v I). unfold same_name in *. apply String.eqb_eq in Se, Sv. apply String.eqb_neq in D. congruence. }
      subst w. cbn [option_map]. unfold text_of. cbn [snd]. now rewrite V.
    + exfalso. pose proof (find_none _ _ F (text_of v)) as X. cbn [text_of fst] in X. rewrite X in Sv; [discriminate|]. apply P. now apply in_map.
  - intros t N. unfold finds. destruct (find (fun e => same_name (fst e) t) st) as [e|] eqn:F; [|reflexivity]. apply find_some in F. destruct F as [Ie Se].
    apply P in Ie. apply in_map_iff in Ie. destruct Ie as (w & <- & Iw). cbn [text_of fst] in Se. rewrite (N w Iw) in Se. discriminate.
Qed.
