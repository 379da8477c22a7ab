From Coq Require Import Ascii String List ZArith Lia Bool.
From Verif Require Import GoBase DecModel DecFacts QueryModel QuerySpec QueryProofs AcceptSpec AcceptProofs QueryProps WithModel WithSpec.
From Verif Require ScanModel.
Import ListNotations.
Local Open Scope list_scope.

Lemma every_ext {A B} (f g : A -> option B) l : (forall x, In x l -> f x = g x) -> every f l = every g l.
Proof.
  intros H. induction l as [|x l IH]; [reflexivity|]. rewrite !every_cons, H by now left.
  rewrite IH by (intros; apply H; now right). reflexivity.
Qed.

(** ** Replacing table scans by scans that mean the same *)
Section PutMean.
  Variable fn : string -> list val -> val.
  Variable db db' : string -> list frame.
  Variable names names' : Z -> string.
  Variable sub : string -> list Z -> option scan.
  Definition same_table (t : string) (cols : list Z) : Prop :=
    (forall env, mean_scan fn db' names' env (STable t cols) = mean_scan fn db names env (match sub t cols with Some s => s | None => STable t cols end)) /\
    out (match sub t cols with Some s => s | None => STable t cols end) = cols.
  Definition all_same (l : list (string * list Z)) : Prop := forall t cols, In (t, cols) l -> same_table t cols.
  Lemma all_same_app a b : all_same (a ++ b) -> all_same a /\ all_same b.
  Proof. intros H. split; intros t cols I; apply H, in_or_app; auto. Qed.
  Lemma put_ids cs : comp_ids (put_comps sub cs) = comp_ids cs.
  Proof. induction cs; cbn; congruence. Qed.

  Theorem put_mean :
    (forall e, all_same (tables_expr e) -> forall env, mean fn db' names' env e = mean fn db names env (put_expr sub e)) /\
    (forall a, all_same (tables_exprs a) -> forall env, mean_list fn db' names' env a = mean_list fn db names env (put_exprs sub a)) /\
    (forall s, all_same (tables s) -> (forall env, mean_scan fn db' names' env s = mean_scan fn db names env (put_scan sub s)) /\ out (put_scan sub s) = out s) /\
    (forall l, all_same (tables_inputs l) -> forall env, mean_inputs fn db' names' env l = mean_inputs fn db names env (put_inputs sub l)) /\
    (forall l, all_same (tables_aggs l) -> forall env g, mean_aggs fn db' names' env g l = mean_aggs fn db names env g (put_aggs sub l)) /\
    (forall cs, all_same (tables_comps cs) -> forall env, mean_comps fn db' names' env cs = mean_comps fn db names env (put_comps sub cs)) /\
    (forall j, all_same (tables_join j) -> match j with JComma _ => True | JOn _ e => forall env, mean fn db' names' env e = mean fn db names env (put_expr sub e) end).
  Proof.
    apply tree_ind.
    - reflexivity.
    - reflexivity.
    - intros f a IH H env. cbn [put_expr]. rewrite !mn_call, IH by assumption. reflexivity.
    - intros s IH H env. cbn [put_expr]. destruct (IH H) as [E _]. rewrite !mn_exists, E. reflexivity.
    - intros s IH H env. cbn [put_expr]. destruct (IH H) as [E _]. rewrite !mn_scalar, E. reflexivity.
    - reflexivity.
    - intros e IHe r IHr H env. cbn [tables_exprs] in H. apply all_same_app in H. destruct H as [He Hr].
      cbn [put_exprs]. rewrite !mn_cons, IHe, IHr by assumption. reflexivity.
    - intros _. split; reflexivity.
    - intros t cols H. exact (H t cols (or_introl eq_refl)).
    - intros l IHl r IHr H. cbn [tables] in H. apply all_same_app in H. destruct H as [Hl Hr].
      destruct (IHl Hl) as [El Ol]. destruct (IHr Hr) as [Er Or]. cbn [put_scan out]. split; [|now rewrite Ol, Or].
      intros env. rewrite !mn_cross, El, Er. reflexivity.
    - intros k l IHl r IHr e IHe H. cbn [tables] in H. apply all_same_app in H. destruct H as [Hl H]. apply all_same_app in H. destruct H as [Hr He].
      destruct (IHl Hl) as [El Ol]. destruct (IHr Hr) as [Er Or]. cbn [put_scan out]. split; [|now rewrite Ol, Or].
      intros env. rewrite !mn_join, El, Er, Ol, Or. destruct (mean_scan fn db names env (put_scan sub l)) as [a|]; [|reflexivity].
      destruct (mean_scan fn db names env (put_scan sub r)) as [b|]; [|reflexivity].
      match goal with |- context [match every ?F a with _ => _ end] => match goal with |- _ = match every ?G a with _ => _ end => assert (every F a = every G a) as -> end end.
      { apply every_ext. intros x _. erewrite every_ext; [reflexivity|]. intros z _. cbn beta. now apply IHe. }
      match goal with |- match _ with Some ll => match every ?F b with _ => _ end | None => _ end = match _ with Some ll' => match every ?G b with _ => _ end | None => _ end =>
        assert (every F b = every G b) as -> end; [|reflexivity].
      apply every_ext. intros x _. erewrite every_ext; [reflexivity|]. intros z _. cbn beta. now apply IHe.
    - intros s IHs e IHe H. cbn [tables] in H. apply all_same_app in H. destruct H as [Hs He]. destruct (IHs Hs) as [Es Os].
      cbn [put_scan out]. split; [|assumption]. intros env. rewrite !mn_filter, Es. destruct (mean_scan fn db names env (put_scan sub s)) as [l|]; [|reflexivity].
      rewrite (every_ext (fun r => mean fn db' names' (r ++ env) e) (fun r => mean fn db names (r ++ env) (put_expr sub e))); [reflexivity|].
      intros x _. now apply IHe.
    - intros s IHs cs IHc cols H. cbn [tables] in H. apply all_same_app in H. destruct H as [Hs Hc]. destruct (IHs Hs) as [Es Os].
      cbn [put_scan out]. split; [|reflexivity]. intros env. rewrite !mn_project, Es. destruct (mean_scan fn db names env (put_scan sub s)) as [l|]; [|reflexivity].
      apply every_ext. intros x _. now rewrite IHc.
    - intros s IHs n off cols H. destruct (IHs H) as [Es Os]. cbn [put_scan out]. split; [|reflexivity]. intros env. now rewrite !mn_limit, Es.
    - intros s IHs keys cols H. destruct (IHs H) as [Es Os]. cbn [put_scan out]. split; [|reflexivity]. intros env. now rewrite !mn_order, Es.
    - intros op l IHl cols H. cbn [put_scan out]. split; [|reflexivity]. intros env. now rewrite !mn_set, IHl.
    - intros s IHs g IHg a IHa cols H. cbn [tables] in H. apply all_same_app in H. destruct H as [Hs H]. apply all_same_app in H. destruct H as [Hg Ha].
      destruct (IHs Hs) as [Es Os]. cbn [put_scan out]. split; [|reflexivity]. intros env. rewrite !mn_agg, Es.
      destruct (mean_scan fn db names env (put_scan sub s)) as [l|]; [|reflexivity].
      match goal with |- context [match every ?F l with _ => _ end] => match goal with |- _ = match every ?G l with _ => _ end => assert (every F l = every G l) as -> end end.
      { apply every_ext. intros x _. now rewrite IHg. }
      match goal with |- _ = match every ?F l with _ => _ end => destruct (every F l) as [keyed|]; [|reflexivity] end.
      assert (K : forall A (x y : A), match g with CNil => x | CCons _ _ _ => y end = match put_comps sub g with CNil => x | CCons _ _ _ => y end) by (intros; destruct g; reflexivity).
      rewrite <- K, put_ids. apply every_ext. intros x _. now rewrite IHa.
    - intros s IHs a IHa elem off j IHj H. cbn [tables] in H. apply all_same_app in H. destruct H as [Hs H]. apply all_same_app in H. destruct H as [Ha Hj].
      destruct (IHs Hs) as [Es Os]. cbn [put_scan out]. split; [|now rewrite Os]. intros env. rewrite !mn_array, Es.
      destruct (mean_scan fn db names env (put_scan sub s)) as [l|]; [|reflexivity].
      match goal with |- context [match every ?F l with _ => _ end] => match goal with |- _ = match every ?G l with _ => _ end => assert (every F l = every G l) as -> end end; [|reflexivity].
      apply every_ext. intros x _. rewrite IHa by assumption.
      match goal with |- match ?A with _ => _ end = match ?B with _ => _ end => change B with A; destruct A as [v|]; [|reflexivity] end.
      cbv zeta. specialize (IHj Hj). destruct j as [o|o e]; cbn [put_join]; [reflexivity|].
      match goal with |- context [match every ?F ?L with _ => _ end] => match goal with |- _ = match every ?G L with _ => _ end => assert (every F L = every G L) as -> end end; [|reflexivity].
      apply every_ext. intros z _. now apply IHj.
    - reflexivity.
    - intros s IHs cols r IHr H env. cbn [tables_inputs] in H. apply all_same_app in H. destruct H as [Hs Hr]. destruct (IHs Hs) as [Es _].
      cbn [put_inputs]. rewrite !mn_ncons, Es, IHr by assumption. reflexivity.
    - reflexivity.
    - intros c f a IHa r IHr H env g. cbn [tables_aggs] in H. apply all_same_app in H. destruct H as [Ha Hr]. cbn [put_aggs]. rewrite !mn_acons.
      rewrite (every_ext (fun x => mean_list fn db' names' (x ++ env) a) (fun x => mean_list fn db names (x ++ env) (put_exprs sub a))) by (intros; now apply IHa).
      rewrite IHr by assumption. reflexivity.
    - reflexivity.
    - intros c e IHe r IHr H env. cbn [tables_comps] in H. apply all_same_app in H. destruct H as [He Hr]. cbn [put_comps]. rewrite !mn_ccons, IHe, IHr by assumption. reflexivity.
    - intros; exact I.
    - intros o e IHe H. now apply IHe.
  Qed.
End PutMean.

(** ** The rows of a scan have its columns *)
Ltac every_in H l x E := match type of H with context [every ?F l] => destruct (every F l) as [x|] eqn:E; [|discriminate H] end.
Lemma blank_keys cols : map fst (blank cols) = cols.
Proof. unfold blank. rewrite map_map. apply map_id. Qed.
Lemma every_In {A B} (f : A -> option B) l ys y : every f l = Some ys -> In y ys -> exists x, In x l /\ f x = Some y.
Proof. intros E I. apply every_forall2 in E. destruct (forall2_in_r _ _ _ _ E I) as (x & Ix & F). now exists x. Qed.
Lemma set_result_len op l rest vs n : set_result op l rest = Some vs -> Forall (Forall (fun x : list val => length x = n)) (l :: rest) -> Forall (fun x => length x = n) vs.
Proof.
  intros E F. apply Forall_forall. intros x I. destruct (set_result_in _ _ _ _ _ E I) as (y & Iy & Ix).
  rewrite Forall_forall in F. specialize (F y Iy). rewrite Forall_forall in F. now apply F.
Qed.
Lemma array_rows_keys elem off l x : In x (array_rows elem off l) -> map fst x = array_ids elem off.
Proof. intros I. unfold array_rows in I. apply in_map_iff in I. destruct I as ([i v] & <- & _). destruct off; reflexivity. Qed.
Section Keys.
  Variable fn : string -> list val -> val.
  Variable db : string -> list frame.
  Variable names : Z -> string.
  Variable D : Z -> Prop.
  Variable UN : Prop.
  Lemma keys_all : (forall e : expr, True) /\ (forall a : exprs, True) /\
    (forall s vis busy env rows, wf_scan D UN vis busy s -> mean_scan fn db names env s = Some rows -> Forall (fun x => map fst x = out s) rows) /\
    (forall l vis busy n env vs, wf_inputs D UN vis busy n l -> mean_inputs fn db names env l = Some vs -> Forall (Forall (fun x => length x = n)) vs) /\
    (forall a : acomps, True) /\ (forall c : comps, True) /\ (forall j : ajoin, True).
  Proof.
    apply tree_ind; try (intros; exact I).
    - intros vis busy env rows _ M. assert (rows = [[]]) by (cbn in M; congruence). subst. repeat constructor.
    - intros t cols vis busy env rows _ M. rewrite mn_table in M. apply Forall_forall. intros x I.
      destruct (every_In _ _ _ _ M I) as (r & _ & E). unfold of_table in E. cbn [out]. apply every_forall2 in E. clear -E.
      induction E as [|c p cols x F E IH]; [reflexivity|]. cbn [map]. rewrite IH. destruct (in_frame (names c) r); [|discriminate]. f_equal. assert (p = (c, v)) by congruence. now subst.
    - intros l IHl r IHr vis busy env rows (Wl & Wr & _) M. rewrite mn_cross in M.
      destruct (mean_scan fn db names env l) as [a|] eqn:Ml; [|discriminate]. destruct (mean_scan fn db names env r) as [b|] eqn:Mr; [|discriminate].
      assert (rows = flat_map (fun x => map (fun y => (x ++ y)%list) b) a) by congruence. subst. apply Forall_forall. intros x I.
      apply in_flat_map in I. destruct I as (y & Iy & I). apply in_map_iff in I. destruct I as (z & <- & Iz).
      specialize (IHl _ _ _ _ Wl Ml). specialize (IHr _ _ _ _ Wr Mr). rewrite Forall_forall in IHl, IHr. cbn [out]. rewrite map_app, (IHl y Iy), (IHr z Iz). reflexivity.
    - intros k l IHl r IHr on _ vis busy env rows (Wl & Wr & _) M. rewrite mn_join in M.
      destruct (mean_scan fn db names env l) as [a|] eqn:Ml; [|discriminate]. destruct (mean_scan fn db names env r) as [b|] eqn:Mr; [|discriminate].
      specialize (IHl _ _ _ _ Wl Ml). specialize (IHr _ _ _ _ Wr Mr). rewrite Forall_forall in IHl, IHr.
      every_in M a ll E1. every_in M b rl E2.
      assert (rows = concat ll ++ concat rl) by congruence. subst. apply Forall_forall. intros x I. cbn [out]. apply in_app_or in I.
      destruct I as [I|I]; apply in_concat in I; destruct I as (g & Ig & I).
      + destruct (every_In _ _ _ _ E1 Ig) as (y & Iy & F). cbn beta in F. every_in F (map (fun z => (y ++ z)%list) b) vs E3.
        assert (J : In x (map (fun z => (y ++ z)%list) b) \/ x = (y ++ blank (out r))%list).
        { destruct (where_true (map (fun z => (y ++ z)%list) b) vs) as [|w ws] eqn:Ew.
          - destruct (keeps_left k); assert (g = _) by (symmetry; exact (f_equal (fun o => match o with Some x => x | None => [] end) F)); subst g; [|contradiction].
            destruct I as [<-|[]]. now right.
          - assert (g = w :: ws) by congruence. subst g. left. apply (where_true_incl x _ vs). now rewrite Ew. }
        destruct J as [J| ->].
        * apply in_map_iff in J. destruct J as (z & <- & Iz). rewrite map_app, (IHl y Iy), (IHr z Iz). reflexivity.
        * rewrite map_app, (IHl y Iy), blank_keys. reflexivity.
      + destruct (every_In _ _ _ _ E2 Ig) as (y & Iy & F). cbn beta in F. every_in F a vs E3.
        destruct (keeps_right k && negb (existsb holds vs)); assert (g = _) by (symmetry; exact (f_equal (fun o => match o with Some x => x | None => [] end) F)); subst g; [|contradiction].
        destruct I as [<-|[]]. rewrite map_app, blank_keys, (IHr y Iy). reflexivity.
    - intros s IHs e _ vis busy env rows (Ws & _) M. rewrite mn_filter in M. destruct (mean_scan fn db names env s) as [l|] eqn:Ml; [|discriminate].
      every_in M l vs E0. assert (rows = where_true l vs) by congruence. subst. specialize (IHs _ _ _ _ Ws Ml).
      rewrite Forall_forall in *. intros x I. apply IHs. now apply where_true_incl in I.
    - intros s IHs cs _ cols vis busy env rows _ M. rewrite mn_project in M. destruct (mean_scan fn db names env s) as [l|]; [|discriminate].
      apply Forall_forall. intros x I. destruct (every_In _ _ _ _ M I) as (r & _ & F). cbn beta in F. destruct (mean_comps _ _ _ _ cs); [|discriminate]. exact (pick_keys _ _ _ F).
    - intros s IHs n off cols vis busy env rows _ M. rewrite mn_limit in M. destruct (mean_scan fn db names env s) as [l|]; [|discriminate].
      destruct (every (pick cols) l) as [l'|] eqn:E; [|discriminate]. match type of M with Some ?x = _ => assert (rows = x) by congruence; subst rows end.
      apply Forall_forall. intros x I.
      assert (J : In x l').
      { assert (S1 : forall (k : nat) (y : list binding) z, In z (skipn k y) -> In z y) by (intros k y z H; rewrite <- (firstn_skipn k y); apply in_or_app; now right).
        assert (S2 : forall (k : nat) (y : list binding) z, In z (firstn k y) -> In z y) by (intros k y z H; rewrite <- (firstn_skipn k y); apply in_or_app; now left).
        apply S2 in I. destruct off; [now apply S1 in I|assumption]. }
      destruct (every_In _ _ _ _ E J) as (r & _ & F). exact (pick_keys _ _ _ F).
    - intros s IHs keys cols vis busy env rows _ M. rewrite mn_order in M. destruct (mean_scan fn db names env s) as [l|]; [|discriminate].
      apply Forall_forall. intros x I. destruct (every_In _ _ _ _ M I) as (r & _ & F). exact (pick_keys _ _ _ F).
    - intros op l IHl cols vis busy env rows (Wl & _) M. rewrite mn_set in M. destruct (mean_inputs fn db names env l) as [[|x r]|] eqn:Mi; try discriminate.
      destruct (set_result op x r) as [vs|] eqn:E; [|discriminate]. assert (rows = map (combine cols) vs) by congruence. subst.
      pose proof (set_result_len _ _ _ _ _ E (IHl _ _ _ _ _ Wl Mi)) as L. rewrite Forall_forall in *. intros y I. apply in_map_iff in I. destruct I as (z & <- & Iz).
      specialize (L z Iz). cbn [out]. clear -L. revert z L. induction cols as [|c cols IH]; intros [|v z] L; try discriminate L; [reflexivity|]. cbn. rewrite IH; [reflexivity|]. cbn in L. lia.
    - intros s IHs g _ a _ cols vis busy env rows _ M. rewrite mn_agg in M. destruct (mean_scan fn db names env s) as [l|]; [|discriminate].
      match type of M with match every ?F l with _ => _ end = _ => destruct (every F l) as [keyed|]; [|discriminate M] end. apply Forall_forall. intros x I. destruct (every_In _ _ _ _ M I) as (r & _ & F). cbn beta in F.
      destruct (mean_aggs _ _ _ _ _ a); [|discriminate]. exact (pick_keys _ _ _ F).
    - intros s IHs a _ elem off j _ vis busy env rows (_ & Ws & _) M. rewrite mn_array in M. destruct (mean_scan fn db names env s) as [l|] eqn:Ml; [|discriminate].
      specialize (IHs _ _ _ _ Ws Ml). rewrite Forall_forall in IHs. every_in M l ll E. assert (rows = concat ll) by congruence. subst.
      apply Forall_forall. intros x I. apply in_concat in I. destruct I as (g & Ig & I). destruct (every_In _ _ _ _ E Ig) as (z & Iz & F). cbn beta in F.
      destruct (mean fn db names (z ++ env) a) as [v|]; [|discriminate]. cbv zeta in F. cbn [out].
      assert (J : In x (map (fun y => (z ++ y)%list) (array_rows elem off (elements fn v))) \/ x = (z ++ blank (array_ids elem off))%list).
      { destruct j as [o|o e].
        - destruct (map (fun y => (z ++ y)%list) (array_rows elem off (elements fn v))) as [|w ws].
          + destruct o; assert (g = _) by (symmetry; exact (f_equal (fun o => match o with Some x => x | None => [] end) F)); subst g; [|contradiction]. destruct I as [<-|[]]. now right.
          + assert (g = w :: ws) by congruence. subst. now left.
        - every_in F (map (fun y => (z ++ y)%list) (array_rows elem off (elements fn v))) vs E0.
          destruct (where_true (map (fun y => (z ++ y)%list) (array_rows elem off (elements fn v))) vs) as [|w ws] eqn:Ew.
          + destruct o; assert (g = _) by (symmetry; exact (f_equal (fun o => match o with Some x => x | None => [] end) F)); subst g; [|contradiction]. destruct I as [<-|[]]. now right.
          + assert (g = w :: ws) by congruence. subst. left. apply (where_true_incl x _ vs). now rewrite Ew. }
      destruct J as [J| ->].
      + apply in_map_iff in J. destruct J as (y & <- & Iy). rewrite map_app, (IHs z Iz), (array_rows_keys _ _ _ _ Iy). reflexivity.
      + rewrite map_app, (IHs z Iz), blank_keys. reflexivity.
    - intros vis busy n env vs _ M. assert (vs = []) by (cbn in M; congruence). subst. constructor.
    - intros s IHs cols r IHr vis busy n env vs (Ws & _ & Ln & Wr) M. rewrite mn_ncons in M. destruct (mean_scan fn db names env s) as [x|]; [|discriminate].
      destruct (mean_inputs fn db names env r) as [y|] eqn:Mi; [|discriminate]. destruct (every (pick cols) x) as [x'|] eqn:E; [|discriminate].
      assert (vs = map (map snd) x' :: y) by congruence. subst. constructor; [|exact (IHr _ _ _ _ _ Wr Mi)]. apply Forall_forall. intros z I. apply in_map_iff in I.
      destruct I as (w & <- & Iw). destruct (every_In _ _ _ _ E Iw) as (q & _ & F). apply pick_keys in F. rewrite map_length, <- (map_length fst w), F. reflexivity.
  Qed.
  Lemma scan_keys s vis busy env rows : wf_scan D UN vis busy s -> mean_scan fn db names env s = Some rows -> forall x, In x rows -> map fst x = out s.
  Proof. intros W M. apply Forall_forall. destruct keys_all as (_ & _ & K & _). exact (K s vis busy env rows W M). Qed.
End Keys.

(** ** A scan depends on the visible columns only *)
Definition eqv (vis : list Z) (a b : binding) : Prop := forall c, In c vis -> col c a = col c b.
Lemma eqv_ext o vis (r a b : binding) : map fst r = o -> eqv vis a b -> eqv (o ++ vis) (r ++ a) (r ++ b).
Proof.
  intros K E c I. rewrite !col_app. destruct (col c r) eqn:C; [reflexivity|]. apply in_app_or in I. destruct I as [I|I]; [|now apply E].
  rewrite <- K in I. destruct (col_some c r I). congruence.
Qed.
Section Env.
  Variable fn : string -> list val -> val.
  Variable db : string -> list frame.
  Variable names : Z -> string.
  Variable D : Z -> Prop.
  Variable UN : Prop.
  Theorem env_all :
    (forall e vis busy a b, wf D UN vis busy e -> eqv vis a b -> mean fn db names a e = mean fn db names b e) /\
    (forall l vis busy a b, wf_list D UN vis busy l -> eqv vis a b -> mean_list fn db names a l = mean_list fn db names b l) /\
    (forall s vis busy a b, wf_scan D UN vis busy s -> eqv vis a b -> mean_scan fn db names a s = mean_scan fn db names b s) /\
    (forall l vis busy n a b, wf_inputs D UN vis busy n l -> eqv vis a b -> mean_inputs fn db names a l = mean_inputs fn db names b l) /\
    (forall l vis busy o g a b, wf_aggs D UN (o ++ vis) busy l -> eqv vis a b -> (forall x, In x g -> map fst x = o) -> mean_aggs fn db names a g l = mean_aggs fn db names b g l) /\
    (forall cs vis busy a b, wf_comps D UN vis busy cs -> eqv vis a b -> mean_comps fn db names a cs = mean_comps fn db names b cs) /\
    (forall j, match j with JComma _ => True | JOn _ e => forall vis busy a b, wf D UN vis busy e -> eqv vis a b -> mean fn db names a e = mean fn db names b e end).
  Proof.
    apply tree_ind.
    - intros c vis busy a b W E. exact (E c W).
    - reflexivity.
    - intros f l IH vis busy a b W E. rewrite !mn_call, (IH vis busy a b W E). reflexivity.
    - intros s IH vis busy a b W E. rewrite !mn_exists, (IH vis busy a b W E). reflexivity.
    - intros s IH vis busy a b W E. rewrite !mn_scalar, (IH vis busy a b W E). reflexivity.
    - reflexivity.
    - intros e IHe r IHr vis busy a b [We Wr] E. rewrite !mn_cons, (IHe vis busy a b We E), (IHr vis busy a b Wr E). reflexivity.
    - reflexivity.
    - reflexivity.
    - intros l IHl r IHr vis busy a b (Wl & Wr & _) E. rewrite !mn_cross, (IHl vis busy a b Wl E), (IHr vis busy a b Wr E). reflexivity.
    - intros k l IHl r IHr e IHe vis busy a b (Wl & Wr & _ & _ & We) E. rewrite !mn_join, (IHl vis busy a b Wl E), (IHr vis busy a b Wr E).
      destruct (mean_scan fn db names b l) as [x|] eqn:Ml; [|reflexivity]. destruct (mean_scan fn db names b r) as [y|] eqn:Mr; [|reflexivity].
      pose proof (scan_keys fn db names D UN l vis busy b x Wl Ml) as Kl. pose proof (scan_keys fn db names D UN r vis busy b y Wr Mr) as Kr.
      assert (Me : forall z w, In z x -> In w y -> mean fn db names ((z ++ w) ++ a) e = mean fn db names ((z ++ w) ++ b) e).
      { intros z w Iz Iw. apply (IHe _ _ _ _ We). rewrite app_assoc. apply eqv_ext; [|assumption]. now rewrite map_app, (Kl z Iz), (Kr w Iw). }
      match goal with |- context [match every ?F x with _ => _ end] => match goal with |- _ = match every ?G x with _ => _ end => assert (every F x = every G x) as -> end end.
      { apply every_ext. intros z Iz. erewrite every_ext; [reflexivity|]. intros w Iw. apply in_map_iff in Iw. destruct Iw as (v & <- & Iv). now apply Me. }
      match goal with |- match _ with Some ll => match every ?F y with _ => _ end | None => _ end = match _ with Some ll' => match every ?G y with _ => _ end | None => _ end =>
        assert (every F y = every G y) as -> end; [|reflexivity].
      apply every_ext. intros w Iw. erewrite every_ext; [reflexivity|]. intros z Iz. now apply Me.
    - intros s IHs e IHe vis busy a b (Ws & We & _) E. rewrite !mn_filter, (IHs vis busy a b Ws E). destruct (mean_scan fn db names b s) as [l|] eqn:Ml; [|reflexivity].
      rewrite (every_ext (fun r => mean fn db names (r ++ a) e) (fun r => mean fn db names (r ++ b) e)); [reflexivity|].
      intros x Ix. apply (IHe _ _ _ _ We). apply eqv_ext; [|assumption]. exact (scan_keys fn db names D UN s vis busy b l Ws Ml x Ix).
    - intros s IHs cs IHc cols vis busy a b (Ws & Wc & _) E. rewrite !mn_project, (IHs vis _ a b Ws E). destruct (mean_scan fn db names b s) as [l|] eqn:Ml; [|reflexivity].
      apply every_ext. intros x Ix. rewrite (IHc _ _ (x ++ a) (x ++ b) Wc); [reflexivity|]. apply eqv_ext; [|assumption]. exact (scan_keys fn db names D UN s vis _ b l Ws Ml x Ix).
    - intros s IHs n off cols vis busy a b (Ws & _) E. rewrite !mn_limit, (IHs vis busy a b Ws E). reflexivity.
    - intros s IHs keys cols vis busy a b (Ws & _) E. rewrite !mn_order, (IHs vis busy a b Ws E). reflexivity.
    - intros op l IHl cols vis busy a b (Wl & _) E. rewrite !mn_set, (IHl vis busy _ a b Wl E). reflexivity.
    - intros s IHs g IHg l IHl cols vis busy a b (Ws & Wg & Wl & _) E. rewrite !mn_agg, (IHs vis _ a b Ws E).
      destruct (mean_scan fn db names b s) as [rows|] eqn:Ml; [|reflexivity]. pose proof (scan_keys fn db names D UN s vis _ b rows Ws Ml) as K.
      match goal with |- context [match every ?F rows with _ => _ end] => match goal with |- _ = match every ?G rows with _ => _ end => assert (every F rows = every G rows) as -> end end.
      { apply every_ext. intros x Ix. rewrite (IHg _ _ (x ++ a) (x ++ b) Wg); [reflexivity|]. apply eqv_ext; [|assumption]. now apply K. }
      match goal with |- _ = match every ?F rows with _ => _ end => destruct (every F rows) as [keyed|] eqn:Ek; [|reflexivity] end.
      apply every_ext. intros k _. rewrite (IHl vis _ (out s) _ a b Wl E); [reflexivity|]. intros x Ix. apply in_map_iff in Ix. destruct Ix as ([k' x'] & <- & Ix).
      apply filter_In in Ix. destruct Ix as [Ix _]. destruct (every_In _ _ _ _ Ek Ix) as (z & Iz & Fz). cbn beta in Fz. destruct (mean_comps _ _ _ _ g); [|discriminate].
      cbn [snd]. replace x' with z by congruence. now apply K.
    - intros s IHs e IHe elem off j IHj vis busy a b (_ & Ws & We & _ & _ & _ & Wj) E. rewrite !mn_array, (IHs vis _ a b Ws E).
      destruct (mean_scan fn db names b s) as [rows|] eqn:Ml; [|reflexivity]. pose proof (scan_keys fn db names D UN s vis _ b rows Ws Ml) as K.
      match goal with |- context [match every ?F rows with _ => _ end] => match goal with |- _ = match every ?G rows with _ => _ end => assert (every F rows = every G rows) as -> end end; [|reflexivity].
      apply every_ext. intros x Ix. rewrite (IHe _ _ (x ++ a) (x ++ b) We) by (apply eqv_ext; [now apply K|assumption]).
      match goal with |- match ?A with _ => _ end = match ?B with _ => _ end => change B with A; destruct A as [v|]; [|reflexivity] end.
      cbv zeta. destruct j as [o|o e']; [reflexivity|]. destruct Wj as [_ Wj].
      match goal with |- context [match every ?F ?L with _ => _ end] => match goal with |- _ = match every ?G L with _ => _ end => assert (every F L = every G L) as -> end end; [|reflexivity].
      apply every_ext. intros z Iz. apply (IHj _ _ _ _ Wj). apply eqv_ext; [|assumption]. apply in_map_iff in Iz. destruct Iz as (y & <- & Iy). rewrite map_app, (K x Ix), (array_rows_keys _ _ _ _ Iy). reflexivity.
    - reflexivity.
    - intros s IHs cols r IHr vis busy n a b (Ws & _ & _ & Wr) E. rewrite !mn_ncons, (IHs vis busy a b Ws E), (IHr vis busy n a b Wr E). reflexivity.
    - reflexivity.
    - intros c f l IHl r IHr vis busy o g a b [Wl Wr] E K. rewrite !mn_acons, (IHr vis busy o g a b Wr E K).
      rewrite (every_ext (fun x => mean_list fn db names (x ++ a) l) (fun x => mean_list fn db names (x ++ b) l)); [reflexivity|].
      intros x Ix. apply (IHl _ _ _ _ Wl). apply eqv_ext; [now apply K|assumption].
    - reflexivity.
    - intros c e IHe r IHr vis busy a b [We Wr] E. rewrite !mn_ccons, (IHe vis busy a b We E), (IHr vis busy a b Wr E). reflexivity.
    - intros; exact I.
    - intros o e IHe. exact IHe.
  Qed.
  Lemma closed_scan s busy env : wf_scan D UN [] busy s -> mean_scan fn db names env s = mean_scan fn db names [] s.
  Proof. intros W. destruct env_all as (_ & _ & H & _). apply (H s [] busy); [assumption|intros c []]. Qed.
End Env.

(** ** A text reads the tables of the tree only *)
Section Reads.
  Variable u names : Z -> string.
  Variable Q : string -> Prop.
  Definition qall (l : list string) : Prop := forall t, In t l -> Q t.
  Lemma qall_app a b : qall (a ++ b) <-> qall a /\ qall b.
  Proof.
    split.
    - intros H. split; intros t I; apply H, in_or_app; auto.
    - intros [A B] t I. apply in_app_or in I. destruct I; auto.
  Qed.
  Definition qmap (m : cmap) : Prop := forall k x, In (k, x) m -> qall (reads_expr x).
  Definition qtabs (l : list (string * list Z)) : Prop := qall (map fst l).
  Lemma qtabs_app a b : qtabs (a ++ b) <-> qtabs a /\ qtabs b.
  Proof. unfold qtabs. rewrite map_app. apply qall_app. Qed.
  Definition reads_frag (r : frag) : list string :=
    match r with RNone => [] | RJoin t => reads_toks t | RWhere t e => reads_toks t ++ reads_expr e | RSelect q => reads q | RArr s => reads_arr s end.
  Lemma qdel m n : qmap m -> qmap (del m n).
  Proof. intros H k x I. apply filter_In in I. destruct I. eauto. Qed.
  Lemma qset m n e : qmap m -> qall (reads_expr e) -> qmap (set m n e).
  Proof.
    intros H E k x [I|I].
    - assert (x = e) by congruence. now subst.
    - exact (qdel m n H k x I).
  Qed.
  Lemma qtake cols : forall m i m', qmap m -> take_items u cols m = (i, m') -> qall (reads_items i) /\ qmap m'.
  Proof.
    induction cols as [|c cols IH]; intros m i m' H E; cbn [take_items] in E.
    - assert (i = INil /\ m' = m) as [-> ->] by (split; congruence). split; [intros t []|assumption].
    - destruct (get m (u c)) as [e|] eqn:G.
      + destruct (take_items u cols (del m (u c))) as [i1 m1] eqn:T. assert (i = IAs e (u c) i1 /\ m' = m1) as [-> ->] by (split; congruence).
        destruct (IH _ _ _ (qdel m (u c) H) T) as [A B]. split; [|assumption]. cbn [reads_items]. apply qall_app. split; [|assumption].
        unfold get in G. destruct (find _ m) as [[k x]|] eqn:F; [|discriminate]. apply find_some in F. destruct F as [F _]. cbn [snd] in G. assert (x = e) by congruence. subst. eauto.
      + destruct (take_items u cols m) as [i1 m1] eqn:T. assert (i = ICol (u c) i1 /\ m' = m1) as [-> ->] by (split; congruence).
        destruct (IH _ _ _ H T) as [A B]. split; assumption.
  Qed.
  Lemma qkapp a b : qall (reads_toks a) -> qall (reads_toks b) -> qall (reads_toks (kapp a b)).
  Proof. induction a; cbn [kapp reads_toks]; intros A B; rewrite ?qall_app in *; try tauto. Qed.
  Lemma qinput r : qall (reads_frag r) -> qall (reads_from (fst (input_from r))) /\ qall (reads_cond (snd (input_from r))).
  Proof.
    destruct r; cbn; intros H; rewrite ?qall_app in *; repeat split; try tauto; try (intros t []); try (intros t0 []).
    all: intros x I; rewrite app_nil_r in I; now apply H.
  Qed.
  Lemma qside r a : qall (reads_frag r) -> join_side r = Some a -> qall (reads_toks a).
  Proof.
    destruct r; cbn; intros H E; try discriminate E; match type of E with Some ?x = _ => assert (a = x) by congruence; subst a end; cbn; try assumption.
    all: rewrite app_nil_r; assumption.
  Qed.
  Lemma qfilter r e r' : qall (reads_frag r) -> qall (reads_expr e) -> add_filter r e = Some r' -> qall (reads_frag r').
  Proof.
    intros H E F. unfold add_filter in F. cbv zeta in F. destruct r as [|t|t e'|q|s]; try discriminate F.
    - match type of F with Some ?x = _ => assert (r' = x) by congruence; subst r' end. cbn [reads_frag] in *. apply qall_app. split; [|assumption].
      destruct (wraps _); cbn [reads_toks]; rewrite ?app_nil_r; assumption.
    - destruct (wraps _).
      + match type of F with Some ?x = _ => assert (r' = x) by congruence; subst r' end. cbn [reads_frag reads_toks] in *. rewrite !qall_app. repeat split; try assumption. intros t [].
      + destruct q as [i f w lim|i f w ks|i f w ks|]; try discriminate F.
        * destruct w; [|discriminate F]. destruct lim; [discriminate F|]. match type of F with Some ?x = _ => assert (r' = x) by congruence; subst r' end.
          cbn [reads_frag reads reads_cond] in *. rewrite !qall_app in *. tauto.
        * destruct w; [|discriminate F]. destruct ks; [|discriminate F]. match type of F with Some ?x = _ => assert (r' = x) by congruence; subst r' end.
          cbn [reads_frag reads reads_cond] in *. rewrite !qall_app in *. tauto.
    - destruct (wraps _).
      + match type of F with Some ?x = _ => assert (r' = x) by congruence; subst r' end. cbn [reads_frag reads_toks] in *. rewrite !qall_app. repeat split; try assumption. intros t [].
      + destruct s as [f a elem off on w]. destruct w; [|discriminate F]. match type of F with Some ?x = _ => assert (r' = x) by congruence; subst r' end.
        cbn [reads_frag reads_arr reads_cond] in *. rewrite !qall_app in *. tauto.
  Qed.
  Lemma qtable cols : reads_items (table_items u names cols) = [].
  Proof. induction cols; [reflexivity|assumption]. Qed.
  Lemma qplain cols : reads_items (plain_items u cols) = [].
  Proof. induction cols; [reflexivity|assumption]. Qed.
  Lemma qsets a : forall b, reads_items (set_items u a b) = [].
  Proof. induction a; intros [|d b]; cbn; auto. Qed.

  Theorem reads_all :
    (forall e m x m', qtabs (tables_expr e) -> qmap m -> format_expr u names e m = Some (x, m') -> qall (reads_expr x) /\ qmap m') /\
    (forall a m x m', qtabs (tables_exprs a) -> qmap m -> format_exprs u names a m = Some (x, m') -> qall (reads_exprs x) /\ qmap m') /\
    (forall s m r m', qtabs (tables s) -> qmap m -> format_scan u names s m = Some (r, m') -> qall (reads_frag r) /\ qmap m') /\
    (forall l m x m', qtabs (tables_inputs l) -> qmap m -> format_inputs u names l m = Some (x, m') -> qall (reads_queries x) /\ qmap m') /\
    (forall l m m', qtabs (tables_aggs l) -> qmap m -> format_aggs u names l m = Some m' -> qmap m') /\
    (forall cs m m', qtabs (tables_comps cs) -> qmap m -> format_comps u names cs m = Some m' -> qmap m') /\
    (forall j, match j with JComma _ => True | JOn _ e => forall m x m', qtabs (tables_expr e) -> qmap m -> format_expr u names e m = Some (x, m') -> qall (reads_expr x) /\ qmap m' end).
  Proof.
    apply tree_ind.
    - intros c m x m' T M F. rewrite fm_col in F. destruct (get m (u c)); [discriminate|]. assert (x = XCol (u c) /\ m' = m) as [-> ->] by (split; congruence). split; [intros t []|assumption].
    - intros v m x m' T M F. rewrite fm_lit in F. assert (x = XLit v /\ m' = m) as [-> ->] by (split; congruence). split; [intros t []|assumption].
    - intros f a IH m x m' T M F. rewrite fm_call in F. destruct (format_exprs u names a m) as [[a' m1]|] eqn:A; [|discriminate]. cbn [obind fst snd] in F.
      assert (x = XCall f a' /\ m' = m1) as [-> ->] by (split; congruence). exact (IH _ _ _ T M A).
    - intros s IH m x m' T M F. rewrite fm_exists in F. destruct (format_scan u names s m) as [[r m1]|] eqn:A; [|discriminate]. cbn [obind fst snd] in F.
      destruct r as [| | |q|]; try discriminate F. assert (x = XExists q /\ m' = m1) as [-> ->] by (split; congruence). exact (IH _ _ _ T M A).
    - intros s IH m x m' T M F. rewrite fm_scalar in F. destruct (format_scan u names s m) as [[r m1]|] eqn:A; [|discriminate]. cbn [obind fst snd] in F.
      destruct r as [| | |q|]; try discriminate F. assert (x = XScalar q /\ m' = m1) as [-> ->] by (split; congruence). exact (IH _ _ _ T M A).
    - intros m x m' T M F. rewrite fm_nil in F. assert (x = XNil /\ m' = m) as [-> ->] by (split; congruence). split; [intros t []|assumption].
    - intros e IHe r IHr m x m' T M F. cbn [tables_exprs] in T. apply qtabs_app in T. destruct T as [Te Tr]. rewrite fm_cons in F.
      destruct (format_expr u names e m) as [[e' m1]|] eqn:A; [|discriminate]. cbn [obind fst snd] in F. destruct (format_exprs u names r m1) as [[r' m2]|] eqn:B; [|discriminate]. cbn [obind fst snd] in F.
      assert (x = XCons e' r' /\ m' = m2) as [-> ->] by (split; congruence). destruct (IHe _ _ _ Te M A) as [H1 M1]. destruct (IHr _ _ _ Tr M1 B) as [H2 M2].
      split; [|assumption]. cbn [reads_exprs]. now apply qall_app.
    - intros m r m' T M F. rewrite fm_single in F. assert (r = RNone /\ m' = m) as [-> ->] by (split; congruence). split; [intros t []|assumption].
    - intros t cols m r m' T M F. rewrite fm_table in F. match type of F with Some (?a, ?b) = _ => assert (r = a /\ m' = b) as [-> ->] by (split; congruence) end. split; [|assumption].
      cbn [reads_frag reads_toks reads reads_from reads_cond]. rewrite qtable. exact T.
    - intros l IHl r IHr m x m' T M F. cbn [tables] in T. apply qtabs_app in T. destruct T as [Tl Tr]. rewrite fm_cross in F.
      destruct (format_scan u names l m) as [[a m1]|] eqn:A; [|discriminate]. cbn [obind fst snd] in F. destruct (format_scan u names r m1) as [[b m2]|] eqn:B; [|discriminate]. cbn [obind fst snd] in F.
      destruct (join_side a) as [ja|] eqn:Ja; [|discriminate]. destruct (join_side b) as [jb|] eqn:Jb; [|discriminate]. cbn [obind] in F.
      match type of F with Some (?a, ?b) = _ => assert (x = a /\ m' = b) as [-> ->] by (split; congruence) end.
      destruct (IHl _ _ _ Tl M A) as [H1 M1]. destruct (IHr _ _ _ Tr M1 B) as [H2 M2]. split; [|assumption]. cbn [reads_frag]. apply qkapp; [exact (qside _ _ H1 Ja)|]. cbn [reads_toks]. exact (qside _ _ H2 Jb).
    - intros k l IHl r IHr e IHe m x m' T M F. cbn [tables] in T. apply qtabs_app in T. destruct T as [Tl T]. apply qtabs_app in T. destruct T as [Tr Te]. rewrite fm_join in F.
      destruct (format_scan u names l m) as [[a m1]|] eqn:A; [|discriminate]. cbn [obind fst snd] in F. destruct (format_scan u names r m1) as [[b m2]|] eqn:B; [|discriminate]. cbn [obind fst snd] in F.
      destruct (join_side a) as [ja|] eqn:Ja; [|discriminate]. destruct (join_side b) as [jb|] eqn:Jb; [|discriminate]. cbn [obind] in F.
      destruct (format_expr u names e m2) as [[e' m3]|] eqn:C; [|discriminate]. cbn [obind fst snd] in F.
      match type of F with Some (?a, ?b) = _ => assert (x = a /\ m' = b) as [-> ->] by (split; congruence) end.
      destruct (IHl _ _ _ Tl M A) as [H1 M1]. destruct (IHr _ _ _ Tr M1 B) as [H2 M2]. destruct (IHe _ _ _ Te M2 C) as [H3 M3]. split; [|assumption].
      cbn [reads_frag]. apply qkapp; [exact (qside _ _ H1 Ja)|]. cbn [reads_toks]. apply qkapp; [exact (qside _ _ H2 Jb)|]. cbn [reads_toks]. now rewrite app_nil_r.
    - intros s IHs e IHe m x m' T M F. cbn [tables] in T. apply qtabs_app in T. destruct T as [Ts Te]. rewrite fm_filter in F.
      destruct (format_scan u names s m) as [[a m1]|] eqn:A; [|discriminate]. cbn [obind fst snd] in F. destruct (format_expr u names e m1) as [[b m2]|] eqn:B; [|discriminate]. cbn [obind fst snd] in F.
      destruct (add_filter a b) as [r|] eqn:C; [|discriminate]. cbn [obind] in F. assert (x = r /\ m' = m2) as [-> ->] by (split; congruence).
      destruct (IHs _ _ _ Ts M A) as [H1 M1]. destruct (IHe _ _ _ Te M1 B) as [H2 M2]. split; [|assumption]. exact (qfilter _ _ _ H1 H2 C).
    - intros s IHs cs IHc cols m x m' T M F. cbn [tables] in T. apply qtabs_app in T. destruct T as [Ts Tc]. rewrite fm_project in F.
      destruct (format_comps u names cs m) as [m1|] eqn:A; [|discriminate]. cbn [obind] in F. destruct (format_scan u names s m1) as [[a m2]|] eqn:B; [|discriminate]. cbn [obind fst snd] in F.
      destruct (take_items u cols m2) as [i m3] eqn:C. destruct (input_from a) as [f w] eqn:G. match type of F with Some (?a, ?b) = _ => assert (x = a /\ m' = b) as [-> ->] by (split; congruence) end.
      pose proof (IHc _ _ Tc M A) as M1. destruct (IHs _ _ _ Ts M1 B) as [H2 M2]. destruct (qtake _ _ _ _ M2 C) as [H3 M3]. destruct (qinput _ H2) as [I1 I2]. rewrite G in I1, I2.
      split; [|assumption]. cbn [reads_frag reads]. rewrite !qall_app. tauto.
    - intros s IHs n off cols m x m' T M F. rewrite fm_limit in F. destruct (format_scan u names s m) as [[a m2]|] eqn:B; [|discriminate]. cbn [obind fst snd] in F.
      destruct (take_items u cols m2) as [i m3] eqn:C. destruct (input_from a) as [f w] eqn:G. match type of F with Some (?a, ?b) = _ => assert (x = a /\ m' = b) as [-> ->] by (split; congruence) end.
      destruct (IHs _ _ _ T M B) as [H2 M2]. destruct (qtake _ _ _ _ M2 C) as [H3 M3]. destruct (qinput _ H2) as [I1 I2]. rewrite G in I1, I2.
      split; [|assumption]. cbn [reads_frag reads]. rewrite !qall_app. tauto.
    - intros s IHs keys cols m x m' T M F. rewrite fm_order in F. destruct (format_scan u names s m) as [[a m2]|] eqn:B; [|discriminate]. cbn [obind fst snd] in F.
      destruct (take_items u cols m2) as [i m3] eqn:C. destruct (input_from a) as [f w] eqn:G. match type of F with Some (?a, ?b) = _ => assert (x = a /\ m' = b) as [-> ->] by (split; congruence) end.
      destruct (IHs _ _ _ T M B) as [H2 M2]. destruct (qtake _ _ _ _ M2 C) as [H3 M3]. destruct (qinput _ H2) as [I1 I2]. rewrite G in I1, I2.
      split; [|assumption]. cbn [reads_frag reads]. rewrite !qall_app. tauto.
    - intros op l IHl cols m x m' T M F. rewrite fm_set in F. destruct (format_inputs u names l m) as [[a m2]|] eqn:B; [|discriminate]. cbn [obind fst snd] in F.
      match type of F with Some (?a, ?b) = _ => assert (x = a /\ m' = b) as [-> ->] by (split; congruence) end. destruct (IHl _ _ _ T M B) as [H2 M2]. split; [|assumption].
      cbn [reads_frag reads reads_from reads_toks reads_cond]. rewrite qsets, !app_nil_r. exact H2.
    - intros s IHs g IHg l IHl cols m x m' T M F. cbn [tables] in T. apply qtabs_app in T. destruct T as [Ts T]. apply qtabs_app in T. destruct T as [Tg Ta]. rewrite fm_agg in F.
      destruct (format_aggs u names l m) as [m1|] eqn:A; [|discriminate]. cbn [obind] in F. destruct (format_scan u names s m1) as [[a m2]|] eqn:B; [|discriminate]. cbn [obind fst snd] in F.
      destruct (format_comps u names g m2) as [m3|] eqn:E; [|discriminate]. cbn [obind] in F.
      destruct (take_items u cols m3) as [i m4] eqn:C. destruct (input_from a) as [f w] eqn:G. match type of F with Some (?a, ?b) = _ => assert (x = a /\ m' = b) as [-> ->] by (split; congruence) end.
      pose proof (IHl _ _ Ta M A) as M1. destruct (IHs _ _ _ Ts M1 B) as [H2 M2]. pose proof (IHg _ _ Tg M2 E) as M3. destruct (qtake _ _ _ _ M3 C) as [H3 M4]. destruct (qinput _ H2) as [I1 I2]. rewrite G in I1, I2.
      split; [|assumption]. cbn [reads_frag reads]. rewrite !qall_app. tauto.
    - intros s IHs e IHe elem off j IHj m x m' T M F. cbn [tables] in T. apply qtabs_app in T. destruct T as [Ts T]. apply qtabs_app in T. destruct T as [Te Tj]. rewrite fm_array in F.
      destruct (format_expr u names e m) as [[e' m1]|] eqn:A; [|discriminate]. cbn [obind fst snd] in F. destruct (format_scan u names s m1) as [[a m2]|] eqn:B; [|discriminate]. cbn [obind fst snd] in F.
      destruct (IHe _ _ _ Te M A) as [H1 M1]. destruct (IHs _ _ _ Ts M1 B) as [H2 M2].
      destruct (array_from a) as [f|] eqn:G; [|discriminate]. cbn [obind] in F.
      assert (Hf : qall (reads_from f)).
      { unfold array_from in G. destruct a as [|ta|ta ea|qa|sa]; cbn in G; try discriminate G; match type of G with Some ?x = _ => assert (f = x) by congruence; subst f end; cbn in *; rewrite ?app_nil_r; assumption. }
      destruct j as [o|o ej].
      + match type of F with Some (?a, ?b) = _ => assert (x = a /\ m' = b) as [-> ->] by (split; congruence) end. split; [|assumption].
        cbn [reads_frag reads_arr reads_acond reads_cond]. rewrite !qall_app. repeat split; try assumption; intros t [].
      + destruct (format_expr u names ej m2) as [[y m3]|] eqn:C; [|discriminate]. cbn [obind fst snd] in F.
        match type of F with Some (?a, ?b) = _ => assert (x = a /\ m' = b) as [-> ->] by (split; congruence) end. destruct (IHj _ _ _ Tj M2 C) as [H3 M3]. split; [|assumption].
        cbn [reads_frag reads_arr reads_acond reads_cond]. rewrite !qall_app. repeat split; try assumption; intros t [].
    - intros m x m' T M F. rewrite fm_nnil in F. assert (x = QNil /\ m' = m) as [-> ->] by (split; congruence). split; [intros t []|assumption].
    - intros s IHs cols r IHr m x m' T M F. cbn [tables_inputs] in T. apply qtabs_app in T. destruct T as [Ts Tr]. rewrite fm_ncons in F.
      destruct (format_scan u names s m) as [[a m1]|] eqn:A; [|discriminate]. cbn [obind fst snd] in F. destruct (format_inputs u names r m1) as [[b m2]|] eqn:B; [|discriminate]. cbn [obind fst snd] in F.
      destruct (input_from a) as [f w] eqn:G. match type of F with Some (?a, ?b) = _ => assert (x = a /\ m' = b) as [-> ->] by (split; congruence) end.
      destruct (IHs _ _ _ Ts M A) as [H1 M1]. destruct (IHr _ _ _ Tr M1 B) as [H2 M2]. destruct (qinput _ H1) as [I1 I2]. rewrite G in I1, I2. split; [|assumption].
      cbn [reads_queries reads]. rewrite qplain, !qall_app. repeat split; try assumption. intros t [].
    - intros m m' T M F. rewrite fm_anil in F. assert (m' = m) by congruence. now subst.
    - intros c f a IHa r IHr m m' T M F. cbn [tables_aggs] in T. apply qtabs_app in T. destruct T as [Ta Tr]. rewrite fm_acons in F.
      destruct (format_exprs u names a m) as [[a' m1]|] eqn:A; [|discriminate]. cbn [obind fst snd] in F. destruct (IHa _ _ _ Ta M A) as [H1 M1].
      apply (IHr _ _ Tr) in F; [assumption|]. apply qset; assumption.
    - intros m m' T M F. rewrite fm_cnil in F. assert (m' = m) by congruence. now subst.
    - intros c e IHe r IHr m m' T M F. cbn [tables_comps] in T. apply qtabs_app in T. destruct T as [Te Tr]. rewrite fm_ccons in F.
      destruct (format_expr u names e m) as [[e' m1]|] eqn:A; [|discriminate]. cbn [obind fst snd] in F. destruct (IHe _ _ _ Te M A) as [H1 M1].
      apply (IHr _ _ Tr) in F; [assumption|]. apply qset; assumption.
    - intros; exact I.
    - intros o e IHe. exact IHe.
  Qed.
End Reads.
Lemma reads_tables u names s m q t : format_scan u names s [] = Some (RSelect q, m) -> In t (reads q) -> exists cols, In (t, cols) (tables s).
Proof.
  intros F I. destruct (reads_all u names (fun t => exists cols, In (t, cols) (tables s))) as (_ & _ & H & _).
  destruct (H s [] (RSelect q) m) as [R _]; [|intros k x []|assumption|exact (R t I)].
  intros t' I'. apply in_map_iff in I'. destruct I' as ([t1 c] & <- & I1). now exists c.
Qed.

(** ** The entries in order *)
Lemma same_refl n : same_name n n = true.
Proof. unfold same_name. apply String.eqb_refl. Qed.
Lemma unfold_all_app refs a : forall k b, unfold_all refs k (a ++ b) = unfold_all refs (unfold_all refs k a) b.
Proof. induction a as [|e a IH]; intros k b; [reflexivity|]. cbn [app unfold_all]. apply IH. Qed.
Lemma unfold_all_names refs l : forall k, map fst (unfold_all refs k l) = map fst k ++ map ename l.
Proof. induction l as [|e l IH]; intros k; cbn [unfold_all map]; [now rewrite app_nil_r|]. rewrite IH, map_app, <- app_assoc. reflexivity. Qed.
Lemma unfold_all_in refs l : forall k p, In p k -> In p (unfold_all refs k l).
Proof. induction l as [|e l IH]; intros k p I; [assumption|]. cbn [unfold_all]. apply IH, in_or_app. now left. Qed.
Lemma no_twice_cons n r : no_twice (n :: r) = true -> (forall m, In m r -> same_name n m = false) /\ no_twice r = true.
Proof.
  cbn [no_twice]. intros H. apply andb_prop in H. destruct H as [H1 H2]. split; [|assumption]. intros m I. apply Bool.negb_true_iff in H1.
  destruct (same_name n m) eqn:E; [|reflexivity]. assert (existsb (same_name n) r = true) by (apply existsb_exists; eauto). congruence.
Qed.
Lemma no_twice_mid a n b : no_twice (a ++ n :: b) = true -> forall m, In m a -> same_name m n = false.
Proof.
  induction a as [|x a IH]; intros H m I; [destruct I|]. destruct I as [E|I].
  - subst x. apply no_twice_cons in H. destruct H as [H _]. apply H, in_or_app. right. now left.
  - apply no_twice_cons in H. destruct H as [_ H]. now apply IH.
Qed.
Lemma find_app_l {A} (f : A -> bool) a b x : find f a = Some x -> find f (a ++ b) = Some x.
Proof. induction a as [|y a IH]; [discriminate|]. cbn. destruct (f y); auto. Qed.
Lemma find_app_r {A} (f : A -> bool) a b : (forall x, In x a -> f x = false) -> find f (a ++ b) = find f b.
Proof. induction a as [|y a IH]; intros H; [reflexivity|]. cbn. rewrite (H y) by now left. apply IH. intros; apply H; now right. Qed.
Lemma source_in pairs c d : NoDup (map fst pairs) -> In (c, d) pairs -> source pairs c = Some d.
Proof.
  unfold source. induction pairs as [|[x y] r IH]; intros N I; [destruct I|]. cbn [find fst]. inversion N as [|? ? Nx Nr]; subst. destruct (Z.eqb_spec x c) as [E|E].
  - subst x. cbn [snd]. destruct I as [I|I]; [congruence|]. exfalso. apply Nx. apply in_map_iff. exists (c, d). auto.
  - destruct I as [I|I]; [congruence|]. now apply IH.
Qed.
Lemma source_none pairs c : ~ In c (map fst pairs) -> source pairs c = None.
Proof.
  unfold source. induction pairs as [|[x y] r IH]; intros N; [reflexivity|]. cbn [find fst]. destruct (Z.eqb_spec x c) as [E|E].
  - exfalso. apply N. now left.
  - apply IH. intros I. apply N. now right.
Qed.
Lemma combine_fst {A B} (a : list A) : forall (b : list B), length a = length b -> map fst (combine a b) = a.
Proof. induction a as [|x a IH]; intros [|y b] L; try discriminate L; [reflexivity|]. cbn. rewrite IH; [reflexivity|]. cbn in L. lia. Qed.
Lemma named_entry l e : no_twice (map ename l) = true -> In e l -> entry_named l (ename e) = Some e.
Proof.
  unfold entry_named. induction l as [|x l IH]; intros N I; [destruct I|]. cbn [map] in N. apply no_twice_cons in N. destruct N as [N1 N2]. cbn [find].
  destruct I as [->|I]; [now rewrite String.eqb_refl|]. destruct (String.eqb (ename x) (ename e)) eqn:E; [|now apply IH].
  apply String.eqb_eq in E. specialize (N1 (ename e) (in_map ename l e I)). rewrite E, same_refl in N1. discriminate.
Qed.
Lemma pairs_fst l refs : no_twice (map ename l) = true -> (forall r, In r refs -> exists e, In e l /\ ename e = fst r /\ length (snd r) = length (edefs e)) ->
  map fst (ref_pairs l refs) = concat (map snd refs).
Proof.
  intros N. induction refs as [|r refs IH]; intros H; [reflexivity|]. unfold ref_pairs. cbn [flat_map map concat]. rewrite map_app. f_equal.
  - destruct (H r (or_introl eq_refl)) as (e & Ie & Ne & Le). rewrite <- Ne, (named_entry l e N Ie). now apply combine_fst.
  - apply IH. intros r' I. apply H. now right.
Qed.
Lemma is_ref_in refs t cols : is_ref refs t cols = true -> In (t, cols) refs.
Proof.
  unfold is_ref. intros H. apply existsb_exists in H. destruct H as ([t' c'] & I & E). cbn [fst snd] in E. apply andb_prop in E. destruct E as [E1 E2].
  apply String.eqb_eq in E1. destruct (list_eq_dec Z.eq_dec c' cols); [|discriminate]. now subst.
Qed.
Lemma in_combine_ex {A B} (a : list A) : forall (b : list B) x, length a = length b -> In x a -> exists y, In (x, y) (combine a b).
Proof.
  induction a as [|z a IH]; intros [|w b] x L I; try discriminate L; [destruct I|]. destruct I as [->|I].
  - exists w. now left.
  - destruct (IH b x) as (y & Iy); [cbn in L; lia|assumption|]. exists y. now right.
Qed.
Lemma nodup_part {A} (l : list (list A)) x : NoDup (concat l) -> In x l -> NoDup x.
Proof.
  induction l as [|y l IH]; intros N I; [destruct I|]. cbn in N. destruct I as [->|I].
  - clear -N. induction x as [|a x IH]; [constructor|]. cbn in N. inversion N as [|? ? Na Nr]; subst. constructor; [|now apply IH]. intros I. apply Na, in_or_app. now left.
  - apply IH; [|assumption]. clear -N. induction y as [|a y IH]; [assumption|]. apply IH. now inversion N.
Qed.

(** Reading the columns of a reference by name, and by position *)
Definition by_position (row : binding) (p : Z * Z) : option (Z * val) := match col (snd p) row with Some v => Some (fst p, v) | None => None end.
Lemma ref_table names pairs row : Forall in64 (map fst row) -> forall cols defs, length cols = length defs ->
  (forall c d, In (c, d) (combine cols defs) -> source pairs c = Some d) -> (forall d, In d defs -> In d (map fst row)) ->
  of_table (read_name names pairs) cols (named (with_id names) row) = every (by_position row) (combine cols defs).
Proof.
  intros Dr cols. induction cols as [|c cols IH]; intros [|d defs] L S0 Sub; try discriminate L; [reflexivity|]. unfold of_table in *. cbn [combine]. rewrite !every_cons.
  unfold read_name at 1. rewrite (S0 c d) by now left. rewrite (in_named (with_id names) in64 (in64_inj names) d row); [|rewrite Forall_forall in Dr; apply Dr, Sub; now left|assumption].
  rewrite (IH defs); [reflexivity|cbn in L; lia|intros; apply S0; now right|intros; apply Sub; now right].
Qed.
Lemma ref_comps fn db names env row : forall cols defs, length cols = length defs -> (forall d, In d defs -> In d (map fst row)) ->
  mean_comps fn db names (row ++ env) (same_cols cols defs) = every (by_position row) (combine cols defs).
Proof.
  induction cols as [|c cols IH]; intros [|d defs] L Sub; try discriminate L; [reflexivity|]. cbn [same_cols combine]. rewrite mn_ccons, every_cons.
  rewrite IH; [|cbn in L; lia|intros; apply Sub; now right]. unfold by_position at 2. cbn [fst snd mean]. rewrite col_app.
  destruct (col_some d row (Sub d (or_introl eq_refl))) as [v ->]. reflexivity.
Qed.
Lemma by_position_keys row l b : every (by_position row) l = Some b -> map fst b = map fst l.
Proof.
  intros E. apply every_forall2 in E. induction E as [|p q l b F E IH]; [reflexivity|]. cbn [map]. rewrite IH. unfold by_position in F. destruct (col (snd p) row); [|discriminate].
  assert (q = (fst p, v)) by congruence. now subst.
Qed.
Lemma pick_self b : forall r, NoDup (map fst b) -> pick (map fst b) (b ++ r) = Some b.
Proof.
  intros r N. unfold pick. rewrite (every_map _ (fun c => (c, value c b))).
  - f_equal. clear r. assert (G : forall x, In x b -> (fst x, value (fst x) b) = x).
    { intros [c v] I. unfold value. cbn [fst]. now rewrite (col_nodup c v b N I). }
    rewrite map_map. rewrite <- map_id. apply map_ext_in. exact G.
  - intros c I. rewrite col_app. destruct (col_some c b I) as [v E]. unfold value. now rewrite E.
Qed.

Section Assemble.
  Variable stacked : bool.
  Variable fn : string -> list val -> val.
  Variable db : string -> list frame.
  Variable names : Z -> string.
  Variable refs : list (string * list Z).
  Variable l : list wentry.
  Variable texts : list (string * query).
  Hypothesis apart_l : no_twice (map ename l) = true.
  Hypothesis own : NoDup (concat (map snd refs)).
  Hypothesis refs_ok : forall r, In r refs -> exists e, In e l /\ ename e = fst r /\ length (snd r) = length (edefs e).
  Let pairs := ref_pairs l refs.
  Let names' := read_name names pairs.
  Let u := with_id names.
  Hypothesis texts_ok : Forall2 (fun e t => fst t = ename e /\ format_scan u names' (esub e) [] = Some (RSelect (snd t), [])) l texts.
  Hypothesis mean_entries : forall n s, In (n, s) (unfold_all refs [] l) -> mean_scan fn db names [] s <> None.
  Definition cdb (k : nat) (t : string) : list frame := rows_or_none (cte fn db texts k t).

  Lemma text_of before e rest : l = before ++ e :: rest -> exists q, find (fun p => same_name (fst p) (ename e)) texts = Some (ename e, q) /\
    format_scan u names' (esub e) [] = Some (RSelect q, []).
  Proof.
    intros El. pose proof apart_l as Ap. rewrite El, map_app in Ap. cbn [map] in Ap. pose proof texts_ok as Tx. rewrite El in Tx. clear El. apply Forall2_app_inv_l in Tx. destruct Tx as (t1 & t2 & F1 & F2 & ->). inversion F2 as [|? [n q] ? t3 [N F] F3]; subst. cbn [fst snd] in *.
    exists q. split; [|assumption]. rewrite find_app_r.
    - cbn [find fst]. rewrite N, same_refl. reflexivity.
    - intros p I. destruct (forall2_in_r _ _ _ _ F1 I) as (e' & I' & N' & _). rewrite N'. apply (no_twice_mid _ _ _ Ap), in_map, I'.
  Qed.
  Lemma cte_table k t : (forall e, In e l -> same_name (ename e) t = false) -> cte fn db texts k t = Some (db t).
  Proof.
    intros H. assert (F : find (fun e => same_name (fst e) t) texts = None).
    { destruct (find _ texts) as [p|] eqn:F; [|reflexivity]. apply find_some in F. destruct F as [I E]. destruct (forall2_in_r _ _ _ _ texts_ok I) as (e & Ie & N & _). rewrite N, (H e Ie) in E. discriminate. }
    destruct k; cbn [cte]; now rewrite F.
  Qed.
  Definition entry_done (before : list wentry) (e : wentry) : Prop := exists s rows,
    find (fun p => String.eqb (fst p) (ename e)) (unfold_all refs [] before) = Some (ename e, s) /\ out s = edefs e /\
    (forall env, mean_scan fn db names env s = Some rows) /\ (forall x, In x rows -> map fst x = edefs e) /\ Forall in64 (edefs e) /\
    forall k, (length before <= k)%nat -> cte fn db texts k (ename e) = Some (map (named u) rows).
  Definition sub_of (before : list wentry) (t : string) (cols : list Z) : option scan :=
    if is_ref refs t cols then
      match find (fun e => String.eqb (fst e) t) (unfold_all refs [] before) with
      | Some (_, s') => Some (SProject s' (same_cols cols (out s')) cols)
      | None => None
      end
    else None.
  Lemma unfold_sub before s : unfold refs (unfold_all refs [] before) s = put_scan (sub_of before) s.
  Proof. reflexivity. Qed.

  Lemma tables_same before s k : (forall e, In e before -> entry_done before e) -> (forall e, In e before -> In e l) -> (length before <= k)%nat -> scans_ok refs l before s ->
    all_same fn db (cdb k) names names' (sub_of before) (tables s).
  Proof.
    intros Done Sub Lk Sc t cols I. specialize (Sc t cols I). unfold same_table, sub_of. destruct (is_ref refs t cols) eqn:R.
    - destruct Sc as (e & Ie & Ne & Le). destruct (Done e Ie) as (s' & rows & Fs & Os & Ms & Ks & Ds & Ck). subst t. rewrite Fs. split; [|reflexivity]. intros env.
      rewrite mn_table, mn_project, Ms. unfold cdb. rewrite (Ck k Lk). cbn [rows_or_none]. rewrite Os.
      assert (Hs : forall c d, In (c, d) (combine cols (edefs e)) -> source pairs c = Some d).
      { intros c d Icd. apply source_in.
        - unfold pairs. now rewrite (pairs_fst l refs apart_l refs_ok).
        - unfold pairs, ref_pairs. apply in_flat_map. exists (ename e, cols). split; [now apply is_ref_in|]. cbn [fst snd]. now rewrite (named_entry l e apart_l (Sub e Ie)). }
      assert (Nc : NoDup cols) by (apply (nodup_part (map snd refs) cols own), in_map_iff; exists (ename e, cols); split; [reflexivity|now apply is_ref_in]).
      clear Ms Ck Fs. induction rows as [|row rows IH]; [reflexivity|]. cbn [map]. rewrite !every_cons. rewrite IH by (intros; apply Ks; now right).
      assert (Kr : map fst row = edefs e) by (apply Ks; now left).
      change (of_table names' cols (named u row)) with (of_table (read_name names pairs) cols (named (with_id names) row)).
      rewrite (ref_table names pairs row) with (defs := edefs e); [|now rewrite Kr|assumption|assumption|now rewrite Kr].
      rewrite (ref_comps fn db names env row cols (edefs e) Le) by now rewrite Kr.
      destruct (every (by_position row) (combine cols (edefs e))) as [b|] eqn:B; [|reflexivity]. pose proof (by_position_keys _ _ _ B) as Kb. rewrite (combine_fst cols _ Le) in Kb.
      assert (Pb : pick cols (b ++ row) = Some b) by (rewrite <- Kb; apply pick_self; now rewrite Kb). rewrite Pb. reflexivity.
    - destruct Sc as [St Sn]. split; [|reflexivity]. intros env. rewrite !mn_table. unfold cdb. rewrite (cte_table k t St). cbn [rows_or_none].
      apply every_ext. intros row _. unfold of_table. apply every_ext. intros c Ic. unfold names', read_name. rewrite source_none; [reflexivity|].
      unfold pairs. rewrite (pairs_fst l refs apart_l refs_ok). intros Hc. apply in_concat in Hc. destruct Hc as (cs & Ics & Hc). apply in_map_iff in Ics. destruct Ics as (r & <- & Ir). exact (Sn c r Ic Ir Hc).
  Qed.
  Lemma tables_known before s k : (forall e, In e before -> entry_done before e) -> (length before <= k)%nat -> scans_ok refs l before s ->
    forall t cols, In (t, cols) (tables s) -> known (cte fn db texts k t) = true.
  Proof.
    intros Done Lk Sc t cols I. specialize (Sc t cols I). destruct (is_ref refs t cols).
    - destruct Sc as (e & Ie & Ne & _). destruct (Done e Ie) as (s' & rows & _ & _ & _ & _ & _ & Ck). subst t. now rewrite (Ck k Lk).
    - destruct Sc as [St _]. now rewrite (cte_table k t St).
  Qed.
  Lemma forallb_known before s k q m : (forall e, In e before -> entry_done before e) -> (length before <= k)%nat -> scans_ok refs l before s ->
    format_scan u names' s [] = Some (RSelect q, m) -> forallb (fun t => known (cte fn db texts k t)) (reads q) = true.
  Proof.
    intros Done Lk Sc F. apply forallb_forall. intros t I. destruct (reads_tables _ _ _ _ _ _ F I) as (cols & It). exact (tables_known before s k Done Lk Sc t cols It).
  Qed.
  (** What a scan over the entries before it gives *)
  Lemma scan_done before s k q : (forall e, In e before -> entry_done before e) -> (forall e, In e before -> In e l) -> (length before <= k)%nat -> scans_ok refs l before s ->
    wf_scan in64 True [] [] s -> format_scan u names' s [] = Some (RSelect q, []) -> mean_scan fn db names [] (unfold refs (unfold_all refs [] before) s) <> None ->
    exists rows, (forall env, mean_scan fn db names env (unfold refs (unfold_all refs [] before) s) = Some rows) /\ out (unfold refs (unfold_all refs [] before) s) = out s /\
      (forall x, In x rows -> map fst x = out s) /\ Forall in64 (out s) /\ query_names q = map u (out s) /\ eval_query fn (cdb k) [] q = Some (map (map snd) rows).
  Proof.
    intros Done Sub Lk Sc W F M. rewrite unfold_sub in *. destruct (put_mean fn db (cdb k) names names' (sub_of before)) as (_ & _ & P & _).
    destruct (P s (tables_same before s k Done Sub Lk Sc)) as [E O]. clear P. destruct (mean_scan fn db names [] (put_scan (sub_of before) s)) as [rows|] eqn:Mr; [|congruence]. exists rows.
    assert (Mt : mean_scan fn (cdb k) names' [] s = Some rows) by now rewrite E.
    destruct (refine fn (cdb k) names' u in64 True (in64_inj names) (no_json_id names)) as (_ & _ & R & _).
    destruct (R s [] [] [] (RSelect q) [] W ltac:(intros c []) ltac:(intros c []) ltac:(intros a x []) F) as [_ H].
    destruct (H [] [] rows ltac:(intros c v []) Mt) as [K (Nq & Eq & _)]. repeat split; try assumption.
    - intros env. rewrite <- E. rewrite (closed_scan fn (cdb k) names' in64 True s [] env W). exact Mt.
    - now apply Forall_forall.
    - apply Forall_forall. intros c I. apply (fresh_out in64 True s [] [] W c I).
  Qed.
  Lemma named_rows rows defs : (forall x, In x rows -> map fst x = defs) -> map (combine (map u defs)) (map (map snd) rows) = map (named u) rows.
  Proof.
    intros K. rewrite map_map. apply map_ext_in. intros x I. rewrite <- (K x I). apply combine_named.
  Qed.
  Lemma entries_done rest : forall before, l = before ++ rest -> (forall e, In e before -> entry_done before e) -> entries_ok stacked refs l before rest -> forall e, In e l -> entry_done l e.
  Proof.
    induction rest as [|e rest IH]; intros before El Done Ok.
    - rewrite app_nil_r in El. subst before. assumption.
    - destruct Ok as ((W & Sel & Sh & Cl) & Ed & Sc & Ok). apply (IH (before ++ [e])); [now rewrite <- app_assoc| |assumption].
      assert (Sub : forall e', In e' before -> In e' l) by (intros e' I; rewrite El; apply in_or_app; now left).
      intros e' I. apply in_app_or in I. destruct I as [I|[<-|[]]].
      + destruct (Done e' I) as (s & rows & Fs & Os & Ms & Ks & Ds & Ck). exists s, rows. repeat split; try assumption.
        * rewrite unfold_all_app. cbn [unfold_all]. now apply find_app_l.
        * intros k Lk. apply Ck. rewrite app_length in Lk. lia.
      + destruct (text_of before e rest El) as (q & Fq & Fm). set (s := unfold refs (unfold_all refs [] before) (esub e)).
        assert (Ms : mean_scan fn db names [] s <> None).
        { apply (mean_entries (ename e)). rewrite El, unfold_all_app. cbn [unfold_all]. apply unfold_all_in, in_or_app. right. now left. }
        destruct (scan_done before (esub e) (length before) q Done Sub (Nat.le_refl _) Sc W Fm Ms) as (rows & Mr & Or & Kr & Dr & _ & _).
        exists s, rows. repeat split; try assumption; try (now rewrite Ed).
        * rewrite unfold_all_app. cbn [unfold_all]. rewrite find_app_r.
          -- cbn [find fst]. now rewrite String.eqb_refl.
          -- intros p Ip. apply String.eqb_neq. intros E. apply (in_map fst) in Ip. rewrite unfold_all_names in Ip. cbn [map app] in Ip. apply in_map_iff in Ip. destruct Ip as (e' & Ne & I').
             pose proof apart_l as Ap. rewrite El, map_app in Ap. cbn [map] in Ap. assert (X : same_name (ename e') (ename e) = false) by (apply (no_twice_mid _ _ _ Ap), in_map, I').
             rewrite Ne, E, same_refl in X. discriminate.
        * intros k Lk. rewrite app_length in Lk. cbn [length] in Lk. destruct k as [|k]; [lia|]. cbn [cte]. rewrite Fq.
          destruct (scan_done before (esub e) k q Done Sub ltac:(lia) Sc W Fm Ms) as (rows' & Mr' & _ & _ & _ & Nq & Eq).
          assert (rows' = rows) by (specialize (Mr []); specialize (Mr' []); congruence). subst rows'.
          rewrite (forallb_known before (esub e) k q [] Done ltac:(lia) Sc Fm). change (fun t' => rows_or_none (cte fn db texts k t')) with (cdb k). rewrite Eq, Nq. cbn [option_map]. f_equal. now apply named_rows.
  Qed.
End Assemble.
