From Coq Require Import Ascii String List ZArith Lia Bool.
From Verif Require Import GoBase GoBaseFacts DecModel QueryModel QuerySpec.
Import ListNotations.
Local Open Scope list_scope.

Scheme expr_mut := Induction for expr Sort Prop
with exprs_mut := Induction for exprs Sort Prop
with scan_mut := Induction for scan Sort Prop
with inputs_mut := Induction for inputs Sort Prop
with acomps_mut := Induction for acomps Sort Prop
with comps_mut := Induction for comps Sort Prop
with ajoin_mut := Induction for ajoin Sort Prop.
Combined Scheme tree_ind from expr_mut, exprs_mut, scan_mut, inputs_mut, acomps_mut, comps_mut, ajoin_mut.

Definition opt_list {A} (o : option A) : list A := match o with Some a => [a] | None => [] end.

(** ** Lists *)
Lemma every_cons {A B} (f : A -> option B) x l : every f (x :: l) = match f x, every f l with Some y, Some r => Some (y :: r) | _, _ => None end.
Proof. reflexivity. Qed.
Lemma every_forall2 {A B} (f : A -> option B) l ys : every f l = Some ys <-> Forall2 (fun x y => f x = Some y) l ys.
Proof.
  revert ys. induction l as [|x l IH]; intros ys.
  - split; [intros H; assert (ys = []) by (cbn in H; congruence); subst; constructor|intros H; inversion H; reflexivity].
  - rewrite every_cons. split.
    + destruct (f x) as [y|] eqn:F; [|discriminate]. destruct (every f l) as [r|]; [|discriminate].
      intros H. assert (ys = y :: r) by congruence. subst. constructor; [assumption|]. now apply IH.
    + intros H. inversion H as [|? y ? r F G]; subst. rewrite F. apply IH in G. now rewrite G.
Qed.
Lemma omap_forall2 {A B} (f : A -> option B) l ys : Forall2 (fun x y => f x = Some y) l ys -> omap f l = Some ys.
Proof. intros H. induction H as [|x y l ys F H IH]; [reflexivity|]. cbn [omap]. rewrite F. cbn [obind]. rewrite IH. reflexivity. Qed.
Lemma where_true_cons {A} (x : A) l v vs : where_true (x :: l) (v :: vs) = if holds v then x :: where_true l vs else where_true l vs.
Proof. unfold where_true. cbn. destruct (holds v); reflexivity. Qed.
Lemma filter2 {A B} (R : A -> B -> Prop) (f : A -> option val) (g : B -> option val) l l' vs :
  Forall2 R l l' -> every f l = Some vs -> (forall x y v, In x l -> R x y -> f x = Some v -> g y = Some v) ->
  exists k, ofilter g l' = Some k /\ Forall2 R (where_true l vs) k.
Proof.
  intros H. revert vs. induction H as [|x y l l' Rxy H IH]; intros vs E G.
  - exists []. split; [reflexivity|]. constructor.
  - rewrite every_cons in E. destruct (f x) as [v|] eqn:F; [|discriminate]. destruct (every f l) as [vs'|] eqn:E'; [|discriminate].
    assert (vs = v :: vs') by congruence. subst vs.
    destruct (IH vs' eq_refl) as (k & K & FK); [intros; eapply G; eauto; now right|].
    cbn [ofilter]. rewrite (G x y v (or_introl eq_refl) Rxy F). cbn [obind]. rewrite K. cbn [obind].
    rewrite where_true_cons. change (truth v) with (holds v). destruct (holds v); eexists; split; try reflexivity; [constructor|]; assumption.
Qed.
Lemma ofilter_always l : ofilter always l = Some l.
Proof. induction l as [|x l IH]; [reflexivity|]. cbn [ofilter]. unfold always at 1. cbn [obind]. rewrite IH. reflexivity. Qed.
Lemma where_true_incl {A} (x : A) l vs : In x (where_true l vs) -> In x l.
Proof.
  revert vs. induction l as [|y l IH]; intros [|v vs] H; try (destruct H; fail); try (unfold where_true in H; cbn in H; tauto).
  rewrite where_true_cons in H. destruct (holds v); [destruct H as [->|H]; [now left|right; eauto]|right; eauto].
Qed.

(** ** Columns *)
Lemma col_app c a b : col c (a ++ b) = match col c a with Some v => Some v | None => col c b end.
Proof.
  unfold col. induction a as [|[k v] a IH]; [reflexivity|]. cbn [app find fst]. destruct (k =? c)%Z; [reflexivity|exact IH].
Qed.
Lemma col_in c b v : col c b = Some v -> In c (map fst b).
Proof.
  unfold col. induction b as [|[k w] b IH]; [discriminate|]. cbn [find fst map]. destruct (Z.eqb_spec k c); [now left|]. intros H. right. now apply IH.
Qed.
Lemma col_none c b : ~ In c (map fst b) -> col c b = None.
Proof. intros H. destruct (col c b) eqn:E; [|reflexivity]. apply col_in in E. contradiction. Qed.
Lemma col_some c b : In c (map fst b) -> exists v, col c b = Some v.
Proof.
  unfold col. induction b as [|[k w] b IH]; [intros []|]. cbn [find fst map]. destruct (Z.eqb_spec k c); [eauto|].
  intros [H|H]; [contradiction|auto].
Qed.
Lemma pick_keys cols b r : pick cols b = Some r -> map fst r = cols.
Proof.
  intros H. apply every_forall2 in H. induction H as [|c p cols r F H IH]; [reflexivity|]. cbn.
  destruct (col c b); [|discriminate]. rewrite IH. f_equal. assert (p = (c, v)) by congruence. now subst.
Qed.
Lemma pick_col cols b r c : pick cols b = Some r -> In c cols -> col c r = col c b.
Proof.
  intros H. apply every_forall2 in H. induction H as [|d p cols r F H IH]; intros I; [destruct I|].
  destruct (col d b) as [v|] eqn:C; [|discriminate]. assert (p = (d, v)) by congruence. subst p.
  unfold col at 1. cbn [find fst]. destruct (Z.eqb_spec d c) as [->|N]; [cbn; congruence|].
  destruct I as [E|I]; [congruence|]. fold (col c r). now apply IH.
Qed.

Lemma get_none m k : (forall x, ~ In (k, x) m) -> get m k = None.
Proof.
  intros H. unfold get. destruct (find _ m) as [[n x]|] eqn:E; [|reflexivity].
  apply find_some in E. destruct E as [I E]. cbn in E. apply String.eqb_eq in E. subst. exfalso. eapply H. exact I.
Qed.
Lemma del_none m k : (forall x, ~ In (k, x) m) -> del m k = m.
Proof.
  intros H. unfold del. induction m as [|[n x] m IH]; [reflexivity|]. cbn [filter fst].
  destruct (String.eqb_spec n k) as [->|N]; [exfalso; apply (H x); now left|]. cbn. rewrite IH; [reflexivity|]. intros y I. apply (H y). now right.
Qed.

Lemma in_frame_concat n l : in_frame n (concat l) = hd_error (in_frames n l).
Proof.
  assert (A : forall f g, in_frame n (f ++ g) = match in_frame n f with Some v => Some v | None => in_frame n g end).
  { intros f g. unfold in_frame. induction f as [|[k v] f IH]; [reflexivity|]. cbn [app find fst]. destruct (same_name k n); [reflexivity|exact IH]. }
  induction l as [|f l IH]; [reflexivity|]. cbn [concat in_frames]. rewrite A, IH. destruct (in_frame n f); reflexivity.
Qed.
Lemma in_frames_app n a b : in_frames n (a ++ b) = in_frames n a ++ in_frames n b.
Proof. induction a as [|f a IH]; [reflexivity|]. cbn [app in_frames]. rewrite IH. destruct (in_frame n f); reflexivity. Qed.

Lemma forall2_in_l {A B} (R : A -> B -> Prop) l l' x : Forall2 R l l' -> In x l -> exists y, In y l' /\ R x y.
Proof. intros H. induction H; intros I; [destruct I|]. destruct I as [->|I]; [eexists; split; [now left|assumption]|]. destruct (IHForall2 I) as (z & Z1 & Z2). exists z. split; [now right|assumption]. Qed.
Lemma forall2_in_r {A B} (R : A -> B -> Prop) l l' y : Forall2 R l l' -> In y l' -> exists x, In x l /\ R x y.
Proof. intros H. induction H; intros I; [destruct I|]. destruct I as [->|I]; [eexists; split; [now left|assumption]|]. destruct (IHForall2 I) as (z & Z1 & Z2). exists z. split; [now right|assumption]. Qed.
Lemma forall2_imp {A B} (R S_ : A -> B -> Prop) l l' : (forall x y, R x y -> S_ x y) -> Forall2 R l l' -> Forall2 S_ l l'.
Proof. intros H F. induction F; constructor; auto. Qed.

(** ** Rows as values *)
Lemma val_eqb_eq a b : val_eqb a b = true <-> a = b.
Proof. destruct a as [x|], b as [y|]; cbn; try (split; congruence). rewrite Z.eqb_eq. split; congruence. Qed.
Lemma row_eqb_eq a : forall b, row_eqb a b = true <-> a = b.
Proof.
  induction a as [|x a IH]; intros [|y b]; cbn [row_eqb]; try (split; congruence).
  rewrite andb_true_iff, val_eqb_eq, IH. split; [intros [-> ->]; reflexivity|]. intros E. split; congruence.
Qed.
Lemma member_in x l : member x l = true <-> In x l.
Proof. unfold member. destruct (in_dec _ x l); split; intros; congruence || auto. Qed.
Lemma existsb_member x l : existsb (row_eqb x) l = member x l.
Proof.
  apply eq_true_iff_eq. rewrite member_in, existsb_exists. split.
  - intros (y & I & E). apply row_eqb_eq in E. now subst.
  - intros I. exists x. split; [assumption|]. now apply row_eqb_eq.
Qed.
Lemma member_one x y : member x [y] = row_eqb x y.
Proof. rewrite <- existsb_member. cbn. apply orb_false_r. Qed.
Lemma filter_filter {A} (f g : A -> bool) l : filter f (filter g l) = filter (fun x => g x && f x) l.
Proof. induction l as [|x l IH]; [reflexivity|]. cbn [filter]. destruct (g x); cbn [filter andb]; [destruct (f x); now rewrite IH|exact IH]. Qed.
Lemma filter_ext_in_ {A} (f g : A -> bool) l : (forall x, In x l -> f x = g x) -> filter f l = filter g l.
Proof.
  intros H. induction l as [|x l IH]; [reflexivity|]. cbn [filter]. rewrite H by (now left). rewrite IH by (intros; apply H; now right). reflexivity.
Qed.
Lemma filter_swap {A} (f g : A -> bool) l : filter f (filter g l) = filter g (filter f l).
Proof. rewrite !filter_filter. apply filter_ext_in_. intros. apply andb_comm. Qed.
Lemma filter_all {A} (f : A -> bool) l : (forall x, In x l -> f x = true) -> filter f l = l.
Proof. intros H. induction l as [|x l IH]; [reflexivity|]. cbn [filter]. rewrite H by (now left). rewrite IH by (intros; apply H; now right). reflexivity. Qed.
Lemma filter_fst2 {A B} (R : list val * A -> list val * B -> Prop) kv l l' : (forall p q, R p q -> fst p = fst q) -> Forall2 R l l' ->
  Forall2 R (filter (fun p => row_eqb kv (fst p)) l) (filter (fun p => row_eqb kv (fst p)) l').
Proof.
  intros H F. induction F as [|p q l l' Hpq F IH]; [constructor|]. cbn [filter]. rewrite <- (H p q Hpq). destruct (row_eqb kv (fst p)); [constructor|]; assumption.
Qed.
Lemma in_distinct x l : In x (distinct l) <-> In x l.
Proof.
  induction l as [|y l IH]; [reflexivity|]. cbn [distinct In]. rewrite filter_In, IH. split; [tauto|].
  intros [->|I]; [now left|]. destruct (row_eqb y x) eqn:E; [left; now apply row_eqb_eq|right; split; [assumption|reflexivity]].
Qed.
Lemma distinct_filter P l : distinct (filter P l) = filter P (distinct l).
Proof.
  induction l as [|x l IH]; [reflexivity|]. cbn [filter distinct]. destruct (P x) eqn:E.
  - cbn [distinct]. rewrite IH. f_equal. apply filter_swap.
  - rewrite IH, filter_filter. apply filter_ext_in_. intros y _. destruct (P y) eqn:E'; [|now rewrite andb_false_r].
    destruct (row_eqb x y) eqn:Q; [apply row_eqb_eq in Q; congruence|reflexivity].
Qed.
Lemma distinct_twice l : distinct (distinct l) = distinct l.
Proof.
  induction l as [|x l IH]; [reflexivity|]. cbn [distinct]. rewrite distinct_filter, IH, filter_filter. f_equal.
  apply filter_ext_in_. intros y _. apply andb_diag.
Qed.
Lemma distinct_app a b : distinct (a ++ b) = distinct a ++ filter (fun x => negb (member x a)) (distinct b).
Proof.
  induction a as [|x a IH]; [cbn [app distinct]; symmetry; apply filter_all; reflexivity|].
  cbn [app distinct]. rewrite IH, filter_app, filter_filter. cbn [app]. f_equal. f_equal. apply filter_ext_in_. intros y _.
  rewrite <- !existsb_member. cbn [existsb].
  assert (E : row_eqb y x = row_eqb x y) by (apply eq_true_iff_eq; rewrite !row_eqb_eq; split; congruence).
  rewrite E, negb_orb. apply andb_comm.
Qed.
Lemma distinct_app_l a b : distinct (distinct a ++ b) = distinct (a ++ b).
Proof.
  rewrite !distinct_app, distinct_twice. f_equal. apply filter_ext_in_. intros y _. f_equal. apply eq_true_iff_eq. rewrite !member_in. apply in_distinct.
Qed.
Lemma firsts_distinct l : firsts l = distinct l.
Proof.
  unfold firsts.
  assert (H : forall l acc, fold_left (fun acc x => if member x acc then acc else acc ++ [x]) l acc = acc ++ filter (fun x => negb (member x acc)) (distinct l)).
  { clear l. induction l as [|x l IH]; intros acc; [now rewrite app_nil_r|]. cbn [fold_left distinct filter]. rewrite IH. destruct (member x acc) eqn:M; cbn [negb].
    - f_equal. rewrite filter_filter. apply filter_ext_in_. intros y _. destruct (member y acc) eqn:My; [now rewrite andb_false_r|].
      destruct (row_eqb x y) eqn:E; [apply row_eqb_eq in E; congruence|reflexivity].
    - rewrite <- app_assoc. cbn [app]. f_equal. f_equal. rewrite filter_filter. apply filter_ext_in_. intros y _.
      rewrite <- !existsb_member, existsb_app. cbn [existsb]. rewrite orb_false_r.
      assert (E : row_eqb y x = row_eqb x y) by (apply eq_true_iff_eq; rewrite !row_eqb_eq; split; congruence).
      rewrite E, negb_orb. apply andb_comm. }
  rewrite H. cbn [app]. apply filter_all. reflexivity.
Qed.
Lemma groups_keys {A} : forall n (l : list (list val * A)), (length l <= n)%nat ->
  groups_of l n = map (fun k => map snd (filter (fun p => row_eqb k (fst p)) l)) (distinct (map fst l)).
Proof.
  induction n as [|n IH]; intros l L; [destruct l; [reflexivity|cbn in L; lia]|]. destruct l as [|[k x] r]; [reflexivity|].
  cbn [groups_of map fst snd distinct]. rewrite IH.
  2:{ cbn in L. clear -L. assert (H : (length (filter (fun p : list val * A => negb (row_eqb k (fst p))) r) <= length r)%nat).
      { clear. induction r as [|p r IH]; [cbn; lia|]. cbn [filter]. destruct (negb _); cbn [length]; lia. } lia. }
  assert (Ekk : row_eqb k k = true) by (now apply row_eqb_eq). cbn [filter fst]. rewrite Ekk. cbn [map snd]. f_equal.
  assert (E : map fst (filter (fun p => negb (row_eqb k (fst p))) r) = filter (fun y => negb (row_eqb k y)) (map fst r)).
  { clear. induction r as [|p r IH]; [reflexivity|]. cbn [filter map]. destruct (negb (row_eqb k (fst p))); cbn [map]; now rewrite IH. }
  rewrite E, distinct_filter. apply map_ext_in. intros k' I. apply filter_In in I. destruct I as [_ I].
  assert (Ne : row_eqb k' k = false). { destruct (row_eqb k' k) eqn:Q; [|reflexivity]. apply row_eqb_eq in Q. subst. rewrite Ekk in I. discriminate. }
  rewrite Ne, filter_filter. f_equal. apply filter_ext_in_. intros p _. destruct (row_eqb k' (fst p)) eqn:Q; [|now rewrite andb_false_r].
  apply row_eqb_eq in Q. subst k'. now rewrite I.
Qed.
Lemma distinct_nil l : distinct l = [] -> l = [].
Proof. destruct l; [reflexivity|discriminate]. Qed.

(** ** Sorting *)
Lemma isort_map {A B} (le : B -> B -> bool) (g : A -> B) l : isort le (map g l) = map g (isort (fun a b => le (g a) (g b)) l).
Proof.
  induction l as [|x l IH]; [reflexivity|]. cbn [map isort]. rewrite IH. generalize (isort (fun a b => le (g a) (g b)) l). intros k.
  induction k as [|y k IHk]; [reflexivity|]. cbn [map insert]. destruct (le (g x) (g y)); [reflexivity|]. cbn [map]. now rewrite IHk.
Qed.
Lemma put_in keys x l y : In y (put keys x l) <-> y = x \/ In y l.
Proof.
  induction l as [|z l IH]; cbn [put]; [cbn; intuition|]. destruct (before keys x z); cbn [In]; [intuition|]. rewrite IH. tauto.
Qed.
Lemma ordered_in keys l y : In y (ordered keys l) <-> In y l.
Proof. unfold ordered. induction l as [|x l IH]; [reflexivity|]. cbn [fold_right In]. rewrite put_in, IH. intuition congruence. Qed.
Lemma isort_ordered keys le l : (forall a b, In a l -> In b l -> le a b = before keys a b) -> isort le l = ordered keys l.
Proof.
  induction l as [|x l IH]; intros H; [reflexivity|]. unfold ordered. cbn [isort fold_right]. fold (ordered keys l). rewrite IH by (intros; apply H; now right).
  assert (G : forall k, (forall y, In y k -> In y l) -> insert le x k = put keys x k).
  { induction k as [|y k IHk]; intros S_; [reflexivity|]. cbn [insert put]. rewrite (H x y (in_eq _ _) (in_cons _ _ _ (S_ y (in_eq _ _)))). rewrite IHk; [reflexivity|]. intros z I. apply S_. now right. }
  apply G. intros y. now rewrite ordered_in.
Qed.
Definition value (c : Z) (z : binding) : val := match col c z with Some v => v | None => None end.
Definition key_values (k : Z * bool * nulls_mode) (z : binding) : list val :=
  let '(c, _, m) := k in
  match m with
  | NDefault => []
  | NFirst => [Some (match value c z with Some _ => 1 | None => 0 end)%Z]
  | NLast => [Some (match value c z with Some _ => 0 | None => 1 end)%Z]
  end ++ [value c z].
Lemma keys_before u keys a b : (forall k, In k keys -> col (fst (fst k)) a <> None /\ col (fst (fst k)) b <> None) ->
  keys_le (flat_map (sort_keys u) keys) (flat_map (fun k => key_values k a) keys) (flat_map (fun k => key_values k b) keys) = before keys a b.
Proof.
  induction keys as [|[[c desc] m] keys IH]; intros H; [reflexivity|].
  specialize (IH ltac:(intros; apply H; now right)). destruct (H _ (or_introl eq_refl)) as [Ha Hb]. cbn [fst] in Ha, Hb.
  cbn [flat_map sort_keys key_values before]. unfold value. destruct (col c a) as [x|]; [|congruence]. destruct (col c b) as [y|]; [|congruence].
  destruct m, desc, x as [x|], y as [y|]; cbn [app keys_le key_cmp val_cmp order nulls_first negb Z.compare Pos.compare Pos.compare_cont]; try rewrite IH; reflexivity.
Qed.
Lemma pick_total cols z : (forall c, In c cols -> In c (map fst z)) -> pick cols z = Some (map (fun c => (c, value c z)) cols).
Proof.
  intros H. apply every_forall2. induction cols as [|c cols IH]; cbn [map]; constructor.
  - destruct (col_some c z (H c (or_introl eq_refl))) as [v E]. unfold value. now rewrite E.
  - apply IH. intros; apply H; now right.
Qed.
Lemma every_map {A B} (f : A -> option B) (g : A -> B) l : (forall x, In x l -> f x = Some (g x)) -> every f l = Some (map g l).
Proof.
  intros H. induction l as [|x l IH]; [reflexivity|]. rewrite every_cons, H by (now left). rewrite IH by (intros; apply H; now right). reflexivity.
Qed.

(** ** Set operations *)
Lemma set_ok op : forall (l : list (list val)) (rest : list (list (list val))) vs, rest <> [] -> set_result op l rest = Some vs ->
  forall (step : list (list val) -> list (list (list val)) -> option (list (list val))),
  (forall a, step a [] = Some a) -> (forall a b r, step a (b :: r) = obind (set_step op a b) (fun x => step x r)) -> step l rest = Some vs.
Proof.
  intros l rest vs Ne E step S0 S1.
  assert (Mb : forall x b, existsb (row_eqb x) b = member x b) by (intros; apply existsb_member).
  destruct op; cbn [set_result] in E; try discriminate E; match type of E with Some ?t = _ => assert (vs = t) by congruence; subst vs end; clear E; rewrite ?firsts_distinct.
  - clear Ne. revert l. induction rest as [|b r IH]; intros l; [rewrite S0; cbn; now rewrite app_nil_r|]. rewrite S1. cbn [set_step obind]. rewrite IH. cbn [concat]. now rewrite app_assoc.
  - revert l. induction rest as [|b r IH]; intros l; [congruence|]. rewrite S1. cbn [set_step obind]. destruct r as [|b' r].
    + rewrite S0. cbn [concat]. now rewrite app_nil_r.
    + rewrite IH by discriminate. cbn [concat]. rewrite distinct_app_l. now rewrite <- app_assoc.
  - revert l. induction rest as [|b r IH]; intros l; [congruence|]. rewrite S1. cbn [set_step obind].
    rewrite (filter_ext_in_ (fun x => existsb (row_eqb x) b) (fun x => member x b)) by (intros; apply Mb). destruct r as [|b' r].
    + rewrite S0. f_equal. f_equal. apply filter_ext_in_. intros x _. cbn [forallb]. now rewrite andb_true_r.
    + rewrite IH by discriminate. rewrite <- (distinct_filter _ (filter (fun x => member x b) l)), distinct_twice, filter_filter. reflexivity.
  - revert l. induction rest as [|b r IH]; intros l; [congruence|]. rewrite S1. cbn [set_step obind].
    rewrite (filter_ext_in_ (fun x => negb (existsb (row_eqb x) b)) (fun x => negb (member x b))) by (intros; now rewrite Mb). destruct r as [|b' r].
    + rewrite S0. f_equal. f_equal. apply filter_ext_in_. intros x _. cbn [existsb]. now rewrite orb_false_r.
    + rewrite IH by discriminate. rewrite <- (distinct_filter _ (filter (fun x => negb (member x b)) l)), distinct_twice, filter_filter. f_equal. f_equal.
      apply filter_ext_in_. intros x _. symmetry. apply negb_orb.
Qed.
Lemma set_result_in op l rest vs x : set_result op l rest = Some vs -> In x vs -> exists y, In y (l :: rest) /\ In x y.
Proof.
  intros E I. destruct op; cbn [set_result] in E; try discriminate E; match type of E with Some ?t = _ => assert (vs = t) by congruence; subst vs end; clear E;
    rewrite ?firsts_distinct, ?in_distinct in I.
  - apply in_concat in I. exact I.
  - apply in_concat in I. exact I.
  - apply filter_In in I. exists l. split; [now left|apply I].
  - apply filter_In in I. exists l. split; [now left|apply I].
Qed.

(** ** Joins *)
Section Joins.
  Variable fn : string -> list val -> val.
  Variable db : string -> list frame.
  Lemma ev_col env n : eval_expr fn db env (XCol n) = lookup n env. Proof. reflexivity. Qed.
  Lemma ev_lit env v : eval_expr fn db env (XLit v) = Some v. Proof. reflexivity. Qed.
  Lemma ev_call env f a : eval_expr fn db env (XCall f a) = obind (eval_exprs fn db env a) (fun l => Some (fn f l)). Proof. reflexivity. Qed.
  Lemma ev_exists env q : eval_expr fn db env (XExists q) = obind (eval_query fn db env q) (fun l => Some (Some (match l with [] => 0%Z | _ => 1%Z end))). Proof. reflexivity. Qed.
  Lemma ev_scalar env q : eval_expr fn db env (XScalar q) = obind (eval_query fn db env q) (fun l => Some (match l with (v :: _) :: _ => v | _ => None end)). Proof. reflexivity. Qed.
  Lemma ev_nil env : eval_exprs fn db env XNil = Some []. Proof. reflexivity. Qed.
  Lemma ev_cons env e r : eval_exprs fn db env (XCons e r) = obind (eval_expr fn db env e) (fun v => obind (eval_exprs fn db env r) (fun l => Some (v :: l))). Proof. reflexivity. Qed.
  Lemma ev_select env i f w lim : i <> INil -> eval_query fn db env (Select i f w lim) =
    obind (eval_from fn db env f) (fun rows =>
        obind (ofilter (fun r =>
                 match w with
                 | WNone => Some (Some 1%Z)
                 | WSome e => eval_expr fn db ((r, aliases fn db ((r, []) :: env) i) :: env) e
                 end) rows) (fun kept =>
        obind (omap (fun r => eval_items fn db ((r, []) :: env) i) kept) (fun out =>
        Some (page lim out)))).
  Proof. intros H. destruct i; [congruence|reflexivity|reflexivity]. Qed.
  Lemma ev_sorted env i f w keys : i <> INil -> eval_query fn db env (Sorted i f w keys) =
    obind (eval_from fn db env f) (fun rows =>
        obind (ofilter (fun r =>
                 match w with
                 | WNone => Some (Some 1%Z)
                 | WSome e => eval_expr fn db ((r, aliases fn db ((r, []) :: env) i) :: env) e
                 end) rows) (fun kept =>
        obind (omap (fun r => obind (eval_items fn db ((r, []) :: env) i) (fun vs =>
                              obind (omap (sort_value r env (aliases fn db ((r, []) :: env) i)) keys) (fun ks => Some (ks, vs)))) kept) (fun out =>
        Some (map snd (isort (fun a b => keys_le keys (fst a) (fst b)) out))))).
  Proof. intros H. destruct i; [congruence|reflexivity|reflexivity]. Qed.
  Lemma ev_grouped env i f w keys : i <> INil -> eval_query fn db env (Grouped i f w keys) =
    obind (eval_from fn db env f) (fun rows =>
        obind (ofilter (fun r =>
                 match w with
                 | WNone => Some (Some 1%Z)
                 | WSome e => eval_expr fn db ((r, aliases fn db ((r, []) :: env) i) :: env) e
                 end) rows) (fun kept =>
        obind (omap (fun r => obind (omap (fun n => lookup n ((r, aliases fn db ((r, []) :: env) i) :: env)) keys) (fun k => Some (k, r))) kept) (fun keyed =>
        omap (fun g => eval_group_items fn db env g i) (match keys with [] => [kept] | _ => groups_of keyed (length keyed) end)))).
  Proof. intros H. destruct i; [congruence|reflexivity|reflexivity]. Qed.
  Lemma ev_compound env op q r : eval_query fn db env (Compound op (QCons q r)) = obind (eval_query fn db env q) (fun l => eval_compound fn db env op l r). Proof. reflexivity. Qed.
  Lemma ev_compound_nil env op acc : eval_compound fn db env op acc QNil = Some acc. Proof. reflexivity. Qed.
  Lemma ev_compound_cons env op acc q r : eval_compound fn db env op acc (QCons q r) =
    obind (eval_query fn db env q) (fun l => obind (set_step op acc l) (fun acc' => eval_compound fn db env op acc' r)). Proof. reflexivity. Qed.
  Lemma ev_gitems_nil env g : eval_group_items fn db env g INil = Some []. Proof. reflexivity. Qed.
  Lemma ev_gitems_agg env g f a n r : eval_group_items fn db env g (IAs (XAgg f a) n r) =
    obind (omap (fun x => eval_exprs fn db ((x, []) :: env) a) g) (fun vs => obind (eval_group_items fn db env g r) (fun l => Some (fn f (Some (Z.of_nat (length g)) :: concat vs) :: l))). Proof. reflexivity. Qed.
  Lemma ev_gitems_as env g e n r : (forall f a, e <> XAgg f a) -> eval_group_items fn db env g (IAs e n r) =
    obind (match g with x :: _ => eval_expr fn db ((x, []) :: env) e | [] => Some None end) (fun v => obind (eval_group_items fn db env g r) (fun l => Some (v :: l))).
  Proof. intros H. destruct e; try reflexivity. exfalso. eapply H. reflexivity. Qed.
  Lemma ev_select_nil env f w lim : eval_query fn db env (Select INil f w lim) = None. Proof. reflexivity. Qed.
  Lemma ev_items_nil env : eval_items fn db env INil = Some []. Proof. reflexivity. Qed.
  Lemma ev_items_col env n r : eval_items fn db env (ICol n r) = obind (lookup n env) (fun v => obind (eval_items fn db env r) (fun l => Some (v :: l))). Proof. reflexivity. Qed.
  Lemma ev_items_as env e n r : eval_items fn db env (IAs e n r) = obind (eval_expr fn db env e) (fun v => obind (eval_items fn db env r) (fun l => Some (v :: l))). Proof. reflexivity. Qed.
  Lemma ev_alias_nil env : aliases fn db env INil = []. Proof. reflexivity. Qed.
  Lemma ev_alias_col env n r : aliases fn db env (ICol n r) = (n, lookup n env) :: aliases fn db env r. Proof. reflexivity. Qed.
  Lemma ev_alias_as env e n r : aliases fn db env (IAs e n r) = (n, eval_expr fn db env e) :: aliases fn db env r. Proof. reflexivity. Qed.
  Lemma ev_from_joins env t : eval_from fn db env (FJoins t) = eval_group fn db env t. Proof. reflexivity. Qed.
  Lemma ev_from_table env t : eval_from fn db env (FTable t) = Some (map (fun r => [r]) (db t)). Proof. reflexivity. Qed.
  Lemma ev_from_none env : eval_from fn db env FNone = Some [[]]. Proof. reflexivity. Qed.
  Lemma ev_group_item env q r : eval_group fn db env (KItem q r) = obind (eval_query fn db env q) (fun l => eval_joins fn db env [null_frame (query_names q)] (item_rows (query_names q) l) r). Proof. reflexivity. Qed.
  Lemma ev_group_group env g r : eval_group fn db env (KGroup g r) = obind (eval_group fn db env g) (fun l => eval_joins fn db env [null_frame (jtoks_names g)] (group_rows l) r). Proof. reflexivity. Qed.
  Lemma ev_group_arr env s r : eval_group fn db env (KArr s r) = obind (eval_arr fn db env s) (fun l => eval_joins fn db env [null_frame (arr_names s)] l r). Proof. reflexivity. Qed.
  Lemma ev_arr env f a elem off on w : eval_arr fn db env (Arr f a elem off on w) =
        obind (eval_from fn db env f) (fun rows =>
        obind (omap (fun r => obind (eval_expr fn db ((r, []) :: env) a) (fun v =>
                 match on with
                 | OComma => Some (map (pair r) (each fn v))
                 | OOn outer e =>
                     obind (ofilter (fun x => eval_expr fn db (each_scope elem off x :: env) e) (map (pair r) (each fn v))) (fun k =>
                     Some (match k with [] => if outer then [(r, (None, None))] else [] | _ => k end))
                 end)) rows) (fun ll =>
        obind (ofilter (fun x =>
                 match w with
                 | WNone => Some (Some 1%Z)
                 | WSome e => eval_expr fn db (each_scope elem off x :: env) e
                 end) (concat ll)) (fun k =>
        Some (map (each_row f elem off) k)))). Proof. reflexivity. Qed.
  Lemma ev_joins_nil env an acc : eval_joins fn db env an acc KNil = Some acc. Proof. reflexivity. Qed.
  Lemma ev_joins_cross env an acc t : eval_joins fn db env an acc (KCross t) = eval_right fn db env JInner an acc t. Proof. reflexivity. Qed.
  Lemma ev_joins_join env an acc k t : eval_joins fn db env an acc (KJoin k t) = eval_right fn db env k an acc t. Proof. reflexivity. Qed.
  Lemma ev_right_item env k an acc q r : eval_right fn db env k an acc (KItem q r) =
    obind (eval_query fn db env q) (fun l => match r with
        | KOn e r' => obind (joined_rows k (fun x => eval_expr fn db ((x, []) :: env) e) an [null_frame (query_names q)] acc (item_rows (query_names q) l)) (fun y => eval_joins fn db env (an ++ [null_frame (query_names q)]) y r')
        | _ => obind (joined_rows k always an [null_frame (query_names q)] acc (item_rows (query_names q) l)) (fun y => eval_joins fn db env (an ++ [null_frame (query_names q)]) y r)
        end). Proof. reflexivity. Qed.
  Lemma ev_right_group env k an acc g r : eval_right fn db env k an acc (KGroup g r) =
    obind (eval_group fn db env g) (fun l => match r with
        | KOn e r' => obind (joined_rows k (fun x => eval_expr fn db ((x, []) :: env) e) an [null_frame (jtoks_names g)] acc (group_rows l)) (fun y => eval_joins fn db env (an ++ [null_frame (jtoks_names g)]) y r')
        | _ => obind (joined_rows k always an [null_frame (jtoks_names g)] acc (group_rows l)) (fun y => eval_joins fn db env (an ++ [null_frame (jtoks_names g)]) y r)
        end). Proof. reflexivity. Qed.

  Lemma ev_right_arr env k an acc s r : eval_right fn db env k an acc (KArr s r) =
    obind (eval_arr fn db env s) (fun b => match r with
        | KOn e r' => obind (joined_rows k (fun x => eval_expr fn db ((x, []) :: env) e) an [null_frame (arr_names s)] acc b) (fun y => eval_joins fn db env (an ++ [null_frame (arr_names s)]) y r')
        | _ => obind (joined_rows k always an [null_frame (arr_names s)] acc b) (fun y => eval_joins fn db env (an ++ [null_frame (arr_names s)]) y r)
        end). Proof. reflexivity. Qed.

  Definition starts_join (b : jtoks) : bool := match b with KCross _ | KJoin _ _ => true | _ => false end.
  Fixpoint ksize (a : jtoks) : nat :=
    match a with KNil => 0 | KItem _ r | KGroup _ r | KCross r | KJoin _ r | KOn _ r | KArr _ r => S (ksize r) end.
  Lemma nulls_kapp a b : nulls_of (kapp a b) = nulls_of a ++ nulls_of b.
  Proof. induction a; cbn [kapp nulls_of app]; congruence. Qed.
  Lemma kapp_joins : forall n a b env an acc, (ksize a <= n)%nat -> starts_join b = true ->
    eval_joins fn db env an acc (kapp a b) = obind (eval_joins fn db env an acc a) (fun y => eval_joins fn db env (an ++ nulls_of a) y b) /\
    forall k, match a with KNil => True | _ =>
      eval_right fn db env k an acc (kapp a b) = obind (eval_right fn db env k an acc a) (fun y => eval_joins fn db env (an ++ nulls_of a) y b) end.
  Proof.
    induction n as [|n IH]; intros a b env an acc L B.
    - destruct a; cbn in L; try lia. split; [cbn [kapp nulls_of]; rewrite app_nil_r; reflexivity|]. auto.
    - assert (R : forall k (l : option (list row)) r, (ksize r <= n)%nat -> forall nulls,
          obind l (fun bb => match kapp r b with
            | KOn e r' => obind (joined_rows k (fun x => eval_expr fn db ((x, []) :: env) e) an nulls acc bb) (fun y => eval_joins fn db env (an ++ nulls) y r')
            | _ => obind (joined_rows k always an nulls acc bb) (fun y => eval_joins fn db env (an ++ nulls) y (kapp r b)) end) =
          obind (obind l (fun bb => match r with
            | KOn e r' => obind (joined_rows k (fun x => eval_expr fn db ((x, []) :: env) e) an nulls acc bb) (fun y => eval_joins fn db env (an ++ nulls) y r')
            | _ => obind (joined_rows k always an nulls acc bb) (fun y => eval_joins fn db env (an ++ nulls) y r) end)) (fun y => eval_joins fn db env (an ++ nulls ++ nulls_of r) y b)).
      { intros k [bb|] r Lr nulls; [|reflexivity]. cbn [obind].
        assert (Q : forall r', (ksize r' <= n)%nat -> nulls_of r' = nulls_of r -> forall o, obind o (fun y => eval_joins fn db env (an ++ nulls) y (kapp r' b)) =
           obind (obind o (fun y => eval_joins fn db env (an ++ nulls) y r')) (fun y => eval_joins fn db env (an ++ nulls ++ nulls_of r) y b)).
        { intros r' Lr' Nr [y|]; [|reflexivity]. cbn [obind]. rewrite <- Nr, app_assoc. apply (IH r' b env (an ++ nulls) y Lr' B). }
        destruct r as [|q r|t r|r|k' r|e r|s r].
        - cbn [kapp]. destruct b; try discriminate B; apply (Q KNil); auto; cbn; lia.
        - apply (Q (KItem q r) Lr eq_refl).
        - apply (Q (KGroup t r) Lr eq_refl).
        - apply (Q (KCross r) Lr eq_refl).
        - apply (Q (KJoin k' r) Lr eq_refl).
        - apply (Q r); [cbn in Lr; lia|reflexivity].
        - apply (Q (KArr s r) Lr eq_refl). }
      destruct a as [|q r|t r|r|k' r|e r|s r]; cbn [ksize] in L; (split; [|intros k]); try reflexivity; try exact I.
      + cbn [kapp nulls_of]. rewrite app_nil_r. reflexivity.
      + cbn [kapp nulls_of]. rewrite !ev_right_item. specialize (R k (obind (eval_query fn db env q) (fun l => Some (item_rows (query_names q) l))) r ltac:(lia) [null_frame (query_names q)]).
        destruct (eval_query fn db env q); [|reflexivity]. cbn [obind] in R |- *. exact R.
      + cbn [kapp nulls_of]. rewrite !ev_right_group. specialize (R k (obind (eval_group fn db env t) (fun l => Some (group_rows l))) r ltac:(lia) [null_frame (jtoks_names t)]).
        destruct (eval_group fn db env t); [|reflexivity]. cbn [obind] in R |- *. exact R.
      + cbn [kapp nulls_of]. rewrite !ev_joins_cross. pose proof (proj2 (IH r b env an acc ltac:(lia) B) JInner) as Q.
        destruct r; try exact Q. cbn [kapp]. destruct b; try discriminate B; reflexivity.
      + cbn [kapp nulls_of]. rewrite !ev_joins_join. pose proof (proj2 (IH r b env an acc ltac:(lia) B) k') as Q.
        destruct r; try exact Q. cbn [kapp]. destruct b; try discriminate B; reflexivity.
      + cbn [kapp nulls_of]. rewrite !ev_right_arr. exact (R k (eval_arr fn db env s) r ltac:(lia) [null_frame (arr_names s)]).
  Qed.
  Lemma kapp_group a b env : starts_join b = true ->
    match a with KNil => True | _ =>
    eval_group fn db env (kapp a b) = obind (eval_group fn db env a) (fun y => eval_joins fn db env (nulls_of a) y b) end.
  Proof.
    intros B. destruct a as [|q r|t r|r|k' r|e r|s r]; try reflexivity; try exact I; cbn [kapp]; rewrite ?ev_group_item, ?ev_group_group, ?ev_group_arr.
    - destruct (eval_query fn db env q); [|reflexivity]. cbn [obind]. apply (kapp_joins (ksize r) r b env [null_frame (query_names q)] _ ltac:(lia) B).
    - destruct (eval_group fn db env t); [|reflexivity]. cbn [obind]. apply (kapp_joins (ksize r) r b env [null_frame (jtoks_names t)] _ ltac:(lia) B).
    - destruct (eval_arr fn db env s); [|reflexivity]. cbn [obind]. apply (kapp_joins (ksize r) r b env [null_frame (arr_names s)] _ ltac:(lia) B).
  Qed.
End Joins.

(** Equations of the mutual fixpoints *)
Section FormatEqs.
  Variable u names : Z -> string.
  Notation fe := (format_expr u names). Notation fs := (format_scan u names). Notation fl := (format_exprs u names). Notation fc := (format_comps u names).
  Lemma fm_col c m : fe (ECol c) m = match get m (u c) with Some _ => None | None => Some (XCol (u c), m) end. Proof. reflexivity. Qed.
  Lemma fm_lit v m : fe (ELit v) m = Some (XLit v, m). Proof. reflexivity. Qed.
  Lemma fm_call f a m : fe (ECall f a) m = obind (fl a m) (fun p => Some (XCall f (fst p), snd p)). Proof. reflexivity. Qed.
  Lemma fm_exists s m : fe (EExists s) m = obind (fs s m) (fun p => match fst p with RSelect q => Some (XExists q, snd p) | _ => None end). Proof. reflexivity. Qed.
  Lemma fm_scalar s m : fe (EScalar s) m = obind (fs s m) (fun p => match fst p with RSelect q => Some (XScalar q, snd p) | _ => None end). Proof. reflexivity. Qed.
  Lemma fm_nil m : fl ENil m = Some (XNil, m). Proof. reflexivity. Qed.
  Lemma fm_cons e r m : fl (ECons e r) m = obind (fe e m) (fun p => obind (fl r (snd p)) (fun q => Some (XCons (fst p) (fst q), snd q))). Proof. reflexivity. Qed.
  Lemma fm_single m : fs SSingle m = Some (RNone, m). Proof. reflexivity. Qed.
  Lemma fm_table t cols m : fs (STable t cols) m = Some (RJoin (KItem (Select (table_items u names cols) (FTable t) WNone None) KNil), m). Proof. reflexivity. Qed.
  Lemma fm_cross l r m : fs (SCross l r) m =
        obind (fs l m) (fun p => obind (fs r (snd p)) (fun q =>
        obind (join_side (fst p)) (fun a => obind (join_side (fst q)) (fun b =>
        Some (RJoin (kapp a (KCross b)), snd q))))). Proof. reflexivity. Qed.
  Lemma fm_join k l r on m : fs (SJoin k l r on) m =
        obind (fs l m) (fun p => obind (fs r (snd p)) (fun q =>
        obind (join_side (fst p)) (fun a => obind (join_side (fst q)) (fun b =>
        obind (fe on (snd q)) (fun o =>
        Some (RJoin (kapp a (KJoin k (kapp b (KOn (fst o) KNil)))), snd o)))))). Proof. reflexivity. Qed.
  Lemma fm_filter s e m : fs (SFilter s e) m =
        obind (fs s m) (fun p => obind (fe e (snd p)) (fun q =>
        obind (add_filter (fst p) (fst q)) (fun r => Some (r, snd q)))). Proof. reflexivity. Qed.
  Lemma fm_project s cs cols m : fs (SProject s cs cols) m =
        obind (fc cs m) (fun m1 => obind (fs s m1) (fun p =>
        let (i, m2) := take_items u cols (snd p) in
        let (f, w) := input_from (fst p) in
        Some (RSelect (Select i f w None), m2))). Proof. reflexivity. Qed.
  Lemma fm_limit s n off cols m : fs (SLimit s n off cols) m =
        obind (fs s m) (fun p =>
        let (i, m2) := take_items u cols (snd p) in
        let (f, w) := input_from (fst p) in
        Some (RSelect (Select i f w (Some (n, off))), m2)). Proof. reflexivity. Qed.
  Lemma fm_order s keys cols m : fs (SOrder s keys cols) m =
        obind (fs s m) (fun p =>
        let (i, m2) := take_items u cols (snd p) in
        let (f, w) := input_from (fst p) in
        Some (RSelect (Sorted i f w (flat_map (sort_keys u) keys)), m2)). Proof. reflexivity. Qed.
  Notation fi := (format_inputs u names). Notation fa := (format_aggs u names).
  Lemma fm_set op l cols m : fs (SSet op l cols) m =
        obind (fi l m) (fun p =>
        Some (RSelect (Select (set_items u (first_cols l) cols) (FJoins (KItem (Compound op (fst p)) KNil)) WNone None), snd p)). Proof. reflexivity. Qed.
  Lemma fm_agg s groups aggs cols m : fs (SAgg s groups aggs cols) m =
        obind (fa aggs m) (fun m1 => obind (fs s m1) (fun p =>
        obind (fc groups (snd p)) (fun m2 =>
        let (i, m3) := take_items u cols m2 in
        let (f, w) := input_from (fst p) in
        Some (RSelect (Grouped i f w (map u (group_ids groups))), m3)))). Proof. reflexivity. Qed.
  Lemma fm_array s a elem off j m : fs (SArray s a elem off j) m =
        obind (fe a m) (fun x => obind (fs s (snd x)) (fun p =>
        obind (array_from (fst p)) (fun f =>
        match j with
        | JComma _ => Some (RArr (Arr f (fst x) (u elem) (option_map u off) OComma WNone), snd p)
        | JOn outer e => obind (fe e (snd p)) (fun y => Some (RArr (Arr f (fst x) (u elem) (option_map u off) (OOn outer (fst y)) WNone), snd y))
        end))). Proof. reflexivity. Qed.
  Lemma fm_nnil m : fi NNil m = Some (QNil, m). Proof. reflexivity. Qed.
  Lemma fm_ncons s cols r m : fi (NCons s cols r) m =
        obind (fs s m) (fun p => obind (fi r (snd p)) (fun q =>
        let (f, w) := input_from (fst p) in
        Some (QCons (Select (plain_items u cols) f w None) (fst q), snd q))). Proof. reflexivity. Qed.
  Lemma fm_anil m : fa ANil m = Some m. Proof. reflexivity. Qed.
  Lemma fm_acons c f a r m : fa (ACons c f a r) m = obind (fl a m) (fun p => fa r (set (snd p) (u c) (XAgg f (fst p)))). Proof. reflexivity. Qed.
  Lemma fm_cnil m : fc CNil m = Some m. Proof. reflexivity. Qed.
  Lemma fm_ccons c e r m : fc (CCons c e r) m = obind (fe e m) (fun p => fc r (set (snd p) (u c) (fst p))). Proof. reflexivity. Qed.
End FormatEqs.
Section MeanEqs.
  Variable fn : string -> list val -> val.
  Variable db : string -> list frame.
  Variable names : Z -> string.
  Notation me := (mean fn db names). Notation ms := (mean_scan fn db names). Notation ml := (mean_list fn db names). Notation mc := (mean_comps fn db names).
  Lemma mn_call env f a : me env (ECall f a) = match ml env a with Some l => Some (fn f l) | None => None end. Proof. reflexivity. Qed.
  Lemma mn_exists env s : me env (EExists s) = match ms env s with Some l => Some (Some (match l with [] => 0%Z | _ => 1%Z end)) | None => None end. Proof. reflexivity. Qed.
  Lemma mn_scalar env s : me env (EScalar s) = match ms env s with Some [] => Some None | Some [r] => match r with (_, v) :: _ => Some v | [] => Some None end | _ => None end. Proof. reflexivity. Qed.
  Lemma mn_cons env e r : ml env (ECons e r) = match me env e, ml env r with Some v, Some l => Some (v :: l) | _, _ => None end. Proof. reflexivity. Qed.
  Lemma mn_table env t cols : ms env (STable t cols) = every (of_table names cols) (db t). Proof. reflexivity. Qed.
  Lemma mn_cross env l r : ms env (SCross l r) = match ms env l, ms env r with Some a, Some b => Some (flat_map (fun x => map (fun y => (x ++ y)%list) b) a) | _, _ => None end. Proof. reflexivity. Qed.
  Lemma mn_join env k l r on : ms env (SJoin k l r on) =
        match ms env l, ms env r with
        | Some a, Some b =>
            match every (fun x =>
                    match every (fun z => me (z ++ env)%list on) (map (fun y => (x ++ y)%list) b) with
                    | Some vs => Some (match where_true (map (fun y => (x ++ y)%list) b) vs with
                                       | [] => if keeps_left k then [(x ++ blank (out r))%list] else []
                                       | m => m
                                       end)
                    | None => None
                    end) a,
                  every (fun y =>
                    match every (fun x => me ((x ++ y) ++ env)%list on) a with
                    | Some vs => Some (if keeps_right k && negb (existsb holds vs) then [(blank (out l) ++ y)%list] else [])
                    | None => None
                    end) b with
            | Some ll, Some rr => Some (concat ll ++ concat rr)%list
            | _, _ => None
            end
        | _, _ => None
        end. Proof. reflexivity. Qed.
  Lemma mn_filter env s e : ms env (SFilter s e) =
        match ms env s with
        | Some l => match every (fun r => me (r ++ env)%list e) l with Some vs => Some (where_true l vs) | None => None end
        | None => None
        end. Proof. reflexivity. Qed.
  Lemma mn_project env s cs cols : ms env (SProject s cs cols) =
        match ms env s with
        | Some l => every (fun r => match mc (r ++ env)%list cs with Some b => pick cols (b ++ r)%list | None => None end) l
        | None => None
        end. Proof. reflexivity. Qed.
  Lemma mn_limit env s n off cols : ms env (SLimit s n off cols) =
        match ms env s with
        | Some l => match every (pick cols) l with
                    | Some l' => Some (firstn n (match off with Some k => skipn k l' | None => l' end))
                    | None => None
                    end
        | None => None
        end. Proof. reflexivity. Qed.
  Notation mi := (mean_inputs fn db names). Notation ma := (mean_aggs fn db names).
  Lemma mn_order env s keys cols : ms env (SOrder s keys cols) =
        match ms env s with Some l => every (pick cols) (ordered keys l) | None => None end. Proof. reflexivity. Qed.
  Lemma mn_set env op l cols : ms env (SSet op l cols) =
        match mi env l with
        | Some (x :: r) => match set_result op x r with Some vs => Some (map (combine cols) vs) | None => None end
        | _ => None
        end. Proof. reflexivity. Qed.
  Lemma mn_agg env s groups aggs cols : ms env (SAgg s groups aggs cols) =
        match ms env s with
        | Some l =>
            match every (fun r => match mc (r ++ env)%list groups with Some k => Some (map snd k, r) | None => None end) l with
            | Some keyed =>
                every (fun k =>
                  match ma env (map snd (filter (fun p => member k [fst p]) keyed)) aggs with
                  | Some v => pick cols (combine (comp_ids groups) k ++ v)%list
                  | None => None
                  end)
                  (match groups with CNil => [[]] | _ => firsts (map fst keyed) end)
            | None => None
            end
        | None => None
        end. Proof. reflexivity. Qed.
  Lemma mn_array env s a elem off j : ms env (SArray s a elem off j) =
        match ms env s with
        | Some l =>
            match every (fun z =>
                    match me (z ++ env)%list a with
                    | Some v =>
                        let xs := map (fun y => (z ++ y)%list) (array_rows elem off (elements fn v)) in
                        match j with
                        | JComma outer => Some (match xs with [] => if outer then [(z ++ blank (array_ids elem off))%list] else [] | _ => xs end)
                        | JOn outer e =>
                            match every (fun x => me (x ++ env)%list e) xs with
                            | Some vs => Some (match where_true xs vs with
                                               | [] => if outer then [(z ++ blank (array_ids elem off))%list] else []
                                               | m => m
                                               end)
                            | None => None
                            end
                        end
                    | None => None
                    end) l with
            | Some ll => Some (concat ll)
            | None => None
            end
        | None => None
        end. Proof. reflexivity. Qed.
  Lemma mn_ncons env s cols r : mi env (NCons s cols r) =
        match ms env s, mi env r with
        | Some x, Some y => match every (pick cols) x with Some x' => Some (map (map snd) x' :: y) | None => None end
        | _, _ => None
        end. Proof. reflexivity. Qed.
  Lemma mn_acons env g c f a r : ma env g (ACons c f a r) =
        match every (fun x => ml (x ++ env)%list a) g, ma env g r with
        | Some vs, Some b => Some ((c, fn f (Some (Z.of_nat (length g)) :: concat vs)) :: b)
        | _, _ => None
        end. Proof. reflexivity. Qed.
  Lemma mn_ccons env c e r : mc env (CCons c e r) = match me env e, mc env r with Some v, Some b => Some ((c, v) :: b) | _, _ => None end. Proof. reflexivity. Qed.
End MeanEqs.

Lemma join_rows_cross nulls ln l r : joined_rows JInner always ln nulls l r = Some (flat_map (fun a => map (fun b => a ++ b) r) l).
Proof.
  assert (H : join_rows JInner always nulls l r = Some (flat_map (fun a => map (fun b => a ++ b) r) l)).
  { induction l as [|a l IH]; [reflexivity|]. cbn [join_rows flat_map]. unfold pairs_on. rewrite ofilter_always. cbn [obind].
    rewrite IH. reflexivity. }
  unfold joined_rows. rewrite H. cbn [obind]. destruct r; cbn [right_rows obind]; now rewrite app_nil_r.
Qed.

Lemma fresh_out D UN : forall s vis busy, wf_scan D UN vis busy s -> fresh D vis busy (out s).
Proof.
  induction s; intros vis busy W; cbn [wf_scan out] in *.
  - intros c [].
  - apply W.
  - destruct W as (Wl & Wr & _ & _). intros c I. apply in_app_or in I. destruct I; [now apply IHs1|now apply IHs2].
  - destruct W as (Wl & Wr & _). intros c I. apply in_app_or in I. destruct I; [now apply IHs1|now apply IHs2].
  - destruct W as (W & _). now apply IHs.
  - destruct W as (W & _ & F & _ & _ & _ & C & _). intros c I. destruct (C c I) as [J|J]; [now apply F|].
    destruct (IHs _ _ W c J) as (A & B & E). split; [assumption|]. split; [assumption|]. intros G. apply E. apply in_or_app. now right.
  - destruct W as (W & C & _). intros c I. apply IHs; auto.
  - destruct W as (W & C & _). intros c I. apply IHs; auto.
  - apply W.
  - destruct W as (_ & _ & _ & F & _ & _ & _ & C & _). intros c I. apply F, C, I.
  - destruct W as (_ & W & _ & F & _). intros c I. apply in_app_or in I. destruct I as [I|I]; [now apply IHs|now apply F].
Qed.

Section Refine.
  Variable fn : string -> list val -> val.
  Variable db : string -> list frame.
  Variable names : Z -> string.
  Variable u : Z -> string.
  Variable D : Z -> Prop.
  Variable UN : Prop.
  Hypothesis u_inj : forall a b, D a -> D b -> same_name (u a) (u b) = true -> a = b.
  Hypothesis no_json : UN -> forall c n, D c -> In n json_names -> same_name n (u c) = false.

  Lemma same_u a b : D a -> D b -> same_name (u a) (u b) = (a =? b)%Z.
  Proof.
    intros A B. destruct (Z.eqb_spec a b) as [->|N].
    - unfold same_name. apply String.eqb_refl.
    - destruct (same_name (u a) (u b)) eqn:E; [|reflexivity]. exfalso. apply N. now apply u_inj.
  Qed.
  Lemma u_eq a b : D a -> D b -> u a = u b -> a = b.
  Proof. intros A B E. apply u_inj; auto. rewrite E. unfold same_name. apply String.eqb_refl. Qed.

  Definition named (b : binding) : frame := map (fun p => (u (fst p), snd p)) b.
  Lemma in_named c b : D c -> Forall D (map fst b) -> in_frame (u c) (named b) = col c b.
  Proof.
    intros Dc F. unfold in_frame, col, named. induction b as [|[k v] b IH]; [reflexivity|]. cbn [map fst snd find] in *.
    inversion F; subst. rewrite same_u by assumption. destruct (k =? c)%Z; [reflexivity|]. now apply IH.
  Qed.
  Lemma combine_named b : combine (map u (map fst b)) (map snd b) = named b.
  Proof. unfold named. induction b as [|[k v] b IH]; [reflexivity|]. cbn. now rewrite IH. Qed.

  Definition rr (b : binding) (r : row) : Prop := forall c, D c -> in_frames (u c) r = opt_list (col c b).
  Definition RR (o : list Z) (b : binding) (r : row) : Prop := map fst b = o /\ rr b r.
  Lemma rr_single b : Forall D (map fst b) -> rr b [named b].
  Proof. intros F c Dc. cbn [in_frames]. rewrite in_named by assumption. destruct (col c b); reflexivity. Qed.
  Lemma RR_app o p a b x y : apart o p -> RR o a x -> RR p b y -> RR (o ++ p) (a ++ b) (x ++ y).
  Proof.
    intros Ap [<- A] [<- B]. split; [apply map_app|]. intros c Dc. rewrite in_frames_app, (A c Dc), (B c Dc), col_app.
    destruct (col c a) as [v|] eqn:E; [|reflexivity]. apply col_in in E. rewrite (col_none c b); [reflexivity|]. now apply Ap.
  Qed.
  Lemma RR_group o b r : RR o b r -> RR o b [concat r].
  Proof.
    intros [E H]. split; [assumption|]. intros c Dc. cbn [in_frames]. rewrite in_frame_concat, (H c Dc).
    destruct (col c b); reflexivity.
  Qed.

  Definition agree (vis : list Z) (env : list scope) (b : binding) : Prop :=
    forall c v, In c vis -> col c b = Some v -> lookup (u c) env = Some v.
  Lemma agree_ext vis env b o r s als : agree vis env b -> RR o r s -> (forall c, In c (o ++ vis) -> D c) -> apart o vis ->
    (forall c, In c vis -> in_alias (u c) als = None) -> agree (o ++ vis) ((s, als) :: env) (r ++ b).
  Proof.
    intros A [E H] Dv Ap Al c v I C. cbn [lookup]. rewrite (H c (Dv c I)). rewrite col_app in C.
    destruct (col c r) as [w|] eqn:Cr; cbn [opt_list]; [assumption|].
    assert (In c vis).
    { apply in_app_or in I. destruct I as [I|I]; [|assumption]. rewrite <- E in I. apply col_some in I. destruct I. congruence. }
    rewrite Al by assumption. now apply A.
  Qed.

  Definition keys_in (m : cmap) (K : list Z) : Prop := forall k x, In (k, x) m -> exists c, In c K /\ k = u c.
  Lemma get_fresh m K c : keys_in m K -> (forall d, In d K -> D d) -> D c -> ~ In c K -> get m (u c) = None.
  Proof. intros H Dk Dc N. apply get_none. intros x I. destruct (H _ _ I) as (d & Id & E). apply N. now rewrite (u_eq c d Dc (Dk d Id) E). Qed.
  Lemma del_fresh m K c : keys_in m K -> (forall d, In d K -> D d) -> D c -> ~ In c K -> del m (u c) = m.
  Proof. intros H Dk Dc N. apply del_none. intros x I. destruct (H _ _ I) as (d & Id & E). apply N. now rewrite (u_eq c d Dc (Dk d Id) E). Qed.

  (** The select list that take_items builds *)
  Fixpoint mk_items (g : Z -> option sexpr) (cols : list Z) : items :=
    match cols with
    | [] => INil
    | c :: r => match g c with Some x => IAs x (u c) (mk_items g r) | None => ICol (u c) (mk_items g r) end
    end.
  Lemma mk_items_ext g h cols : (forall c, In c cols -> g c = h c) -> mk_items g cols = mk_items h cols.
  Proof.
    intros H. induction cols as [|c cols IH]; [reflexivity|]. cbn [mk_items]. rewrite H by (now left).
    rewrite IH by (intros; apply H; now right). reflexivity.
  Qed.
  Lemma mk_names g cols : item_names (mk_items g cols) = map u cols.
  Proof. induction cols as [|c cols IH]; [reflexivity|]. cbn [mk_items]. destruct (g c); cbn; now rewrite IH. Qed.
  Definition by_id (l : list (Z * sexpr)) (c : Z) : option sexpr :=
    match find (fun p => (fst p =? c)%Z) l with Some p => Some (snd p) | None => None end.
  Definition entries (l : list (Z * sexpr)) : cmap := map (fun p => (u (fst p), snd p)) l.
  Lemma get_entries l m c K : (forall d, In d (map fst l) -> D d) -> D c -> keys_in m K -> (forall d, In d K -> D d) -> ~ In c K ->
    get (entries l ++ m) (u c) = by_id l c.
  Proof.
    intros Dl Dc H Dk N. induction l as [|[d x] l IH].
    - cbn. now apply (get_fresh m K).
    - unfold get, by_id in *. cbn [entries map app find fst snd]. cbn [map fst] in Dl.
      destruct (String.eqb_spec (u d) (u c)) as [E|E].
      + apply u_eq in E; [|apply Dl; now left|assumption]. subst. now rewrite Z.eqb_refl.
      + destruct (Z.eqb_spec d c) as [->|]; [congruence|]. apply IH. intros; apply Dl; now right.
  Qed.
  Lemma del_entries l m c K : (forall d, In d (map fst l) -> D d) -> D c -> keys_in m K -> (forall d, In d K -> D d) -> ~ In c K ->
    del (entries l ++ m) (u c) = entries (filter (fun p => negb (fst p =? c)%Z) l) ++ m.
  Proof.
    intros Dl Dc H Dk N. induction l as [|[d x] l IH].
    - cbn. now apply (del_fresh m K).
    - cbn [map fst] in Dl. cbn [entries map app filter fst snd]. unfold del. cbn [filter fst]. fold (del (entries l ++ m) (u c)).
      change (map (fun p : Z * sexpr => (u (fst p), snd p)) l) with (entries l).
      fold (del (entries l ++ m) (u c)). rewrite IH by (intros; apply Dl; now right).
      destruct (String.eqb_spec (u d) (u c)) as [E|E].
      + apply u_eq in E; [|apply Dl; now left|assumption]. subst. now rewrite Z.eqb_refl.
      + destruct (Z.eqb_spec d c) as [->|]; [congruence|]. reflexivity.
  Qed.
  Lemma by_id_filter l c d : d <> c -> by_id (filter (fun p => negb (fst p =? c)%Z) l) d = by_id l d.
  Proof.
    intros N. unfold by_id. induction l as [|[k x] l IH]; [reflexivity|]. cbn [filter find fst].
    destruct (Z.eqb_spec k c) as [->|]; cbn [negb].
    - destruct (Z.eqb_spec c d) as [->|]; [congruence|exact IH].
    - cbn [find fst]. destruct (k =? d)%Z; [reflexivity|exact IH].
  Qed.
  Lemma by_id_none l c : by_id l c = None <-> ~ In c (map fst l).
  Proof.
    unfold by_id. induction l as [|[k x] l IH]; [cbn; tauto|]. cbn [find fst map]. destruct (Z.eqb_spec k c) as [->|N].
    - split; [discriminate|]. intros H. exfalso. apply H. now left.
    - rewrite IH. cbn. intuition.
  Qed.
  Lemma take_items_ok cols : forall l m K,
    (forall d, In d (map fst l) -> D d) -> keys_in m K -> (forall d, In d K -> D d) ->
    (forall c, In c cols -> D c /\ ~ In c K) ->
    (forall c, In c (map fst l) -> count_occ Z.eq_dec cols c = 1%nat) ->
    take_items u cols (entries l ++ m) = (mk_items (by_id l) cols, m).
  Proof.
    induction cols as [|c cols IH]; intros l m K Dl H Dk Dc Cn; cbn [take_items mk_items].
    - destruct l as [|[d x] l]; [reflexivity|]. specialize (Cn d (or_introl eq_refl)). discriminate.
    - destruct (Dc c (or_introl eq_refl)) as [D1 N1]. rewrite (get_entries l m c K) by assumption.
      destruct (by_id l c) as [x|] eqn:B.
      + rewrite (del_entries l m c K) by assumption.
        assert (Ic : In c (map fst l)).
        { destruct (in_dec Z.eq_dec c (map fst l)) as [I|I]; [assumption|]. apply by_id_none in I. congruence. }
        assert (C0 : count_occ Z.eq_dec cols c = 0%nat).
        { specialize (Cn c Ic). cbn in Cn. destruct (Z.eq_dec c c); [lia|congruence]. }
        rewrite (IH _ m K).
        * f_equal. f_equal. apply mk_items_ext. intros d I. apply by_id_filter. intros ->. apply (count_occ_not_In Z.eq_dec) in C0. contradiction.
        * intros d I. apply Dl. apply in_map_iff in I. destruct I as (p & <- & I). apply filter_In in I. apply in_map. tauto.
        * assumption.
        * assumption.
        * intros d I. apply Dc. now right.
        * intros d I. assert (I' : In d (map fst l) /\ d <> c).
          { apply in_map_iff in I. destruct I as (p & <- & I). apply filter_In in I. destruct I as [I J]. split; [now apply in_map|].
            apply negb_true_iff, Z.eqb_neq in J. assumption. }
          destruct I' as [I1 I2]. specialize (Cn d I1). cbn in Cn. destruct (Z.eq_dec c d); [congruence|assumption].
      + rewrite (IH l m K); auto.
        * intros d I. apply Dc. now right.
        * intros d I. specialize (Cn d I). cbn in Cn. destruct (Z.eq_dec c d); [|assumption]. subst. apply by_id_none in B. contradiction.
  Qed.

  (** What the parts of a scan's text give *)
  Definition part_ok (vis o : list Z) (env : list scope) (rows : list binding) (r : frag) : Prop :=
    match r with
    | RNone => rows = [[]] /\ o = []
    | RJoin t => exists srows, eval_group fn db env t = Some srows /\ Forall2 (RR o) rows srows /\ RR o (blank o) (nulls_of t)
    | RWhere t e => exists rows0 srows p,
        eval_group fn db env t = Some srows /\ Forall2 (RR o) rows0 srows /\ every p rows0 <> None /\
        (forall vs, every p rows0 = Some vs -> rows = where_true rows0 vs) /\
        forall b s als v, In b rows0 -> RR o b s -> (forall c, In c vis -> in_alias (u c) als = None) ->
          p b = Some v -> eval_expr fn db ((s, als) :: env) e = Some v
    | RSelect q =>
        query_names q = map u o /\ eval_query fn db env q = Some (map (map snd) rows) /\
        match q with
        | Select i f WNone None => exists srows, eval_from fn db env f = Some srows /\
            Forall2 (fun b s => map fst b = o /\ eval_items fn db ((s, []) :: env) i = Some (map snd b) /\
                       (forall c, In c o -> in_frames (u c) s = opt_list (col c b) \/ in_frames (u c) s = []) /\
                       (forall c, In c vis -> in_frames (u c) s = [])) rows srows
        | _ => True
        end
    | RArr s =>
        (exists srows, eval_arr fn db env s = Some srows /\ Forall2 (RR o) rows srows) /\ RR o (blank o) [null_frame (arr_names s)] /\
        match s with
        | Arr f a elem off on WNone => forall x p vs, every p rows = Some vs ->
            (forall z env' v, In z rows -> (forall c w, In c o -> col c z = Some w -> lookup (u c) env' = Some w) ->
               (forall c, In c vis -> lookup (u c) env' = lookup (u c) env) -> p z = Some v -> eval_expr fn db env' x = Some v) ->
            exists srows, eval_arr fn db env (Arr f a elem off on (WSome x)) = Some srows /\ Forall2 (RR o) (where_true rows vs) srows
        | _ => True
        end
    end.

  Definition P_expr (e : expr) : Prop := forall vis busy m x m',
    wf D UN vis busy e -> (forall c, In c (vis ++ busy) -> D c) -> apart vis busy -> keys_in m busy ->
    format_expr u names e m = Some (x, m') ->
    m' = m /\ forall env b v, agree vis env b -> mean fn db names b e = Some v -> eval_expr fn db env x = Some v.
  Definition P_exprs (a : exprs) : Prop := forall vis busy m x m',
    wf_list D UN vis busy a -> (forall c, In c (vis ++ busy) -> D c) -> apart vis busy -> keys_in m busy ->
    format_exprs u names a m = Some (x, m') ->
    m' = m /\ forall env b v, agree vis env b -> mean_list fn db names b a = Some v -> eval_exprs fn db env x = Some v.
  Definition P_scan (s : scan) : Prop := forall vis busy m r m',
    wf_scan D UN vis busy s -> (forall c, In c (vis ++ busy) -> D c) -> apart vis busy -> keys_in m busy ->
    format_scan u names s m = Some (r, m') ->
    m' = m /\ forall env b rows, agree vis env b -> mean_scan fn db names b s = Some rows ->
      Forall (fun x => map fst x = out s) rows /\ part_ok vis (out s) env rows r.
  Fixpoint results (env : list scope) (qs : queries) (vs : list (list (list val))) : Prop :=
    match qs, vs with
    | QNil, [] => True
    | QCons q r, v :: vr => eval_query fn db env q = Some v /\ results env r vr
    | _, _ => False
    end.
  Definition P_inputs (l : inputs) : Prop := forall vis busy n m qs m',
    wf_inputs D UN vis busy n l -> n <> 0%nat -> (forall c, In c (vis ++ busy) -> D c) -> apart vis busy -> keys_in m busy ->
    format_inputs u names l m = Some (qs, m') ->
    m' = m /\ queries_names qs = map u (first_cols l) /\ forall env b vs, agree vis env b -> mean_inputs fn db names b l = Some vs ->
      results env qs vs /\ Forall (Forall (fun x => length x = n)) vs.
  Definition agg_value (env : list scope) (g : list row) (x : sexpr) (v : val) : Prop :=
    exists f a vs, x = XAgg f a /\ omap (fun s => eval_exprs fn db ((s, []) :: env) a) g = Some vs /\
      v = fn f (Some (Z.of_nat (length g)) :: concat vs).
  Definition P_aggs (l : acomps) : Prop := forall vis busy K m m',
    wf_aggs D UN vis busy l -> (forall c, In c (vis ++ busy) -> D c) -> apart vis busy ->
    keys_in m K -> (forall c, In c K -> In c busy) -> (forall c, In c (agg_ids l) -> In c busy) ->
    apart (agg_ids l) K -> NoDup (agg_ids l) ->
    format_aggs u names l m = Some m' ->
    exists la, m' = entries (rev la) ++ m /\ map fst la = agg_ids l /\
      forall env b g sg cv, Forall2 (fun x s => agree vis ((s, []) :: env) (x ++ b)) g sg -> mean_aggs fn db names b g l = Some cv ->
        Forall2 (fun p q => fst p = fst q /\ agg_value env sg (snd p) (snd q)) la cv.
  Definition P_comps (cs : comps) : Prop := forall vis busy K m m',
    wf_comps D UN vis busy cs -> (forall c, In c (vis ++ busy) -> D c) -> apart vis busy ->
    keys_in m K -> (forall c, In c K -> In c busy) -> (forall c, In c (comp_ids cs) -> In c busy) ->
    apart (comp_ids cs) K -> NoDup (comp_ids cs) ->
    format_comps u names cs m = Some m' ->
    exists l, m' = entries (rev l) ++ m /\ map fst l = comp_ids cs /\
      forall env b cv, agree vis env b -> mean_comps fn db names b cs = Some cv ->
        Forall2 (fun p q => fst p = fst q /\ eval_expr fn db env (snd p) = Some (snd q)) l cv.

  Definition P_join (j : ajoin) : Prop := match j with JComma _ => True | JOn _ e => P_expr e end.

  (** ** Select lists *)
  Lemma alias_names env i : map fst (aliases fn db env i) = item_names i.
  Proof. induction i as [|n r IH|e n r IH]; [reflexivity| |]; [rewrite ev_alias_col|rewrite ev_alias_as]; cbn [map fst item_names]; now rewrite IH. Qed.
  Lemma alias_none env i c cols : item_names i = map u cols -> (forall d, In d cols -> D d) -> D c -> ~ In c cols ->
    in_alias (u c) (aliases fn db env i) = None.
  Proof.
    intros E Dc D0 N. unfold in_alias. destruct (find _ _) as [[n o]|] eqn:F; [|reflexivity]. exfalso.
    apply find_some in F. destruct F as [I S_]. cbn [fst] in S_. apply (in_map fst) in I. rewrite alias_names, E in I. cbn in I.
    apply in_map_iff in I. destruct I as (d & <- & I). rewrite same_u in S_ by auto. apply Z.eqb_eq in S_. now subst.
  Qed.
  Lemma alias_value env i vs : eval_items fn db env i = Some vs -> aliases fn db env i = combine (item_names i) (map Some vs).
  Proof.
    revert vs. induction i as [|n r IH|e n r IH]; intros vs H.
    - rewrite ev_items_nil in H. assert (vs = []) by congruence. now subst.
    - rewrite ev_items_col in H. destruct (lookup n env) as [v|] eqn:E; [|discriminate]. cbn [obind] in H.
      destruct (eval_items fn db env r) as [l|] eqn:L; [|discriminate]. cbn [obind] in H. assert (vs = v :: l) by congruence. subst.
      rewrite ev_alias_col, E, (IH l eq_refl). reflexivity.
    - rewrite ev_items_as in H. destruct (eval_expr fn db env e) as [v|] eqn:E; [|discriminate]. cbn [obind] in H.
      destruct (eval_items fn db env r) as [l|] eqn:L; [|discriminate]. cbn [obind] in H. assert (vs = v :: l) by congruence. subst.
      rewrite ev_alias_as, E, (IH l eq_refl). reflexivity.
  Qed.
  Lemma alias_col b c : Forall D (map fst b) -> D c ->
    in_alias (u c) (combine (map u (map fst b)) (map Some (map snd b))) = match col c b with Some v => Some (Some v) | None => None end.
  Proof.
    intros F Dc. unfold in_alias, col. induction b as [|[k v] b IH]; [reflexivity|]. cbn [map fst snd combine find] in *.
    inversion F; subst. rewrite same_u by assumption. destruct (k =? c)%Z; [reflexivity|now apply IH].
  Qed.
  Lemma mk_items_eval env g B cols b : pick cols B = Some b ->
    (forall c v, In c cols -> col c B = Some v ->
       match g c with Some x => eval_expr fn db env x = Some v | None => lookup (u c) env = Some v end) ->
    eval_items fn db env (mk_items g cols) = Some (map snd b).
  Proof.
    intros P. apply every_forall2 in P. induction P as [|c p cols b F P IH]; intros H; [reflexivity|].
    destruct (col c B) as [v|] eqn:C; [|discriminate]. assert (p = (c, v)) by congruence. subst p.
    pose proof (H c v (or_introl eq_refl) C) as Hc. cbn [mk_items map snd]. destruct (g c) as [x|].
    - rewrite ev_items_as, Hc. cbn [obind]. rewrite IH by (intros; apply H; [now right|assumption]). reflexivity.
    - rewrite ev_items_col, Hc. cbn [obind]. rewrite IH by (intros; apply H; [now right|assumption]). reflexivity.
  Qed.

  (** ** Items behind FROM *)
  Lemma item_rr o rows : Forall (fun b => map fst b = o) rows -> Forall D o ->
    item_rows (map u o) (map (map snd) rows) = map (fun b => [named b]) rows /\ Forall2 (RR o) rows (map (fun b => [named b]) rows).
  Proof.
    intros K F. induction K as [|b rows E K [IH1 IH2]]; [split; [reflexivity|constructor]|]. split.
    - cbn [map item_rows]. unfold item_rows in IH1. rewrite IH1. f_equal. f_equal. rewrite <- E. apply combine_named.
    - cbn [map]. constructor; [|assumption]. split; [assumption|]. apply rr_single. now rewrite E.
  Qed.
  Lemma item_ok o rows q env : Forall (fun b => map fst b = o) rows -> Forall D o -> query_names q = map u o ->
    eval_query fn db env q = Some (map (map snd) rows) ->
    eval_group fn db env (KItem q KNil) = Some (map (fun b => [named b]) rows) /\ Forall2 (RR o) rows (map (fun b => [named b]) rows).
  Proof.
    intros K F N E. rewrite ev_group_item, E. cbn [obind]. rewrite ev_joins_nil, N. destruct (item_rr o rows K F) as [-> H]. auto.
  Qed.
  Lemma group_ok o rows srows t env : eval_group fn db env t = Some srows -> Forall2 (RR o) rows srows ->
    exists k, eval_group fn db env (KGroup t KNil) = Some k /\ Forall2 (RR o) rows k.
  Proof.
    intros E F. rewrite ev_group_group, E. cbn [obind]. rewrite ev_joins_nil. eexists. split; [reflexivity|].
    clear E. induction F; constructor; [now apply RR_group|assumption].
  Qed.

  Definition cond_val (w : cond) (env : list scope) : option val := match w with WNone => Some (Some 1%Z) | WSome e => eval_expr fn db env e end.
  Lemma every_ones {A} (l : list A) : exists vs, every (fun _ => Some (Some 1%Z)) l = Some vs /\ where_true l vs = l.
  Proof.
    induction l as [|x l (vs & E & W)]; [exists []; split; reflexivity|]. exists (Some 1%Z :: vs).
    rewrite every_cons, E. split; [reflexivity|]. rewrite where_true_cons, W. reflexivity.
  Qed.
  Lemma input_ok vis o env rows r : part_ok vis o env rows r -> Forall (fun b => map fst b = o) rows -> Forall D o ->
    exists rows0 srows p vs, eval_from fn db env (fst (input_from r)) = Some srows /\ Forall2 (RR o) rows0 srows /\
      every p rows0 = Some vs /\ rows = where_true rows0 vs /\ (snd (input_from r) = WNone -> rows0 = rows) /\
      forall b s als v, In b rows0 -> RR o b s -> (forall c, In c vis -> in_alias (u c) als = None) -> p b = Some v ->
        cond_val (snd (input_from r)) ((s, als) :: env) = Some v.
  Proof.
    intros P K F. destruct r as [|t|t e|q|s]; cbn [part_ok input_from fst snd] in *.
    - destruct P as [-> ->]. destruct (every_ones [[] : binding]) as (vs & E & W).
      exists [[]], [[]], (fun _ => Some (Some 1%Z)), vs. split; [reflexivity|]. split; [|].
      { constructor; [|constructor]. split; [reflexivity|]. intros c _. reflexivity. }
      split; [assumption|]. split; [symmetry; exact W|]. split; [reflexivity|]. intros b s als v _ _ _ H. exact H.
    - destruct P as (srows & E & R & _). destruct (every_ones rows) as (vs & Ev & W).
      exists rows, srows, (fun _ => Some (Some 1%Z)), vs. rewrite ev_from_joins. split; [assumption|]. split; [assumption|].
      split; [assumption|]. split; [symmetry; exact W|]. split; [reflexivity|]. intros b s als v _ _ _ H. exact H.
    - destruct P as (rows0 & srows & p & E & R & N & W & H). destruct (every p rows0) as [vs|] eqn:Ev; [|congruence].
      exists rows0, srows, p, vs. rewrite ev_from_joins. split; [assumption|]. split; [assumption|]. split; [assumption|].
      split; [now apply W|]. split; [discriminate|]. exact H.
    - destruct P as (N & E & _). destruct (item_ok o rows q env K F N E) as [G R]. destruct (every_ones rows) as (vs & Ev & W).
      exists rows, (map (fun b => [named b]) rows), (fun _ => Some (Some 1%Z)), vs. rewrite ev_from_joins. split; [assumption|].
      split; [assumption|]. split; [assumption|]. split; [symmetry; exact W|]. split; [reflexivity|]. intros b s als v _ _ _ H. exact H.
    - destruct P as ((srows & E & R) & _). destruct (every_ones rows) as (vs & Ev & W).
      exists rows, srows, (fun _ => Some (Some 1%Z)), vs. rewrite ev_from_joins, ev_group_arr, E. cbn [obind]. rewrite ev_joins_nil. split; [reflexivity|].
      split; [assumption|]. split; [assumption|]. split; [symmetry; exact W|]. split; [reflexivity|]. intros b s' als v _ _ _ H. exact H.
  Qed.

  Lemma forall2_compose {A B C} (R : A -> B -> Prop) (S_ : A -> C -> Prop) l x y : Forall2 R l x -> Forall2 S_ l y ->
    Forall2 (fun b c => exists a, In a l /\ R a b /\ S_ a c) x y.
  Proof.
    intros H. revert y. induction H as [|a b l x Rab H IH]; intros y G; inversion G; subst; constructor.
    - exists a. split; [now left|]. auto.
    - apply IH in H4. eapply forall2_imp; [|exact H4]. intros b' c' (a' & I & X). exists a'. split; [now right|assumption].
  Qed.

  Lemma select_ok vis o cols env rows rows' r i lim (F : binding -> option binding) :
    part_ok vis o env rows r -> Forall (fun b => map fst b = o) rows -> (forall c, In c (o ++ vis) -> D c) -> apart o vis ->
    item_names i = map u cols -> cols <> [] -> (forall c, In c cols -> D c) -> apart cols vis ->
    every F rows = Some rows' ->
    (forall b s b', In b rows -> RR o b s -> F b = Some b' ->
       map fst b' = cols /\ eval_items fn db ((s, []) :: env) i = Some (map snd b') /\
       forall c, In c cols -> In c o -> col c b' = col c b) ->
    Forall (fun b => map fst b = cols) rows' /\
    eval_query fn db env (Select i (fst (input_from r)) (snd (input_from r)) lim) =
      Some (page lim (map (map snd) rows')) /\
    (snd (input_from r) = WNone -> exists srows, eval_from fn db env (fst (input_from r)) = Some srows /\
        Forall2 (fun b s => map fst b = cols /\ eval_items fn db ((s, []) :: env) i = Some (map snd b) /\
                   (forall c, In c cols -> in_frames (u c) s = opt_list (col c b) \/ in_frames (u c) s = []) /\
                   (forall c, In c vis -> in_frames (u c) s = [])) rows' srows).
  Proof.
    intros P K Dv Ap N Ne Dc Ac Ev H.
    assert (Ni : i <> INil) by (intros ->; destruct cols; [congruence|discriminate N]).
    assert (F0 : Forall D o) by (apply Forall_forall; intros c I; apply Dv; apply in_or_app; now left).
    destruct (input_ok vis o env rows r P K F0) as (rows0 & srows & p & vs & Ef & R & Ep & W & Wn & Cd).
    pose proof (proj1 (every_forall2 _ _ _) Ev) as Fe.
    destruct (filter2 (RR o) p (fun s => match snd (input_from r) with WNone => Some (Some 1%Z) | WSome e => eval_expr fn db ((s, aliases fn db ((s, []) :: env) i) :: env) e end) rows0 srows vs R Ep) as (k & Ek & Rk).
    { intros b s v I Rb Pb. apply (Cd b s _ v I Rb); [|assumption]. intros c Ic. apply (alias_none _ _ c cols); auto.
      - apply Dv. apply in_or_app. now right.
      - intros J. now apply (Ac c). }
    rewrite <- W in Rk. split; [|split].
    - apply Forall_forall. intros b' I. destruct (forall2_in_r _ _ _ b' Fe I) as (b & Ib & Fb).
      destruct (forall2_in_l _ _ _ b Rk Ib) as (s & _ & Rb). apply (H b s b' Ib Rb Fb).
    - rewrite ev_select, Ef by assumption. cbn [obind]. match goal with |- context [ofilter ?G srows] => replace (ofilter G srows) with (Some k) by (symmetry; exact Ek) end. cbn [obind].
      assert (M : omap (fun s => eval_items fn db ((s, []) :: env) i) k = Some (map (map snd) rows')).
      { apply omap_forall2. assert (G : Forall2 (fun s b' => eval_items fn db ((s, []) :: env) i = Some (map snd b')) k rows').
        { eapply forall2_imp; [|exact (forall2_compose _ _ _ _ _ Rk Fe)]. intros s b' (b & I & Rb & Fb). apply (H b s b' I Rb Fb). }
        clear -G. induction G; constructor; auto. }
      match goal with |- context [omap ?G k] => replace (omap G k) with (Some (map (map (@snd Z val)) rows')) by (symmetry; exact M) end. reflexivity.
    - intros Hw. specialize (Wn Hw). subst rows0. exists srows. split; [assumption|].
      assert (G := forall2_compose _ _ _ _ _ Fe R). eapply forall2_imp; [|exact G].
      intros b' s (b & I & Fb & Rb). destruct (H b s b' I Rb Fb) as (H1 & H2 & H3). split; [assumption|]. split; [assumption|].
      destruct Rb as [Kb Rb]. split.
      + intros c Ic. rewrite (Rb c (Dc c Ic)). destruct (in_dec Z.eq_dec c o) as [J|J].
        * left. now rewrite (H3 c Ic J).
        * right. rewrite (col_none c b); [reflexivity|]. now rewrite Kb.
      + intros c Ic. rewrite (Rb c) by (apply Dv; apply in_or_app; now right). rewrite (col_none c b); [reflexivity|].
        rewrite Kb. intros J. now apply (Ap c).
  Qed.

  (** The rows behind FROM that satisfy the condition *)
  Lemma kept_ok vis o cols env rows r i :
    part_ok vis o env rows r -> Forall (fun b => map fst b = o) rows -> (forall c, In c (o ++ vis) -> D c) ->
    item_names i = map u cols -> (forall c, In c cols -> D c) -> apart cols vis ->
    exists srows k, eval_from fn db env (fst (input_from r)) = Some srows /\
      ofilter (fun s => match snd (input_from r) with WNone => Some (Some 1%Z) | WSome e => eval_expr fn db ((s, aliases fn db ((s, []) :: env) i) :: env) e end) srows = Some k /\
      Forall2 (RR o) rows k.
  Proof.
    intros P K Dv N Dc Ac.
    assert (F0 : Forall D o) by (apply Forall_forall; intros c I; apply Dv; apply in_or_app; now left).
    destruct (input_ok vis o env rows r P K F0) as (rows0 & srows & p & vs & Ef & R & Ep & W & Wn & Cd).
    destruct (filter2 (RR o) p (fun s => match snd (input_from r) with WNone => Some (Some 1%Z) | WSome e => eval_expr fn db ((s, aliases fn db ((s, []) :: env) i) :: env) e end) rows0 srows vs R Ep) as (k & Ek & Rk).
    { intros b s v I Rb Pb. apply (Cd b s _ v I Rb); [|assumption]. intros c Ic. apply (alias_none _ _ c cols); auto.
      - apply Dv. apply in_or_app. now right.
      - intros J. now apply (Ac c). }
    rewrite <- W in Rk. eauto.
  Qed.
  Lemma alias_item env g cols c : (forall d, In d cols -> D d) -> In c cols ->
    in_alias (u c) (aliases fn db env (mk_items g cols)) = Some (match g c with Some x => eval_expr fn db env x | None => lookup (u c) env end).
  Proof.
    intros Dc I. unfold in_alias. induction cols as [|d cols IH]; [destruct I|]. cbn [mk_items].
    assert (Dd : D d) by (apply Dc; now left). assert (D0 : D c) by (apply Dc; exact I).
    assert (Tl : d <> c -> In c cols) by (intros N; destruct I; [congruence|assumption]).
    assert (Dr : forall e, In e cols -> D e) by (intros; apply Dc; now right).
    destruct (g d) as [x|] eqn:G; [rewrite ev_alias_as|rewrite ev_alias_col]; cbn [find fst]; rewrite same_u by assumption;
      destruct (Z.eqb_spec d c) as [->|Nd]; try (cbn [snd]; rewrite G; reflexivity); apply IH; auto.
  Qed.
  Lemma group_eval env sg g B cols b : pick cols B = Some b ->
    (forall c v, In c cols -> col c B = Some v ->
       exists x, g c = Some x /\ (agg_value env sg x v \/ (forall f a, x <> XAgg f a) /\ match sg with s :: _ => eval_expr fn db ((s, []) :: env) x | [] => Some None end = Some v)) ->
    eval_group_items fn db env sg (mk_items g cols) = Some (map snd b).
  Proof.
    intros P. apply every_forall2 in P. induction P as [|c p cols b F P IH]; intros H; [reflexivity|].
    destruct (col c B) as [v|] eqn:C; [|discriminate]. assert (p = (c, v)) by congruence. subst p.
    destruct (H c v (or_introl eq_refl) C) as (x & G & V). cbn [mk_items map snd]. rewrite G. destruct V as [(f & a & vs & -> & Ev & ->)|[Na Ev]].
    - rewrite ev_gitems_agg, Ev. cbn [obind]. rewrite IH by (intros; apply H; [now right|assumption]). reflexivity.
    - rewrite ev_gitems_as, Ev by assumption. cbn [obind]. rewrite IH by (intros; apply H; [now right|assumption]). reflexivity.
  Qed.

  (** ** Joins *)
  Lemma blank_keys o : map fst (blank o) = o.
  Proof. unfold blank. rewrite map_map. apply map_id. Qed.
  Lemma blank_app o p : blank (o ++ p) = blank o ++ blank p.
  Proof. apply map_app. Qed.
  Lemma RR_blank p : Forall D p -> RR p (blank p) [null_frame (map u p)].
  Proof.
    intros Dp. split; [apply blank_keys|].
    replace (null_frame (map u p)) with (named (blank p)) by (unfold named, null_frame, blank; now rewrite !map_map).
    apply rr_single. now rewrite blank_keys.
  Qed.
  Lemma join_ok k o p a b x y an nulls (f : binding -> option val) (g : row -> option val) ll rr :
    apart o p -> RR o (blank o) an -> RR p (blank p) nulls -> Forall2 (RR o) a x -> Forall2 (RR p) b y ->
    (forall z s v, RR (o ++ p) z s -> f z = Some v -> g s = Some v) ->
    every (fun xx => match every f (map (fun yy => xx ++ yy) b) with
                     | Some vs => Some (match where_true (map (fun yy => xx ++ yy) b) vs with
                                        | [] => if keeps_left k then [xx ++ blank p] else []
                                        | m => m end)
                     | None => None end) a = Some ll ->
    every (fun yy => match every (fun xx => f (xx ++ yy)) a with
                     | Some vs => Some (if keeps_right k && negb (existsb holds vs) then [blank o ++ yy] else [])
                     | None => None end) b = Some rr ->
    exists rs, joined_rows k g an nulls x y = Some rs /\ Forall2 (RR (o ++ p)) (concat ll ++ concat rr) rs.
  Proof.
    intros Ap Na Np A B H E1 E2.
    assert (L : exists rs, join_rows k g nulls x y = Some rs /\ Forall2 (RR (o ++ p)) (concat ll) rs).
    { clear E2. revert ll E1. induction A as [|xx sx a x Rx A IH]; intros ll E.
      - assert (ll = []) by (cbn in E; congruence). subst. exists []. split; [reflexivity|]. constructor.
      - rewrite every_cons in E.
        destruct (every f (map (fun yy => xx ++ yy) b)) as [vs|] eqn:Ef; [|discriminate].
        match type of E with context [every ?F a] => destruct (every F a) as [ll'|] eqn:E' end; [|discriminate].
        destruct (IH ll' eq_refl) as (rs & J & R). clear IH.
        assert (M : Forall2 (RR (o ++ p)) (map (fun yy => xx ++ yy) b) (map (fun yy => sx ++ yy) y)).
        { clear -B Ap Rx. induction B; cbn [map]; constructor; [now apply RR_app|assumption]. }
        destruct (filter2 _ f g _ _ vs M Ef) as (ks & Ks & Rks); [intros; eapply H; eauto|].
        cbn [join_rows]. unfold pairs_on. rewrite Ks. cbn [obind]. rewrite J. cbn [obind]. eexists. split; [reflexivity|].
        match type of E with Some (?h :: _) = _ => assert (EL : ll = h :: ll') by congruence; subst ll end.
        cbn [concat]. apply Forall2_app; [|assumption].
        assert (Nl : RR (o ++ p) (xx ++ blank p) (sx ++ nulls)) by (now apply RR_app).
        assert (Q : forall W : list binding, Forall2 (RR (o ++ p)) W ks ->
                    Forall2 (RR (o ++ p)) (match W with [] => if keeps_left k then [xx ++ blank p] else [] | l :: l0 => l :: l0 end)
                      (match k, ks with (JLeft | JFull), [] => [sx ++ nulls] | _, _ => ks end)).
        { intros W F. inversion F; subst; destruct k; cbn [keeps_left]; auto using Forall2_nil, Forall2_cons. }
        exact (Q _ Rks). }
    assert (R : exists rs, right_rows k g an x y = Some rs /\ Forall2 (RR (o ++ p)) (concat rr) rs).
    { clear E1 L. revert rr E2. induction B as [|yy sy b y Ry B IH]; intros rr E.
      - assert (rr = []) by (cbn in E; congruence). subst. exists []. split; [destruct k; reflexivity|]. constructor.
      - rewrite every_cons in E.
        destruct (every (fun xx => f (xx ++ yy)) a) as [vs|] eqn:Ef; [|discriminate].
        match type of E with context [every ?F b] => destruct (every F b) as [rr'|] eqn:E' end; [|discriminate].
        destruct (IH rr' eq_refl) as (rs & J & R). clear IH.
        match type of E with Some (?h :: _) = _ => assert (EL : rr = h :: rr') by congruence; subst rr end. cbn [concat].
        assert (Ek : omap (fun a0 => g (a0 ++ sy)) x = Some vs).
        { apply omap_forall2. apply every_forall2 in Ef. clear -A Ef H Ry Ap. revert vs Ef. induction A as [|xx sx a x Rx A IH]; intros vs Ef; inversion Ef; subst; constructor; auto.
          eapply H; [|eassumption]. now apply RR_app. }
        assert (Both : forall kk, kk = k -> keeps_right kk = true -> exists rs0, right_rows kk g an x (sy :: y) = Some rs0 /\
                  Forall2 (RR (o ++ p)) ((if keeps_right kk && negb (existsb holds vs) then [blank o ++ yy] else []) ++ concat rr') rs0).
        { intros kk -> Kr. eexists. split.
          - destruct k; try discriminate Kr; cbn [right_rows]; rewrite Ek; cbn [obind]; rewrite J; cbn [obind]; reflexivity.
          - apply Forall2_app; [|assumption]. change (existsb truth vs) with (existsb holds vs); rewrite Kr; cbn [andb]. destruct (existsb holds vs); cbn [negb]; constructor; [now apply RR_app|constructor]. }
        destruct k.
        + exists []. split; [reflexivity|]. destruct y; cbn in J; assert (rs = []) by congruence; subst; exact R.
        + exists []. split; [reflexivity|]. destruct y; cbn in J; assert (rs = []) by congruence; subst; exact R.
        + now apply Both.
        + now apply Both. }
    destruct L as (l1 & L1 & L2). destruct R as (r1 & R1 & R2). unfold joined_rows. rewrite L1. cbn [obind]. rewrite R1. cbn [obind].
    eexists. split; [reflexivity|]. now apply Forall2_app.
  Qed.
  Lemma cross_ok o p a b x y : apart o p -> Forall2 (RR o) a x -> Forall2 (RR p) b y ->
    Forall2 (RR (o ++ p)) (flat_map (fun xx => map (fun yy => xx ++ yy) b) a) (flat_map (fun xx => map (fun yy => xx ++ yy) y) x).
  Proof.
    intros Ap A B. induction A as [|xx sx a x Rx A IH]; [constructor|]. cbn [flat_map]. apply Forall2_app; [|assumption].
    clear -B Ap Rx. induction B; cbn [map]; constructor; [now apply RR_app|assumption].
  Qed.

  (** ** The induction *)
  Lemma table_eval env cols r b : of_table names cols r = Some b ->
    eval_items fn db (([r], []) :: env) (table_items u names cols) = Some (map snd b).
  Proof.
    intros H. apply every_forall2 in H. induction H as [|c p cols b E H IH]; [reflexivity|]. cbn [table_items map].
    rewrite ev_items_as, ev_col. cbn [lookup in_frames flat_map app]. destruct (in_frame (names c) r) as [v|] eqn:F; [|discriminate].
    assert (p = (c, v)) by congruence. subst p. cbn [app]. rewrite IH. reflexivity.
  Qed.
  Lemma table_keys cols r b : of_table names cols r = Some b -> map fst b = cols.
  Proof.
    intros H. apply every_forall2 in H. induction H as [|c p cols b E H IH]; [reflexivity|]. cbn [map]. rewrite IH.
    destruct (in_frame (names c) r); [|discriminate]. assert (p = (c, v)) by congruence. now subst p.
  Qed.
  Lemma table_names cols : item_names (table_items u names cols) = map u cols.
  Proof. induction cols as [|c cols IH]; [reflexivity|]. cbn. now rewrite IH. Qed.
  Lemma table_ok env t cols rows : cols <> [] -> every (of_table names cols) (db t) = Some rows ->
    Forall (fun b => map fst b = cols) rows /\
    eval_query fn db env (Select (table_items u names cols) (FTable t) WNone None) = Some (map (map snd) rows).
  Proof.
    intros Ne H. apply every_forall2 in H. split.
    - apply Forall_forall. intros b I. destruct (forall2_in_r _ _ _ b H I) as (r & _ & E). now apply (table_keys cols r).
    - rewrite ev_select, ev_from_table by (destruct cols; [congruence|discriminate]). cbn [obind].
      match goal with |- context [ofilter ?G ?l] => replace (ofilter G l) with (Some l) by (symmetry; apply ofilter_always) end.
      cbn [obind].
      assert (M : omap (fun r => eval_items fn db ((r, []) :: env) (table_items u names cols)) (map (fun r => [r]) (db t)) = Some (map (map snd) rows)).
      { apply omap_forall2. induction H; cbn [map]; constructor; [now apply table_eval|assumption]. }
      rewrite M. reflexivity.
  Qed.

  (** One side of a join *)
  Lemma side_ok vis o env rows r a : part_ok vis o env rows r -> Forall (fun b => map fst b = o) rows -> Forall D o ->
    join_side r = Some a -> exists srows, eval_group fn db env a = Some srows /\ Forall2 (RR o) rows srows /\ RR o (blank o) (nulls_of a).
  Proof.
    intros P K F J. destruct r as [|t|t e|q|s]; cbn [join_side part_ok] in *; try discriminate.
    - assert (a = t) by congruence. subst. exact P.
    - assert (a = KItem q KNil) by congruence. subst. destruct P as (N & E & _). destruct (item_ok o rows q env K F N E) as [G R].
      eexists. split; [exact G|]. split; [exact R|]. cbn [nulls_of]. rewrite N. now apply RR_blank.
    - assert (a = KArr s KNil) by congruence. subst. destruct P as ((srows & E & R) & Nl & _). exists srows.
      rewrite ev_group_arr, E. cbn [obind]. rewrite ev_joins_nil. auto.
  Qed.
    Ltac fmt E := rewrite ?fm_col, ?fm_lit, ?fm_call, ?fm_exists, ?fm_scalar, ?fm_nil, ?fm_cons, ?fm_single, ?fm_table, ?fm_cross, ?fm_join, ?fm_filter, ?fm_project, ?fm_limit, ?fm_order, ?fm_set, ?fm_agg, ?fm_array, ?fm_nnil, ?fm_ncons, ?fm_anil, ?fm_acons, ?fm_cnil, ?fm_ccons in E.
  Ltac mnt M := rewrite ?mn_call, ?mn_exists, ?mn_scalar, ?mn_cons, ?mn_table, ?mn_cross, ?mn_join, ?mn_filter, ?mn_project, ?mn_limit, ?mn_order, ?mn_set, ?mn_agg, ?mn_array, ?mn_ncons, ?mn_acons, ?mn_ccons in M.
  Definition as_right (env : list scope) (o : list Z) (rows : list binding) (a : jtoks) : Prop := exists nl srows,
    nulls_of a = [nl] /\ RR o (blank o) [nl] /\ Forall2 (RR o) rows srows /\
    (forall k an acc, eval_right fn db env k an acc a = joined_rows k always an [nl] acc srows) /\
    (forall k an acc x, eval_right fn db env k an acc (kapp a (KOn x KNil)) = joined_rows k (fun y => eval_expr fn db ((y, []) :: env) x) an [nl] acc srows).
  Lemma bind_joins env an o : obind o (fun y => eval_joins fn db env an y KNil) = o.
  Proof. destruct o; reflexivity. Qed.
  Lemma right_item env o rows q : Forall (fun b => map fst b = o) rows -> Forall D o -> query_names q = map u o ->
    eval_query fn db env q = Some (map (map snd) rows) -> as_right env o rows (KItem q KNil).
  Proof.
    intros K F N E. destruct (item_rr o rows K F) as [Ir Rr]. exists (null_frame (map u o)), (map (fun b => [named b]) rows). cbn [nulls_of kapp]. rewrite N.
    split; [reflexivity|]. split; [now apply RR_blank|]. split; [exact Rr|].
    split; intros; rewrite ev_right_item, E; cbn [obind]; rewrite N, Ir; apply bind_joins.
  Qed.
  Lemma right_ok s m r m' a vis busy env b rows : wf_scan D UN vis busy s -> is_join s = false -> format_scan u names s m = Some (r, m') -> join_side r = Some a ->
    Forall (fun b => map fst b = out s) rows ->
    mean_scan fn db names b s = Some rows -> part_ok vis (out s) env rows r -> as_right env (out s) rows a.
  Proof.
    intros W NJ E J K M P.
    assert (F : Forall D (out s)) by (apply Forall_forall; intros c I; now apply (fresh_out D UN s vis busy W)).
    destruct r as [|t|t e|q|ar]; try discriminate J.
    2:{ cbn [join_side] in J. assert (a = KItem q KNil) by congruence. subst a. destruct P as (N & Q & _). now apply right_item. }
    2:{ cbn [join_side] in J. assert (a = KArr ar KNil) by congruence. subst a. destruct P as ((srows & Q & R) & Nl & _).
        exists (null_frame (arr_names ar)), srows. cbn [nulls_of kapp]. split; [reflexivity|]. split; [exact Nl|]. split; [exact R|].
        split; intros; rewrite ev_right_arr, Q; cbn [obind]; apply bind_joins. }
    assert (a = t) by (cbn in J; congruence). subst a.
    destruct s as [|tn cols|l r|k l r on|s e|s cs cols|s n off cols|s keys cols|op l cols|s gs aggs cols|s ae elem off j]; cbn [is_join] in NJ; try discriminate NJ; fmt E.
    - discriminate.
    - assert (t = KItem (Select (table_items u names cols) (FTable tn) WNone None) KNil) by congruence. subst t.
      apply right_item; [assumption|assumption|apply table_names|]. apply (table_ok env tn cols rows); [apply W|assumption].
    - exfalso. destruct (format_scan u names s m) as [[r1 m1]|]; [|discriminate E]. cbn [obind fst snd] in E.
      destruct (format_expr u names e m1) as [[x m2]|]; [|discriminate E]. cbn [obind fst snd] in E. unfold add_filter in E.
      destruct r1 as [|t1|t1 e1|[i f [|w] [lim|]|i f w ks|i f [|w] [|k ks]|op l]|[f ea el eo on [|w]]]; try discriminate E; destruct (wraps _); cbn [obind] in E; discriminate E.
    - exfalso. destruct (format_comps u names cs m) as [m1|]; [|discriminate E]. cbn [obind] in E.
      destruct (format_scan u names s m1) as [[r1 m2]|]; [|discriminate E]. cbn [obind fst snd] in E.
      destruct (take_items u cols m2). destruct (input_from r1). discriminate.
    - exfalso. destruct (format_scan u names s m) as [[r1 m2]|]; [|discriminate E]. cbn [obind fst snd] in E.
      destruct (take_items u cols m2). destruct (input_from r1). discriminate.
    - exfalso. destruct (format_scan u names s m) as [[r1 m2]|]; [|discriminate E]. cbn [obind fst snd] in E.
      destruct (take_items u cols m2). destruct (input_from r1). discriminate.
    - exfalso. destruct (format_inputs u names l m) as [[r1 m2]|]; [|discriminate E]. cbn [obind fst snd] in E. discriminate.
    - exfalso. destruct (format_aggs u names aggs m) as [m1|]; [|discriminate E]. cbn [obind] in E.
      destruct (format_scan u names s m1) as [[r1 m2]|]; [|discriminate E]. cbn [obind fst snd] in E.
      destruct (format_comps u names gs m2) as [m3|]; [|discriminate E]. cbn [obind] in E.
      destruct (take_items u cols m3). destruct (input_from r1). discriminate.
    - exfalso. destruct (format_expr u names ae m) as [[x m1]|]; [|discriminate E]. cbn [obind fst snd] in E.
      destruct (format_scan u names s m1) as [[r1 m2]|]; [|discriminate E]. cbn [obind fst snd] in E.
      destruct (array_from r1); [|discriminate E]. cbn [obind] in E. destruct j as [|outer e]; [discriminate E|]. destruct (format_expr u names e m2); discriminate E.
  Qed.
  (** Only an aggregation without keys gives a SELECT with aggregates and no GROUP BY. *)
  Lemma keyless s : forall vis busy m i f w m', wf_scan D UN vis busy s -> format_scan u names s m = Some (RSelect (Grouped i f w []), m') ->
    exists s' aggs cols, s = SAgg s' CNil aggs cols.
  Proof.
    induction s as [|tn cols|l IHl r IHr|k l IHl r IHr on|s IHs e|s IHs cs cols|s IHs n off cols|s IHs keys cols|op l cols|s IHs gs aggs cols|s IHs ae elem off j];
      intros vis busy m i f w m' W E; fmt E.
    - discriminate.
    - discriminate.
    - exfalso. destruct (format_scan u names l m) as [[r1 m1]|]; [|discriminate E]. cbn [obind fst snd] in E.
      destruct (format_scan u names r m1) as [[r2 m2]|]; [|discriminate E]. cbn [obind fst snd] in E.
      destruct (join_side r1); [|discriminate E]. destruct (join_side r2); discriminate E.
    - exfalso. destruct (format_scan u names l m) as [[r1 m1]|]; [|discriminate E]. cbn [obind fst snd] in E.
      destruct (format_scan u names r m1) as [[r2 m2]|]; [|discriminate E]. cbn [obind fst snd] in E.
      destruct (join_side r1); [|discriminate E]. destruct (join_side r2); [|discriminate E]. cbn [obind] in E. destruct (format_expr u names on m2); discriminate E.
    - exfalso. destruct W as (Ws & We & Wa). destruct (format_scan u names s m) as [[r1 m1]|] eqn:F; [|discriminate E]. cbn [obind fst snd] in E.
      destruct (format_expr u names e m1) as [[x m2]|]; [|discriminate E]. cbn [obind fst snd] in E. unfold add_filter in E.
      destruct r1 as [|t1|t1 e1|[i1 f1 [|w1] [lim|]|i1 f1 w1 ks|i1 f1 [|w1] [|k ks]|op l]|[f1 ea el eo on [|w1]]]; try discriminate E; destruct (wraps _); cbn [obind] in E; try discriminate E.
      destruct (IHs vis busy m i1 f1 WNone m1 Ws F) as (s' & aggs & cols & ->). exact Wa.
    - exfalso. destruct (format_comps u names cs m) as [m1|]; [|discriminate E]. cbn [obind] in E.
      destruct (format_scan u names s m1) as [[r1 m2]|]; [|discriminate E]. cbn [obind fst snd] in E.
      destruct (take_items u cols m2). destruct (input_from r1). discriminate.
    - exfalso. destruct (format_scan u names s m) as [[r1 m2]|]; [|discriminate E]. cbn [obind fst snd] in E.
      destruct (take_items u cols m2). destruct (input_from r1). discriminate.
    - exfalso. destruct (format_scan u names s m) as [[r1 m2]|]; [|discriminate E]. cbn [obind fst snd] in E.
      destruct (take_items u cols m2). destruct (input_from r1). discriminate.
    - exfalso. destruct (format_inputs u names l m) as [[r1 m2]|]; [|discriminate E]. cbn [obind fst snd] in E. discriminate.
    - destruct (format_aggs u names aggs m) as [m1|]; [|discriminate E]. cbn [obind] in E.
      destruct (format_scan u names s m1) as [[r1 m2]|]; [|discriminate E]. cbn [obind fst snd] in E.
      destruct (format_comps u names gs m2) as [m3|]; [|discriminate E]. cbn [obind] in E.
      destruct (take_items u cols m3). destruct (input_from r1). destruct gs; [eauto|]. exfalso. cbn in E. discriminate.
    - exfalso. destruct (format_expr u names ae m) as [[x m1]|]; [|discriminate E]. cbn [obind fst snd] in E.
      destruct (format_scan u names s m1) as [[r1 m2]|]; [|discriminate E]. cbn [obind fst snd] in E.
      destruct (array_from r1); [|discriminate E]. cbn [obind] in E. destruct j as [|outer e]; [discriminate E|]. destruct (format_expr u names e m2); discriminate E.
  Qed.

  Lemma col_nodup c v (b : binding) : NoDup (map fst b) -> In (c, v) b -> col c b = Some v.
  Proof.
    unfold col. induction b as [|[k w] b IH]; intros N I; [contradiction|]. cbn [map fst find] in *. inversion N; subst.
    destruct I as [E|I].
    - assert (k = c /\ w = v) as [-> ->] by (split; congruence). now rewrite Z.eqb_refl.
    - destruct (k =? c)%Z eqn:E; [|now apply IH]. apply Z.eqb_eq in E. subst. exfalso. apply H1. change c with (fst (c, v)). now apply in_map.
  Qed.
  Lemma by_id_in l c x : by_id l c = Some x -> In (c, x) l.
  Proof.
    unfold by_id. destruct (find _ l) as [[d y]|] eqn:F; [|discriminate]. intros H. apply find_some in F. cbn in F. destruct F as [I E].
    apply Z.eqb_eq in E. assert (y = x) by (cbn in H; congruence). now subst.
  Qed.
  Lemma comps_keys env l cv : Forall2 (fun (p : Z * sexpr) (q : Z * val) => fst p = fst q /\ eval_expr fn db env (snd p) = Some (snd q)) l cv ->
    map fst cv = map fst l.
  Proof. intros H. induction H as [|p q l cv [E _] H IH]; [reflexivity|]. cbn. now rewrite IH, E. Qed.

  Lemma mk_nonempty g cols : cols <> [] -> mk_items g cols <> INil.
  Proof. destruct cols as [|c cols]; [congruence|]. intros _. cbn [mk_items]. destruct (g c); discriminate. Qed.
  Lemma no_agg e m x m' : format_expr u names e m = Some (x, m') -> forall f a, x <> XAgg f a.
  Proof.
    intros E f a ->. destruct e; fmt E.
    - destruct (get m (u c)); discriminate.
    - discriminate.
    - destruct (format_exprs u names a0 m); discriminate.
    - destruct (format_scan u names s m) as [[[] ?]|]; discriminate.
    - destruct (format_scan u names s m) as [[[] ?]|]; discriminate.
  Qed.
  Lemma group_ids_eq cs : group_ids cs = comp_ids cs.
  Proof. induction cs as [|c e r IH]; [reflexivity|]. cbn. now rewrite IH. Qed.
  Lemma combine_split (b : binding) : combine (map fst b) (map snd b) = b.
  Proof. induction b as [|[k v] b IH]; [reflexivity|]. cbn. now rewrite IH. Qed.
  Lemma set_names first cols : length first = length cols -> item_names (set_items u first cols) = map u cols.
  Proof. revert cols. induction first as [|c first IH]; intros [|d cols] L; try discriminate; [reflexivity|]. cbn. f_equal. apply IH. now injection L. Qed.
  Lemma set_eval env first cols v : length first = length cols -> length v = length cols -> NoDup first -> (forall c, In c first -> D c) ->
    eval_items fn db (([combine (map u first) v], []) :: env) (set_items u first cols) = Some v.
  Proof.
    intros L1 L2 N Dc.
    assert (H : forall pre pv post, (forall c, In c (pre ++ post) -> D c) -> NoDup (pre ++ post) -> length pre = length pv -> forall cols' v', length post = length cols' -> length v' = length cols' ->
      eval_items fn db (([combine (map u pre) pv ++ combine (map u post) v'], []) :: env) (set_items u post cols') = Some v').
    { intros pre pv post. revert pre pv. induction post as [|c post IH]; intros pre pv Dp Np Lp [|d cols'] [|x v'] La Lb; try discriminate; [reflexivity|].
      cbn [set_items]. rewrite ev_items_as, ev_col. cbn [lookup in_frames].
      assert (Fx : in_frame (u c) (combine (map u pre) pv ++ combine (map u (c :: post)) (x :: v')) = Some x).
      { clear IH La Lb. revert pv Lp. induction pre as [|e pre IHp]; intros [|y pv] Lp; try discriminate.
        - cbn [map combine app]. unfold in_frame. cbn [find fst]. unfold same_name. now rewrite String.eqb_refl.
        - cbn [map combine app]. unfold in_frame. cbn [find fst]. cbn [app] in Dp, Np. inversion Np; subst. rewrite same_u; [|apply Dp; now left|apply Dp; right; apply in_or_app; right; now left].
          destruct (Z.eqb_spec e c) as [->|]; [exfalso; apply H1; apply in_or_app; right; now left|]. apply IHp; [intros; apply Dp; now right|assumption|now injection Lp]. }
      rewrite Fx. cbn [obind].
      specialize (IH (pre ++ [c]) (pv ++ [x])).
      assert (App : combine (map u (pre ++ [c])) (pv ++ [x]) ++ combine (map u post) v' = combine (map u pre) pv ++ combine (map u (c :: post)) (x :: v')).
      { clear -Lp. revert pv Lp. induction pre as [|e pre IHp]; intros [|y pv] Lp; try discriminate; [reflexivity|]. cbn. f_equal. apply IHp. now injection Lp. }
      rewrite <- App. rewrite IH; [reflexivity| | | |now injection La|now injection Lb].
      + rewrite <- app_assoc. exact Dp.
      + rewrite <- app_assoc. exact Np.
      + rewrite !app_length. cbn. lia. }
    apply (H [] [] first Dc N eq_refl cols v L1 L2).
  Qed.
  Lemma nodup_parts (a b : list Z) : NoDup (a ++ b) -> NoDup a /\ NoDup b /\ (forall c, In c a -> ~ In c b) /\ NoDup (b ++ a).
  Proof.
    intros H. assert (P : NoDup a /\ NoDup b /\ (forall c, In c a -> ~ In c b)).
    { induction a as [|x a IH]; [repeat split; [constructor|assumption|intros c []]|]. cbn [app] in H. inversion H; subst. destruct (IH H3) as (X & Y & W). rewrite in_app_iff in H2.
      repeat split; [constructor; tauto|assumption|]. intros c [<-|I]; [tauto|now apply W]. }
    destruct P as (X & Y & W). repeat split; auto. clear H. induction b as [|x b IH]; [assumption|]. cbn [app]. inversion Y; subst. constructor.
    - rewrite in_app_iff. intros [I|I]; [contradiction|]. apply (W x I). now left.
    - apply IH; [assumption|]. intros c I J. apply (W c I). now right.
  Qed.
  Lemma col_pair c v (b : binding) : col c b = Some v -> In (c, v) b.
  Proof.
    unfold col. destruct (find _ b) as [[d w]|] eqn:F; [|discriminate]. intros H. apply find_some in F. destruct F as [I E]. cbn in E, H. apply Z.eqb_eq in E. congruence.
  Qed.
  Lemma by_id_some l c x : NoDup (map fst l) -> In (c, x) l -> by_id l c = Some x.
  Proof.
    intros N I. unfold by_id. induction l as [|[d y] l IH]; [destruct I|]. cbn [find fst]. cbn [map fst] in N. inversion N; subst. destruct I as [E|I].
    - assert (d = c /\ y = x) as [-> ->] by (split; congruence). now rewrite Z.eqb_refl.
    - destruct (Z.eqb_spec d c) as [->|]; [exfalso; apply H1; change c with (fst (c, x)); now apply in_map|now apply IH].
  Qed.
  Lemma plain_mk cols : plain_items u cols = mk_items (by_id []) cols.
  Proof. induction cols as [|c cols IH]; [reflexivity|]. cbn. now rewrite IH. Qed.

  (** *** Arrays *)
  Definition each_vals (elem : Z) (off : option Z) (p : val * val) : binding := (elem, snd p) :: match off with Some o => [(o, fst p)] | None => [] end.
  Lemma each_rows elem off v : array_rows elem off (elements fn v) = map (each_vals elem off) (each fn v).
  Proof.
    unfold array_rows, elements, each. destruct (fn "array.length" [v]) as [n|]; [|reflexivity]. rewrite map_length, seq_length, map_map.
    assert (H : forall (g : nat -> val) l, map (fun p : nat * val => (elem, snd p) :: match off with Some o => [(o, Some (Z.of_nat (fst p)))] | None => [] end) (combine l (map g l)) =
              map (fun i => each_vals elem off (Some (Z.of_nat i), g i)) l).
    { intros g l. induction l as [|i l IH]; [reflexivity|]. cbn [map combine]. rewrite IH. reflexivity. }
    apply H.
  Qed.
  Lemma json_none c p : UN -> D c -> in_frame (u c) (json_frame p) = None.
  Proof.
    intros Un Dc. unfold in_frame. destruct (find _ _) as [[n v]|] eqn:F; [|reflexivity]. exfalso. apply find_some in F. destruct F as [I S_]. cbn [fst] in S_.
    unfold json_frame in I. apply in_combine_l in I. rewrite (no_json Un c n Dc I) in S_. discriminate.
  Qed.
  Lemma in_frame_app n a b : in_frame n (a ++ b) = match in_frame n a with Some v => Some v | None => in_frame n b end.
  Proof. unfold in_frame. induction a as [|[k v] a IH]; [reflexivity|]. cbn [app find fst]. destruct (same_name k n); [reflexivity|exact IH]. Qed.
  Lemma each_named elem off p : each_cols (u elem) (option_map u off) p = named (each_vals elem off p).
  Proof. destruct off; reflexivity. Qed.
  Lemma each_keys elem off p : map fst (each_vals elem off p) = array_ids elem off.
  Proof. destruct off; reflexivity. Qed.
  Lemma alias_named c b : Forall D (map fst b) -> D c ->
    in_alias (u c) (map (fun q => (fst q, Some (snd q))) (named b)) = match col c b with Some v => Some (Some v) | None => None end.
  Proof.
    intros F Dc. unfold in_alias, col. induction b as [|[k v] b IH]; [reflexivity|]. cbn [map fst snd named find] in *.
    inversion F; subst. rewrite same_u by assumption. destruct (k =? c)%Z; [reflexivity|now apply IH].
  Qed.
  Definition RQ (os : list Z) (elem : Z) (off : option Z) (z' : binding) (x : row * (val * val)) : Prop :=
    exists z, z' = z ++ each_vals elem off (snd x) /\ RR os z (fst x).
  Lemma each_scope_ok os elem off vis env z' x : UN -> (forall c, In c (os ++ array_ids elem off ++ vis) -> D c) -> apart os (array_ids elem off) ->
    apart (os ++ array_ids elem off) vis -> RQ os elem off z' x ->
    (forall c w, In c (os ++ array_ids elem off) -> col c z' = Some w -> lookup (u c) (each_scope (u elem) (option_map u off) x :: env) = Some w) /\
    (forall c, In c vis -> lookup (u c) (each_scope (u elem) (option_map u off) x :: env) = lookup (u c) env).
  Proof.
    intros Un Dc Ap Av (z & -> & [Kz Rz]).
    assert (Di : Forall D (map fst (each_vals elem off (snd x)))).
    { rewrite each_keys. apply Forall_forall. intros c I. apply Dc. rewrite !in_app_iff. auto. }
    split; intros c; [intros w I C|intros I].
    - assert (D0 : D c) by (apply Dc; rewrite !in_app_iff in *; tauto).
      unfold each_scope. cbn [lookup]. rewrite in_frames_app, (Rz c D0). cbn [in_frames]. rewrite (json_none c _ Un D0), app_nil_r. rewrite col_app in C.
      destruct (col c z) as [y|]; cbn [opt_list]; [exact C|]. rewrite each_named, alias_named, C by assumption. reflexivity.
    - assert (D0 : D c) by (apply Dc; rewrite !in_app_iff in *; tauto).
      unfold each_scope. cbn [lookup]. rewrite in_frames_app, (Rz c D0). cbn [in_frames]. rewrite (json_none c _ Un D0), app_nil_r.
      rewrite (col_none c z) by (rewrite Kz; intros J; apply (Av c); [apply in_or_app; now left|assumption]). cbn [opt_list].
      rewrite each_named, alias_named by assumption. rewrite col_none; [reflexivity|]. rewrite each_keys. intros J. apply (Av c); [apply in_or_app; now right|assumption].
  Qed.
  Lemma each_row_ok os elem off f z' x : UN -> (forall c, In c (array_ids elem off) -> D c) -> (f = FNone -> os = []) ->
    RQ os elem off z' x -> RR (os ++ array_ids elem off) z' (each_row f (u elem) (option_map u off) x).
  Proof.
    intros Un Dc Nf (z & -> & [Kz Rz]). split; [now rewrite map_app, Kz, each_keys|]. intros c D0.
    assert (Di : Forall D (map fst (each_vals elem off (snd x)))) by (rewrite each_keys; now apply Forall_forall).
    unfold each_row. cbn [in_frames]. rewrite in_frame_app, each_named, in_named, col_app by assumption.
    match goal with |- context [in_frame (u c) ?F] => assert (H : in_frame (u c) F = col c z) end.
    { assert (G : in_frame (u c) (concat (fst x) ++ json_frame (snd x)) = col c z).
      { rewrite in_frame_app, in_frame_concat, (Rz c D0), (json_none c _ Un D0). destruct (col c z); reflexivity. }
      destruct f; [|exact G|exact G]. rewrite (Nf eq_refl) in Kz. destruct z; [reflexivity|discriminate]. }
    rewrite H. destruct (col c z); [reflexivity|]. destruct (col c (each_vals elem off (snd x))); reflexivity.
  Qed.
  Definition joins_like (os : list Z) (elem : Z) (off : option Z) (env : list scope) (b : binding) (j : ajoin) (on : acond) : Prop :=
    match j, on with
    | JComma outer, OComma => outer = false
    | JOn o e, OOn o' x => o = o' /\ forall z y v, RQ os elem off z y -> mean fn db names (z ++ b) e = Some v ->
        eval_expr fn db (each_scope (u elem) (option_map u off) y :: env) x = Some v
    | _, _ => False
    end.
  Lemma array_ok os elem off env b j on a xa l srows ll : Forall2 (RR os) l srows -> joins_like os elem off env b j on ->
    (forall z (r : row) v, RR os z r -> mean fn db names (z ++ b) a = Some v -> eval_expr fn db ((r, []) :: env) xa = Some v) ->
    every (fun z =>
                    match mean fn db names (z ++ b) a with
                    | Some v =>
                        let xs := map (fun y => z ++ y) (array_rows elem off (elements fn v)) in
                        match j with
                        | JComma outer => Some (match xs with [] => if outer then [z ++ blank (array_ids elem off)] else [] | _ => xs end)
                        | JOn outer e =>
                            match every (fun x => mean fn db names (x ++ b) e) xs with
                            | Some vs => Some (match where_true xs vs with
                                               | [] => if outer then [z ++ blank (array_ids elem off)] else []
                                               | m => m
                                               end)
                            | None => None
                            end
                        end
                    | None => None
                    end) l = Some ll ->
    exists kk, omap (fun r : row => obind (eval_expr fn db ((r, []) :: env) xa) (fun v =>
                 match on with
                 | OComma => Some (map (pair r) (each fn v))
                 | OOn outer e =>
                     obind (ofilter (fun x => eval_expr fn db (each_scope (u elem) (option_map u off) x :: env) e) (map (pair r) (each fn v))) (fun k =>
                     Some (match k with [] => if outer then [(r, (None, None))] else [] | _ => k end))
                 end)) srows = Some kk /\ Forall2 (RQ os elem off) (concat ll) (concat kk).
  Proof.
    intros F J Ha. revert ll. induction F as [|z r l srows Rz F IH]; intros ll E.
    - assert (ll = []) by (cbn in E; congruence). subst. exists []. split; [reflexivity|constructor].
    - rewrite every_cons in E. destruct (mean fn db names (z ++ b) a) as [v|] eqn:Ma; [|discriminate]. cbv zeta in E.
      assert (X : Forall2 (RQ os elem off) (map (fun y => z ++ y) (array_rows elem off (elements fn v))) (map (pair r) (each fn v))).
      { rewrite each_rows, map_map. clear -Rz. induction (each fn v) as [|p ps IH]; cbn [map]; constructor; [|exact IH]. exists z. auto. }
      cbn [omap]. rewrite (Ha z r v Rz Ma). cbn [obind].
      assert (Step : forall h t, match j with
                        | JComma outer => Some (match map (fun y => z ++ y) (array_rows elem off (elements fn v)) with [] => if outer then [z ++ blank (array_ids elem off)] else [] | _ => map (fun y => z ++ y) (array_rows elem off (elements fn v)) end)
                        | JOn outer e =>
                            match every (fun x => mean fn db names (x ++ b) e) (map (fun y => z ++ y) (array_rows elem off (elements fn v))) with
                            | Some vs => Some (match where_true (map (fun y => z ++ y) (array_rows elem off (elements fn v))) vs with
                                               | [] => if outer then [z ++ blank (array_ids elem off)] else []
                                               | l0 :: l1 => l0 :: l1
                                               end)
                            | None => None
                            end
                        end = Some h -> ll = h :: t ->
                exists k, match on with
                 | OComma => Some (map (pair r) (each fn v))
                 | OOn outer e =>
                     obind (ofilter (fun x => eval_expr fn db (each_scope (u elem) (option_map u off) x :: env) e) (map (pair r) (each fn v))) (fun k =>
                     Some (match k with [] => if outer then [(r, (None, None))] else [] | _ => k end))
                 end = Some k /\ Forall2 (RQ os elem off) h k).
      { intros h t Eh _. destruct j as [outer|outer e], on as [|outer' x]; cbn [joins_like] in J; try contradiction.
        - subst outer. eexists. split; [reflexivity|]. assert (Hh : h = map (fun y => z ++ y) (array_rows elem off (elements fn v))) by (destruct (map (fun y => z ++ y) _); congruence). subst h. exact X.
        - destruct J as [<- Jn]. match type of Eh with context [every ?G ?L] => destruct (every G L) as [vs|] eqn:Ev end; [|discriminate].
          destruct (filter2 _ (fun x => mean fn db names (x ++ b) e) (fun y => eval_expr fn db (each_scope (u elem) (option_map u off) y :: env) x) _ _ vs X Ev) as (k & Ek & Rk).
          { intros z0 y0 v0 _ R0 M0. now apply (Jn z0 y0 v0). }
          rewrite Ek. cbn [obind]. eexists. split; [reflexivity|].
          assert (Q : forall W : list binding, Forall2 (RQ os elem off) W k ->
                    Forall2 (RQ os elem off) (match W with [] => if outer then [z ++ blank (array_ids elem off)] else [] | l0 :: l1 => l0 :: l1 end)
                      (match k with [] => if outer then [(r, (None, None))] else [] | _ => k end)).
          { intros W FW. inversion FW; subst; [|constructor; assumption]. destruct outer; [|constructor]. constructor; [|constructor]. exists z. split; [|exact Rz].
            f_equal. destruct off; reflexivity. }
          specialize (Q _ Rk). assert (Hh : h = match where_true (map (fun y => z ++ y) (array_rows elem off (elements fn v))) vs with [] => if outer then [z ++ blank (array_ids elem off)] else [] | l0 :: l1 => l0 :: l1 end) by congruence.
          rewrite Hh. exact Q. }
      match type of E with match ?H0 with _ => _ end = _ => destruct H0 as [h|] eqn:Eh end; [|discriminate].
      match type of E with context [every ?G l] => destruct (every G l) as [t|] eqn:Et end; [|discriminate].
      assert (El : ll = h :: t) by congruence. destruct (Step h t eq_refl El) as (k & Ek & Rk). destruct (IH t eq_refl) as (kk & Ekk & Rkk). clear Step IH.
      subst ll. rewrite Ek. cbn [obind]. match goal with |- context [omap ?G srows] => replace (omap G srows) with (Some kk) by (symmetry; exact Ekk) end. cbn [obind].
      eexists. split; [reflexivity|]. cbn [concat]. now apply Forall2_app.
  Qed.
  Lemma concat_nulls : forall t, concat (nulls_of t) = null_frame (jtoks_names t).
  Proof.
    assert (Na : forall a b, null_frame (a ++ b) = null_frame a ++ null_frame b) by (intros; apply map_app).
    fix IH 1. intros [|q r|g r|r|k r|e r|a r]; cbn [nulls_of jtoks_names concat]; rewrite ?Na, ?IH; reflexivity.
  Qed.
  Lemma arr_blank os elem off r f a on w : UN -> Forall D os -> Forall D (array_ids elem off) -> array_from r = Some f ->
    match r with RNone => os = [] | _ => forall t, join_side r = Some t -> RR os (blank os) (nulls_of t) end ->
    RR (os ++ array_ids elem off) (blank (os ++ array_ids elem off)) [null_frame (arr_names (Arr f a (u elem) (option_map u off) on w))].
  Proof.
    intros Un Do Di Ef Hr. split; [apply blank_keys|]. intros c Dc. cbn [in_frames arr_names].
    assert (Na : forall a b, null_frame (a ++ b) = null_frame a ++ null_frame b) by (intros; apply map_app).
    rewrite Na, in_frame_app, blank_app, col_app.
    assert (Hi : in_frame (u c) (null_frame (u elem :: match option_map u off with Some o => [o] | None => [] end)) = col c (blank (array_ids elem off))).
    { replace (null_frame (u elem :: match option_map u off with Some o => [o] | None => [] end)) with (named (blank (array_ids elem off))) by (destruct off; reflexivity).
      apply in_named; rewrite ?blank_keys; assumption. }
    rewrite Hi.
    match goal with |- context [in_frame (u c) ?F] => assert (H : in_frame (u c) F = col c (blank os)) end.
    { assert (J : forall t, RR os (blank os) (nulls_of t) -> in_frame (u c) (null_frame (jtoks_names t ++ json_names)) = col c (blank os)).
      { intros t [_ Rt]. rewrite Na, in_frame_app, <- concat_nulls, in_frame_concat, (Rt c Dc).
        change (null_frame json_names) with (json_frame (None, None)). rewrite (json_none c _ Un Dc). destruct (col c (blank os)); reflexivity. }
      destruct r; cbn [array_from] in Ef; [|destruct (join_side _) as [t'|] eqn:Ej; [cbn [obind] in Ef|discriminate Ef]..].
      { assert (f = FNone) by congruence. subst. reflexivity. }
      all: assert (f = FJoins t') by congruence; subst; apply J; now apply Hr. }
    rewrite H. destruct (col c (blank os)); [reflexivity|]. destruct (col c (blank (array_ids elem off))); reflexivity.
  Qed.
  Lemma array_input vis o env rows r f : part_ok vis o env rows r -> Forall (fun b => map fst b = o) rows -> Forall D o -> array_from r = Some f ->
    (exists srows, eval_from fn db env f = Some srows /\ Forall2 (RR o) rows srows) /\ (f = FNone -> o = []) /\
    match r with RNone => o = [] | _ => forall t, join_side r = Some t -> RR o (blank o) (nulls_of t) end.
  Proof.
    intros P K F E.
    assert (G : forall t, join_side r = Some t -> f = FJoins t ->
       (exists srows, eval_from fn db env f = Some srows /\ Forall2 (RR o) rows srows) /\ (f = FNone -> o = []) /\ RR o (blank o) (nulls_of t)).
    { intros t J ->. destruct (side_ok _ _ _ _ _ _ P K F J) as (sr & Es & Rs & Ns). split; [|split; [discriminate|assumption]]. exists sr. now rewrite ev_from_joins. }
    destruct r; cbn [array_from] in E; [|destruct (join_side _) as [t'|] eqn:Ej; [cbn [obind] in E|discriminate E]..].
    { assert (f = FNone) by congruence. subst. destruct P as [-> ->]. split; [|auto]. exists [[]]. split; [reflexivity|]. constructor; [|constructor]. split; [reflexivity|]. intros c _. reflexivity. }
    all: assert (Ff : f = FJoins t') by congruence; destruct (G t' eq_refl Ff) as (X & Y & Z0); split; [exact X|]; split; [exact Y|]; intros t9 J9; assert (t9 = t') as -> by congruence; exact Z0.
  Qed.
  Lemma in_vis_l (o vis : list Z) c : In c o -> In c (o ++ vis). Proof. intros. apply in_or_app. now left. Qed.

  Theorem refine : (forall e, P_expr e) /\ (forall a, P_exprs a) /\ (forall s, P_scan s) /\ (forall l, P_inputs l) /\ (forall l, P_aggs l) /\ (forall cs, P_comps cs) /\ (forall j, P_join j).
  Proof.
    apply tree_ind.
    - (* ECol *) intros c vis busy m x m' W Dv Ap Ki E. rewrite fm_col in E. cbn [wf] in W.
      rewrite (get_fresh m busy c) in E; [|assumption|intros; apply Dv; apply in_or_app; auto|apply Dv; apply in_or_app; auto|now apply Ap].
      assert (x = XCol (u c) /\ m' = m) as [-> ->] by (split; congruence). split; [reflexivity|].
      intros env b v A M. rewrite ev_col. now apply (A c v W).
    - (* ELit *) intros w vis busy m x m' W Dv Ap Ki E. fmt E.
      assert (x = XLit w /\ m' = m) as [-> ->] by (split; congruence). split; [reflexivity|]. intros env b v A M. exact M.
    - (* ECall *) intros f a IH vis busy m x m' W Dv Ap Ki E. fmt E.
      destruct (format_exprs u names a m) as [[xs m1]|] eqn:F; [|discriminate]. cbn [obind fst snd] in E.
      assert (x = XCall f xs /\ m' = m1) as [-> ->] by (split; congruence).
      destruct (IH vis busy m xs m1 W Dv Ap Ki F) as [-> H]. split; [reflexivity|]. intros env b v A M. mnt M.
      destruct (mean_list fn db names b a) as [l|] eqn:L; [|discriminate]. rewrite ev_call, (H env b l A L). exact M.
    - (* EExists *) intros s IH vis busy m x m' W Dv Ap Ki E. fmt E.
      destruct (format_scan u names s m) as [[r m1]|] eqn:F; [|discriminate]. cbn [obind fst snd] in E.
      destruct r as [|t|t w|q|ar]; try discriminate. assert (x = XExists q /\ m' = m1) as [-> ->] by (split; congruence).
      destruct (IH vis busy m _ m1 W Dv Ap Ki F) as [-> H]. split; [reflexivity|]. intros env b v A M. mnt M.
      destruct (mean_scan fn db names b s) as [l|] eqn:L; [|discriminate]. destruct (H env b l A L) as (_ & _ & Q & _).
      rewrite ev_exists, Q. cbn [obind]. destruct l; exact M.
    - (* EScalar *) intros s IH vis busy m x m' W Dv Ap Ki E. fmt E.
      destruct (format_scan u names s m) as [[r m1]|] eqn:F; [|discriminate]. cbn [obind fst snd] in E.
      destruct r as [|t|t w|q|ar]; try discriminate. assert (x = XScalar q /\ m' = m1) as [-> ->] by (split; congruence).
      destruct (IH vis busy m _ m1 W Dv Ap Ki F) as [-> H]. split; [reflexivity|]. intros env b v A M. mnt M.
      destruct (mean_scan fn db names b s) as [l|] eqn:L; [|discriminate]. destruct (H env b l A L) as (_ & _ & Q & _).
      rewrite ev_scalar, Q. cbn [obind]. destruct l as [|[|[c w] r] [|r' l]]; cbn [map snd] in *; try discriminate; exact M.
    - (* ENil *) intros vis busy m x m' W Dv Ap Ki E. fmt E. assert (x = XNil /\ m' = m) as [-> ->] by (split; congruence).
      split; [reflexivity|]. intros env b v A M. exact M.
    - (* ECons *) intros e IHe a IHa vis busy m x m' [We Wa] Dv Ap Ki E. fmt E.
      destruct (format_expr u names e m) as [[xe m1]|] eqn:F; [|discriminate]. cbn [obind fst snd] in E.
      destruct (format_exprs u names a m1) as [[xa m2]|] eqn:G; [|discriminate]. cbn [obind fst snd] in E.
      assert (x = XCons xe xa /\ m' = m2) as [-> ->] by (split; congruence).
      destruct (IHe vis busy m xe m1 We Dv Ap Ki F) as [-> He]. destruct (IHa vis busy m xa m2 Wa Dv Ap Ki G) as [-> Ha].
      split; [reflexivity|]. intros env b v A M. mnt M.
      destruct (mean fn db names b e) as [ve|] eqn:Me; [|discriminate]. destruct (mean_list fn db names b a) as [va|] eqn:Ma; [|discriminate].
      rewrite ev_cons, (He env b ve A Me). cbn [obind]. rewrite (Ha env b va A Ma). exact M.
    - (* SSingle *) intros vis busy m r m' W Dv Ap Ki E. fmt E. assert (r = RNone /\ m' = m) as [-> ->] by (split; congruence).
      split; [reflexivity|]. intros env b rows A M. mnt M. cbn [out part_ok] in *. change (Some [[]] = Some rows) in M. injection M as M. subst rows.
      split; [constructor; [reflexivity|constructor]|]. auto.
    - (* STable *) intros t cols vis busy m r m' W Dv Ap Ki E. fmt E.
      assert (Er : r = RJoin (KItem (Select (table_items u names cols) (FTable t) WNone None) KNil) /\ m' = m) by (split; congruence).
      destruct Er as [-> ->]. split; [reflexivity|]. intros env b rows A M. mnt M. cbn [out part_ok] in *.
      destruct (table_ok env t cols rows (proj2 W) M) as [K Q]. split; [assumption|]. 
      assert (F : Forall D cols) by (apply Forall_forall; intros c I; destruct (proj1 W c I) as [X _]; exact X).
      destruct (item_ok cols rows (Select (table_items u names cols) (FTable t) WNone None) env K F (table_names cols) Q) as [G R].
      eexists. split; [exact G|]. split; [exact R|]. cbn [nulls_of query_names]. rewrite table_names. now apply RR_blank.
    - (* SCross *) intros l IHl r IHr vis busy m fr m' W Dv Ap Ki E. fmt E.
      destruct W as (Wl & Wr & Alr & NJ).
      destruct (format_scan u names l m) as [[rl m1]|] eqn:Fl; [|discriminate]. cbn [obind fst snd] in E.
      destruct (format_scan u names r m1) as [[rr_ m2]|] eqn:Fr; [|discriminate]. cbn [obind fst snd] in E.
      destruct (join_side rl) as [ta|] eqn:Ja; [|discriminate]. cbn [obind] in E.
      destruct (join_side rr_) as [tb|] eqn:Jb; [|discriminate]. cbn [obind] in E.
      assert (fr = RJoin (kapp ta (KCross tb)) /\ m' = m2) as [-> ->] by (split; congruence).
      destruct (IHl vis busy m _ m1 Wl Dv Ap Ki Fl) as [-> Hl]. destruct (IHr vis busy m _ m2 Wr Dv Ap Ki Fr) as [-> Hr].
      split; [reflexivity|]. intros env b rows A M. mnt M. cbn [out part_ok] in *.
      destruct (mean_scan fn db names b l) as [a|] eqn:Ml; [|discriminate]. destruct (mean_scan fn db names b r) as [bb|] eqn:Mr; [|discriminate].
      destruct (Hl env b a A Ml) as [Kl Pl]. destruct (Hr env b bb A Mr) as [Kr Pr].
      assert (Dl : Forall D (out l)) by (apply Forall_forall; intros c I; now apply (fresh_out D UN l vis busy Wl)).
      assert (Dr : Forall D (out r)) by (apply Forall_forall; intros c I; now apply (fresh_out D UN r vis busy Wr)).
      destruct (side_ok _ _ _ _ _ _ Pl Kl Dl Ja) as (sl & El & Rl & Nl).
      destruct (right_ok r m _ m tb vis busy env b bb Wr NJ Fr Jb Kr Mr Pr) as (nl & sr & Nq & Nr & Rr & Ev & _).
      injection M as M; subst rows. split.
      + apply Forall_forall. intros z I. apply in_flat_map in I. destruct I as (x & Ix & I). apply in_map_iff in I. destruct I as (y & <- & Iy).
        rewrite map_app. rewrite Forall_forall in Kl, Kr. now rewrite (Kl x Ix), (Kr y Iy).
      + exists (flat_map (fun xx => map (fun yy => xx ++ yy) sr) sl). split.
        * pose proof (kapp_group fn db ta (KCross tb) env eq_refl) as G.
          destruct ta; try (rewrite G, El; cbn [obind]; rewrite ev_joins_cross, Ev, join_rows_cross; reflexivity).
          discriminate El.
        * split; [now apply cross_ok|]. rewrite nulls_kapp, blank_app. apply RR_app; [assumption|assumption|]. cbn [nulls_of]. now rewrite Nq.
    - (* SJoin *) intros k l IHl r IHr on IHo vis busy m fr m' W Dv Ap Ki E. fmt E.
      destruct W as (Wl & Wr & Alr & NJ & Wo).
      destruct (format_scan u names l m) as [[rl m1]|] eqn:Fl; [|discriminate]. cbn [obind fst snd] in E.
      destruct (format_scan u names r m1) as [[rr_ m2]|] eqn:Fr; [|discriminate]. cbn [obind fst snd] in E.
      destruct (join_side rl) as [ta|] eqn:Ja; [|discriminate]. cbn [obind] in E.
      destruct (join_side rr_) as [tb|] eqn:Jb; [|discriminate]. cbn [obind] in E.
      destruct (format_expr u names on m2) as [[xo m3]|] eqn:Fo; [|discriminate]. cbn [obind fst snd] in E.
      assert (Ef : fr = RJoin (kapp ta (KJoin k (kapp tb (KOn xo KNil)))) /\ m' = m3) by (split; congruence). destruct Ef as [-> ->].
      destruct (IHl vis busy m _ m1 Wl Dv Ap Ki Fl) as [-> Hl]. destruct (IHr vis busy m _ m2 Wr Dv Ap Ki Fr) as [-> Hr].
      pose proof (fresh_out D UN l vis busy Wl) as FOl. pose proof (fresh_out D UN r vis busy Wr) as FOr.
      assert (Dv' : forall c, In c ((out l ++ out r ++ vis) ++ busy) -> D c).
      { intros c I. rewrite !in_app_iff in I. destruct I as [[I|[I|I]]|I]; [now apply FOl|now apply FOr| |]; apply Dv; rewrite in_app_iff; auto. }
      assert (Ap' : apart (out l ++ out r ++ vis) busy).
      { intros c I. rewrite !in_app_iff in I. destruct I as [I|[I|I]]; [now apply FOl|now apply FOr|now apply Ap]. }
      destruct (IHo _ busy m _ m3 Wo Dv' Ap' Ki Fo) as [-> Ho].
      split; [reflexivity|]. intros env b rows A M. mnt M. cbn [out part_ok] in *.
      destruct (mean_scan fn db names b l) as [a|] eqn:Ml; [|discriminate]. destruct (mean_scan fn db names b r) as [bb|] eqn:Mr; [|discriminate].
      destruct (Hl env b a A Ml) as [Kl Pl]. destruct (Hr env b bb A Mr) as [Kr Pr].
      assert (Dl : Forall D (out l)) by (apply Forall_forall; intros c I; now apply FOl).
      assert (Dr : Forall D (out r)) by (apply Forall_forall; intros c I; now apply FOr).
      destruct (side_ok _ _ _ _ _ _ Pl Kl Dl Ja) as (sl & El & Rl & Nl).
      destruct (right_ok r m _ m tb vis busy env b bb Wr NJ Fr Jb Kr Mr Pr) as (nl & sr & Nq & Nr & Rr & _ & Ev). cbv zeta in M.
      match type of M with context [every ?F a] => destruct (every F a) as [ll|] eqn:EE end; [|discriminate].
      match type of M with context [every ?F bb] => destruct (every F bb) as [rr0|] eqn:EE2 end; [|discriminate].
      assert (Rs : rows = concat ll ++ concat rr0) by congruence. subst rows.
      destruct (join_ok k (out l) (out r) a bb sl sr (nulls_of ta) [nl] (fun z => mean fn db names (z ++ b) on)
                  (fun x => eval_expr fn db ((x, []) :: env) xo) ll rr0 Alr Nl Nr Rl Rr) as (rs & Jr & Rrs); [|exact EE|exact EE2|].
      { intros z s v Rz Mz. apply (Ho _ (z ++ b) v); [|assumption]. rewrite app_assoc. apply agree_ext; auto.
        - intros c I. apply Dv'. rewrite !in_app_iff in *. tauto.
        - intros c I J. rewrite in_app_iff in I. destruct I as [I|I]; [exact (proj1 (proj2 (FOl c I)) J)|exact (proj1 (proj2 (FOr c I)) J)]. }
      split.
      + clear -Rrs. induction Rrs as [|z s zs ss [E _] _ IH]; constructor; assumption.
      + exists rs. split; [|split; [assumption|]].
        2:{ rewrite nulls_kapp, blank_app. apply RR_app; [assumption|assumption|]. cbn [nulls_of]. rewrite nulls_kapp, Nq. exact Nr. }
        pose proof (kapp_group fn db ta (KJoin k (kapp tb (KOn xo KNil))) env eq_refl) as G.
        destruct ta; try (rewrite G, El; cbn [obind]; rewrite ev_joins_join, Ev; exact Jr).
        discriminate El.
    - (* SFilter *) intros s IHs e IHe vis busy m fr m' W Dv Ap Ki E. fmt E. destruct W as (Ws & We & Wa).
      destruct (format_scan u names s m) as [[rs m1]|] eqn:Fs; [|discriminate]. cbn [obind fst snd] in E.
      destruct (format_expr u names e m1) as [[xe m2]|] eqn:Fe; [|discriminate]. cbn [obind fst snd] in E.
      destruct (add_filter rs xe) as [r0|] eqn:Ad; [|discriminate]. cbn [obind] in E.
      assert (fr = r0 /\ m' = m2) as [-> ->] by (split; congruence).
      destruct (IHs vis busy m _ m1 Ws Dv Ap Ki Fs) as [-> Hs].
      pose proof (fresh_out D UN s vis busy Ws) as FO.
      assert (Dv' : forall c, In c ((out s ++ vis) ++ busy) -> D c).
      { intros c I. rewrite !in_app_iff in I. destruct I as [[I|I]|I]; [now apply FO| |]; apply Dv; rewrite in_app_iff; auto. }
      assert (Ap' : apart (out s ++ vis) busy).
      { intros c I. rewrite !in_app_iff in I. destruct I as [I|I]; [now apply FO|now apply Ap]. }
      destruct (IHe _ busy m _ m2 We Dv' Ap' Ki Fe) as [-> He].
      split; [reflexivity|]. intros env b rows A M. mnt M. cbn [out] in *.
      destruct (mean_scan fn db names b s) as [l|] eqn:Ml; [|discriminate].
      match type of M with context [every ?F l] => destruct (every F l) as [vs|] eqn:EE end; [|discriminate].
      assert (Rs : rows = where_true l vs) by congruence. subst rows. destruct (Hs env b l A Ml) as [K P].
      assert (Do : Forall D (out s)) by (apply Forall_forall; intros c I; now apply FO).
      assert (Ov : apart (out s) vis) by (intros c I J; exact (proj1 (proj2 (FO c I)) J)).
      assert (Dov : forall c, In c (out s ++ vis) -> D c) by (intros c I; apply Dv'; rewrite !in_app_iff in *; tauto).
      split.
      { apply Forall_forall. intros z I. rewrite Forall_forall in K. apply K. now apply where_true_incl in I. }
      assert (Wh : forall t srows, eval_group fn db env t = Some srows -> Forall2 (RR (out s)) l srows ->
                part_ok vis (out s) env (where_true l vs) (RWhere t xe)).
      { intros t srows Et Rt. exists l, srows, (fun r => mean fn db names (r ++ b) e). split; [assumption|]. split; [assumption|].
        split; [intros Bad; pose proof (eq_trans (eq_sym EE) Bad); discriminate|]. split; [intros vs' Ev; pose proof (eq_trans (eq_sym EE) Ev) as Ev'; now assert (vs = vs') as -> by congruence|].
        intros z zs als v _ Rz Al Mz. apply (He _ (z ++ b) v); [|assumption]. now apply agree_ext. }
      destruct rs as [|t|t w|q|ar]; unfold add_filter in Ad; try discriminate Ad.
      + destruct P as (srows & Et & Rt & _).
        destruct (wraps (frag_text (RJoin t))).
        * assert (r0 = RWhere (KGroup t KNil) xe) by congruence. subst. destruct (group_ok _ _ _ _ _ Et Rt) as (k & Ek & Rk). eauto.
        * assert (r0 = RWhere t xe) by congruence. subst. eauto.
      + destruct P as (Nq & Eq & Th). destruct (wraps (frag_text (RSelect q))).
        * assert (r0 = RWhere (KItem q KNil) xe) by congruence. subst. destruct (item_ok _ _ _ _ K Do Nq Eq) as [G R]. eauto.
        * destruct q as [i f [|w] [lim|]|i f w ks|i f [|w] [|k ks]|op l0]; try discriminate Ad.
          2:{ destruct (keyless s vis busy m i f WNone m Ws Fs) as (s' & aggs & cols & ->). destruct Wa. }
          assert (r0 = RSelect (Select i f (WSome xe) None)) by congruence. subst.
          destruct Th as (srows & Ef & R). cbn [part_ok query_names] in *. split; [assumption|]. split; [|exact I].
          destruct (filter2 _ (fun r => mean fn db names (r ++ b) e)
             (fun x => eval_expr fn db ((x, aliases fn db ((x, []) :: env) i) :: env) xe) l srows vs R EE) as (k & Ek & Rk).
          { intros z zs v Iz (Kz & Ez & Oz & Vz) Mz. apply (He _ (z ++ b) v); [|assumption].
            intros c w Ic Cw. cbn [lookup]. rewrite col_app in Cw.
            destruct (in_dec Z.eq_dec c (out s)) as [Io|Io].
            - assert (Cz : exists w', col c z = Some w') by (apply col_some; now rewrite Kz). destruct Cz as [w' Cz].
              rewrite Cz in Cw. assert (w' = w) by congruence. subst w'. destruct (Oz c Io) as [->| ->].
              + now rewrite Cz.
              + rewrite (alias_value _ _ _ Ez), Nq, <- Kz, alias_col; [|now rewrite Kz|now apply Dov]. now rewrite Cz.
            - assert (Iv : In c vis) by (rewrite in_app_iff in Ic; tauto). rewrite (Vz c Iv).
              rewrite (alias_none _ i c (out s)); auto; [|intros d I0; now apply FO]. rewrite (col_none c z) in Cw by (now rewrite Kz). now apply A. }
          rewrite ev_select, Ef by (intros ->; discriminate Eq). cbn [obind].
          match goal with |- context [ofilter ?G srows] => replace (ofilter G srows) with (Some k) by (symmetry; exact Ek) end. cbn [obind].
          match goal with |- context [omap ?G k] => assert (Mo : omap G k = Some (map (map snd) (where_true l vs))) end.
          { apply omap_forall2.
            assert (Gen : forall (R0 : binding -> row -> Prop) (l' : list binding) k', (forall z zs, R0 z zs -> eval_items fn db ((zs, []) :: env) i = Some (map snd z)) ->
              Forall2 R0 l' k' -> Forall2 (fun x y => eval_items fn db ((x, []) :: env) i = Some y) k' (map (map snd) l')).
            { intros R0 l' k' HR F. induction F; cbn [map]; constructor; auto. }
            refine (Gen _ _ _ _ Rk). intros z zs (_ & Ez & _). exact Ez. }
          rewrite Mo. reflexivity.
      + destruct P as ((srows & Eq & R) & Nl & Th). destruct (wraps (frag_text (RArr ar))).
        * assert (r0 = RWhere (KArr ar KNil) xe) by congruence. subst. apply (Wh (KArr ar KNil) srows); [|exact R]. rewrite ev_group_arr, Eq. apply ev_joins_nil.
        * destruct ar as [f ea el eo on [|w]]; [|discriminate Ad]. assert (r0 = RArr (Arr f ea el eo on (WSome xe))) by congruence. subst.
          cbn [part_ok]. split; [|split; [exact Nl|exact I]]. apply (Th xe (fun r => mean fn db names (r ++ b) e) vs EE).
          intros z env' v Iz Oz Vz Mz. apply (He env' (z ++ b) v); [|assumption]. intros c w Ic Cw. rewrite col_app in Cw.
          destruct (in_dec Z.eq_dec c (out s)) as [Io|Io].
          -- rewrite Forall_forall in K. assert (Cz : exists w', col c z = Some w') by (apply col_some; now rewrite (K z Iz)). destruct Cz as [w' Cz].
             rewrite Cz in Cw. assert (w' = w) by congruence. subst w'. now apply Oz.
          -- assert (Iv : In c vis) by (rewrite in_app_iff in Ic; tauto). rewrite (Vz c Iv). rewrite Forall_forall in K.
             rewrite (col_none c z) in Cw by (now rewrite (K z Iz)). now apply A.
    - (* SProject *) intros s IHs cs IHc cols vis busy m fr m' W Dv Ap Ki E.
      pose proof (fresh_out D UN _ vis busy W) as FO. fmt E. cbn [out] in *. destruct W as (Ws & Wc & Fc & Nd & Acs & Cnt & Sub & Ne).
      destruct (format_comps u names cs m) as [m1|] eqn:Ec; [|discriminate]. cbn [obind] in E.
      destruct (format_scan u names s m1) as [[rs m2]|] eqn:Fs; [|discriminate]. cbn [obind fst snd] in E.
      pose proof (fresh_out D UN s vis _ Ws) as FOs.
      assert (Dc : forall c, In c (comp_ids cs) -> D c) by (intros c I; now apply Fc).
      assert (Dv1 : forall c, In c ((out s ++ vis) ++ comp_ids cs ++ busy) -> D c).
      { intros c I. rewrite !in_app_iff in I. destruct I as [[I|I]|[I|I]]; [now apply FOs| |now apply Dc|]; apply Dv; rewrite in_app_iff; auto. }
      assert (Ap1 : apart (out s ++ vis) (comp_ids cs ++ busy)).
      { intros c I. rewrite in_app_iff in I. destruct I as [I|I]; [now apply FOs|]. rewrite in_app_iff. intros [J|J]; [exact (proj1 (proj2 (Fc c J)) I)|exact (Ap c I J)]. }
      destruct (IHc (out s ++ vis) (comp_ids cs ++ busy) busy m m1 Wc Dv1 Ap1 Ki) as (l & -> & Kl & Hc); auto.
      { intros c I. apply in_or_app. now right. }
      { intros c I. apply in_or_app. now left. }
      { intros c I. now apply Fc. }
      destruct (IHs vis (comp_ids cs ++ busy) (entries (rev l) ++ m) rs m2 Ws) as [-> Hs]; auto.
      { intros c I. apply Dv1. rewrite !in_app_iff in *. tauto. }
      { intros c I. apply Ap1. apply in_or_app. now right. }
      { intros k x I. apply in_app_or in I. destruct I as [I|I].
        - unfold entries in I. apply in_map_iff in I. destruct I as ([d y] & Ed & I). apply in_rev in I. exists d. split; [|cbn in Ed; congruence].
          apply in_or_app. left. rewrite <- Kl. change d with (fst (d, y)). now apply in_map.
        - destruct (Ki k x I) as (c & I' & ->). exists c. split; [apply in_or_app; now right|reflexivity]. }
      assert (Krev : forall c, In c (map fst (rev l)) <-> In c (comp_ids cs)).
      { intros c. rewrite map_rev, <- in_rev, Kl. reflexivity. }
      rewrite (take_items_ok cols (rev l) m busy) in E; auto.
      2:{ intros d I. apply Dc. now apply Krev. }
      2:{ intros d I. apply Dv. apply in_or_app. now right. }
      2:{ intros c I. destruct (FO c I) as (X & _ & Y). auto. }
      2:{ intros c I. apply Cnt. now apply Krev. }
      rewrite (surjective_pairing (input_from rs)) in E.
      assert (Er : fr = RSelect (Select (mk_items (by_id (rev l)) cols) (fst (input_from rs)) (snd (input_from rs)) None) /\ m' = m) by (split; congruence).
      destruct Er as [-> ->]. split; [reflexivity|]. intros env b rows A M. mnt M.
      destruct (mean_scan fn db names b s) as [l0|] eqn:Ml; [|discriminate]. destruct (Hs env b l0 A Ml) as [K P].
      assert (Dov : forall c, In c (out s ++ vis) -> D c) by (intros c I; apply Dv1; rewrite !in_app_iff in *; tauto).
      assert (Ov : apart (out s) vis) by (intros c I J; exact (proj1 (proj2 (FOs c I)) J)).
      destruct (select_ok vis (out s) cols env l0 rows rs (mk_items (by_id (rev l)) cols) None
                 (fun r => match mean_comps fn db names (r ++ b) cs with Some cv => pick cols (cv ++ r) | None => None end)) as (R1 & R2 & R3); auto.
      + apply mk_names.
      + intros c I. now apply FO.
      + intros c I J. exact (proj1 (proj2 (FO c I)) J).
      + intros z zs z' Iz Rz Fz. destruct (mean_comps fn db names (z ++ b) cs) as [cv|] eqn:Mc; [|discriminate].
        assert (Az : agree (out s ++ vis) ((zs, []) :: env) (z ++ b)) by (apply agree_ext; auto).
        pose proof (Hc _ _ cv Az Mc) as Fl. pose proof (comps_keys _ _ _ Fl) as Kcv. rewrite Kl in Kcv.
        split; [now apply pick_keys in Fz|]. split.
        * apply (mk_items_eval _ _ _ _ _ Fz). intros c v Ic Cv. destruct (by_id (rev l) c) as [x|] eqn:B.
          -- apply by_id_in in B. apply in_rev in B. destruct (forall2_in_l _ _ _ _ Fl B) as ([d w] & Iw & Ed & Ew). cbn [fst snd] in *. subst d.
             rewrite col_app, (col_nodup c w cv) in Cv; [congruence| |assumption]. now rewrite Kcv.
          -- apply by_id_none in B. rewrite Krev in B. rewrite col_app, (col_none c cv) in Cv by (now rewrite Kcv).
             apply Az; [|now rewrite col_app, Cv]. apply in_or_app. left. apply col_in in Cv. destruct Rz as [Kz _]. now rewrite <- Kz.
        * intros c Ic Io. rewrite (pick_col _ _ _ c Fz Ic), col_app, (col_none c cv); [reflexivity|]. rewrite Kcv. intros J. now apply (Acs c J).
      + split; [assumption|]. cbn [part_ok query_names]. split; [apply mk_names|]. split; [assumption|].
        destruct (snd (input_from rs)); [now apply R3|exact I].
    - (* SLimit *) intros s IHs n off cols vis busy m fr m' W Dv Ap Ki E.
      pose proof (fresh_out D UN _ vis busy W) as FO. fmt E. cbn [out] in *. destruct W as (Ws & Sub & Ne).
      destruct (format_scan u names s m) as [[rs m2]|] eqn:Fs; [|discriminate]. cbn [obind fst snd] in E.
      pose proof (fresh_out D UN s vis _ Ws) as FOs.
      destruct (IHs vis busy m rs m2 Ws Dv Ap Ki Fs) as [-> Hs].
      change (take_items u cols m) with (take_items u cols (entries [] ++ m)) in E.
      rewrite (take_items_ok cols [] m busy) in E; auto.
      2:{ intros d []. }
      2:{ intros d I. apply Dv. apply in_or_app. now right. }
      2:{ intros c I. destruct (FO c I) as (X & _ & Y). auto. }
      2:{ intros c []. }
      rewrite (surjective_pairing (input_from rs)) in E.
      assert (Er : fr = RSelect (Select (mk_items (by_id []) cols) (fst (input_from rs)) (snd (input_from rs)) (Some (n, off))) /\ m' = m) by (split; congruence).
      destruct Er as [-> ->]. split; [reflexivity|]. intros env b rows A M. mnt M.
      destruct (mean_scan fn db names b s) as [l0|] eqn:Ml; [|discriminate]. destruct (Hs env b l0 A Ml) as [K P].
      destruct (every (pick cols) l0) as [l1|] eqn:Ev; [|discriminate]. assert (Er : rows = page (Some (n, off)) l1) by (unfold page; destruct off; cbn in *; congruence). subst rows.
      assert (Dov : forall c, In c (out s ++ vis) -> D c).
      { intros c I. apply in_app_or in I. destruct I; [now apply FOs|]. apply Dv. apply in_or_app. now left. }
      assert (Ov : apart (out s) vis) by (intros c I J; exact (proj1 (proj2 (FOs c I)) J)).
      destruct (select_ok vis (out s) cols env l0 l1 rs (mk_items (by_id []) cols) (Some (n, off)) (pick cols)) as (R1 & R2 & R3); auto.
      + apply mk_names.
      + intros c I. now apply FO.
      + intros c I J. exact (proj1 (proj2 (FO c I)) J).
      + intros z zs z' Iz Rz Fz. split; [now apply pick_keys in Fz|]. split.
        * apply (mk_items_eval _ _ _ _ _ Fz). intros c v Ic Cv. cbn [by_id find]. destruct Rz as [Kz Rz]. unfold by_id. cbn [find]. cbn [lookup].
          rewrite (Rz c) by (now apply FO). now rewrite Cv.
        * intros c Ic Io. now apply (pick_col _ _ _ c Fz).
      + split.
        * apply Forall_forall. intros z I. rewrite Forall_forall in R1. apply R1. cbn [page] in I.
          set (k := match off with Some k => k | None => 0%nat end) in I. rewrite <- (firstn_skipn k l1). apply in_or_app. right.
          rewrite <- (firstn_skipn n (skipn k l1)). apply in_or_app. now left.
        * cbn [part_ok query_names]. split; [apply mk_names|]. split; [rewrite R2; cbn [page]; now rewrite skipn_map, firstn_map|]. destruct (snd (input_from rs)); exact I.
    - (* SOrder *) intros s IHs keys cols vis busy m fr m' W Dv Ap Ki E.
      pose proof (fresh_out D UN _ vis busy W) as FO. fmt E. cbn [out] in *. destruct W as (Ws & Sub & Ne & Kin).
      destruct (format_scan u names s m) as [[rs m2]|] eqn:Fs; [|discriminate]. cbn [obind fst snd] in E.
      pose proof (fresh_out D UN s vis _ Ws) as FOs.
      destruct (IHs vis busy m rs m2 Ws Dv Ap Ki Fs) as [-> Hs].
      change (take_items u cols m) with (take_items u cols (entries [] ++ m)) in E.
      rewrite (take_items_ok cols [] m busy) in E; auto.
      2:{ intros d []. }
      2:{ intros d I. apply Dv. apply in_or_app. now right. }
      2:{ intros c I. destruct (FO c I) as (X & _ & Y). auto. }
      2:{ intros c []. }
      rewrite (surjective_pairing (input_from rs)) in E. set (ks := flat_map (sort_keys u) keys) in E. set (it := mk_items (by_id []) cols) in E.
      assert (Er : fr = RSelect (Sorted it (fst (input_from rs)) (snd (input_from rs)) ks) /\ m' = m) by (split; congruence).
      destruct Er as [-> ->]. split; [reflexivity|]. intros env b rows A M. mnt M.
      destruct (mean_scan fn db names b s) as [l0|] eqn:Ml; [|discriminate]. destruct (Hs env b l0 A Ml) as [K P]. rewrite Forall_forall in K.
      assert (Dov : forall c, In c (out s ++ vis) -> D c).
      { intros c I. apply in_app_or in I. destruct I; [now apply FOs|]. apply Dv. apply in_or_app. now left. }
      assert (Pk : forall z, In z l0 -> pick cols z = Some (map (fun c => (c, value c z)) cols)).
      { intros z I. apply pick_total. intros c Ic. rewrite (K z I). now apply Sub. }
      assert (Mr : rows = map (fun z => map (fun c => (c, value c z)) cols) (ordered keys l0)).
      { rewrite (every_map _ (fun z => map (fun c => (c, value c z)) cols)) in M; [congruence|]. intros z I. apply Pk. now apply ordered_in in I. }
      subst rows. clear M.
      assert (Nit : item_names it = map u cols) by apply mk_names.
      destruct (kept_ok vis (out s) cols env l0 rs it P (proj2 (Forall_forall _ _) K) Dov Nit) as (srows & k & Ef & Ek & Rk).
      { intros c I. now apply FO. }
      { intros c I J. exact (proj1 (proj2 (FO c I)) J). }
      split; [apply Forall_forall; intros z I; apply in_map_iff in I; destruct I as (y & <- & _); rewrite map_map; apply map_id|].
      cbn [part_ok query_names]. split; [exact Nit|]. split; [|exact I].
      rewrite ev_sorted, Ef by (now apply mk_nonempty). cbn [obind].
      match goal with |- context [ofilter ?G srows] => replace (ofilter G srows) with (Some k) by (symmetry; exact Ek) end. cbn [obind].
      set (gz := fun z => (flat_map (fun q => key_values q z) keys, map (fun c => value c z) cols)).
      assert (Mo : omap (fun r => obind (eval_items fn db ((r, []) :: env) it) (fun vs =>
                     obind (omap (sort_value r env (aliases fn db ((r, []) :: env) it)) ks) (fun kv => Some (kv, vs)))) k = Some (map gz l0)).
      { apply omap_forall2.
        assert (R0 : Forall2 (fun r z => In z l0 /\ RR (out s) z r) k l0).
        { clear -Rk. induction Rk as [|z r l0 k Rz Rk IH]; constructor; [split; [now left|assumption]|]. eapply forall2_imp; [|exact IH]. intros r' z' [I R]. split; [now right|assumption]. }
        assert (H : forall r z, In z l0 /\ RR (out s) z r -> obind (eval_items fn db ((r, []) :: env) it) (fun vs =>
                     obind (omap (sort_value r env (aliases fn db ((r, []) :: env) it)) ks) (fun kv => Some (kv, vs))) = Some (gz z)).
        { intros r z [Iz [Kz Rz]].
          assert (Lk : forall als c, In c (out s) -> lookup (u c) ((r, als) :: env) = Some (value c z)).
          { intros als c Ic. cbn [lookup]. rewrite (Rz c) by (now apply FOs). destruct (col_some c z) as [v Ev]; [now rewrite Kz|]. unfold value. now rewrite Ev. }
          assert (Ei : eval_items fn db ((r, []) :: env) it = Some (map (fun c => value c z) cols)).
          { replace (map (fun c => value c z) cols) with (map snd (map (fun c => (c, value c z)) cols)) by (rewrite map_map; reflexivity).
            apply (mk_items_eval _ _ z _ _ (Pk z Iz)). intros c v Ic Cv. unfold by_id. cbn [find]. rewrite Lk by (now apply Sub). unfold value. now rewrite Cv. }
          rewrite Ei. cbn [obind].
          assert (Al : forall c, In c (out s) -> match in_alias (u c) (aliases fn db ((r, []) :: env) it) with Some o => o | None => lookup (u c) ((r, aliases fn db ((r, []) :: env) it) :: env) end = Some (value c z)).
          { intros c Ic. destruct (in_dec Z.eq_dec c cols) as [J|J].
            - unfold it. rewrite alias_item; [|intros d Id; now apply FO|assumption]. unfold by_id. cbn [find]. now apply Lk.
            - rewrite (alias_none _ it c cols); auto; [intros d Id; now apply FO|now apply FOs]. }
          assert (Ok : omap (sort_value r env (aliases fn db ((r, []) :: env) it)) ks = Some (flat_map (fun q => key_values q z) keys)).
          { apply omap_forall2. unfold ks. clear -Kin Lk Al. induction keys as [|[[c desc] nm] keys IH]; [constructor|]. cbn [flat_map]. apply Forall2_app; [|apply IH; intros; apply Kin; now right].
            assert (Ic : In c (out s)) by (apply (Kin (c, desc, nm)); now left). cbn [sort_keys key_values].
            destruct nm; cbn [app]; repeat (apply Forall2_cons || apply Forall2_nil); cbn [sort_value]; first [exact (Al c Ic)|rewrite (Lk _ c Ic); reflexivity]. }
          rewrite Ok. reflexivity. }
        clear -R0 H. induction R0; cbn [map]; constructor; auto. }
      match goal with |- context [omap ?G k] => replace (omap G k) with (Some (map gz l0)) by (symmetry; exact Mo) end. cbn [obind].
      rewrite isort_map, map_map. rewrite (isort_ordered keys).
      + rewrite map_map. f_equal. apply map_ext. intros z. rewrite map_map. reflexivity.
      + intros z z' I I'. cbn [gz fst]. unfold ks. apply keys_before. intros q Iq. split; intros Bad.
        * destruct (col_some (fst (fst q)) z) as [v Ev]; [rewrite (K z I); now apply Kin|]. congruence.
        * destruct (col_some (fst (fst q)) z') as [v Ev]; [rewrite (K z' I'); now apply Kin|]. congruence.
    - (* SSet *) intros op l IHl cols vis busy m fr m' W Dv Ap Ki E. fmt E. cbn [out] in *. destruct W as (Wl & Fr & Nd & Ne & Fst & Op).
      destruct (format_inputs u names l m) as [[qs m2]|] eqn:Fl; [|discriminate]. cbn [obind fst snd] in E.
      destruct (IHl vis busy (length cols) m qs m2 Wl ltac:(destruct cols; [congruence|discriminate]) Dv Ap Ki Fl) as (-> & Nq & Hl).
      assert (Er : fr = RSelect (Select (set_items u (first_cols l) cols) (FJoins (KItem (Compound op qs) KNil)) WNone None) /\ m' = m) by (split; congruence).
      destruct Er as [-> ->]. split; [reflexivity|]. intros env b rows A M. mnt M.
      destruct (mean_inputs fn db names b l) as [[|x r]|] eqn:Ml; try discriminate M.
      destruct (set_result op x r) as [vs|] eqn:Sr; [|discriminate]. assert (rows = map (combine cols) vs) by congruence. subst rows.
      destruct (Hl env b _ A Ml) as [Rs Ln].
      destruct l as [|s0 c0 [|s1 c1 l1]]; try contradiction. cbn [first_cols] in *. destruct Fst as [Nc Ac]. pose proof Wl as Wl0. cbn [wf_inputs] in Wl. destruct Wl as (Ws & Sub & Len & _).
      pose proof (fresh_out D UN s0 vis _ Ws) as FOs.
      assert (Lv : forall v, In v vs -> length v = length cols).
      { intros v I. destruct (set_result_in _ _ _ _ v Sr I) as (y & Iy & Iv). rewrite Forall_forall in Ln. specialize (Ln y Iy). rewrite Forall_forall in Ln. auto. }
      assert (Rne : r <> []).
      { intros ->. mnt Ml. destruct (mean_scan fn db names b s0); [|discriminate]. destruct (mean_scan fn db names b s1); [|discriminate]. destruct (mean_inputs fn db names b l1); [|discriminate].
        destruct (every (pick c1) l0); [|discriminate]. destruct (every (pick c0) l); discriminate. }
      assert (Ec : eval_query fn db env (Compound op qs) = Some vs).
      { destruct qs as [|q qs]; [contradiction|]. cbn [results] in Rs. destruct Rs as [Eq Rs]. rewrite ev_compound, Eq. cbn [obind].
        clear -Rs Sr Rne.
        assert (Gen : forall (r : list (list (list val))) qs a, results env qs r ->
                  (fix step a (r : list (list (list val))) := match r with [] => Some a | b :: r' => obind (set_step op a b) (fun x => step x r') end) a r = eval_compound fn db env op a qs).
        { induction r0 as [|y r0 IH]; intros [|q qs'] a H; try contradiction; [reflexivity|]. cbn [results] in H. destruct H as [Eq H]. rewrite ev_compound_cons, Eq. cbn [obind].
          destruct (set_step op a y); [|reflexivity]. cbn [obind]. now apply IH. }
        rewrite <- (Gen r qs x Rs). apply (set_ok op x r vs Rne Sr); reflexivity. }
      assert (Mv : map (map snd) (map (combine cols) vs) = vs).
      { rewrite map_map. rewrite <- (map_id vs) at 2. apply map_ext_in. intros v I. specialize (Lv v I). clear -Lv. revert v Lv. induction cols as [|c cols IH]; intros [|y v] L; try discriminate; [reflexivity|].
        cbn. f_equal. apply IH. now injection L. }
      assert (Kv : forall v, In v vs -> map fst (combine cols v) = cols).
      { intros v I. specialize (Lv v I). clear -Lv. revert v Lv. induction cols as [|c cols IH]; intros [|y v] L; try discriminate; [reflexivity|]. cbn. f_equal. apply IH. now injection L. }
      assert (Dc0 : forall c, In c c0 -> D c) by (intros c I; apply FOs; now apply Sub).
      assert (Ev : forall v, In v vs -> eval_items fn db (([combine (map u c0) v], []) :: env) (set_items u c0 cols) = Some v).
      { intros v I. apply set_eval; auto. }
      assert (Eg : eval_group fn db env (KItem (Compound op qs) KNil) = Some (map (fun v => [combine (map u c0) v]) vs)).
      { rewrite ev_group_item, Ec. cbn [obind]. rewrite ev_joins_nil. cbn [query_names]. rewrite Nq. reflexivity. }
      split; [apply Forall_forall; intros z I; apply in_map_iff in I; destruct I as (v & <- & I); now apply Kv|].
      cbn [part_ok query_names]. split; [now apply set_names|]. split.
      + rewrite ev_select, ev_from_joins, Eg by (destruct c0; [destruct cols; [congruence|discriminate Len]|destruct cols; [congruence|discriminate]]). cbn [obind].
        match goal with |- context [ofilter ?G ?l] => replace (ofilter G l) with (Some l) by (symmetry; apply ofilter_always) end. cbn [obind].
        assert (Mo : omap (fun r0 => eval_items fn db ((r0, []) :: env) (set_items u c0 cols)) (map (fun v => [combine (map u c0) v]) vs) = Some vs).
        { apply omap_forall2. clear -Ev. induction vs as [|v vs IH]; cbn [map]; constructor; [apply Ev; now left|]. apply IH. intros; apply Ev; now right. }
        rewrite Mo, Mv. reflexivity.
      + exists (map (fun v => [combine (map u c0) v]) vs). rewrite ev_from_joins. split; [exact Eg|].
        assert (No : forall c v, D c -> ~ In c c0 -> in_frames (u c) [combine (map u c0) v] = []).
        { intros c v Dc Nin. cbn [in_frames]. assert (N0 : in_frame (u c) (combine (map u c0) v) = None); [|now rewrite N0].
          unfold in_frame. destruct (find _ _) as [[n w]|] eqn:F; [|reflexivity]. exfalso. apply find_some in F. destruct F as [I S_]. cbn [fst] in S_. apply in_combine_l in I.
          apply in_map_iff in I. destruct I as (d & <- & I). rewrite same_u in S_ by auto. apply Z.eqb_eq in S_. now subst. }
        clear -Ev Kv Mv Lv No Ac Fr FOs Sub Dv. induction vs as [|v vs IH]; cbn [map]; constructor.
        * split; [apply Kv; now left|]. split; [transitivity (Some v); [apply Ev; now left|cbn [map] in Mv; congruence]|]. split.
          -- intros c I. right. apply No; [now apply Fr|now apply Ac].
          -- intros c I. apply No; [apply Dv, in_or_app; now left|]. intros J. exact (proj1 (proj2 (FOs c (Sub c J))) I).
        * apply IH; [intros; apply Lv; now right|cbn [map] in Mv; congruence|intros; apply Kv; now right|intros; apply Ev; now right].
    - (* SAgg *) intros s IHs groups IHg aggs IHa cols vis busy m fr m' W Dv Ap Ki E.
      pose proof (fresh_out D UN _ vis busy W) as FO. fmt E. cbn [out] in *. cbn [wf_scan] in W. set (ids := comp_ids groups ++ agg_ids aggs) in W.
      destruct W as (Ws & Wg & Wa & Fi & Nd & Ais & Cnt & Sub & Ne).
      destruct (format_aggs u names aggs m) as [m1|] eqn:Ea; [|discriminate]. cbn [obind] in E.
      destruct (format_scan u names s m1) as [[rs m2]|] eqn:Fs; [|discriminate]. cbn [obind fst snd] in E.
      destruct (format_comps u names groups m2) as [m3|] eqn:Eg; [|discriminate]. cbn [obind] in E.
      pose proof (fresh_out D UN s vis _ Ws) as FOs.
      assert (Di : forall c, In c ids -> D c) by (intros c I; now apply Fi).
      assert (Ig : forall c, In c (comp_ids groups) -> In c ids) by (intros; apply in_or_app; now left).
      assert (Ia : forall c, In c (agg_ids aggs) -> In c ids) by (intros; apply in_or_app; now right).
      destruct (nodup_parts _ _ Nd) as (NdG & NdA & NdX & NdS).
      assert (Dv1 : forall c, In c ((out s ++ vis) ++ ids ++ busy) -> D c).
      { intros c I. rewrite !in_app_iff in I. destruct I as [[I|I]|[I|I]]; [now apply FOs| |now apply Di|]; apply Dv; rewrite in_app_iff; auto. }
      assert (Ap1 : apart (out s ++ vis) (ids ++ busy)).
      { intros c I. rewrite in_app_iff in I. destruct I as [I|I]; [now apply FOs|]. rewrite in_app_iff. intros [J|J]; [exact (proj1 (proj2 (Fi c J)) I)|exact (Ap c I J)]. }
      destruct (IHa (out s ++ vis) (ids ++ busy) busy m m1 Wa Dv1 Ap1 Ki) as (la & -> & Kla & Ha); auto.
      { intros c I. apply in_or_app. now right. }
      { intros c I. apply in_or_app. left. auto. }
      { intros c I. apply Fi. auto. }
      assert (Km : keys_in (entries (rev la) ++ m) (agg_ids aggs ++ busy)).
      { intros k x I. apply in_app_or in I. destruct I as [I|I].
        - unfold entries in I. apply in_map_iff in I. destruct I as ([d y] & Ed & I). apply in_rev in I. exists d. split; [|cbn in Ed; congruence].
          apply in_or_app. left. rewrite <- Kla. change d with (fst (d, y)). now apply in_map.
        - destruct (Ki k x I) as (c & I' & ->). exists c. split; [apply in_or_app; now right|reflexivity]. }
      destruct (IHs vis (ids ++ busy) (entries (rev la) ++ m) rs m2 Ws) as [-> Hs]; auto.
      { intros c I. apply Dv1. rewrite !in_app_iff in *. tauto. }
      { intros c I. apply Ap1. apply in_or_app. now right. }
      { intros k x I. destruct (Km k x I) as (c & J & ->). exists c. split; [|reflexivity]. rewrite !in_app_iff in *. destruct J; auto. }
      destruct (IHg (out s ++ vis) (ids ++ busy) (agg_ids aggs ++ busy) (entries (rev la) ++ m) m3 Wg Dv1 Ap1 Km) as (lg & -> & Klg & Hg); auto.
      { intros c I. rewrite !in_app_iff in *. destruct I; auto. }
      { intros c I. apply in_or_app. left. auto. }
      { intros c I J. apply in_app_or in J. destruct J as [J|J]; [exact (NdX c I J)|]. exact (proj2 (proj2 (Fi c (Ig c I))) J). }
      set (l := la ++ lg) in *.
      replace (entries (rev lg) ++ entries (rev la) ++ m) with (entries (rev l) ++ m) in E.
      2:{ unfold l, entries. rewrite rev_app_distr, map_app. now rewrite <- app_assoc. }
      assert (Krev : forall c, In c (map fst (rev l)) <-> In c ids).
      { intros c. rewrite map_rev, <- in_rev. unfold l, ids. rewrite map_app, !in_app_iff, Kla, Klg. tauto. }
      assert (Ndl : NoDup (map fst (rev l))).
      { rewrite map_rev. apply NoDup_rev. unfold l. rewrite map_app, Kla, Klg. exact NdS. }
      rewrite (take_items_ok cols (rev l) m busy) in E; auto.
      2:{ intros d I. apply Di. now apply Krev. }
      2:{ intros d I. apply Dv. apply in_or_app. now right. }
      2:{ intros c I. destruct (FO c I) as (X & _ & Y). auto. }
      2:{ intros c I. apply Cnt. now apply Krev. }
      rewrite (surjective_pairing (input_from rs)) in E. set (it := mk_items (by_id (rev l)) cols) in E.
      assert (Er : fr = RSelect (Grouped it (fst (input_from rs)) (snd (input_from rs)) (map u (group_ids groups))) /\ m' = m) by (split; congruence).
      destruct Er as [-> ->]. split; [reflexivity|]. intros env b rows A M. mnt M.
      destruct (mean_scan fn db names b s) as [l0|] eqn:Ml; [|discriminate]. destruct (Hs env b l0 A Ml) as [K P].
      destruct (every (fun r => match mean_comps fn db names (r ++ b) groups with Some k => Some (map snd k, r) | None => None end) l0) as [keyed|] eqn:Ek; [|discriminate].
      assert (Dov : forall c, In c (out s ++ vis) -> D c) by (intros c I; apply Dv1; rewrite !in_app_iff in *; tauto).
      assert (Ov : apart (out s) vis) by (intros c I J; exact (proj1 (proj2 (FOs c I)) J)).
      assert (Nit : item_names it = map u cols) by apply mk_names.
      assert (Dcols : forall c, In c cols -> D c) by (intros c I; now apply FO).
      destruct (kept_ok vis (out s) cols env l0 rs it P K Dov Nit Dcols) as (srows & k & Ef & Ekp & Rk).
      { intros c I J. exact (proj1 (proj2 (FO c I)) J). }
      set (KF := fun (p : list val * binding) (q : list val * row) => fst p = fst q /\ agree (out s ++ vis) ((snd q, []) :: env) (snd p ++ b) /\
                  exists cv : binding, fst p = map snd cv /\ map fst cv = comp_ids groups /\
                    forall d x w, In (d, x) lg -> In (d, w) cv -> eval_expr fn db ((snd q, []) :: env) x = Some w).
      assert (Sk : exists sk : list (list val * row), omap (fun r => obind (omap (fun n => lookup n ((r, aliases fn db ((r, []) :: env) it) :: env)) (map u (group_ids groups))) (fun kk => Some (kk, r))) k = Some sk /\ Forall2 KF keyed sk).
      { apply every_forall2 in Ek. rewrite Forall_forall in K.
        assert (One : forall z r p, In z l0 -> RR (out s) z r -> match mean_comps fn db names (z ++ b) groups with Some k => Some (map snd k, z) | None => None end = Some p ->
                  KF p (fst p, r) /\ omap (fun n => lookup n ((r, aliases fn db ((r, []) :: env) it) :: env)) (map u (group_ids groups)) = Some (fst p)).
        { intros z r p Iz Rz Ep. destruct (mean_comps fn db names (z ++ b) groups) as [cv|] eqn:Mc; [|discriminate]. assert (p = (map snd cv, z)) by congruence. subst p.
          assert (Az : agree (out s ++ vis) ((r, []) :: env) (z ++ b)) by (apply agree_ext; auto).
          pose proof (Hg _ _ cv Az Mc) as Fl. pose proof (comps_keys _ _ _ Fl) as Kcv. rewrite Klg in Kcv.
          assert (Lw : forall d x w, In (d, x) lg -> In (d, w) cv -> eval_expr fn db ((r, []) :: env) x = Some w).
          { intros d x w I J. destruct (forall2_in_l _ _ _ _ Fl I) as ([d' w'] & I' & Ed & Ew). cbn [fst snd] in *. subst d'.
            rewrite Ew. f_equal. assert (N : NoDup (map fst cv)) by (now rewrite Kcv). pose proof (col_nodup d w cv N J). pose proof (col_nodup d w' cv N I'). congruence. }
          split; [split; [reflexivity|split; [exact Az|exists cv; auto]]|]. rewrite group_ids_eq. apply omap_forall2. cbn [fst].
          assert (Sub1 : forall p, In p lg -> In (fst p) (comp_ids groups)) by (intros p I; rewrite <- Klg; now apply in_map).
          assert (Sub2 : forall p, In p lg -> In p (rev l)) by (intros p I; apply -> in_rev; apply in_or_app; now right).
          rewrite <- Klg. destruct Rz as [Kz Rz].
          clearbody l. clear -u_inj Fl Sub1 Sub2 Kz Rz Ig Di Ais Dcols Cnt Ndl. induction Fl as [|[d x] [d' w] lg' cv' [Ed Ew] Fl IH]; [constructor|]. cbn [map fst snd]. constructor; [|apply IH; intros; [apply Sub1|apply Sub2]; now right].
          cbn [fst snd] in *. subst d'. assert (Id : In d ids) by (apply Ig; apply (Sub1 (d, x)); now left).
          cbn [lookup]. rewrite (Rz d (Di d Id)), (col_none d z) by (rewrite Kz; now apply Ais). cbn [opt_list]. unfold it. rewrite alias_item; auto.
          - rewrite (by_id_some (rev l) d x Ndl) by (apply Sub2; now left). now rewrite Ew.
          - apply (count_occ_In Z.eq_dec). rewrite (Cnt d Id). lia. }
        assert (Ex : exists sk : list (list val * row), Forall2 (fun r q => obind (omap (fun n => lookup n ((r, aliases fn db ((r, []) :: env) it) :: env)) (map u (group_ids groups))) (fun kk => Some (kk, r)) = Some q) k sk /\ Forall2 KF keyed sk).
        { clear -Ek Rk One. revert k Rk. induction Ek as [|z p l0 keyed Ep Ek IH]; intros k Rk; inversion Rk; subst.
          - exists []. split; constructor.
          - destruct (IH (fun z r p I => One z r p (or_intror I)) _ H3) as (sk & S1 & S2). destruct (One z y p (or_introl eq_refl) H1 Ep) as [O1 O2].
            exists ((fst p, y) :: sk). split; constructor; auto. match goal with |- obind ?t _ = _ => replace t with (Some (fst p)) by (symmetry; exact O2) end. reflexivity. }
        destruct Ex as (sk & S1 & S2). exists sk. split; [now apply omap_forall2|assumption]. }
      destruct Sk as (sk & Esk & Fk).
      assert (Gr : forall kv kk ss v z', Forall2 KF kk ss -> (forall p, In p kk -> fst p = kv) -> (kk <> [] \/ groups = CNil) -> mean_aggs fn db names b (map snd kk) aggs = Some v ->
                pick cols (combine (comp_ids groups) kv ++ v) = Some z' -> eval_group_items fn db env (map snd ss) it = Some (map snd z')).
      { intros kv kk ss v z' F Ekv Nk Mv Pz. unfold it.
        assert (Fa : Forall2 (fun p q => fst p = fst q /\ agg_value env (map snd ss) (snd p) (snd q)) la v).
        { apply (Ha env b (map snd kk)); [|exact Mv]. clear -F. induction F as [|p q kk ss Hpq F IH]; cbn [map]; constructor; [apply Hpq|exact IH]. }
        assert (Kv : map fst v = agg_ids aggs).
        { rewrite <- Kla. clear -Fa. induction Fa as [|p q la v [E _] F IH]; [reflexivity|]. cbn. now rewrite IH, E. }
        apply (group_eval _ _ _ _ _ _ Pz). intros c w Ic Cw. specialize (Sub c Ic). apply Krev in Sub.
        destruct (by_id (rev l) c) as [x|] eqn:B; [|apply by_id_none in B; contradiction]. exists x. split; [reflexivity|]. apply by_id_in in B. apply in_rev in B.
        unfold l in B. apply in_app_or in B. rewrite col_app in Cw. destruct B as [B|B].
        - left. destruct (forall2_in_l _ _ _ _ Fa B) as ([d w'] & Iw & Ed & Ew). cbn [fst snd] in *. subst d.
          assert (Ja : In c (agg_ids aggs)) by (rewrite <- Kla; change c with (fst (c, x)); now apply in_map).
          rewrite (col_none c (combine (comp_ids groups) kv)) in Cw.
          + rewrite (col_nodup c w' v) in Cw; [congruence|now rewrite Kv|assumption].
          + intros J. apply in_map_iff in J. destruct J as ([d y] & Ed & J). cbn in Ed. subst d. apply in_combine_l in J. exact (NdX c J Ja).
        - right. assert (Jg : In c (comp_ids groups)) by (rewrite <- Klg; change c with (fst (c, x)); now apply in_map).
          destruct Nk as [Nk| ->]; [|destruct Jg]. destruct kk as [|p kk]; [congruence|]. inversion F as [|? q ? ss' Hpq F']; subst. destruct Hpq as (_ & _ & cv & E1 & E2 & E3).
          assert (Ecv : combine (comp_ids groups) kv = cv) by (rewrite <- (Ekv p (or_introl eq_refl)), E1, <- E2; apply combine_split).
          rewrite Ecv in Cw. assert (Jc : In c (map fst cv)) by (now rewrite E2). destruct (col_some c cv Jc) as [w' Ew']. rewrite Ew' in Cw. assert (w' = w) by congruence. subst w'.
          assert (Iw : In (c, w) cv) by (now apply col_pair). specialize (E3 c x w B Iw). cbn [map]. split; [|exact E3]. intros f a ->. discriminate E3. }
      split.
      { apply every_forall2 in M. apply Forall_forall. intros z I. destruct (forall2_in_r _ _ _ _ M I) as (kv & _ & Ez). destruct (mean_aggs _ _ _ _ _ _); [|discriminate]. now apply pick_keys in Ez. }
      cbn [part_ok query_names]. split; [exact Nit|]. split; [|exact I].
      rewrite ev_grouped, Ef by (now apply mk_nonempty). cbn [obind].
      match goal with |- context [ofilter ?G srows] => replace (ofilter G srows) with (Some k) by (symmetry; exact Ekp) end. cbn [obind].
      match goal with |- context [obind (omap ?G k) ?H] => replace (omap G k) with (Some sk) by (symmetry; exact Esk) end. cbn [obind].
      assert (Efst : map fst keyed = map fst sk) by (clear -Fk; induction Fk as [|p q kk ss [Hpq _] F IH]; [reflexivity|]; cbn [map]; f_equal; assumption).
      assert (Ffil : forall kv, Forall2 KF (filter (fun p => row_eqb kv (fst p)) keyed) (filter (fun p => row_eqb kv (fst p)) sk)).
      { intros kv. apply filter_fst2; [|exact Fk]. intros p q Hpq. apply Hpq. }
      apply every_forall2 in M. apply omap_forall2. destruct groups as [|gc ge gr] eqn:Eg0; rewrite <- ?Eg0 in *.
      + rewrite Eg0 in *. cbn [group_ids map]. inversion M as [|? z' ? rows' Ez M' T]; subst. inversion M'; subst. cbn [map]. constructor; [|constructor].
        destruct (mean_aggs fn db names b (map snd (filter (fun p => member [] [fst p]) keyed)) aggs) as [v|] eqn:Mv; [|discriminate].
        assert (All : forall p, In p keyed -> fst p = []).
        { intros p I. destruct (forall2_in_l _ _ _ _ Fk I) as (q & _ & _ & _ & cv & E1 & E2 & _). destruct cv; [exact E1|discriminate]. }
        rewrite filter_all in Mv by (intros p I; rewrite (All p I); reflexivity).
        assert (Ekr : k = map snd sk).
        { clear -Esk. revert sk Esk. induction k as [|r k IH]; intros sk Esk; cbn [omap group_ids map obind] in *; [destruct sk; [reflexivity|discriminate]|].
          match type of Esk with obind ?t _ = _ => destruct t as [sk'|] eqn:E; [|discriminate] end. cbn [obind] in Esk. injection Esk as <-.
          cbn [map snd]. f_equal. now apply IH. }
        rewrite Ekr. apply (Gr [] keyed sk v z'); auto.
      + assert (Hm : exists a0 l1, map u (group_ids groups) = a0 :: l1) by (rewrite Eg0; cbn; eauto). destruct Hm as (a0 & l1 & ->).
        replace (match groups with CNil => [[]] | CCons _ _ _ => firsts (map fst keyed) end) with (firsts (map fst keyed)) in M by (now rewrite Eg0).
        rewrite groups_keys by lia. rewrite firsts_distinct in M. change (map fst sk) with (map (@fst (list val) row) sk). rewrite <- Efst.
        assert (Dk : forall kv, In kv (distinct (map fst keyed)) -> In kv (map fst keyed)) by (intros kv; apply in_distinct).
        clear -M Gr Ffil Dk. induction M as [|kv z' ks rows Ez M IH]; [constructor|]. cbn [map]. constructor; [|apply IH; intros; apply Dk; now right].
        destruct (mean_aggs fn db names b (map snd (filter (fun p => member kv [fst p]) keyed)) aggs) as [v|] eqn:Mv; [|discriminate].
        rewrite (filter_ext_in_ _ (fun p => row_eqb kv (fst p))) in Mv by (intros; apply member_one).
        apply (Gr kv _ _ v z' (Ffil kv)); auto.
        * intros p I. apply filter_In in I. symmetry. apply row_eqb_eq. apply I.
        * left. specialize (Dk kv (or_introl eq_refl)). apply in_map_iff in Dk. destruct Dk as (p & <- & I). intros N.
          assert (J : In p (filter (fun q => row_eqb (fst p) (fst q)) keyed)) by (apply filter_In; split; [assumption|now apply row_eqb_eq]). rewrite N in J. destruct J.
    - (* SArray *) intros s IHs a IHa elem off j IHj vis busy m fr m' W Dv Ap Ki E. fmt E. cbn [out] in *.
      destruct W as (Un & Ws & Wa & Fi & Nd & As & Wj).
      destruct (format_expr u names a m) as [[xa m1]|] eqn:Fa; [|discriminate]. cbn [obind fst snd] in E.
      destruct (format_scan u names s m1) as [[rs m2]|] eqn:Fs; [|discriminate]. cbn [obind fst snd] in E.
      destruct (array_from rs) as [f|] eqn:Ff; [|discriminate]. cbn [obind] in E.
      pose proof (fresh_out D UN s vis busy Ws) as FO.
      assert (Dov : forall c, In c ((out s ++ vis) ++ busy) -> D c).
      { intros c I. rewrite !in_app_iff in I. destruct I as [[I|I]|I]; [now apply FO| |]; apply Dv; rewrite in_app_iff; auto. }
      assert (Apv : apart (out s ++ vis) busy).
      { intros c I. rewrite !in_app_iff in I. destruct I as [I|I]; [now apply FO|now apply Ap]. }
      destruct (IHa _ busy m _ m1 Wa Dov Apv Ki Fa) as [-> Ha]. destruct (IHs vis busy m _ m2 Ws Dv Ap Ki Fs) as [-> Hs].
      assert (Di : forall c, In c (array_ids elem off) -> D c) by (intros c I; now apply Fi).
      assert (Ov : apart (out s) vis) by (intros c I J; exact (proj1 (proj2 (FO c I)) J)).
      assert (Avi : apart (out s ++ array_ids elem off) vis).
      { intros c I J. rewrite in_app_iff in I. destruct I as [I|I]; [exact (Ov c I J)|exact (proj1 (proj2 (Fi c I)) J)]. }
      assert (Dall : forall c, In c (out s ++ array_ids elem off ++ vis) -> D c).
      { intros c I. rewrite !in_app_iff in I. destruct I as [I|[I|I]]; [now apply FO|now apply Di|]. apply Dv. rewrite in_app_iff. auto. }
      (* what ON gives *)
      assert (Jn : exists on, fr = RArr (Arr f xa (u elem) (option_map u off) on WNone) /\ m' = m /\
                     forall env b, agree vis env b -> joins_like (out s) elem off env b j on).
      { destruct j as [outer|outer e].
        - exists OComma. split; [congruence|]. split; [congruence|]. intros env b A. exact Wj.
        - destruct Wj as [_ We]. destruct (format_expr u names e m) as [[xe m3]|] eqn:Fe; [|discriminate]. cbn [obind fst snd] in E.
          assert (De : forall c, In c (((out s ++ array_ids elem off) ++ vis) ++ busy) -> D c).
          { intros c I. rewrite !in_app_iff in I. destruct I as [[[I|I]|I]|I]; [now apply FO|now apply Di| |]; apply Dv; rewrite in_app_iff; auto. }
          assert (Ae : apart ((out s ++ array_ids elem off) ++ vis) busy).
          { intros c I. rewrite !in_app_iff in I. destruct I as [[I|I]|I]; [now apply FO|now apply Fi|now apply Ap]. }
          destruct (IHj _ busy m _ m3 We De Ae Ki Fe) as [-> He]. exists (OOn outer xe). split; [congruence|]. split; [congruence|].
          intros env b A. split; [reflexivity|]. intros z y v Rz Mz. apply (He _ (z ++ b) v); [|assumption].
          destruct (each_scope_ok (out s) elem off vis env z y Un Dall As Avi Rz) as [Oz Vz]. destruct Rz as (z0 & -> & [K0 _]).
          intros c w Ic Cw. rewrite col_app in Cw. destruct (in_dec Z.eq_dec c (out s ++ array_ids elem off)) as [Io|Io].
          + assert (Cz : exists w', col c (z0 ++ each_vals elem off (snd y)) = Some w') by (apply col_some; now rewrite map_app, K0, each_keys). destruct Cz as [w' Cz].
            rewrite Cz in Cw. assert (w' = w) by congruence. subst w'. now apply Oz.
          + assert (Iv : In c vis) by (rewrite in_app_iff in Ic; tauto). rewrite (Vz c Iv).
            rewrite (col_none c (z0 ++ _)) in Cw by (now rewrite map_app, K0, each_keys). now apply A. }
      destruct Jn as (on & -> & -> & Jl). split; [reflexivity|]. intros env b rows A M. mnt M.
      destruct (mean_scan fn db names b s) as [l|] eqn:Ml; [|discriminate].
      match type of M with context [every ?F l] => destruct (every F l) as [ll|] eqn:EE end; [|discriminate].
      assert (Rs : rows = concat ll) by congruence. subst rows. destruct (Hs env b l A Ml) as [K P].
      assert (Do : Forall D (out s)) by (apply Forall_forall; intros c I; now apply FO).
      destruct (array_input _ _ _ _ _ _ P K Do Ff) as ((srows & Ef & R) & Nf & Hn).
      assert (Ea : forall z (r : row) v, RR (out s) z r -> mean fn db names (z ++ b) a = Some v -> eval_expr fn db ((r, []) :: env) xa = Some v).
      { intros z r v Rz Mz. apply (Ha _ (z ++ b) v); [|assumption]. apply agree_ext; auto. intros c I. apply Dov. rewrite !in_app_iff in *. tauto. }
      destruct (array_ok (out s) elem off env b j on a xa l srows ll R (Jl env b A) Ea EE) as (kk & Ek & Rk).
      assert (Rows : forall l' k', Forall2 (RQ (out s) elem off) l' k' -> Forall2 (RR (out s ++ array_ids elem off)) l' (map (each_row f (u elem) (option_map u off)) k')).
      { intros l' k' H. induction H; cbn [map]; constructor; [|assumption]. now apply each_row_ok. }
      split; [|split; [|split]].
      + apply Forall_forall. intros z I. pose proof (Rows _ _ Rk) as H. clear -H I. induction H as [|x y l k [E _] H IH]; [destruct I|]. destruct I as [<-|I]; auto.
      + exists (map (each_row f (u elem) (option_map u off)) (concat kk)). split; [|now apply Rows]. rewrite ev_arr, Ef. cbn [obind].
        match goal with |- context [omap ?G srows] => replace (omap G srows) with (Some kk) by (symmetry; exact Ek) end. cbn [obind].
        match goal with |- context [ofilter ?G ?L] => assert (Of : ofilter G L = Some L) end.
        { clear. match goal with |- ofilter _ ?L = _ => generalize L end. intros L. induction L as [|x k IH]; [reflexivity|]. cbn [ofilter]. rewrite IH. reflexivity. }
        rewrite Of. reflexivity.
      + apply (arr_blank (out s) elem off rs); auto. now apply Forall_forall.
      + intros x p vs Ev Hx.
        destruct (filter2 _ p (fun y => eval_expr fn db (each_scope (u elem) (option_map u off) y :: env) x) _ _ vs Rk Ev) as (k & Efk & Rfk).
        { intros z y v Iz Rz Mz. destruct (each_scope_ok (out s) elem off vis env z y Un Dall As Avi Rz) as [Oz Vz]. now apply (Hx z _ v Iz Oz Vz). }
        exists (map (each_row f (u elem) (option_map u off)) k). split; [|now apply Rows]. rewrite ev_arr, Ef. cbn [obind].
        match goal with |- context [omap ?G srows] => replace (omap G srows) with (Some kk) by (symmetry; exact Ek) end. cbn [obind].
        match goal with |- context [ofilter ?G ?L] => replace (ofilter G L) with (Some k) by (symmetry; exact Efk) end. reflexivity.
    - (* NNil *) intros vis busy n m qs m' W Nn Dv Ap Ki E. fmt E. assert (qs = QNil /\ m' = m) as [-> ->] by (split; congruence).
      split; [reflexivity|]. split; [reflexivity|]. intros env b vs A M. assert (vs = []) by (cbn in M; congruence). subst. split; [exact I|constructor].
    - (* NCons *) intros s IHs cols r IHr vis busy n m qs m' W Nn Dv Ap Ki E. fmt E. cbn [wf_inputs] in W. destruct W as (Ws & Sub & Len & Wr).
      destruct (format_scan u names s m) as [[rs m1]|] eqn:Fs; [|discriminate]. cbn [obind fst snd] in E.
      destruct (format_inputs u names r m1) as [[qr m2]|] eqn:Fi; [|discriminate]. cbn [obind fst snd] in E.
      destruct (IHs vis busy m rs m1 Ws Dv Ap Ki Fs) as [-> Hs]. destruct (IHr vis busy n m qr m2 Wr Nn Dv Ap Ki Fi) as (-> & Nr & Hr).
      rewrite (surjective_pairing (input_from rs)) in E.
      assert (Er : qs = QCons (Select (plain_items u cols) (fst (input_from rs)) (snd (input_from rs)) None) qr /\ m' = m) by (split; congruence).
      destruct Er as [-> ->]. split; [reflexivity|]. rewrite plain_mk. split; [cbn [queries_names query_names first_cols]; apply mk_names|].
      intros env b vs A M. mnt M.
      destruct (mean_scan fn db names b s) as [l0|] eqn:Ml; [|discriminate]. destruct (mean_inputs fn db names b r) as [y|] eqn:Mi; [|discriminate].
      destruct (every (pick cols) l0) as [l1|] eqn:Ev; [|discriminate]. assert (vs = map (map snd) l1 :: y) by congruence. subst vs.
      destruct (Hs env b l0 A Ml) as [K P]. destruct (Hr env b y A Mi) as [Rr Lr].
      pose proof (fresh_out D UN s vis _ Ws) as FOs.
      assert (Dov : forall c, In c (out s ++ vis) -> D c).
      { intros c I. apply in_app_or in I. destruct I; [now apply FOs|]. apply Dv. apply in_or_app. now left. }
      assert (Ov : apart (out s) vis) by (intros c I J; exact (proj1 (proj2 (FOs c I)) J)).
      destruct (select_ok vis (out s) cols env l0 l1 rs (mk_items (by_id []) cols) None (pick cols)) as (R1 & R2 & R3); auto.
      + apply mk_names.
      + intros ->. cbn in Len. congruence.
      + intros c I. apply FOs. now apply Sub.
      + intros c I. apply Ov. now apply Sub.
      + intros z zs z' Iz Rz Fz. split; [now apply pick_keys in Fz|]. split.
        * apply (mk_items_eval _ _ _ _ _ Fz). intros c v Ic Cv. cbn [by_id find]. destruct Rz as [Kz Rz]. unfold by_id. cbn [find]. cbn [lookup].
          rewrite (Rz c) by (apply FOs; now apply Sub). now rewrite Cv.
        * intros c Ic Io. now apply (pick_col _ _ _ c Fz).
      + split; [cbn [results]; split; [exact R2|exact Rr]|]. constructor; [|exact Lr]. apply Forall_forall. intros x I. apply in_map_iff in I. destruct I as (z & <- & I).
        rewrite Forall_forall in R1. rewrite map_length, <- Len, <- (R1 z I), map_length. reflexivity.
    - (* ANil *) intros vis busy K m m' W Dv Ap Ki Kb Cb Ac Nd E. fmt E. assert (m' = m) by congruence. subst.
      exists []. split; [reflexivity|]. split; [reflexivity|]. intros env b g sg cv A M. cbn in M. assert (cv = []) by congruence. subst. constructor.
    - (* ACons *) intros c f a IHa r IHr vis busy K m m' [We Wr] Dv Ap Ki Kb Cb Ac Nd E. fmt E. cbn [agg_ids] in *.
      destruct (format_exprs u names a m) as [[x m1]|] eqn:Fe; [|discriminate]. cbn [obind fst snd] in E.
      assert (Kbusy : keys_in m busy) by (intros k y I; destruct (Ki k y I) as (d & Id & ->); eauto).
      destruct (IHa vis busy m x m1 We Dv Ap Kbusy Fe) as [-> He]. inversion Nd; subst.
      assert (Dk : forall d, In d K -> D d) by (intros d I; apply Dv; apply in_or_app; right; auto).
      unfold set in E. rewrite (del_fresh m K c) in E; auto; [|apply Dv; apply in_or_app; right; apply Cb; now left|apply Ac; now left].
      destruct (IHr vis busy (c :: K) ((u c, XAgg f x) :: m) m' Wr Dv Ap) as (l & -> & Kl & Hl); auto.
      { intros k y [Ek|I]; [exists c; split; [now left|congruence]|]. destruct (Ki k y I) as (d & Id & ->). exists d. split; [now right|reflexivity]. }
      { intros d [<-|I]; [apply Cb; now left|now apply Kb]. }
      { intros d I. apply Cb. now right. }
      { intros d I [<-|J]; [contradiction|]. apply (Ac d); [now right|assumption]. }
      exists ((c, XAgg f x) :: l). split; [|split].
      + cbn [rev]. unfold entries. rewrite map_app. cbn [map fst snd]. now rewrite <- app_assoc.
      + cbn [map fst]. now rewrite Kl.
      + intros env b g sg cv A M. mnt M. destruct (every (fun x0 => mean_list fn db names (x0 ++ b) a) g) as [vs|] eqn:Me; [|discriminate].
        destruct (mean_aggs fn db names b g r) as [cv'|] eqn:Mc; [|discriminate]. match type of M with Some (?h :: _) = _ => assert (cv = h :: cv') by congruence; subst cv end.
        constructor; [|now apply (Hl env b g)]. cbn [fst snd]. split; [reflexivity|]. exists f, x, vs. split; [reflexivity|].
        assert (Lg : length g = length sg) by (clear -A; induction A; cbn; congruence). split; [|do 4 f_equal; exact Lg].
        apply omap_forall2. apply every_forall2 in Me. clear -A Me He. revert vs Me. induction A as [|z s g sg Az A IH]; intros vs Me; inversion Me; subst; constructor; [|now apply IH].
        eapply He; eassumption.
    - (* CNil *) intros vis busy K m m' W Dv Ap Ki Kb Cb Ac Nd E. fmt E. assert (m' = m) by congruence. subst.
      exists []. split; [reflexivity|]. split; [reflexivity|]. intros env b cv A M. cbn in M. assert (cv = []) by congruence. subst. constructor.
    - (* CCons *) intros c e IHe r IHr vis busy K m m' [We Wr] Dv Ap Ki Kb Cb Ac Nd E. fmt E. cbn [comp_ids] in *.
      destruct (format_expr u names e m) as [[x m1]|] eqn:Fe; [|discriminate]. cbn [obind fst snd] in E.
      assert (Kbusy : keys_in m busy) by (intros k y I; destruct (Ki k y I) as (d & Id & ->); eauto).
      destruct (IHe vis busy m x m1 We Dv Ap Kbusy Fe) as [-> He]. inversion Nd; subst.
      assert (Dk : forall d, In d K -> D d) by (intros d I; apply Dv; apply in_or_app; right; auto).
      unfold set in E. rewrite (del_fresh m K c) in E; auto; [|apply Dv; apply in_or_app; right; apply Cb; now left|apply Ac; now left].
      destruct (IHr vis busy (c :: K) ((u c, x) :: m) m' Wr Dv Ap) as (l & -> & Kl & Hl); auto.
      { intros k y [Ek|I]; [exists c; split; [now left|congruence]|]. destruct (Ki k y I) as (d & Id & ->). exists d. split; [now right|reflexivity]. }
      { intros d [<-|I]; [apply Cb; now left|now apply Kb]. }
      { intros d I. apply Cb. now right. }
      { intros d I [<-|J]; [contradiction|]. apply (Ac d); [now right|assumption]. }
      exists ((c, x) :: l). split; [|split].
      + cbn [rev]. unfold entries. rewrite map_app. cbn [map fst snd]. now rewrite <- app_assoc.
      + cbn [map fst]. now rewrite Kl.
      + intros env b cv A M. mnt M. destruct (mean fn db names b e) as [v|] eqn:Me; [|discriminate].
        destruct (mean_comps fn db names b r) as [cv'|] eqn:Mc; [|discriminate]. assert (cv = (c, v) :: cv') by congruence. subst.
        constructor; [|now apply (Hl env b)]. cbn [fst snd]. split; [reflexivity|]. now apply (He env b).
    - (* JComma *) intros outer. exact I.
    - (* JOn *) intros outer e IH. exact IH.
  Qed.
End Refine.
