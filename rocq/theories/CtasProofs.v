(** Lemmas for CtasProps.v *)
From Coq Require Import Ascii String List ZArith Lia Bool.
From Verif Require Import GoBase DecModel QueryModel DmlModel DmlSpec DmlProofs CtasModel CtasSpec.
Import ListNotations.
Local Open Scope string_scope.

Lemma each_map {A B A' B'} (h : A' -> A) (h' : B' -> B) (f : A -> option B) (f' : A' -> option B') l :
  (forall x, In x l -> f (h x) = option_map h' (f' x)) -> each f (map h l) = option_map (map h') (each f' l).
Proof.
  induction l as [|x r IH]; intros H; [reflexivity|]. cbn. rewrite H by now left. destruct (f' x); [|reflexivity]. cbn.
  rewrite IH by (intros; apply H; now right). destruct (each f' r); reflexivity.
Qed.
Lemma each_same {A B B'} (h : B' -> B) (f : A -> option B) (f' : A -> option B') l :
  (forall x, In x l -> f x = option_map h (f' x)) -> each f l = option_map (map h) (each f' l).
Proof. intros H. rewrite <- (map_id l) at 1. now apply (each_map (fun x => x)). Qed.
Lemma which_map {A A'} (h : A' -> A) (w : A -> option bool) (w' : A' -> option bool) l :
  (forall x, In x l -> w (h x) = w' x) -> which w (map h l) = option_map (map h) (which w' l).
Proof.
  induction l as [|x r IH]; intros H; [reflexivity|]. cbn. rewrite H by now left. destruct (w' x) as [y|]; [|reflexivity]. cbn.
  rewrite IH by (intros; apply H; now right). destruct (which w' r); [|reflexivity]. cbn. now destruct y.
Qed.
Lemma which_In {A} (w : A -> option bool) l l' : which w l = Some l' -> forall x, In x l' -> In x l.
Proof.
  revert l'. induction l as [|x r IH]; cbn; intros l' E z Hz; [assert (l' = []) by congruence; now subst|].
  destruct (w x) as [y|]; [|discriminate]. cbn in E. destruct (which w r) as [ys|]; [|discriminate]. cbn in E.
  assert (l' = if y then x :: ys else ys) by congruence. subst l'. destruct y; [destruct Hz as [->|Hz]; [now left|]|]; right; now apply (IH ys).
Qed.
Lemma each_Forall2 {A B} (f : A -> option B) l l' : each f l = Some l' -> Forall2 (fun x y => f x = Some y) l l'.
Proof.
  revert l'. induction l as [|x r IH]; cbn; intros l' E; [assert (l' = []) by congruence; subst; constructor|].
  destruct (f x) as [y|] eqn:Ey; [|discriminate]. cbn in E. destruct (each f r) as [ys|]; [|discriminate]. cbn in E.
  assert (l' = y :: ys) by congruence. subst. constructor; [exact Ey|now apply IH].
Qed.
Lemma each_Forall {A B} (P : B -> Prop) (f : A -> option B) l l' :
  (forall x y, In x l -> f x = Some y -> P y) -> each f l = Some l' -> Forall P l'.
Proof.
  intros H E. apply each_Forall2 in E. induction E as [|x y l l' Ey E IH]; constructor; [apply (H x); [now left|exact Ey]|].
  apply IH. intros. apply (H x0); [now right|assumption].
Qed.
Lemma obind_map {A B C} (h : A -> B) (o : option A) (f : B -> option C) : obind (option_map h o) f = obind o (fun x => f (h x)).
Proof. now destruct o. Qed.

Section Ctas.
  Variable float : Type.
  Variable whole : float -> option Z.
  Variable trunc : float -> Z.
  Variable of_int : Z -> float.
  Variable number_text : (Z + float) -> string.
  Variable text_number : string -> option (Z + float).
  Notation cell := (cell float).
  Notation go := (go float).
  Notation store := (store float whole of_int number_text text_number).
  Notation store_row := (store_row float whole of_int number_text text_number).
  Notation cast := (cast float trunc of_int).
  Notation exec := (exec float whole of_int number_text text_number).
  Notation given := (given float).

  (** The declared types a column can have after any number of copies *)
  Definition good (p : kind * string) : Prop :=
    fst p <> KEnum /\ (snd p = decl (fst p) \/ snd p = created (affinity_of (decl (fst p))) \/ snd p = "").
  Lemma affinity_created a : affinity_of (created a) = a.
  Proof. now destruct a. Qed.
  Lemma good_copy p : good p -> good (fst p, created (affinity_of (snd p))).
  Proof.
    intros [E H]. split; [exact E|]. cbn. destruct H as [->|[->| ->]]; [right; now left|rewrite affinity_created; right; now left|right; now right].
  Qed.
  Lemma not_number s : value_text s -> read_number float text_number s = None.
  Proof. intros (rest & ->). destruct (base64_head rest) as (t & ->). reflexivity. Qed.
  Lemma store_given p g : good p -> for_kind (fst p) g -> store (affinity_of (snd p)) (given g) = given g.
  Proof.
    destruct p as [k d]. intros [E H] T. cbn in *.
    destruct H as [->|[->| ->]]; destruct k, g as [|z|f|b|s|]; try contradiction; try reflexivity; try (now elim E);
      try (destruct b; reflexivity); cbn in T |- *; now rewrite (not_number s T).
  Qed.
  Lemma shown_given p g : good p -> for_kind (fst p) g -> cast (fst p) (fetch float (snd p) (given g)) = Some g.
  Proof.
    destruct p as [k d]. intros [E H] T. cbn in *.
    destruct H as [->|[->| ->]]; destruct k, g as [|z|f|b|s|]; try contradiction; try reflexivity; try (now elim E); destruct b; reflexivity.
  Qed.
  Lemma seen_given k g : for_kind k g -> seen float (given g) = plain float g.
  Proof. destruct k, g as [|z|f|b|s|]; cbn; try contradiction; reflexivity. Qed.
  Lemma row_seen ks r : Forall2 for_kind ks r -> map (seen float) (map given r) = map (plain float) r.
  Proof. induction 1 as [|k g ks r H _ IH]; [reflexivity|]. cbn. now rewrite (seen_given k g H), IH. Qed.
  Lemma row_stored l r : Forall good l -> Forall2 for_kind (map fst l) r -> store_row l (map given r) = map given r.
  Proof.
    revert r. induction l as [|p l IH]; intros r G T; inversion T; subst; [reflexivity|]. inversion G; subst. cbn.
    rewrite (store_given p) by assumption. now rewrite IH.
  Qed.
  Lemma row_shown l r : Forall good l -> Forall2 for_kind (map fst l) r -> show_row float trunc of_int l (map given r) = map Some r.
  Proof.
    revert r. induction l as [|p l IH]; intros r G T; inversion T; subst; [reflexivity|]. inversion G; subst. cbn.
    rewrite (shown_given p) by assumption. now rewrite IH.
  Qed.

  Definition trel (t : tab float) (t' : list kind * list (list go)) : Prop :=
    map fst (t_types float t) = fst t' /\ Forall good (t_types float t) /\ t_rows float t = map (map given) (snd t') /\ Forall (Forall2 for_kind (fst t')) (snd t').
  Definition rel (b : base float) (w : world float) : Prop := Forall2 (fun e e' => fst e = fst e' /\ trel (snd e) (snd e')) b w.
  Lemma found b w n : rel b w ->
    match find_tab float b n, table_of float w n with Some t, Some t' => trel t t' | None, None => True | _, _ => False end.
  Proof.
    unfold find_tab, table_of. induction 1 as [|e e' b w [E T] _ IH]; [exact I|]. cbn. rewrite <- E. destruct (same_name (fst e) n); [exact T|exact IH].
  Qed.
  Lemma rel_snoc b w n t t' : rel b w -> trel t t' -> rel (b ++ [(n, t)])%list (w ++ [(n, t')])%list.
  Proof. intros R T. apply Forall2_app; [exact R|]. constructor; [now split|constructor]. Qed.
  Lemma rel_without b w n : rel b w -> rel (without float b n) (filter (fun e => negb (same_name (fst e) n)) w).
  Proof.
    unfold without. induction 1 as [|e e' b w [E T] _ IH]; [constructor|]. cbn. rewrite <- E. destruct (same_name (fst e) n); cbn; [exact IH|].
    constructor; [now split|exact IH].
  Qed.
  Lemma rel_change b w n ty ks old rows rows' :
    rel b w -> table_of float w n = Some (ks, old) ->
    trel (Tab float ty rows) (ks, rows') -> rel (change float b n (Tab float ty rows)) (with_rows float w n rows').
  Proof.
    unfold table_of. intros R A T. induction R as [|e e' b w [E Te] R IH]; [constructor|]. cbn in *. rewrite <- E in *. destruct (same_name (fst e) n) eqn:S.
    - constructor; [|exact R]. split; [reflexivity|]. cbn in *. assert (Q : snd e' = (ks, old)) by congruence. now rewrite Q.
    - constructor; [now split|now apply IH].
  Qed.

  (** The rows of a query *)
  Lemma item_given ks r i : Forall2 for_kind ks r -> item_cell float (map given r) i = option_map given (value_of float r i).
  Proof.
    intros T. destruct i as [i|k f]; cbn; [apply nth_error_map|]. now rewrite (row_seen ks r T).
  Qed.
  Lemma select_given t ks rows items w : trel t (ks, rows) -> select float t items w = option_map (map (map given)) (result float rows items w).
  Proof.
    intros (_ & _ & R & T). cbn in R, T. unfold select, result. rewrite R.
    rewrite Forall_forall in T.
    rewrite (which_map (map given) _ (fun r => w (map (plain float) r))) by (intros r Hr; now rewrite (row_seen ks r (T r Hr))).
    rewrite obind_map. destruct (which _ rows) as [rs|] eqn:W; [|reflexivity]. cbn.
    apply each_map. intros r Hr. apply (each_same given). intros i _. apply (item_given ks). apply T. eapply which_In; eassumption.
  Qed.
  Lemma value_kind ks r i k g : Forall2 for_kind ks r -> item_ok float i -> kind_of float ks i = Some k -> value_of float r i = Some g -> for_kind k g.
  Proof.
    intros T O K V. destruct i as [i|k' f]; cbn in *.
    - revert i K V. induction T as [|k0 g0 ks r H _ IH]; intros [|i] K V; cbn in *; try discriminate; [congruence|now apply (IH i)].
    - assert (k' = k) by congruence. subst. destruct O as [_ O]. now apply (O _ _ V).
  Qed.
  Lemma result_kinds ks rows items ks' w l : Forall (Forall2 for_kind ks) rows -> Forall (item_ok float) items ->
    Forall2 (fun i k => kind_of float ks i = Some k) items ks' -> result float rows items w = Some l -> Forall (Forall2 for_kind ks') l.
  Proof.
    intros T O K E. unfold result in E. destruct (which _ rows) as [rs|] eqn:W; [|discriminate]. cbn in E. rewrite Forall_forall in T.
    eapply each_Forall; [|exact E]. intros r v Hr V. cbn in V. apply each_Forall2 in V.
    assert (Tr : Forall2 for_kind ks r) by (apply T; eapply which_In; eassumption).
    clear - O K V Tr. revert v V. induction K as [|i k items ks' Ki _ IH]; intros v V; inversion V; subst; constructor; inversion O; subst.
    - eapply value_kind; eassumption.
    - now apply IH.
  Qed.
  Lemma types_copied ty ks items : map fst ty = ks -> Forall good ty -> Forall (item_ok float) items ->
    match each (item_type float ty) items, each (kind_of float ks) items with
    | Some ty', Some ks' => map fst ty' = ks' /\ Forall good ty'
    | None, None => True
    | _, _ => False
    end.
  Proof.
    intros E G O. induction O as [|i items Oi _ IH]; [split; constructor|]. cbn.
    assert (H : match item_type float ty i, kind_of float ks i with Some p, Some k => fst p = k /\ good p | None, None => True | _, _ => False end).
    { destruct i as [i|k f]; cbn.
      - subst ks. rewrite nth_error_map. destruct (nth_error ty i) as [p|] eqn:N; cbn; [|exact I]. split; [reflexivity|].
        apply good_copy. rewrite Forall_forall in G. apply G. eapply nth_error_In; exact N.
      - split; [reflexivity|]. split; [apply Oi|]. cbn. right. now right. }
    destruct (item_type float ty i) as [p|], (kind_of float ks i) as [k|]; try contradiction; [|exact I]. cbn.
    destruct (each (item_type float ty) items) as [ty'|], (each (kind_of float ks) items) as [ks'|]; try contradiction; [|exact I]. cbn.
    destruct H as [<- H], IH as [<- IH]. split; [reflexivity|now constructor].
  Qed.
  Lemma rows_stored ty rows : Forall good ty -> Forall (Forall2 for_kind (map fst ty)) rows -> map (store_row ty) (map (map given) rows) = map (map given) rows.
  Proof. intros G. induction 1 as [|r rows H _ IH]; [reflexivity|]. cbn. now rewrite (row_stored ty r G H), IH. Qed.
  Lemma put_map {A B} (h : A -> B) i x l : put i (h x) (map h l) = map h (put i x l).
  Proof. revert i. induction l as [|y l IH]; intros [|i]; cbn; try reflexivity. now rewrite IH. Qed.
  Lemma put_kind ks r i k (g : go) : Forall2 for_kind ks r -> nth_error ks i = Some k -> for_kind k g -> Forall2 for_kind ks (put i g r).
  Proof.
    intros T. revert i. induction T as [|k0 g0 ks r H T IH]; intros [|i] K G; cbn in *; try discriminate; constructor; try assumption; [congruence|now apply IH].
  Qed.

  Lemma step b w s : rel b w -> typed float w s ->
    match exec b s, mean float w s with Some b', Some w' => rel b' w' | None, None => True | _, _ => False end.
  Proof.
    intros R T. destruct s as [n l|n src items c|n l|n src items c|n i f c|n c|n]; cbn [CtasModel.exec mean]; pose proof (found b w n R) as F.
    - destruct (find_tab float b n), (table_of float w n); try contradiction; [exact I|]. apply rel_snoc; [exact R|].
      repeat split; cbn; [now rewrite map_map, map_id| |constructor].
      cbn in T. induction T; constructor; [split; [assumption|now left]|assumption].
    - destruct (find_tab float b n), (table_of float w n); try contradiction; [exact I|]. pose proof (found b w src R) as F'.
      destruct (find_tab float b src) as [t|], (table_of float w src) as [[ks rows]|]; try contradiction; [|exact I]. cbn [obind]. clear F.
      destruct F' as (E & G & Rw & Tr) eqn:Q. clear Q. cbn in E, Rw, Tr, T.
      pose proof (types_copied (t_types float t) ks items E G T) as TC.
      destruct (each (item_type float (t_types float t)) items) as [ty|], (each (kind_of float ks) items) as [ks'|] eqn:K; try contradiction; [|exact I]. cbn [obind].
      rewrite (select_given t ks rows) by (repeat split; assumption). destruct (result float rows items c) as [l|] eqn:RR; [|exact I]. cbn.
      destruct TC as [<- GT]. apply rel_snoc; [exact R|].
      assert (TL : Forall (Forall2 for_kind (map fst ty)) l) by (eapply result_kinds; [exact Tr|exact T|apply each_Forall2; exact K|exact RR]).
      repeat split; cbn; [exact GT|now apply rows_stored|exact TL].
    - destruct (find_tab float b n) as [t|] eqn:Fb, (table_of float w n) as [[ks rows]|] eqn:Fw; try contradiction; [|exact I]. cbn.
      destruct F as (E & G & Rw & Tr). cbn in E, Rw, Tr. pose proof (T _ _ Fw) as Tl.
      eapply rel_change; [exact R|exact Fw|]. repeat split; cbn; [exact E|exact G| |].
      + rewrite map_app, Rw. f_equal. subst ks. rewrite <- (rows_stored _ l G Tl). now rewrite map_map.
      + apply Forall_app. now split.
    - destruct (find_tab float b n) as [t|] eqn:Fb, (table_of float w n) as [[ks rows]|] eqn:Fw; try contradiction; [|exact I]. cbn [obind].
      pose proof (found b w src R) as F'. destruct (find_tab float b src) as [t'|], (table_of float w src) as [[ks' rows']|] eqn:Fs; try contradiction; [|exact I]. cbn [obind].
      rewrite (select_given t' ks' rows' _ _ F'). destruct (result float rows' items c) as [l|] eqn:RR; [|exact I]. cbn.
      destruct F as (E & G & Rw & Tr). destruct F' as (E' & G' & Rw' & Tr'). cbn in *. destruct T as [O T]. specialize (T _ _ _ _ Fw Fs).
      assert (K : Forall2 (fun i k => kind_of float ks' i = Some k) items ks).
      { clear - T. revert ks T. induction items as [|i items IH]; intros [|k ks] T; cbn in T; try discriminate; constructor; [congruence|].
        apply IH. congruence. }
      assert (TL : Forall (Forall2 for_kind ks) l) by (eapply result_kinds; eassumption).
      eapply rel_change; [exact R|exact Fw|]. repeat split; cbn; [exact E|exact G| |].
      + rewrite map_app, Rw. f_equal. subst ks. now apply rows_stored.
      + apply Forall_app. now split.
    - destruct (find_tab float b n) as [t|] eqn:Fb, (table_of float w n) as [[ks rows]|] eqn:Fw; try contradiction; [|exact I]. cbn [obind].
      destruct F as (E & G & Rw & Tr). cbn in E, Rw, Tr. destruct (T _ _ Fw) as (k & K & Gv). rewrite Rw. rewrite Forall_forall in Tr.
      erewrite (each_map (map given) (map given)) with (f' := fun r => obind (c (map (plain float) r)) (fun y => if y then obind (f (map (plain float) r)) (fun g => Some (put i g r)) else Some r)).
      + rewrite obind_map. destruct (each _ rows) as [l|] eqn:EE; [|exact I]. cbn. eapply rel_change; [exact R|exact Fw|].
        repeat split; cbn; [exact E|exact G|].
        eapply each_Forall; [|exact EE]. intros r v Hr V. cbn in V. destruct (c (map (plain float) r)) as [[]|]; [| |discriminate]; cbn in V.
        * destruct (f (map (plain float) r)) as [g|] eqn:Ef; [|discriminate]. cbn in V. assert (v = put i g r) by congruence. subst.
          eapply put_kind; [now apply Tr|exact K|eapply Gv; exact Ef].
        * assert (v = r) by congruence. subst. now apply Tr.
      + intros r Hr. cbn. rewrite (row_seen ks r (Tr r Hr)). destruct (c (map (plain float) r)) as [[]|]; [| |reflexivity]; cbn; [|reflexivity].
        destruct (f (map (plain float) r)) as [g|] eqn:Ef; [|reflexivity]. cbn. f_equal. rewrite put_map. subst ks.
        apply row_stored; [exact G|]. eapply put_kind; [now apply Tr|exact K|eapply Gv; exact Ef].
    - destruct (find_tab float b n) as [t|] eqn:Fb, (table_of float w n) as [[ks rows]|] eqn:Fw; try contradiction; [|exact I]. cbn [obind].
      destruct F as (E & G & Rw & Tr). cbn in E, Rw, Tr. rewrite Rw. rewrite Forall_forall in Tr.
      rewrite (which_map (map given) _ (fun r => option_map negb (c (map (plain float) r)))) by (intros r Hr; now rewrite (row_seen ks r (Tr r Hr))).
      rewrite obind_map. destruct (which _ rows) as [l|] eqn:W; [|exact I]. cbn. eapply rel_change; [exact R|exact Fw|].
      repeat split; cbn; [exact E|exact G|]. apply Forall_forall. intros r Hr. apply Tr. eapply which_In; eassumption.
    - destruct (find_tab float b n), (table_of float w n); try contradiction; [|exact I]. now apply rel_without.
  Qed.
  Lemma steps l : forall b w, rel b w -> all_typed float w l ->
    rel (CtasModel.exec_all float whole of_int number_text text_number b l) (mean_all float w l).
  Proof.
    induction l as [|s l IH]; intros b w R T; [exact R|]. destruct T as [Ts T]. cbn.
    pose proof (step b w s R Ts) as H. destruct (exec b s), (mean float w s); try contradiction; now apply IH.
  Qed.
  Lemma rel_shown b w n : rel b w -> show float trunc of_int b n = option_map (fun t => map (map Some) (snd t)) (table_of float w n).
  Proof.
    intros R. unfold show. pose proof (found b w n R) as F. destruct (find_tab float b n) as [t|], (table_of float w n) as [[ks rows]|]; try contradiction; [|reflexivity].
    destruct F as (E & G & Rw & Tr). cbn in *. f_equal. rewrite Rw, map_map. apply map_ext_in. intros r Hr. apply row_shown; [exact G|].
    rewrite E. rewrite Forall_forall in Tr. now apply Tr.
  Qed.
End Ctas.
