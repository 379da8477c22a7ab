(** Proofs about TreeModel. *)
From Coq Require Import Ascii String List ZArith Lia Bool.
From Verif Require Import GoBase GoBaseFacts NameSpec NameProofs TreeModel TreeSpec.
Import ListNotations.
Local Open Scope nat_scope.

(** ** lower and join *)
Lemma lower_app a b : lower (a ++ b)%string = (lower a ++ lower b)%string.
Proof. induction a as [|x a IH]; simpl; [reflexivity|now rewrite IH]. Qed.

Lemma lower_join c l : lower_ascii c = c ->
  lower (join (String c EmptyString) l) = join (String c EmptyString) (map lower l).
Proof.
  intros Hc. induction l as [|x l IH]; [reflexivity|].
  destruct l as [|y l]; [reflexivity|].
  change (join (String c "") (x :: y :: l)) with (x ++ String c "" ++ join (String c "") (y :: l))%string.
  change (map lower (x :: y :: l)) with (lower x :: lower y :: map lower l).
  change (join (String c "") (lower x :: lower y :: map lower l)) with
    (lower x ++ String c "" ++ join (String c "") (lower y :: map lower l))%string.
  rewrite !lower_app, IH. cbn [lower]. rewrite Hc. reflexivity.
Qed.

Lemma lower_ascii_dot a : Ascii.eqb (lower_ascii a) "." = Ascii.eqb a ".".
Proof. destruct a as [b0 b1 b2 b3 b4 b5 b6 b7]; destruct b0, b1, b2, b3, b4, b5, b6, b7; reflexivity. Qed.

Lemma has_dot_lower s : has_char "." (lower s) = has_char "." s.
Proof. induction s as [|a s IH]; simpl; [reflexivity|]. now rewrite lower_ascii_dot, IH. Qed.

(** ** the effect of one insertion on look-ups *)
Section TreeFacts.
  Context {D : Type}.
  Implicit Types t s : tree D.

  (** Which references an insertion of [path] can make visible. *)
  Fixpoint matches (dotted : bool) (path ref : list string) : bool :=
    match path with
    | [] => false
    | p :: rest =>
        match ref with
        | [] => false
        | [n] => (String.eqb (lower n) (lower (join "." path)) && (dotted || match rest with [] => true | _ => false end))
        | r :: rs => String.eqb (lower r) (lower p) && matches dotted rest rs
        end || matches dotted rest ref
    end.

  Definition orelse (a b : option D) : option D := match a with Some _ => a | None => b end.

  Lemma tfind_single t n : tfind t [n] = aget (t_objs t) (lower n).
  Proof. reflexivity. Qed.

  Lemma tfind_cons t r r2 rs : tfind t (r :: r2 :: rs) =
    match sub_get t r with Some s => tfind s (r2 :: rs) | None => None end.
  Proof. reflexivity. Qed.

  Lemma sub_get_set t n s m : sub_get (sub_set t n s) m =
    if String.eqb (lower n) (lower m) then Some s else sub_get t m.
  Proof. unfold sub_get, sub_set. simpl. apply aget_aset. Qed.

  Lemma tfind_empty ref : tfind (@empty_tree D) ref = None.
  Proof. destruct ref as [|r [|r2 rs]]; reflexivity. Qed.

  Lemma tfind_sub_set t n s ref :
    tfind (sub_set t n s) ref =
    match ref with
    | r :: (_ :: _) as rs => if String.eqb (lower n) (lower r) then tfind s rs else tfind t ref
    | _ => tfind t ref
    end.
  Proof.
    destruct ref as [|r [|r2 rs]]; [reflexivity|reflexivity|].
    rewrite tfind_cons, sub_get_set. destruct (String.eqb (lower n) (lower r)); reflexivity.
  Qed.

  Lemma tfind_add_if_absent t n d ref :
    tfind (add_if_absent t n d) ref =
    orelse (tfind t ref) (match ref with [m] => if String.eqb (lower m) (lower n) then Some d else None | _ => None end).
  Proof.
    unfold add_if_absent, exists_obj. rewrite tfind_single.
    destruct (aget (t_objs t) (lower n)) as [d0|] eqn:E.
    - destruct ref as [|m [|m2 ms]].
      + reflexivity.
      + rewrite !tfind_single. destruct (String.eqb_spec (lower m) (lower n)) as [->|Hne].
        * rewrite E. reflexivity.
        * destruct (aget (t_objs t) (lower m)); reflexivity.
      + destruct (tfind t (m :: m2 :: ms)); reflexivity.
    - destruct ref as [|m [|m2 ms]].
      + reflexivity.
      + rewrite !tfind_single. cbn [add_obj t_objs]. rewrite aget_aset.
        rewrite (String.eqb_sym (lower m)). destruct (String.eqb_spec (lower n) (lower m)) as [<-|Hne].
        * rewrite E. reflexivity.
        * destruct (aget (t_objs t) (lower m)); reflexivity.
      + rewrite !tfind_cons. unfold add_obj, sub_get. cbn [t_subs].
        destruct (aget (t_subs t) (lower m)) as [s|]; [|reflexivity].
        destruct (tfind s (m2 :: ms)); reflexivity.
  Qed.

  Lemma sub_get_add_if_absent t n d m : sub_get (add_if_absent t n d) m = sub_get t m.
  Proof. unfold add_if_absent. destruct (exists_obj t n); reflexivity. Qed.

  Lemma add_rec_cons dotted p tl d t : tl <> [] -> add_rec dotted (p :: tl) d t =
    (let t1 := match sub_get t p with Some _ => t | None => sub_set t p empty_tree end in
         let t2 := if dotted then add_if_absent t1 (join "." (p :: tl)) d else t1 in
         let t3 := add_rec dotted tl d t2 in
         match sub_get t3 p with Some s => sub_set t3 p (add_rec dotted tl d s) | None => t3 end).
  Proof. destruct tl; [congruence|reflexivity]. Qed.

  Lemma sub_get_add_rec_some dotted path : forall d t m, sub_get t m <> None -> sub_get (add_rec dotted path d t) m <> None.
  Proof.
    induction path as [|p rest IH]; intros d t m H; [exact H|].
    destruct rest as [|q rest']; [simpl; now rewrite sub_get_add_if_absent|].
    rewrite add_rec_cons by discriminate. cbv zeta.
    set (t1 := match sub_get t p with Some _ => t | None => sub_set t p empty_tree end).
    set (t2 := if dotted then add_if_absent t1 (join "." (p :: q :: rest')) d else t1).
    assert (sub_get t2 m <> None) as H2.
    { assert (sub_get t1 m <> None) as H1.
      { unfold t1. destruct (sub_get t p); [exact H|]. rewrite sub_get_set.
        destruct (String.eqb (lower p) (lower m)); [discriminate|exact H]. }
      unfold t2. destruct dotted; [rewrite sub_get_add_if_absent|]; exact H1. }
    specialize (IH d t2 m H2).
    destruct (sub_get (add_rec dotted (q :: rest') d t2) p); [|exact IH].
    rewrite sub_get_set. destruct (String.eqb (lower p) (lower m)); [discriminate|exact IH].
  Qed.

  Lemma tfind_sub_intro t r rs s : rs <> [] -> sub_get t r = Some s -> tfind t (r :: rs) = tfind s rs.
  Proof. intros Hne E. destruct rs; [congruence|]. rewrite tfind_cons, E. reflexivity. Qed.

  Lemma matches_nil_ref dotted path : matches dotted path [] = false.
  Proof. induction path as [|p rest IH]; simpl; [reflexivity|exact IH]. Qed.

  Lemma tfind_add_rec dotted path : path <> [] -> forall d t ref,
    tfind (add_rec dotted path d t) ref = orelse (tfind t ref) (if matches dotted path ref then Some d else None).
  Proof.
    induction path as [|p rest IH]; intros Hne d t ref; [congruence|].
    destruct rest as [|q rest'].
    - simpl add_rec. rewrite tfind_add_if_absent. f_equal.
      destruct ref as [|m [|m2 ms]]; simpl.
      + reflexivity.
      + rewrite orb_true_r, andb_true_r, orb_false_r. reflexivity.
      + rewrite andb_false_r. reflexivity.
    - assert (q :: rest' <> []) as Hne' by discriminate. specialize (IH Hne').
      remember (q :: rest') as tl eqn:Etl.
      rewrite add_rec_cons by exact Hne'.
      cbv zeta.
      set (t1 := match sub_get t p with Some _ => t | None => sub_set t p empty_tree end).
      set (t2 := if dotted then add_if_absent t1 (join "." (p :: tl)) d else t1).
      set (t3 := add_rec dotted tl d t2).
      assert (forall ref, tfind t1 ref = tfind t ref) as F1.
      { intros ref0. unfold t1. destruct (sub_get t p) as [s|] eqn:E; [reflexivity|].
        rewrite tfind_sub_set. destruct ref0 as [|r [|r2 rs]]; try reflexivity.
        destruct (String.eqb_spec (lower p) (lower r)) as [Hpr|]; [|reflexivity].
        rewrite tfind_empty, tfind_cons. unfold sub_get in *. rewrite <- Hpr, E. reflexivity. }
      assert (forall ref, tfind t2 ref = orelse (tfind t ref)
                (match ref with [m] => if dotted && String.eqb (lower m) (lower (join "." (p :: tl))) then Some d else None | _ => None end)) as F2.
      { intros ref0. unfold t2. destruct dotted; simpl.
        - rewrite tfind_add_if_absent, F1. reflexivity.
        - rewrite F1. destruct (tfind t ref0); [reflexivity|]. destruct ref0 as [|m [|m2 ms]]; reflexivity. }
      assert (forall ref, tfind t3 ref = orelse (tfind t2 ref) (if matches dotted tl ref then Some d else None)) as F3.
      { intros ref0. unfold t3. apply IH. }
      assert (exists s, sub_get t3 p = Some s) as [s3 E3].
      { assert (sub_get t3 p <> None) as Hn.
        { unfold t3. apply sub_get_add_rec_some. unfold t2.
          assert (sub_get t1 p <> None) as H1.
          { unfold t1. destruct (sub_get t p) eqn:E; [congruence|]. rewrite sub_get_set, String.eqb_refl. discriminate. }
          destruct dotted; [rewrite sub_get_add_if_absent|]; exact H1. }
        destruct (sub_get t3 p) as [s|]; [exists s; reflexivity|congruence]. }
      rewrite E3, tfind_sub_set.
      destruct ref as [|m [|m2 ms]].
      + rewrite matches_nil_ref. reflexivity.
      + rewrite F3, F2.
        assert (matches dotted (p :: tl) [m] = (dotted && String.eqb (lower m) (lower (join "." (p :: tl)))) || matches dotted tl [m]) as ->.
        { subst tl. cbn [matches]. rewrite orb_false_r. rewrite andb_comm. reflexivity. }
        destruct (tfind t [m]); [reflexivity|].
        destruct (dotted && String.eqb (lower m) (lower (join "." (p :: tl)))); [reflexivity|].
        reflexivity.
      + assert (matches dotted (p :: tl) (m :: m2 :: ms) =
                (String.eqb (lower m) (lower p) && matches dotted tl (m2 :: ms)) || matches dotted tl (m :: m2 :: ms)) as -> by reflexivity.
        rewrite (String.eqb_sym (lower p)).
        destruct (String.eqb_spec (lower m) (lower p)) as [Hmp|Hmp].
        * rewrite IH. 
          assert (tfind t3 (m :: m2 :: ms) = tfind s3 (m2 :: ms)) as Hs.
          { apply tfind_sub_intro; [discriminate|]. unfold sub_get in *. now rewrite Hmp. }
          rewrite <- Hs, F3, F2. destruct (tfind t (m :: m2 :: ms)); [reflexivity|]. simpl.
          destruct (matches dotted tl (m :: m2 :: ms)); simpl; [rewrite orb_true_r|rewrite orb_false_r]; reflexivity.
        * rewrite F3, F2. simpl andb. destruct (tfind t (m :: m2 :: ms)); reflexivity.
  Qed.

  (** After a list of insertions the look-up finds the first matching one. *)
  Fixpoint first_match (dotted : bool) (specs : list (list string * D)) (ref : list string) : option D :=
    match specs with
    | [] => None
    | (q, d) :: rest => if matches dotted q ref then Some d else first_match dotted rest ref
    end.

  Lemma tfind_add_all dotted specs : (forall q d, In (q, d) specs -> q <> []) -> forall t ref,
    tfind (add_all dotted specs t) ref = orelse (tfind t ref) (first_match dotted specs ref).
  Proof.
    induction specs as [|[q d] rest IH]; intros Hne t ref; simpl.
    - destruct (tfind t ref); reflexivity.
    - rewrite IH by (intros q' d' H; apply (Hne q' d'); right; exact H). simpl.
      rewrite tfind_add_rec by (apply (Hne q d); left; reflexivity).
      destruct (tfind t ref); [reflexivity|]. simpl. destruct (matches dotted q ref); reflexivity.
  Qed.
End TreeFacts.

(** ** which references match a path *)
Inductive subseq {A} : list A -> list A -> Prop :=
| ss_nil l : subseq [] l
| ss_skip x l m : subseq l m -> subseq l (x :: m)
| ss_take x l m : subseq l m -> subseq (x :: l) (x :: m).

Lemma subseq_length {A} (l m : list A) : subseq l m -> length l <= length m.
Proof. induction 1; simpl; lia. Qed.

Lemma subseq_full {A} (l m : list A) : subseq l m -> length m <= length l -> l = m.
Proof.
  induction 1 as [m|x l m H IH|x l m H IH]; simpl; intros Hlen.
  - destruct m; [reflexivity|simpl in Hlen; lia].
  - apply subseq_length in H. lia.
  - f_equal. apply IH. lia.
Qed.

Lemma subseq_refl {A} (l : list A) : subseq l l.
Proof. induction l; constructor; assumption. Qed.

Lemma normalize_lower_join path :
  path <> [] -> (forall s, In s path -> has_char "." s = false) ->
  split1 "." (lower (join "." path)) = map lower path.
Proof.
  intros Hne H. rewrite lower_join by reflexivity. apply join_split1.
  - destruct path; [congruence|discriminate].
  - intros p Hp. apply in_map_iff in Hp. destruct Hp as [s [<- Hs]]. rewrite has_dot_lower. exact (H s Hs).
Qed.

Lemma matches_subseq dotted path : (forall s, In s path -> has_char "." s = false) -> forall ref,
  (forall r, In r (removelast ref) -> has_char "." r = false) ->
  matches dotted path ref = true ->
  subseq (flat_map (fun r => split1 "." (lower r)) ref) (map lower path).
Proof.
  induction path as [|p rest IH]; intros Hd ref Hr H; [discriminate|].
  cbn [matches] in H. apply orb_true_iff in H. destruct H as [H|H].
  - destruct ref as [|r rs]; [discriminate|]. destruct rs as [|r2 rs].
    + apply andb_true_iff in H. destruct H as [H _]. apply String.eqb_eq in H.
      cbn [flat_map]. rewrite app_nil_r, H, normalize_lower_join by (discriminate || exact Hd). apply subseq_refl.
    + apply andb_true_iff in H. destruct H as [H1 H2]. apply String.eqb_eq in H1.
      change (flat_map (fun r => split1 "." (lower r)) (r :: r2 :: rs)) with
        (split1 "." (lower r) ++ flat_map (fun r => split1 "." (lower r)) (r2 :: rs)).
      rewrite H1, split1_nochar.
      * cbn [app map]. apply ss_take. apply IH; [intros s Hs; apply Hd; right; exact Hs| |exact H2].
        intros r' Hr'. apply Hr. right. exact Hr'.
      * rewrite has_dot_lower. apply Hd. left; reflexivity.
  - cbn [map]. apply ss_skip. apply IH; [intros s Hs; apply Hd; right; exact Hs|exact Hr|exact H].
Qed.

Lemma matches_spelling front : forall back, back <> [] -> matches true (front ++ back) (front ++ [join "." back]) = true.
Proof.
  induction front as [|p front IH]; intros back Hb.
  - destruct back as [|b back]; [congruence|]. cbn [app matches]. rewrite String.eqb_refl. reflexivity.
  - cbn [app matches]. destruct (front ++ [join "." back]) as [|r2 rs] eqn:E; [destruct front; discriminate|].
    rewrite <- E, String.eqb_refl, (IH back Hb). reflexivity.
Qed.

Lemma map_lower_same a b : map lower a = map lower b <-> same_path a b.
Proof.
  unfold same_path, same_name. revert b; induction a as [|x a IH]; intros [|y b]; cbn [map].
  - split; [constructor|reflexivity].
  - split; [discriminate|inversion 1].
  - split; [discriminate|inversion 1].
  - split.
    + intros H. injection H as H1 H2. constructor; [exact H1|]. apply IH. exact H2.
    + intros H. inversion H as [|? ? ? ? H1 H2]; subst. apply IH in H2. now rewrite H1, H2.
Qed.

Lemma matches_lower_path dotted a : forall b ref, map lower a = map lower b -> matches dotted a ref = matches dotted b ref.
Proof.
  induction a as [|x a IH]; intros [|y b] ref H; try discriminate; [reflexivity|].
  assert (lower (join "." (x :: a)) = lower (join "." (y :: b))) as HJ.
  { rewrite !lower_join by reflexivity. now rewrite H. }
  cbn [map] in H. inversion H as [[Hxy Hab]].
  cbn [matches]. rewrite (IH b ref Hab), HJ, Hxy. f_equal.
  destruct ref as [|r [|r2 rs]]; [reflexivity| |].
  - destruct a as [|? ?], b as [|? ?]; try discriminate; reflexivity.
  - rewrite (IH b (r2 :: rs) Hab). reflexivity.
Qed.

Lemma removelast_last {A} (l : list A) x : removelast (l ++ [x]) = l.
Proof. apply removelast_last. Qed.

Lemma spelling_matches_iff path ref q :
  (forall s, In s path -> has_char "." s = false) -> (forall s, In s q -> has_char "." s = false) ->
  length q = length path -> spelling path ref ->
  (matches true q ref = true <-> same_path q path).
Proof.
  intros Hp Hq Hlen [front [back [-> [Hb ->]]]]. split.
  - intros H. apply matches_subseq in H; [|exact Hq|].
    + apply map_lower_same. symmetry.
      assert (flat_map (fun r => split1 "." (lower r)) (front ++ [join "." back]) = map lower (front ++ back)) as E.
      { rewrite flat_map_app. cbn [flat_map]. rewrite app_nil_r, map_app.
        rewrite normalize_lower_join; [|exact Hb|intros s Hs; apply Hp; apply in_or_app; right; exact Hs].
        f_equal. clear -Hp. induction front as [|x front IH]; [reflexivity|]. cbn [flat_map map].
        rewrite split1_nochar by (rewrite has_dot_lower; apply Hp; left; reflexivity).
        cbn [app]. f_equal. apply IH. intros s Hs. apply Hp. right. exact Hs. }
      rewrite E in H. apply subseq_full in H; [exact H|]. rewrite !map_length. lia.
    + intros r Hr. rewrite removelast_last in Hr. apply Hp. apply in_or_app. left. exact Hr.
  - intros H. apply map_lower_same in H. rewrite (matches_lower_path true q (front ++ back) _ H).
    apply matches_spelling. exact Hb.
Qed.

Lemma c08_lemma {D} (specs : list (list string * D)) n path ref d :
  (forall q e, In (q, e) specs -> length q = n /\ forall s, In s q -> dot_free s) ->
  0 < n -> length path = n -> (forall s, In s path -> dot_free s) ->
  spelling path ref ->
  (tfind (add_all true specs empty_tree) ref = Some d <-> first_with path specs d).
Proof.
  intros Hspecs Hn Hlen Hpath Hsp.
  assert (forall s, In s path -> has_char "." s = false) as Hpd by (intros s Hs; apply dot_free_iff; exact (Hpath s Hs)).
  rewrite tfind_add_all.
  2:{ intros q e H. apply Hspecs in H. destruct H as [H _]. intros ->. simpl in H. lia. }
  rewrite tfind_empty. simpl.
  revert Hspecs. induction specs as [|[q e] rest IH]; intros Hspecs.
  - simpl. split; [discriminate|inversion 1].
  - simpl. pose proof (Hspecs q e (or_introl eq_refl)) as [Hq1 Hq2].
    assert (matches true q ref = true <-> same_path q path) as Hm.
    { apply spelling_matches_iff; [exact Hpd|intros s Hs; apply dot_free_iff; exact (Hq2 s Hs)|lia|exact Hsp]. }
    assert (forall q0 e0, In (q0, e0) rest -> length q0 = n /\ (forall s, In s q0 -> dot_free s)) as Hrest
      by (intros q0 e0 H0; apply (Hspecs q0 e0); right; exact H0).
    specialize (IH Hrest).
    destruct (matches true q ref) eqn:E.
    + split.
      * intros H. inversion H; subst. apply fw_here. apply Hm. reflexivity.
      * inversion 1; subst; [reflexivity|]. exfalso. apply H4. apply Hm. reflexivity.
    + rewrite IH. split.
      * intros H. apply fw_later; [|exact H]. intros Hs. apply Hm in Hs. discriminate.
      * inversion 1; subst; [|assumption]. exfalso. assert (false = true) by (apply Hm; assumption). discriminate.
Qed.
