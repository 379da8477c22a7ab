(** Proofs about NameModel. *)
From Coq Require Import Ascii String List ZArith Lia Bool.
From Verif Require Import GoBase GoBaseFacts NameModel NameSpec.
Import ListNotations.
Open Scope Z_scope.

(** ** dots *)
Lemma has_char_dot s : has_char "." s = true <-> exists a b, s = (a ++ "." ++ b)%string.
Proof.
  induction s as [|c s IH]; simpl.
  - split; [discriminate|]. intros [a [b H]]. destruct a; discriminate.
  - rewrite orb_true_iff, Ascii.eqb_eq, IH. split.
    + intros [->|[a [b ->]]]; [exists ""%string, s; reflexivity | exists (String c a), b; reflexivity].
    + intros [a [b H]]. destruct a as [|a0 a]; inversion H; subst; [left; reflexivity|].
      right. exists a, b. reflexivity.
Qed.

Lemma dot_free_iff s : dot_free s <-> has_char "." s = false.
Proof.
  unfold dot_free. rewrite <- has_char_dot. destruct (has_char "." s); split; intros H; try reflexivity; try congruence.
Qed.

Lemma pieces_split s ps : pieces s ps <-> ps = split1 "." s.
Proof.
  split.
  - induction 1 as [s H|s rest ps H Hp IH].
    + symmetry. apply split1_nochar, dot_free_iff, H.
    + cbn [append]. rewrite split1_app by (apply dot_free_iff; exact H). now rewrite IH.
  - intros ->. revert s.
    assert (forall n s, (String.length s <= n)%nat -> pieces s (split1 "." s)) as G.
    { induction n as [|n IH]; intros s Hs.
      - destruct s; [|simpl in Hs; lia]. apply pieces_one. apply dot_free_iff. reflexivity.
      - destruct (has_char "." s) eqn:E.
        + assert (exists a b, s = (a ++ "." ++ b)%string /\ has_char "." a = false) as [a [b [-> Ha]]].
          { clear -E. induction s as [|c s IHs]; simpl in E; [discriminate|].
            destruct (Ascii.eqb c ".") eqn:Ec.
            - apply Ascii.eqb_eq in Ec; subst c. exists ""%string, s. split; reflexivity.
            - simpl in E. destruct (IHs E) as [a [b [-> Ha]]].
              exists (String c a), b. split; [reflexivity|]. simpl. now rewrite Ec. }
          cbn [append]. rewrite split1_app by exact Ha.
          change (String "." b) with ("." ++ b)%string.
          apply pieces_dot; [apply dot_free_iff; exact Ha|]. apply IH.
          assert (forall x y, String.length (x ++ y)%string = (String.length x + String.length y)%nat) as L.
          { clear. intros x y. induction x as [|? x IHx]; simpl; [reflexivity|now rewrite IHx]. }
          rewrite L in Hs. simpl in Hs. lia.
        + rewrite split1_nochar by exact E. apply pieces_one, dot_free_iff, E. }
    intros s. apply (G (String.length s)). lia.
Qed.

Lemma written_iff ref parts : written_as ref parts <-> parts = normalize_path ref.
Proof.
  split.
  - induction 1 as [|c ref ps parts Hp _ IH]; [reflexivity|].
    apply pieces_split in Hp. unfold normalize_path in *. simpl. now rewrite Hp, IH.
  - intros ->. induction ref as [|c ref IH]; simpl; [constructor|].
    constructor; [apply pieces_split; reflexivity|exact IH].
Qed.

Lemma normalize_dotfree path s : In s (normalize_path path) -> has_char "." s = false.
Proof.
  unfold normalize_path. rewrite in_flat_map. intros [c [_ H]]. exact (split1_pieces _ _ _ H).
Qed.

Lemma normalize_id path : (forall s, In s path -> has_char "." s = false) -> normalize_path path = path.
Proof.
  unfold normalize_path. induction path as [|c path IH]; simpl; intros H; [reflexivity|].
  rewrite split1_nochar by (apply H; left; reflexivity). simpl. f_equal. apply IH.
  intros s Hs. apply H. right; exact Hs.
Qed.

Lemma normalize_nil path : normalize_path path = [] -> path = [].
Proof.
  destruct path as [|c path]; [reflexivity|]. unfold normalize_path; simpl.
  destruct (split1 "." c) eqn:E; [exfalso; exact (split1_nonempty _ _ E)|discriminate].
Qed.

(** ** information schema *)
Lemma info_schema_iff path : is_information_schema path = true <-> below_info_schema path.
Proof.
  unfold is_information_schema, below_info_schema.
  destruct path as [|x l] eqn:E.
  - split; [discriminate|]. intros [a [c [b [H _]]]]. destruct a; discriminate.
  - rewrite existsb_exists. split.
    + intros [c [Hin Hc]]. apply String.eqb_eq in Hc.
      apply in_split in Hin. destruct Hin as [a [b Hab]].
      exists a, c, (b ++ [last (x :: l) ""%string]). repeat split; [|intros H; destruct b; discriminate|exact Hc].
      pose proof (@app_removelast_last _ (x :: l) ""%string ltac:(discriminate)) as Hl.
      rewrite Hab, <- app_assoc in Hl. exact Hl.
    + intros [a [c [b [H [Hb Hc]]]]]. exists c. split; [|apply String.eqb_eq; exact Hc].
      rewrite H. rewrite removelast_app by discriminate.
      apply in_or_app. right.
      destruct b as [|y b]; [congruence|]. simpl. left; reflexivity.
Qed.

(** ** merge_loop *)
Lemma merge_loop_prefix base path0 plen maxNum merged :
  exists b1 b2, base = b1 ++ b2 /\ merge_loop base path0 plen maxNum merged = merged ++ b1.
Proof.
  revert merged. induction base as [|b rest IH]; intros merged; simpl.
  - exists [], []. split; [reflexivity|now rewrite app_nil_r].
  - destruct (String.eqb path0 b); [exists [], (b :: rest); split; [reflexivity|now rewrite app_nil_r]|].
    destruct ((0 <? maxNum) && (maxNum <=? zlen merged + plen));
      [exists [], (b :: rest); split; [reflexivity|now rewrite app_nil_r]|].
    destruct (IH (merged ++ [b])) as [b1 [b2 [-> E]]].
    exists (b :: b1), b2. split; [reflexivity|]. rewrite E, <- app_assoc. reflexivity.
Qed.

Lemma merge_loop_bound base path0 plen maxNum merged :
  0 < maxNum -> zlen merged + plen <= maxNum ->
  zlen (merge_loop base path0 plen maxNum merged) + plen <= maxNum.
Proof.
  intros Hm. revert merged. induction base as [|b rest IH]; intros merged H; simpl; [exact H|].
  destruct (String.eqb path0 b); [exact H|].
  destruct (Z.ltb_spec 0 maxNum); [|lia]. simpl.
  destruct (Z.leb_spec maxNum (zlen merged + plen)); [exact H|].
  apply IH. rewrite zlen_app, zlen_cons, zlen_nil. lia.
Qed.

Lemma merge_loop_over base path0 plen maxNum merged :
  0 < maxNum -> maxNum <= zlen merged + plen ->
  merge_loop base path0 plen maxNum merged = merged.
Proof.
  intros Hm H. destruct base as [|b rest]; simpl; [reflexivity|].
  destruct (String.eqb path0 b); [reflexivity|].
  destruct (Z.ltb_spec 0 maxNum); [|lia]. simpl.
  destruct (Z.leb_spec maxNum (zlen merged + plen)); [reflexivity|lia].
Qed.

Lemma merge_loop_all base path0 plen maxNum merged :
  ~ In path0 base ->
  (0 < maxNum -> zlen merged + zlen base + plen <= maxNum) ->
  merge_loop base path0 plen maxNum merged = merged ++ base.
Proof.
  revert merged. induction base as [|b rest IH]; intros merged Hni H; simpl; [now rewrite app_nil_r|].
  destruct (String.eqb_spec path0 b) as [->|_]; [exfalso; apply Hni; left; reflexivity|].
  destruct (Z.ltb_spec 0 maxNum); simpl.
  - rewrite zlen_cons in H. pose proof (zlen_nonneg rest).
    destruct (Z.leb_spec maxNum (zlen merged + plen)); [lia|].
    rewrite IH; [rewrite <- app_assoc; reflexivity | intros Hin; apply Hni; right; exact Hin |].
    intros _. rewrite zlen_app, zlen_cons, zlen_nil. lia.
  - rewrite IH; [rewrite <- app_assoc; reflexivity | intros Hin; apply Hni; right; exact Hin | lia].
Qed.

(** ** reachable states *)
Definition np_ok (p : name_path) : Prop :=
  0 <= np_max p /\ forall s, In s (np_path p) -> has_char "." s = false.

Lemma np_step_ok p c : np_ok p -> np_ok (np_step p c).
Proof.
  intros [Hm Hd]. destruct c as [n|path|path]; simpl.
  - unfold set_max_num. destruct (Z.ltb_spec 0 n); split; simpl; try lia; exact Hd.
  - unfold set_path. destruct (_ && _); simpl; [split; assumption|].
    split; simpl; [exact Hm|]. intros s Hs. exact (normalize_dotfree _ _ Hs).
  - unfold add_path. destruct (_ && _); [split; assumption|].
    split; [exact Hm|]. intros s Hs. cbn [np_path fst] in Hs.
    apply in_app_or in Hs. destruct Hs as [Hs|Hs]; [exact (Hd _ Hs)|].
    exact (normalize_dotfree _ _ Hs).
Qed.

Lemma np_run_ok cs : np_ok (np_run cs).
Proof.
  unfold np_run. assert (np_ok np_init) as H by (split; simpl; [lia|tauto]).
  revert H. generalize np_init. induction cs as [|c cs IH]; simpl; intros p H; [exact H|].
  apply IH, np_step_ok, H.
Qed.

Lemma get_max_num_nonneg p path : 0 <= np_max p -> 0 <= get_max_num p path.
Proof. unfold get_max_num. destruct (np_max p =? 0); [lia|]. destruct (is_information_schema path); lia. Qed.

(** ** C01 *)
Lemma merge_shape p path :
  exists b1 b2, np_path p = b1 ++ b2 /\ merge_path p path = b1 ++ normalize_path path.
Proof.
  unfold merge_path.
  destruct ((0 <? get_max_num p (normalize_path path)) && (zlen (normalize_path path) =? get_max_num p (normalize_path path))).
  - exists [], (np_path p). split; reflexivity.
  - destruct (normalize_path path) as [|x l] eqn:E.
    + exists (np_path p), []. rewrite !app_nil_r. split; reflexivity.
    + destruct (merge_loop_prefix (np_path p) x (zlen (x :: l)) (get_max_num p (x :: l)) []) as [b1 [b2 [H1 H2]]].
      exists b1, b2. split; [exact H1|]. rewrite H2. reflexivity.
Qed.

Lemma merge_dotfree p path : np_ok p -> normalize_path (merge_path p path) = merge_path p path.
Proof.
  intros [_ Hd]. apply normalize_id. intros s Hs.
  destruct (merge_shape p path) as [b1 [b2 [H1 H2]]]. rewrite H2 in Hs.
  apply in_app_or in Hs. destruct Hs as [Hs|Hs].
  - apply Hd. rewrite H1. apply in_or_app. left; exact Hs.
  - exact (normalize_dotfree _ _ Hs).
Qed.

Lemma merge_loop_head base path0 plen maxNum :
  (exists rest, base = path0 :: rest) -> merge_loop base path0 plen maxNum [] = [].
Proof. intros [rest ->]. simpl. now rewrite String.eqb_refl. Qed.

(** Merging again adds nothing: either the head of the path is the first base component, or the base contributed nothing because of the bound. *)
Lemma merge_idem p path : np_ok p -> merge_path p (merge_path p path) = merge_path p path.
Proof.
  intros Hok. pose proof (merge_dotfree p path Hok) as Hn.
  set (m := merge_path p path) in *.
  destruct (merge_shape p path) as [b1 [b2 [Hb Hm]]]. fold m in Hm.
  unfold merge_path at 1. rewrite Hn.
  destruct ((0 <? get_max_num p m) && (zlen m =? get_max_num p m)) eqn:Eb; [reflexivity|].
  destruct m as [|x l] eqn:Em.
  - symmetry in Hm. apply app_eq_nil in Hm. destruct Hm as [-> Hnil].
    (* the path is empty: merge_path returned the base, which is [] *)
    assert (merge_path p path = np_path p) as Hbase.
    { unfold merge_path. rewrite Hnil.
      destruct ((0 <? get_max_num p []) && (zlen (@nil string) =? get_max_num p [])) eqn:E; [|reflexivity].
      apply andb_true_iff in E. destruct E as [E1 E2]. apply Z.ltb_lt in E1. apply Z.eqb_eq in E2.
      change (zlen (@nil string)) with 0 in E2. lia. }
    rewrite <- Hbase. fold m. exact Em.
  - destruct b1 as [|y b1].
    + (* the base contributed nothing *)
      simpl in Hm.
      unfold m, merge_path in Em. rewrite <- Hm in Em.
      change (get_max_num p (x :: l)) with (get_max_num p (x :: l)) in Em.
      destruct ((0 <? get_max_num p (x :: l)) && (zlen (x :: l) =? get_max_num p (x :: l))) eqn:E2.
      * congruence.
      * change (x :: l) with ([] ++ x :: l) in Em at 4.
        assert (merge_loop (np_path p) x (zlen (x :: l)) (get_max_num p (x :: l)) [] = []) as HL.
        { destruct (merge_loop (np_path p) x (zlen (x :: l)) (get_max_num p (x :: l)) []) as [|z zs] eqn:EL; [reflexivity|].
          exfalso. assert (length ((z :: zs) ++ x :: l) = length (x :: l)) as HH by (rewrite Em; reflexivity).
          rewrite app_length in HH. simpl in HH. lia. }
        rewrite HL. reflexivity.
    + simpl in Hm. inversion Hm; subst x. rewrite (merge_loop_head (np_path p)); [reflexivity|].
      rewrite Hb. exists (b1 ++ b2). reflexivity.
Qed.

Lemma c01_lemma cs ref parts : written_as ref parts ->
  let p := np_run cs in
  (exists used unused, np_path p = used ++ unused /\ merge_path p ref = used ++ parts)
  /\ merge_path p (merge_path p ref) = merge_path p ref.
Proof.
  intros Hw p. apply written_iff in Hw. subst parts. split.
  - destruct (merge_shape p ref) as [b1 [b2 [H1 H2]]]. exists b1, b2. split; assumption.
  - apply merge_idem, np_run_ok.
Qed.

(** ** C02 *)
Lemma get_max_num_info p path : 0 < np_max p ->
  (below_info_schema path -> get_max_num p path = np_max p + 1) /\
  (~ below_info_schema path -> get_max_num p path = np_max p).
Proof.
  intros H. unfold get_max_num. destruct (Z.eqb_spec (np_max p) 0); [lia|].
  rewrite <- info_schema_iff. destruct (is_information_schema path); split; intros; try reflexivity; congruence.
Qed.

Lemma merge_bound p path : 0 < np_max p -> normalize_path path <> [] ->
  zlen (normalize_path path) <= get_max_num p (normalize_path path) ->
  zlen (merge_path p path) <= get_max_num p (normalize_path path).
Proof.
  intros Hm Hne Hle. unfold merge_path.
  destruct (_ && _); [exact Hle|].
  destruct (normalize_path path) as [|x l] eqn:E; [congruence|].
  rewrite zlen_app. apply merge_loop_bound.
  - unfold get_max_num. destruct (Z.eqb_spec (np_max p) 0); [lia|]. destruct (is_information_schema (x :: l)); lia.
  - change (zlen (@nil string)) with 0. lia.
Qed.

Lemma c02_lemma cs ref parts n : written_as ref parts -> parts <> [] -> np_max (np_run cs) = n -> 0 < n ->
  (~ below_info_schema parts ->
     (zlen parts <= n -> zlen (merge_path (np_run cs) ref) <= n) /\
     (zlen parts = n -> merge_path (np_run cs) ref = parts)) /\
  (below_info_schema parts ->
     (zlen parts <= n + 1 -> zlen (merge_path (np_run cs) ref) <= n + 1) /\
     (zlen parts = n + 1 -> merge_path (np_run cs) ref = parts)).
Proof.
  intros Hw Hne Hn Hpos. apply written_iff in Hw. subst parts.
  assert (0 < np_max (np_run cs)) as Hmax by lia.
  destruct (get_max_num_info (np_run cs) (normalize_path ref) Hmax) as [Hi Hni].
  assert (forall k, get_max_num (np_run cs) (normalize_path ref) = k -> 0 < k ->
    (zlen (normalize_path ref) <= k -> zlen (merge_path (np_run cs) ref) <= k) /\
    (zlen (normalize_path ref) = k -> merge_path (np_run cs) ref = normalize_path ref)) as G.
  { intros k Hk Hkpos. split.
    - intros Hle. rewrite <- Hk. apply merge_bound; [exact Hmax|exact Hne|lia].
    - intros He. unfold merge_path. rewrite Hk.
      destruct (Z.ltb_spec 0 k); [|lia]. destruct (Z.eqb_spec (zlen (normalize_path ref)) k); [reflexivity|lia]. }
  split; intros Hb; apply G; [rewrite Hni by exact Hb|lia|rewrite Hi by exact Hb|lia]; lia.
Qed.

(** ** C03 *)
Lemma c03_lemma_set p path :
  (snd (set_path p path) = true -> fst (set_path p path) = p) /\
  (snd (set_path p path) = false ->
     written_as path (np_path (fst (set_path p path))) /\ np_max (fst (set_path p path)) = np_max p).
Proof.
  unfold set_path. destruct (_ && _); simpl; split; intros H; try discriminate; try reflexivity.
  split; [apply written_iff; reflexivity|reflexivity].
Qed.

Lemma c03_lemma_add p path :
  (snd (add_path p path) = true -> fst (add_path p path) = p) /\
  (snd (add_path p path) = false ->
     exists ps, pieces path ps /\ np_path (fst (add_path p path)) = np_path p ++ ps /\ np_max (fst (add_path p path)) = np_max p).
Proof.
  unfold add_path. destruct (_ && _); cbn [fst snd np_path np_max]; split; intros H; try discriminate; try reflexivity.
  exists (split1 "." path). split; [apply pieces_split; reflexivity|]. unfold normalize_path; simpl.
  rewrite app_nil_r. split; reflexivity.
Qed.

Definition no_info_call (c : np_call) : Prop :=
  match c with
  | SetMax _ => False
  | SetPath path => ~ below_info_schema path
  | AddPath path => ~ below_info_schema (normalize_path [path])
  end.

Lemma bounded_step p c : 0 < np_max p -> zlen (np_path p) <= np_max p -> no_info_call c ->
  np_max (np_step p c) = np_max p /\ zlen (np_path (np_step p c)) <= np_max p.
Proof.
  intros Hm Hb Hc. destruct c as [n|path|path]; simpl in *; [contradiction| |].
  - destruct (get_max_num_info p path Hm) as [_ Hni]. unfold set_path. rewrite (Hni Hc).
    destruct (Z.ltb_spec 0 (np_max p)); [|lia]. simpl.
    destruct (Z.ltb_spec (np_max p) (zlen (normalize_path path))); simpl; split; lia.
  - destruct (get_max_num_info p (normalize_path [path]) Hm) as [_ Hni]. unfold add_path. rewrite (Hni Hc).
    destruct (Z.ltb_spec 0 (np_max p)); [|lia]. cbn [andb].
    destruct (Z.ltb_spec (np_max p) (zlen (np_path p) + zlen (normalize_path [path]))); cbn [fst np_path np_max]; [split; lia|].
    rewrite zlen_app. split; lia.
Qed.

Lemma bounded_run cs : forall p, 0 < np_max p -> zlen (np_path p) <= np_max p -> Forall no_info_call cs ->
  np_max (fold_left np_step cs p) = np_max p /\ zlen (np_path (fold_left np_step cs p)) <= np_max p.
Proof.
  induction cs as [|c cs IH]; simpl; intros p Hm Hb H; [split; [reflexivity|exact Hb]|].
  inversion_clear H as [|? ? Hc Hcs]. destruct (bounded_step p c Hm Hb Hc) as [H1 H2].
  destruct (IH (np_step p c)) as [H3 H4]; [lia|lia|exact Hcs|]. split; lia.
Qed.

Lemma c03_lemma_bound n cs : 0 < n -> Forall no_info_call cs ->
  zlen (np_path (np_run (SetMax n :: cs))) <= n.
Proof.
  intros Hn H. unfold np_run. simpl. unfold set_max_num. destruct (Z.ltb_spec 0 n); [|lia].
  destruct (bounded_run cs (NP [] n)) as [_ Hb]; simpl; [lia|change (zlen (@nil string)) with 0; lia|exact H|exact Hb].
Qed.

Lemma c03_lemma_dots cs s : In s (np_path (np_run cs)) -> dot_free s.
Proof. intros H. apply dot_free_iff. exact (proj2 (np_run_ok cs) s H). Qed.

(** ** C04 *)
Lemma c04_lemma p ref parts t : written_as ref parts -> hd_error parts = Some t ->
  ~ In t (np_path p) -> (0 < np_max p -> ~ below_info_schema parts /\ zlen (np_path p) + zlen parts <= np_max p) ->
  0 <= np_max p ->
  merge_path p ref = np_path p ++ parts.
Proof.
  intros Hw Ht Hni Hb Hnn. apply written_iff in Hw. subst parts.
  destruct (normalize_path ref) as [|x l] eqn:E; [discriminate|]. simpl in Ht. inversion Ht; subst x; clear Ht.
  unfold merge_path. rewrite E.
  assert (0 < np_max p -> get_max_num p (t :: l) = np_max p) as Hg.
  { intros H. destruct (Hb H) as [Hi _]. exact (proj2 (get_max_num_info p (t :: l) H) Hi). }
  destruct (Z.eq_dec (np_max p) 0) as [H0|H0].
  - assert (get_max_num p (t :: l) = 0) as ->. { unfold get_max_num. rewrite H0. reflexivity. }
    simpl. rewrite merge_loop_all; [reflexivity|exact Hni|lia].
  - assert (0 < np_max p) as Hpos by lia. rewrite (Hg Hpos). destruct (Hb Hpos) as [_ Hlen].
    destruct ((0 <? np_max p) && (zlen (t :: l) =? np_max p)) eqn:Eb.
    + apply andb_true_iff in Eb. rewrite Z.eqb_eq in Eb. destruct Eb as [_ Eb].
      pose proof (zlen_nonneg (np_path p)). assert (zlen (np_path p) = 0) as Hz by lia.
      destruct (np_path p) as [|? ?]; [reflexivity|]. rewrite zlen_cons in Hz. pose proof (zlen_nonneg l0). lia.
    + rewrite merge_loop_all; [reflexivity|exact Hni|]. change (zlen (@nil string)) with 0. lia.
Qed.

(** ** C05 *)
Lemma has_char_underscore s : has_char "_" s = true <-> exists a b, s = (a ++ "_" ++ b)%string.
Proof.
  induction s as [|c s IH]; simpl.
  - split; [discriminate|]. intros [a [b H]]. destruct a; discriminate.
  - rewrite orb_true_iff, Ascii.eqb_eq, IH. split.
    + intros [->|[a [b ->]]]; [exists ""%string, s; reflexivity | exists (String c a), b; reflexivity].
    + intros [a [b H]]. destruct a as [|a0 a]; inversion H; subst; [left; reflexivity|].
      right. exists a, b. reflexivity.
Qed.

Lemma c05_lemma l r : l <> [] -> r <> [] ->
  (forall s, In s (l ++ r) -> ~ exists a b, s = (a ++ "_" ++ b)%string) ->
  format_path l = format_path r -> l = r.
Proof.
  intros Hl Hr H. unfold format_path. apply join_inj; [exact Hl|exact Hr| |].
  - intros p Hp. destruct (has_char "_" p) eqn:E; [|reflexivity].
    apply has_char_underscore in E. exfalso. apply (H p); [apply in_or_app; left; exact Hp|exact E].
  - intros p Hp. destruct (has_char "_" p) eqn:E; [|reflexivity].
    apply has_char_underscore in E. exfalso. apply (H p); [apply in_or_app; right; exact Hp|exact E].
Qed.
