From Coq Require Import Ascii String List ZArith Lia Bool Permutation.
From Verif Require Import GoBase GoBaseFacts WildModel WildSpec.
Import ListNotations.
Local Open Scope string_scope.

Lemma app_s_nil_l (s : string) : "" ++ s = s. Proof. reflexivity. Qed.
Lemma app_cons c (a b : string) : String c a ++ b = String c (a ++ b). Proof. reflexivity. Qed.
Lemma length_app_w (a b : string) : String.length (a ++ b) = (String.length a + String.length b)%nat.
Proof. induction a; cbn; lia. Qed.

(** ** Matching *)
Lemma match_here_iff n s : match_here n s = true <-> exists b c, s = b ++ c /\ looks_like n b.
Proof.
  revert s. induction n as [|p n IH]; intros s.
  - cbn. split; [|destruct s; auto]. intros _. exists "", s. split; [reflexivity|constructor].
  - destruct s as [|c s]; cbn [match_here].
    + split; [discriminate|]. intros (b & c & E & L). destruct b; [|discriminate]. inversion L.
    + rewrite andb_true_iff, IH. split.
      * intros [H (b & r & -> & L)]. exists (String c b), r. split; [reflexivity|].
        destruct (Ascii.eqb_spec p ".") as [->|N].
        -- apply ll_dot; [|assumption]. apply negb_true_iff, Ascii.eqb_neq in H. exact H.
        -- apply Ascii.eqb_eq in H. subst c. now apply ll_same.
      * intros (b & r & E & L). destruct b as [|c' b]; [inversion L|]. cbn in E.
        assert (c' = c) by congruence. assert (s = b ++ r) by congruence. subst.
        inversion L; subst.
        -- split; [|exists b, r; auto]. cbn. apply negb_true_iff, Ascii.eqb_neq. assumption.
        -- split; [|exists b, r; auto]. destruct (Ascii.eqb_spec c "."); [congruence|]. apply Ascii.eqb_refl.
Qed.
Lemma search_iff n s : search n s = true <-> occurs n s.
Proof.
  unfold occurs. induction s as [|c s IH].
  - cbn [search]. rewrite orb_false_r, match_here_iff. split.
    + intros (b & r & E & L). exists "", b, r. auto.
    + intros (a & b & r & E & L). exists b, r. destruct a; [auto|discriminate].
  - cbn [search]. rewrite orb_true_iff, match_here_iff, IH. split.
    + intros [(b & r & E & L)|(a & b & r & -> & L)].
      * exists "", b, r. auto.
      * exists (String c a), b, r. auto.
    + intros (a & b & r & E & L). destruct a as [|c' a].
      * left. exists b, r. auto.
      * right. exists a, b, r. cbn in E. split; [congruence|assumption].
Qed.

(** The underscored name is the dotted one with dots changed. *)
Inductive undot : string -> string -> Prop :=
| ud_nil : undot "" ""
| ud_sep : forall a b, undot a b -> undot (String "." a) (String "_" b)
| ud_same : forall c a b, undot a b -> undot (String c a) (String c b).
Lemma undot_refl s : undot s s. Proof. induction s; constructor; auto. Qed.
Lemma undot_app a b c d : undot a b -> undot c d -> undot (a ++ c) (b ++ d).
Proof. intros H G. induction H; cbn; try constructor; auto. Qed.
Lemma undot_join l : undot (join "." l) (join "_" l).
Proof.
  induction l as [|x l IH]; [constructor|]. destruct l as [|y l]; [apply undot_refl|].
  change (join "." (x :: y :: l)) with (x ++ String "." (join "." (y :: l))).
  change (join "_" (x :: y :: l)) with (x ++ String "_" (join "_" (y :: l))).
  apply undot_app; [apply undot_refl|]. now constructor.
Qed.
Lemma undot_prefix n s b : undot (n ++ s) b -> exists b1 b2, b = b1 ++ b2 /\ looks_like n b1.
Proof.
  revert b. induction n as [|c n IH]; intros b H.
  - exists "", b. split; [reflexivity|constructor].
  - cbn in H. inversion H as [|a b' H'|c' a b' H']; subst.
    + destruct (IH _ H') as (b1 & b2 & -> & L). exists (String "_" b1), b2. split; [reflexivity|]. apply ll_dot; [discriminate|assumption].
    + destruct (IH _ H') as (b1 & b2 & -> & L). exists (String c b1), b2. split; [reflexivity|].
      destruct (Ascii.ascii_dec c ".") as [->|N]; [apply ll_dot; [discriminate|assumption]|now apply ll_same].
Qed.
Lemma join_cons sep x l : l <> [] -> join sep (x :: l) = x ++ sep ++ join sep l.
Proof. destruct l; [congruence|reflexivity]. Qed.
Lemma named_occurs n t : named_by n t -> occurs n (table_name t).
Proof.
  intros [[r E]|(p & rest & P & r & E)].
  - unfold full_name in E. pose proof (undot_join (path t)) as U. rewrite E in U. apply undot_prefix in U.
    destruct U as (b1 & b2 & E2 & L). exists "", b1, b2. auto.
  - destruct rest as [|x rest].
    + cbn in E. destruct n; [|discriminate]. exists "", "", (table_name t). split; [reflexivity|constructor].
    + pose proof (undot_join (x :: rest)) as U. rewrite E in U. apply undot_prefix in U.
      destruct U as (b1 & b2 & E2 & L). exists (p ++ "_"), b1, b2. split; [|assumption].
      unfold table_name. rewrite P, join_cons by discriminate. rewrite E2. now rewrite !string_app_assoc.
Qed.

(** ** The star *)
Lemma plain_no_star n : plain_name n -> has_char "*" n = false.
Proof.
  induction n as [|c n IH]; intros H; [reflexivity|]. destruct H as [C H]. cbn [has_char]. rewrite IH by assumption.
  rewrite orb_false_r. destruct (Ascii.eqb_spec c "*") as [->|]; [discriminate C|reflexivity].
Qed.
Lemma trim_plain n : plain_name n -> trim_stars n = n.
Proof.
  intros H. apply plain_no_star in H. induction n as [|c n IH]; [reflexivity|].
  cbn [has_char] in H. apply orb_false_iff in H. destruct H as [H1 H2]. cbn [trim_stars]. rewrite IH by assumption.
  destruct n; [|reflexivity]. now rewrite H1.
Qed.
Lemma trim_star n : plain_name n -> trim_stars (n ++ "*") = n.
Proof.
  intros H. apply plain_no_star in H. induction n as [|c n IH]; [reflexivity|].
  cbn [has_char] in H. apply orb_false_iff in H. destruct H as [H1 H2].
  change (String c n ++ "*") with (String c (n ++ "*")). cbn [trim_stars]. rewrite IH by assumption.
  destruct n; [|reflexivity]. now rewrite H1.
Qed.

(** ** Sorting *)
Lemma insert_perm t l : Permutation (insert t l) (t :: l).
Proof.
  induction l as [|x l IH]; [apply Permutation_refl|]. cbn [insert]. destruct (_ <? _)%Z; [apply Permutation_refl|].
  rewrite IH. apply perm_swap.
Qed.
Lemma newest_perm l : Permutation (newest_first l) l.
Proof. induction l as [|t l IH]; [constructor|]. cbn. rewrite insert_perm. now constructor. Qed.
Lemma insert_head t l x r : insert t l = x :: r -> (forall y, In y l -> match l with z :: _ => (created y <= created z)%Z | [] => True end) ->
  forall y, In y (t :: l) -> (created y <= created x)%Z.
Proof.
  intros E H y Y. destruct l as [|z l]; cbn [insert] in E.
  - destruct Y as [->|[]]. assert (x = y) by congruence. subst. lia.
  - destruct (Z.ltb_spec (created z) (created t)).
    + assert (x = t) by congruence. subst. destruct Y as [->|Y]; [lia|]. specialize (H y Y). lia.
    + assert (x = z) by congruence. subst. destruct Y as [->|Y]; [lia|]. exact (H y Y).
Qed.
Lemma newest_head l x r : newest_first l = x :: r -> forall y, In y l -> (created y <= created x)%Z.
Proof.
  revert x r. induction l as [|t l IH]; intros x r E y Y; [destruct Y|]. cbn [newest_first fold_right] in E. fold (newest_first l) in E.
  apply (insert_head _ _ _ _ E).
  - intros z Zin. destruct (newest_first l) as [|w l'] eqn:N; [destruct Zin|]. apply (IH w l' eq_refl).
    apply (Permutation_in _ (newest_perm l)). now rewrite N.
  - destruct Y as [->|Y]; [now left|right]. apply (Permutation_in _ (Permutation_sym (newest_perm l))). exact Y.
Qed.

(** ** Creating *)
Definition read_by (n : string) (tables : list table) : list table := filter (fun t => search n (table_name t)) tables.
Lemma create_inv n tables w : plain_name n -> create_wildcard [n ++ "*"] tables = Ok w ->
  exists t0 rest, newest_first (read_by n tables) = t0 :: rest /\ w_tables w = t0 :: rest /\ w_columns w = columns t0 /\
    w_prefix w = (let first := match path t0 with x :: _ => x | [] => "" end in
                  if has_prefix (first ++ ".") n then n else first ++ "." ++ n).
Proof.
  intros P H. unfold create_wildcard in H. cbn [join length Nat.pred] in H. rewrite trim_star in H by assumption.
  fold (read_by n tables) in H. destruct (newest_first (read_by n tables)) as [|t0 rest] eqn:E; [discriminate|].
  unfold slice_to in H. cbn [Nat.leb bind] in H. exists t0, rest.
  assert (W : w = Wildcard (columns t0) (t0 :: rest) (let first := match path t0 with x :: _ => x | [] => "" end in
                  if has_prefix (first ++ ".") n then n else first ++ "." ++ n)) by (cbn zeta in *; congruence).
  subst w. auto.
Qed.
Lemma create_in n tables w t : plain_name n -> create_wildcard [n ++ "*"] tables = Ok w ->
  (In t (w_tables w) <-> In t tables /\ occurs n (table_name t)).
Proof.
  intros P H. destruct (create_inv n tables w P H) as (t0 & rest & E & W & _). rewrite W, <- E.
  rewrite <- search_iff. transitivity (In t (read_by n tables)).
  - split; apply Permutation_in; [apply newest_perm|apply Permutation_sym, newest_perm].
  - unfold read_by. apply filter_In.
Qed.
Lemma format_all_ok w l bs : format_all w l = Ok bs -> forall t, In t l -> exists b, format_one w t = Ok b /\ In b bs.
Proof.
  revert bs. induction l as [|x l IH]; intros bs H t T; [destruct T|]. cbn [format_all] in H.
  destruct (format_one w x) as [b| |] eqn:Fx; try discriminate. cbn [bind] in H.
  destruct (format_all w l) as [bs'| |] eqn:Fl; try discriminate. cbn [bind] in H.
  assert (bs = b :: bs') by congruence. subst. destruct T as [->|T].
  - exists b. split; [assumption|now left].
  - destruct (IH bs' eq_refl t T) as (b' & F & I). exists b'. split; [assumption|now right].
Qed.
Lemma format_all_err w l : (exists t, In t l /\ format_one w t = Err) -> format_all w l = Err.
Proof.
  induction l as [|x l IH]; intros (t & T & F); [destruct T|]. cbn [format_all].
  assert (Q : (exists b, format_one w x = Ok b) \/ format_one w x = Err) by (unfold format_one; destruct (Nat.leb _ _); eauto).
  destruct Q as [[b Q]|Q]; rewrite Q; cbn [bind]; [|reflexivity].
  destruct T as [->|T]; [congruence|]. rewrite IH by eauto. reflexivity.
Qed.
Lemma format_all_ok_iff w l : (exists bs, format_all w l = Ok bs) <-> forall t, In t l -> (String.length (w_prefix w) < String.length (full_name t))%nat.
Proof.
  induction l as [|x l IH]; cbn [format_all].
  - split; [intros _ t []|intros _; eauto].
  - unfold format_one at 1. destruct (Nat.leb_spec (String.length (full_name x)) (String.length (w_prefix w))) as [L|L]; cbn [bind].
    + split; [intros [bs H]; discriminate|]. intros H. specialize (H x (or_introl eq_refl)). lia.
    + split.
      * intros [bs H]. destruct (format_all w l) as [bs'| |]; try discriminate.
        intros t [->|T]; [assumption|]. apply IH; eauto.
      * intros H. destruct (proj2 IH (fun t T => H t (or_intror T))) as [bs' ->]. cbn. eauto.
Qed.

(** ** Strings *)
Lemma substring_app_r (a b : string) : substring (String.length a) (String.length (a ++ b) - String.length a) (a ++ b) = b.
Proof.
  rewrite length_app_w. replace (String.length a + String.length b - String.length a)%nat with (String.length b) by lia.
  induction a as [|c a IH]; cbn [append String.length substring]; [|exact IH].
  induction b as [|c b IHb]; [reflexivity|]. cbn. now rewrite IHb.
Qed.
Lemma substring_len n m s : (n + m <= String.length s)%nat -> String.length (substring n m s) = m.
Proof.
  revert n m. induction s as [|c s IH]; intros n m H.
  - cbn in H. assert (n = 0 /\ m = 0)%nat as [-> ->] by lia. reflexivity.
  - destruct n; cbn [substring].
    + destruct m; [reflexivity|]. cbn in H |- *. rewrite IH; lia.
    + apply IH. cbn in H. lia.
Qed.
Lemma has_prefix_iff p s : has_prefix p s = true <-> is_prefix p s.
Proof.
  revert s. induction p as [|c p IH]; intros s; cbn [has_prefix].
  - split; [exists s; reflexivity|auto].
  - destruct s as [|d s].
    + split; [discriminate|intros [r E]; discriminate].
    + rewrite andb_true_iff, IH, Ascii.eqb_eq. split.
      * intros [-> [r ->]]. exists r. reflexivity.
      * intros [r E]. cbn in E. split; [congruence|exists r; congruence].
Qed.
Lemma no_dot_app a b : no_dot (a ++ b) <-> no_dot a /\ no_dot b.
Proof. unfold no_dot. induction a as [|c a IH]; cbn; [tauto|]. rewrite !orb_false_iff, IH. tauto. Qed.
(** The text before the first dot is unique. *)
Lemma first_dot a b x y : no_dot a -> no_dot b -> a ++ String "." x = b ++ String "." y -> a = b /\ x = y.
Proof.
  revert b. induction a as [|c a IH]; intros b A B E.
  - destruct b as [|d b]; cbn in E; [split; congruence|]. assert (d = "."%char) by congruence. subst. unfold no_dot in B. cbn in B. discriminate.
  - destruct b as [|d b]; cbn in E.
    + assert (c = "."%char) by congruence. subst. unfold no_dot in A. cbn in A. discriminate.
    + unfold no_dot in A, B. cbn in A, B. apply orb_false_iff in A, B. destruct A as [_ A], B as [_ B].
      destruct (IH b A B ltac:(congruence)) as [-> ->]. split; congruence.
Qed.
