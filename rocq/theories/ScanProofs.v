From Coq Require Import Ascii String List ZArith QArith Lia Bool SpecFloat Sorted Permutation.
From Verif Require Import GoBase GoBaseFacts CalendarModel CalendarFacts InstantModel InstantFacts DecModel DecFacts ClockTextModel ClockTextSpec ClockTextProofs ClockTextProps ValueModel ValueFacts CompareSpec CompareProofs Utf8Model CodecModel CodecSpec CodecProofs PartModel PartProofs GroupModel GroupSpec GroupProofs GroupProps ScanModel ScanSpec.
Import ListNotations.
Local Open Scope string_scope.
Open Scope Z_scope.
Local Opaque civil year_start leap godate.

(** ** Stored values *)
Lemma rat_text_inj q r : rat_text q = rat_text r <-> Qeq q r.
Proof.
  split.
  - intros H. apply (f_equal (fun s => rat_read (sanitize s))) in H. rewrite !rat_round in H.
    rewrite <- (Qred_correct q), <- (Qred_correct r), H. reflexivity.
  - intros H. apply Qred_complete in H. unfold rat_text. now rewrite H.
Qed.
Lemma bytes_stored a b : sanitize (base64_text a) = sanitize (base64_text b) <-> a = b.
Proof.
  split; [|now intros ->]. intros H. apply (f_equal base64_read) in H. rewrite !base64_round in H. congruence.
Qed.
Lemma timestamp_stored a b : a mod 1000 = 0 -> b mod 1000 = 0 -> (dec (unix_micro a) = dec (unix_micro b) <-> a = b).
Proof.
  intros A B. split; [|now intros ->]. intros H. apply (f_equal read_int) in H. rewrite !read_int_dec in H.
  assert (U : unix_micro a = unix_micro b) by congruence.
  rewrite !unix_micro_floor in U. pose proof (Z.div_mod a 1000 ltac:(lia)). pose proof (Z.div_mod b 1000 ltac:(lia)).
  lia.
Qed.
Lemma engine_nan f : real_float f -> through_engine (EFloat f) = EFloat f.
Proof. intros [_ N]. destruct f; cbn in *; try reflexivity. discriminate. Qed.
Lemma same_cell_iff t a b : plain t a -> plain t b -> (same_cell a b = true <-> equal_keys a b).
Proof.
  intros A B. unfold same_cell, stored. destruct a as [a|], b as [b|]; cbn [plain] in A, B; cbn [encode_opt].
  - destruct t, a; cbn [plain_value] in A; try tauto; destruct b; cbn [plain_value] in B; try tauto;
      cbn [encode_value bind through_engine same_stored header_eqb andb equal_keys alike].
    + apply Z.eqb_eq.
    + rewrite !sanitize_ok by assumption. apply String.eqb_eq.
    + apply eqb_iff, bytes_stored.
    + destruct A as [VA NA], B as [VB NB]. rewrite NA, NB.
      fold (through_engine (EFloat f)). fold (through_engine (EFloat f0)).
      rewrite !engine_nan by (split; assumption). cbn [same_stored]. rewrite float_compare_spec by (split; assumption).
      destruct (Z.compare_spec (float_scaled f) (float_scaled f0)); intuition (try congruence; try lia).
    + rewrite !(sanitize_ok (rat_text _)) by apply rat_text_ok. apply eqb_iff, rat_text_inj.
    + destruct b0, b; cbn; intuition congruence.
    + apply eqb_iff. destruct A, B. now apply date_key.
    + apply eqb_iff. destruct A, B. now apply datetime_key.
    + apply eqb_iff. destruct A, B. now apply time_key.
    + apply eqb_iff. now apply timestamp_stored.
  - destruct t, a; cbn [plain_value] in A; try tauto; cbn [encode_value bind through_engine same_stored equal_keys]; try (split; [discriminate|tauto]).
    + fold (through_engine (EFloat f)). rewrite engine_nan by assumption. cbn. split; [discriminate|tauto].
  - destruct t, b; cbn [plain_value] in B; try tauto; cbn [encode_value bind through_engine same_stored equal_keys]; try (split; [discriminate|tauto]).
    + fold (through_engine (EFloat f)). rewrite engine_nan by assumption. cbn. split; [discriminate|tauto].
  - cbn. tauto.
Qed.
Lemma equal_keys_equiv t x y z : plain t x -> plain t y -> plain t z ->
  equal_keys x x /\ (equal_keys x y -> equal_keys y x) /\ (equal_keys x y -> equal_keys y z -> equal_keys x z).
Proof.
  intros X Y W. destruct t; destruct x as [[]|]; cbn in X; try tauto; destruct y as [[]|]; cbn in Y; try tauto;
    destruct z as [[]|]; cbn in W; try tauto; cbn [equal_keys alike]; unfold real_float in *;
    (split; [|split]); try tauto; try reflexivity; try (intros; congruence);
    try (intros H; now symmetry); try (intros H1 H2; now rewrite H1); try (right; tauto); intuition congruence.
Qed.
Lemma equal_rows_refl ts : forall r, plain_row ts r -> equal_rows r r.
Proof.
  induction ts as [|t ts IH]; intros r R; inversion R; subst; constructor; [|now apply IH].
  now destruct (equal_keys_equiv t y y y) as (A & _ & _).
Qed.
Lemma equal_rows_sym ts : forall r s, plain_row ts r -> plain_row ts s -> equal_rows r s -> equal_rows s r.
Proof.
  induction ts as [|t ts IH]; intros r s R Q E; inversion R; subst; inversion Q; subst; inversion E; subst; constructor.
  - destruct (equal_keys_equiv t y y0 y0) as (_ & A & _); auto.
  - now apply IH.
Qed.
Lemma equal_rows_trans ts : forall r s u, plain_row ts r -> plain_row ts s -> plain_row ts u ->
  equal_rows r s -> equal_rows s u -> equal_rows r u.
Proof.
  induction ts as [|t ts IH]; intros r s u R Q W E F; inversion R; subst; inversion Q; subst; inversion W; subst;
    inversion E; subst; inversion F; subst; constructor.
  - destruct (equal_keys_equiv t y y0 y1) as (_ & _ & A); auto.
  - eapply IH; [ | | | eassumption | eassumption]; assumption.
Qed.
Lemma same_row_iff ts : forall r s, plain_row ts r -> plain_row ts s -> (same_row r s = true <-> equal_rows r s).
Proof.
  induction ts as [|t ts IH]; intros r s R Q; inversion R; subst; inversion Q; subst; cbn [same_row].
  - split; [constructor|reflexivity].
  - rewrite andb_true_iff, (same_cell_iff t), IH by assumption. split.
    + intros [A B]. now constructor.
    + intros E. inversion E; subst. tauto.
Qed.

(** ** Set operations *)
Lemma same_name_iff a b : same_name a b = true <-> lower a = lower b.
Proof. unfold same_name. apply String.eqb_eq. Qed.
Lemma read_col_iff f n v : read_col f n = Some v <-> reads f n v.
Proof.
  unfold read_col, reads. induction f as [|[m w] f IH]; cbn [find fst].
  - split; [discriminate|]. intros (pre & m & post & E & _). destruct pre; discriminate.
  - destruct (same_name m n) eqn:SN; cbn [snd].
    + apply same_name_iff in SN. split.
      * intros H. exists [], m, f. split; [cbn; congruence|]. split; [assumption|constructor].
      * intros (pre & m' & post & E & L & F). destruct pre as [|p pre]; cbn in E; [congruence|].
        inversion F as [|? ? Hp ?]; subst. assert (p = (m, w)) by congruence. subst p. now contradiction Hp.
    + assert (N : lower m <> lower n) by (intros H; apply same_name_iff in H; congruence).
      rewrite IH. split; intros (pre & m' & post & E & L & F).
      * exists ((m, w) :: pre), m', post. subst f. split; [reflexivity|]. split; [assumption|]. now constructor.
      * destruct pre as [|p pre]; cbn in E.
        -- assert (m' = m) by congruence. subst. contradiction.
        -- exists pre, m', post. split; [congruence|]. split; [assumption|]. now inversion F.
Qed.
Lemma read_cols_iff f ns : forall r, read_cols f ns = Some r <-> Forall2 (reads f) ns r.
Proof.
  induction ns as [|n ns IH]; intros r; cbn [read_cols].
  - split; [intros H; assert (r = []) by congruence; subst; constructor|]. intros H. now inversion H.
  - destruct (read_col f n) as [v|] eqn:C.
    + destruct (read_cols f ns) as [vs|] eqn:R.
      * split.
        -- intros H. assert (r = v :: vs) by congruence. subst. constructor; [now apply read_col_iff|now apply IH].
        -- intros H. inversion H as [|? w ? ws A B]; subst. apply read_col_iff in A. apply IH in B. congruence.
      * split; [discriminate|]. intros H. inversion H as [|? w ? ws A B]; subst. apply IH in B. discriminate.
    + split; [discriminate|]. intros H. inversion H as [|? w ? ws A B]; subst. apply read_col_iff in A. congruence.
Qed.
Lemma all_some_iff {A B} (g : A -> option B) l : forall r, all_some g l = Some r <-> Forall2 (fun x y => g x = Some y) l r.
Proof.
  induction l as [|x l IH]; intros r; cbn [all_some].
  - split; [intros H; assert (r = []) by congruence; subst; constructor|]. intros H. now inversion H.
  - destruct (g x) as [y|] eqn:G.
    + destruct (all_some g l) as [ys|] eqn:R.
      * split.
        -- intros H. assert (r = y :: ys) by congruence. subst. constructor; [assumption|now apply IH].
        -- intros H. inversion H as [|? w ? ws P Q]; subst. apply IH in Q. congruence.
      * split; [discriminate|]. intros H. inversion H as [|? w ? ws P Q]; subst. apply IH in Q. discriminate.
    + split; [discriminate|]. intros H. inversion H; subst. congruence.
Qed.
Lemma Forall2_iff {A B} (P Q : A -> B -> Prop) l r : (forall x y, P x y <-> Q x y) -> (Forall2 P l r <-> Forall2 Q l r).
Proof. intros E. split; induction 1; constructor; auto; now apply E. Qed.
Lemma item_rows_iff i rs : item_rows i = Some rs <-> item_gives i rs.
Proof.
  unfold item_rows, item_gives. rewrite all_some_iff. apply Forall2_iff. intros. apply read_cols_iff.
Qed.
(** Reading a row of the compound back by the names of the first item *)
Definition agree (ns : list string) (row : list cell) : Prop :=
  forall a b, (a < b < List.length ns)%nat -> lower (nth a ns "") = lower (nth b ns "") -> nth a row None = nth b row None.
Lemma read_combine ns : forall row n, List.length row = List.length ns ->
  forall k, (k < List.length ns)%nat -> lower (nth k ns "") = lower n ->
  (forall j, (j < k)%nat -> lower (nth j ns "") <> lower n) -> read_col (combine ns row) n = Some (nth k row None).
Proof.
  induction ns as [|m ns IH]; intros row n L k K E F; [cbn in K; lia|].
  destruct row as [|v row]; [discriminate|]. unfold read_col. cbn [combine find fst].
  destruct (same_name m n) eqn:SN.
  - destruct k as [|k]; [reflexivity|]. apply same_name_iff in SN. specialize (F 0%nat ltac:(lia)). cbn in F. contradiction.
  - destruct k as [|k].
    + cbn in E. apply same_name_iff in E. congruence.
    + cbn [nth]. apply (IH row n ltac:(cbn in L; lia) k); [cbn in K; lia|exact E|].
      intros j J. apply (F (S j)). lia.
Qed.
Lemma first_named ns n : forall k, (k < List.length ns)%nat -> lower (nth k ns "") = lower n ->
  exists j, (j <= k)%nat /\ lower (nth j ns "") = lower n /\ (forall i, (i < j)%nat -> lower (nth i ns "") <> lower n).
Proof.
  induction k as [k IH] using (well_founded_induction lt_wf). intros K E.
  destruct (Exists_dec (fun i => lower (nth i ns "") = lower n) (seq 0 k)) as [X|X].
  { intros i. destruct (string_dec (lower (nth i ns "")) (lower n)); [now left|now right]. }
  - apply Exists_exists in X as (i & I & X). apply in_seq in I.
    destruct (IH i ltac:(lia) ltac:(lia) X) as (j & J & P). exists j. split; [lia|exact P].
  - exists k. split; [lia|]. split; [exact E|]. intros i I H. apply X. apply Exists_exists. exists i. split; [apply in_seq; lia|exact H].
Qed.
Lemma read_cols_at f ns row : List.length row = List.length ns ->
  (read_cols f ns = Some row <-> forall k, (k < List.length ns)%nat -> read_col f (nth k ns "") = Some (nth k row None)).
Proof.
  revert row. induction ns as [|n ns IH]; intros row L; destruct row as [|v row]; try discriminate; cbn [read_cols].
  - split; [intros _ k K; cbn in K; lia|reflexivity].
  - cbn in L. specialize (IH row ltac:(lia)). split.
    + intros H. destruct (read_col f n) as [w|] eqn:C; [|discriminate]. destruct (read_cols f ns) as [ws|]; [|discriminate].
      assert (w = v /\ ws = row) as [-> ->] by (split; congruence).
      intros [|k] K; cbn [nth]; [assumption|]. apply IH; [reflexivity|cbn in K; lia].
    + intros H. pose proof (H 0%nat ltac:(cbn; lia)) as H0. cbn in H0. rewrite H0.
      assert (R : read_cols f ns = Some row) by (apply IH; intros k K; apply (H (S k)); cbn; lia). now rewrite R.
Qed.
Lemma read_back_iff ns row : List.length row = List.length ns ->
  (read_cols (combine ns row) ns = Some row <-> agree ns row).
Proof.
  intros L. rewrite read_cols_at by assumption. split.
  - intros H a b [A B] E.
    destruct (first_named ns (nth a ns "") a ltac:(lia) eq_refl) as (j & J & Ej & F).
    pose proof (read_combine ns row (nth a ns "") L j ltac:(lia) Ej F) as Ra. rewrite H in Ra by lia.
    pose proof (read_combine ns row (nth b ns "") L j ltac:(lia)) as Rb. rewrite <- E in Rb.
    specialize (Rb Ej F). specialize (H b B).
    assert (Rb' : read_col (combine ns row) (nth b ns "") = Some (nth j row None)).
    { apply (read_combine ns row _ L j ltac:(lia)); [congruence|]. intros i I. rewrite <- E. now apply F. }
    congruence.
  - intros H k K. destruct (first_named ns (nth k ns "") k K eq_refl) as (j & J & Ej & F).
    rewrite (read_combine ns row (nth k ns "") L j ltac:(lia) Ej F). f_equal.
    destruct (Nat.eq_dec j k) as [->|N]; [reflexivity|]. apply H; [lia|assumption].
Qed.
Lemma read_back_some ns row : List.length row = List.length ns -> exists r, read_cols (combine ns row) ns = Some r /\ List.length r = List.length ns.
Proof.
  intros L. assert (G : forall ms, incl ms ns -> exists r, read_cols (combine ns row) ms = Some r /\ List.length r = List.length ms).
  { induction ms as [|m ms IH]; intros I; [exists []; now split|].
    destruct (In_nth ns m "" (I m (or_introl eq_refl))) as (k & K & E).
    destruct (first_named ns m k K ltac:(now rewrite E)) as (j & J & Ej & F).
    destruct (IH (fun x X => I x (or_intror X))) as (r & R & N).
    exists (nth j row None :: r). cbn [read_cols]. rewrite (read_combine ns row m L j ltac:(lia) Ej F), R. split; [reflexivity|cbn; lia]. }
  apply G, incl_refl.
Qed.
Lemma agree_distinct ns row : NoDup (map lower ns) -> agree ns row.
Proof.
  intros D a b [A B] E. exfalso. assert (a = b); [|lia].
  apply (proj1 (NoDup_nth (map lower ns) (lower "")) D); rewrite ?map_length; try lia. now rewrite !map_nth.
Qed.
Lemma gives_width i rs : item_gives i rs -> Forall (fun r => List.length r = List.length (outs i)) rs.
Proof.
  unfold item_gives. induction 1 as [|f r fs rs H _ IH]; constructor; [|assumption]. clear -H. induction H; cbn; congruence.
Qed.
Lemma read_all_iff ns rs : Forall (fun r => List.length r = List.length ns) rs ->
  (all_some (fun row => read_cols (combine ns row) ns) rs = Some rs <-> Forall (agree ns) rs).
Proof.
  intros W. rewrite all_some_iff. induction W as [|r rs L W IH].
  - split; constructor.
  - split; intros H; inversion H; subst; constructor; try (now apply IH); now apply read_back_iff.
Qed.
Lemma compounds_union is : forall acc rss, Forall2 item_gives is rss -> compounds UnionAll acc is = Some (acc ++ concat rss)%list.
Proof.
  induction is as [|i is IH]; intros acc rss H; inversion H; subst; cbn [compounds concat].
  - now rewrite app_nil_r.
  - rewrite (proj2 (item_rows_iff i y)) by assumption. cbn [compound]. rewrite (IH _ l') by assumption. now rewrite app_assoc.
Qed.

(** Operations with DISTINCT *)
Section Distinct.
  Variable ts : list ty.
  Let ok := Forall (plain_row ts).
  Definition no_repeats (l : list (list cell)) : Prop := ForallOrdPairs (fun a b => ~ equal_rows a b) l.
  Lemma ok_filter f l : ok l -> ok (filter f l).
  Proof. intros O. apply Forall_forall. intros x X. apply filter_In in X as [X _]. eapply Forall_forall in O; eassumption. Qed.
  Lemma distinct_incl l : incl (distinct_rows l) l.
  Proof.
    induction l as [|r l IH]; [apply incl_refl|]. cbn [distinct_rows]. intros x [->|X]; [now left|].
    apply filter_In in X as [X _]. right. now apply IH.
  Qed.
  Lemma ok_incl l m : incl l m -> ok m -> ok l.
  Proof. intros I O. apply Forall_forall. intros x X. eapply Forall_forall in O; [exact O|now apply I]. Qed.
  Lemma pairs_filter {A} (R : A -> A -> Prop) f l : ForallOrdPairs R l -> ForallOrdPairs R (filter f l).
  Proof.
    induction 1 as [|x l F P IH]; cbn [filter]; [constructor|]. destruct (f x); [|assumption]. constructor; [|assumption].
    apply Forall_forall. intros y Y. apply filter_In in Y as [Y _]. eapply Forall_forall in F; eassumption.
  Qed.
  Lemma distinct_no_repeats l : ok l -> no_repeats (distinct_rows l).
  Proof.
    induction 1 as [|r l R O IH]; cbn [distinct_rows]; constructor.
    - apply Forall_forall. intros x X. apply filter_In in X as [X N]. intros E.
      assert (P : plain_row ts x) by (eapply Forall_forall in O; [exact O|now apply distinct_incl]).
      apply (same_row_iff ts r x R P) in E. rewrite E in N. discriminate.
    - now apply pairs_filter.
  Qed.
  Lemma distinct_holds l r : ok l -> plain_row ts r -> (holds r (distinct_rows l) <-> holds r l).
  Proof.
    intros O R. split.
    - intros (x & X & E). exists x. split; [now apply distinct_incl|assumption].
    - revert R. induction O as [|y l Y O IH]; intros R (x & X & E); [destruct X|]. cbn [distinct_rows].
      destruct X as [->|X]; [exists x; split; [now left|assumption]|].
      destruct (IH R (ex_intro _ x (conj X E))) as (z & W & F).
      assert (P : plain_row ts z) by (eapply Forall_forall in O; [exact O|now apply distinct_incl]).
      destruct (same_row y z) eqn:D.
      + apply (same_row_iff ts y z Y P) in D. exists y. split; [now left|].
        eapply (equal_rows_trans ts r z y); eauto. now apply (equal_rows_sym ts y z).
      + exists z. split; [|assumption]. right. apply filter_In. now rewrite D.
  Qed.
  Lemma in_rows_iff r l : plain_row ts r -> ok l -> (in_rows r l = true <-> holds r l).
  Proof.
    intros R O. unfold in_rows, holds. rewrite existsb_exists. split; intros (x & X & E); exists x; split; auto;
      (apply (same_row_iff ts r x R); [eapply Forall_forall in O; eassumption|assumption]).
  Qed.
  Lemma holds_equal r s l : plain_row ts r -> plain_row ts s -> ok l -> equal_rows r s -> (holds r l <-> holds s l).
  Proof.
    intros R Q O E. split; intros (x & X & F); exists x; split; auto; assert (P : plain_row ts x) by (eapply Forall_forall in O; eassumption).
    - eapply (equal_rows_trans ts s r x); eauto. now apply (equal_rows_sym ts r s).
    - eapply (equal_rows_trans ts r s x); eauto.
  Qed.
  Lemma holds_filter f r l : plain_row ts r -> ok l -> (forall x, In x l -> equal_rows r x -> f x = f r) ->
    (holds r (filter f l) <-> holds r l /\ f r = true).
  Proof.
    intros R O C. split.
    - intros (x & X & E). apply filter_In in X as [X F]. split; [exists x; now split|]. rewrite <- (C x X E). exact F.
    - intros [(x & X & E) F]. exists x. split; [|assumption]. apply filter_In. split; [assumption|]. now rewrite (C x X E).
  Qed.
  Lemma in_rows_same r x l : plain_row ts r -> plain_row ts x -> ok l -> equal_rows r x -> in_rows x l = in_rows r l.
  Proof.
    intros R X O E. pose proof (in_rows_iff r l R O). pose proof (in_rows_iff x l X O). pose proof (holds_equal r x l R X O E).
    destruct (in_rows x l), (in_rows r l); intuition congruence.
  Qed.
  Definition distinct_op (op : setop) : Prop := op = UnionDistinct \/ op = IntersectDistinct \/ op = ExceptDistinct.
  Definition joins (op : setop) (r : list cell) (a b : list (list cell)) : Prop :=
    match op with
    | UnionDistinct => holds r a \/ holds r b
    | IntersectDistinct => holds r a /\ holds r b
    | _ => holds r a /\ ~ holds r b
    end.
  Lemma holds_app r a b : holds r (a ++ b)%list <-> holds r a \/ holds r b.
  Proof.
    unfold holds. split.
    - intros (x & X & E). apply in_app_iff in X as [X|X]; [left|right]; exists x; now split.
    - intros [(x & X & E)|(x & X & E)]; exists x; split; auto; apply in_app_iff; auto.
  Qed.
  Lemma compound_right op a b : distinct_op op -> ok a -> ok b ->
    exists c, compound op a b = Some c /\ no_repeats c /\ incl c (a ++ b)%list /\
      forall r, plain_row ts r -> (holds r c <-> joins op r a b).
  Proof.
    intros [-> | [-> | ->]] A B; cbn [compound joins]; (eexists; split; [reflexivity|]).
    - assert (O : ok (a ++ b)%list) by (apply Forall_app; now split).
      split; [now apply distinct_no_repeats|]. split; [apply distinct_incl|]. intros r R.
      rewrite distinct_holds by assumption. apply holds_app.
    - set (f := fun r => in_rows r b). assert (O : ok (filter f a)) by now apply ok_filter.
      split; [now apply distinct_no_repeats|]. split.
      + intros x X. apply distinct_incl in X. apply filter_In in X as [X _]. apply in_app_iff. now left.
      + intros r R. rewrite distinct_holds by assumption. rewrite holds_filter; auto.
        * unfold f. now rewrite in_rows_iff.
        * intros x X E. unfold f. apply in_rows_same; auto. eapply Forall_forall in A; eassumption.
    - set (f := fun r => negb (in_rows r b)). assert (O : ok (filter f a)) by now apply ok_filter.
      split; [now apply distinct_no_repeats|]. split.
      + intros x X. apply distinct_incl in X. apply filter_In in X as [X _]. apply in_app_iff. now left.
      + intros r R. rewrite distinct_holds by assumption. rewrite holds_filter; auto.
        * unfold f. pose proof (in_rows_iff r b R B). destruct (in_rows r b); cbn; intuition congruence.
        * intros x X E. unfold f. f_equal. apply in_rows_same; auto. eapply Forall_forall in A; eassumption.
  Qed.
  Definition joins_all (op : setop) (r : list cell) (a : list (list cell)) (rss : list (list (list cell))) : Prop :=
    match op with
    | UnionDistinct => holds r a \/ Exists (holds r) rss
    | IntersectDistinct => holds r a /\ Forall (holds r) rss
    | _ => holds r a /\ Forall (fun rs => ~ holds r rs) rss
    end.
  Lemma joins_step op r a b c rss : distinct_op op -> (holds r c <-> joins op r a b) ->
    (joins_all op r c rss <-> joins_all op r a (b :: rss)).
  Proof.
    intros [-> | [-> | ->]]; cbn [joins joins_all]; intros H; rewrite H; rewrite ?Exists_cons, ?Forall_cons_iff; tauto.
  Qed.
  Lemma compounds_right op : distinct_op op -> forall is rss acc, ok acc -> no_repeats acc -> Forall2 item_gives is rss -> Forall ok rss ->
    exists c, compounds op acc is = Some c /\ no_repeats c /\ incl c (acc ++ concat rss)%list /\
      forall r, plain_row ts r -> (holds r c <-> joins_all op r acc rss).
  Proof.
    intros D is. induction is as [|i is IH]; intros rss acc A N G O; inversion G as [|? b ? rss' Gi Gs]; subst; cbn [compounds].
    - exists acc. split; [reflexivity|]. split; [assumption|]. split; [intros x X; apply in_app_iff; now left|].
      intros r R. destruct D as [-> | [-> | ->]]; cbn [joins_all]; rewrite ?Exists_nil; intuition.
    - inversion O as [|? ? Ob Os]; subst. rewrite (proj2 (item_rows_iff i b)) by assumption.
      destruct (compound_right op acc b D A Ob) as (c & -> & Nc & Ic & Hc).
      assert (Oc : ok c) by (eapply ok_incl; [exact Ic|apply Forall_app; now split]).
      destruct (IH rss' c Oc Nc Gs Os) as (d & -> & Nd & Id & Hd).
      exists d. split; [reflexivity|]. split; [assumption|]. split.
      + intros x X. apply Id in X. cbn [concat]. rewrite app_assoc. apply in_app_iff in X as [X|X]; apply in_app_iff; [left; now apply Ic|now right].
      + intros r R. rewrite (Hd r R). apply (joins_step op r acc b c); auto.
  Qed.
End Distinct.

(** ** ORDER BY *)
Lemma cmp_trichotomy t a b : plain t (Some a) -> plain t (Some b) ->
  (engine_cmp (Some a) (Some b) = -1 /\ less a b) \/ (engine_cmp (Some a) (Some b) = 0 /\ equal_keys (Some a) (Some b)) \/
  (engine_cmp (Some a) (Some b) = 1 /\ less b a).
Proof.
  intros A B. cbn [plain] in A, B.
  assert (Z_ : forall x y, (sign (x ?= y) = -1 /\ x < y) \/ (sign (x ?= y) = 0 /\ x = y) \/ (sign (x ?= y) = 1 /\ y < x)).
  { intros x y. destruct (Z.compare_spec x y); cbn [sign]; tauto. }
  destruct t, a; cbn [plain_value] in A; try tauto; destruct b; cbn [plain_value] in B; try tauto;
    unfold engine_cmp; cbn [engine_null equal_keys less alike];
    try (match goal with |- context[collate ?x ?y] => destruct (collate_spec x y I) as [H|[H|H]]; tauto end).
  - apply Z_.
  - destruct A as [VA NA], B as [VB NB]. rewrite NA, NB. rewrite float_compare_spec by (split; assumption). cbn [before].
    destruct (Z_ (float_scaled f) (float_scaled f0)) as [H|[H|H]]; tauto.
  - destruct b0, b; cbn; tauto.
Qed.
Lemma null_plain t o : plain t o -> (engine_null o = true <-> o = None).
Proof.
  destruct o as [v|]; cbn; [|tauto]. intros P. split; [|discriminate]. destruct v; try discriminate.
  destruct t; cbn in P; try tauto. destruct P as [_ ->]. discriminate.
Qed.
Definition term_list_cmp (i : order_item) (r s : list cell) : Z := terms_cmp (terms_of i) r s.
Lemma terms_app a b r s : terms_cmp (a ++ b)%list r s = if terms_cmp a r s =? 0 then terms_cmp b r s else terms_cmp a r s.
Proof.
  induction a as [|t a IH]; [reflexivity|]. cbn [terms_cmp app]. destruct (term_cmp t r s =? 0) eqn:E; [exact IH|].
  now rewrite E.
Qed.
Lemma engine_cmp_null_l b : engine_null b = false -> engine_cmp None b = -1.
Proof. intros H. unfold engine_cmp. cbn [engine_null]. now rewrite H. Qed.
Lemma engine_cmp_null_r a : engine_null a = false -> engine_cmp a None = 1.
Proof. intros H. unfold engine_cmp. cbn [engine_null]. now rewrite H. Qed.
Definition item_terms_cmp (i : order_item) (x y : cell) : Z :=
  let v := if desc i then - engine_cmp x y else engine_cmp x y in
  match nulls i with
  | NullsDefault => v
  | NullsFirst => let z := bool_cmp (negb (engine_null x)) (negb (engine_null y)) in if z =? 0 then v else z
  | NullsLast => let z := bool_cmp (engine_null x) (engine_null y) in if z =? 0 then v else z
  end.
Lemma terms_of_cmp i r s : terms_cmp (terms_of i) r s = item_terms_cmp i (nth (col i) r None) (nth (col i) s None).
Proof.
  assert (E : forall z, (if z =? 0 then 0 else z) = z) by (intros z; destruct (Z.eqb_spec z 0); lia).
  unfold terms_of, item_terms_cmp. destruct (nulls i); cbn [app terms_cmp term_cmp]; unfold at_col; cbv zeta; now rewrite E.
Qed.
Lemma item_cmp t i x y : plain t x -> plain t y ->
  (item_terms_cmp i x y < 0 /\ cell_before i x y) \/ (item_terms_cmp i x y = 0 /\ equal_keys x y) \/ (item_terms_cmp i x y > 0 /\ cell_before i y x).
Proof.
  intros R Q.
  assert (N : forall v, plain t (Some v) -> engine_null (Some v) = false).
  { intros v P. destruct (engine_null (Some v)) eqn:E; [apply (null_plain t) in E; [discriminate|assumption]|reflexivity]. }
  destruct x as [x|], y as [y|].
  - unfold item_terms_cmp. rewrite (N x R), (N y Q). cbn [cell_before].
    destruct (cmp_trichotomy t x y R Q) as [[-> H]|[[-> H]|[-> H]]]; destruct (nulls i), (desc i); cbn -[equal_keys];
      first [left; split; [lia|assumption] | right; left; split; [reflexivity|assumption] | right; right; split; [lia|assumption]].
  - pose proof (engine_cmp_null_r (Some x) (N x R)) as C.
    unfold item_terms_cmp, cell_before, nulls_first. rewrite (N x R), C. cbn [engine_null].
    destruct (nulls i), (desc i); cbn; first [left; split; [lia|reflexivity] | right; right; split; [lia|reflexivity]].
  - pose proof (engine_cmp_null_l (Some y) (N y Q)) as C.
    unfold item_terms_cmp, cell_before, nulls_first. rewrite (N y Q), C. cbn [engine_null].
    destruct (nulls i), (desc i); cbn; first [left; split; [lia|reflexivity] | right; right; split; [lia|reflexivity]].
  - right; left. unfold item_terms_cmp. destruct (nulls i), (desc i); cbn; tauto.
Qed.
Section Order.
  Variable tcol : nat -> ty.
  Definition fits (l : list order_item) (r : list cell) : Prop := Forall (fun i => plain (tcol (col i)) (nth (col i) r None)) l.
  Definition rows_equal (l : list order_item) (r s : list cell) : Prop := Forall (fun i => equal_keys (nth (col i) r None) (nth (col i) s None)) l.
  Lemma less_asym a b : less a b -> ~ less b a.
  Proof.
    destruct a, b; cbn [less before]; try tauto; try lia.
    - intros A B. eapply bytes_before_irrefl, bytes_before_trans; eassumption.
    - intros A B. eapply bytes_before_irrefl, bytes_before_trans; eassumption.
    - intros A B. eapply Qlt_irrefl, Qlt_trans; eassumption.
    - intros [-> ->] [C D]. discriminate.
  Qed.
  Lemma less_not_equal a b : less a b -> ~ equal_keys (Some a) (Some b) /\ ~ equal_keys (Some b) (Some a).
  Proof.
    destruct a, b; cbn [less before equal_keys alike]; try tauto; try lia; intros A; (split; intros E);
      first [ rewrite E in A; now apply bytes_before_irrefl in A
            | rewrite E in A; now apply Qlt_irrefl in A
            | destruct A; congruence
            | destruct E as [[E1 E2]|[E1 [E2 E3]]]; [|lia]; destruct f, f0; try discriminate; cbn in A; lia ].
  Qed.
  Lemma cell_before_asym i x y : cell_before i x y -> ~ cell_before i y x.
  Proof. destruct x, y; cbn [cell_before]; try congruence; try tauto. destruct (desc i); apply less_asym. Qed.
  Lemma cell_before_not_equal i x y : cell_before i x y -> ~ equal_keys x y /\ ~ equal_keys y x.
  Proof.
    destruct x as [x|], y as [y|]; cbn [cell_before]; try tauto.
    - intros B. destruct (desc i); [apply less_not_equal in B as [A B]; split; assumption|now apply less_not_equal].
    - intros _. split; [destruct x|]; cbn; tauto.
    - intros _. split; [|destruct y]; cbn; tauto.
  Qed.
  Lemma equal_sym t x y : plain t x -> plain t y -> equal_keys x y -> equal_keys y x.
  Proof. intros X Y. now destruct (equal_keys_equiv t x y y X Y Y) as (_ & A & _). Qed.
  Lemma order_right : forall l r s, fits l r -> fits l s ->
    (order_cmp l r s < 0 /\ row_before l r s) \/ (order_cmp l r s = 0 /\ rows_equal l r s) \/ (order_cmp l r s > 0 /\ row_before l s r).
  Proof.
    unfold order_cmp. induction l as [|i l IH]; intros r s R Q.
    - right; left. split; [reflexivity|constructor].
    - inversion R as [|? ? Ri Rl]; subst. inversion Q as [|? ? Qi Ql]; subst. cbn [flat_map]. rewrite terms_app, terms_of_cmp.
      destruct (item_cmp _ i _ _ Ri Qi) as [[C D]|[[C D]|[C D]]].
      + left. destruct (Z.eqb_spec (item_terms_cmp i (nth (col i) r None) (nth (col i) s None)) 0); [lia|]. split; [assumption|now constructor].
      + rewrite C. cbn [Z.eqb]. destruct (IH r s Rl Ql) as [[E F]|[[E F]|[E F]]].
        * left. split; [assumption|]. now apply rb_next.
        * right; left. split; [assumption|]. now constructor.
        * right; right. split; [assumption|]. apply rb_next; [|assumption]. eapply equal_sym; eassumption.
      + right; right. destruct (Z.eqb_spec (item_terms_cmp i (nth (col i) r None) (nth (col i) s None)) 0); [lia|]. split; [assumption|now constructor].
  Qed.
End Order.

(** ** Grouping *)
Lemma Forall_filter_nil {A} (f : A -> bool) l : filter f l = [] <-> Forall (fun x => f x = false) l.
Proof.
  induction l as [|x l IH]; cbn [filter]; [split; constructor|]. destruct (f x) eqn:F.
  - split; [discriminate|]. intros H. inversion H. congruence.
  - rewrite IH. split; [now constructor|]. intros H. now inversion H.
Qed.
Section Grouping.
  Variable l : loc.
  Variable s : list nat.
  Variable P : list cell -> Prop.
  Variable E : list cell -> list cell -> bool.
  Hypothesis HT : forall a b, P a -> P b -> together l (keys_at s a) (keys_at s b) = Ok (E a b).
  Hypothesis E_refl : forall a, P a -> E a a = true.
  Hypothesis E_sym : forall a b, P a -> P b -> E a b = true -> E b a = true.
  Hypothesis E_trans : forall a b c, P a -> P b -> P c -> E a b = true -> E b c = true -> E a c = true.
  Definition is_group (done g : list (list cell)) : Prop := exists h t, g = h :: t /\ g = filter (fun x => E x h) done.
  Definition apart (g g' : list (list cell)) : Prop := forall a b, In a g -> In b g' -> E a b = false.
  Definition inv (done : list (list cell)) (gs : list (list (list cell))) : Prop :=
    Forall (is_group done) gs /\ (forall r, In r done -> exists g, In g gs /\ In r g) /\ ForallOrdPairs apart gs.
  Lemma group_in done g x : Forall P done -> is_group done g -> In x g -> In x done /\ P x.
  Proof.
    intros D (h & t & -> & F) X. rewrite F in X. apply filter_In in X as [X _]. split; [assumption|].
    eapply Forall_forall in D; eassumption.
  Qed.
  Lemma unaffected done r h t : P r -> Forall P done -> is_group done (h :: t) -> E r h = false -> is_group (done ++ [r])%list (h :: t).
  Proof.
    intros R D (h' & t' & Eq & F) N. assert (h' = h /\ t' = t) as [-> ->] by (split; congruence).
    exists h, t. split; [reflexivity|]. rewrite filter_app. cbn [filter]. rewrite N, app_nil_r. exact F.
  Qed.
  Lemma extended done r h t : is_group done (h :: t) -> E r h = true -> is_group (done ++ [r])%list (h :: t ++ [r])%list.
  Proof.
    intros (h' & t' & Eq & F) N. assert (h' = h /\ t' = t) as [-> ->] by (split; congruence).
    exists h, (t ++ [r])%list. split; [reflexivity|]. rewrite filter_app. cbn [filter]. rewrite N, <- F. reflexivity.
  Qed.
  Lemma head_equal done h t x : P h -> is_group done (h :: t) -> In x (h :: t) -> E x h = true.
  Proof.
    intros H (h' & t' & Eq & F) X. assert (h' = h /\ t' = t) as [-> ->] by (split; congruence).
    rewrite F in X. now apply filter_In in X as [_ X].
  Qed.
  (** Putting a row into groups none of which it belongs to, or into the one it belongs to *)
  Lemma put_right r done : P r -> Forall P done -> forall gs, Forall (is_group done) gs -> ForallOrdPairs apart gs ->
    exists gs', put l s r gs = Ok gs' /\
     ((Forall (fun g => Forall (fun x => E r x = false) g) gs /\ gs' = (gs ++ [[r]])%list) \/
      (exists pre h t post, gs = (pre ++ (h :: t) :: post)%list /\ gs' = (pre ++ (h :: t ++ [r]) :: post)%list /\ E r h = true)).
  Proof.
    intros R D. induction gs as [|g gs IH]; intros G A.
    - exists [[r]]. split; [reflexivity|]. left. split; [constructor|reflexivity].
    - inversion G as [|? ? Gg Gs]; subst. inversion A as [|? ? Ag As]; subst.
      destruct Gg as (h & t & -> & F).
      assert (Gg : is_group done (h :: t)) by (exists h, t; now split).
      assert (Ph : P h) by (eapply group_in; [exact D|exact Gg|now left]).
      cbn [put]. rewrite (HT r h R Ph). cbn [bind]. destruct (E r h) eqn:Er.
      + exists ((h :: t ++ [r])%list :: gs). split; [reflexivity|]. right. exists [], h, t, gs. now repeat split.
      + destruct (IH Gs As) as (gs' & -> & [[N ->]|(pre & h' & t' & post & -> & -> & Er')]); cbn [bind].
        * exists ((h :: t) :: gs ++ [[r]])%list. split; [reflexivity|]. left. split; [|reflexivity]. constructor; [|assumption].
          apply Forall_forall. intros x X. destruct (E r x) eqn:Ex; [|reflexivity].
          destruct (group_in done (h :: t) x D Gg X) as [_ Px].
          rewrite (E_trans r x h) in Er; auto. eapply head_equal; eassumption.
        * eexists. split; [reflexivity|]. right. exists ((h :: t) :: pre), h', t', post. now repeat split.
  Qed.
  Lemma pairs_app {A} (Rel : A -> A -> Prop) (a b : list A) :
    ForallOrdPairs Rel (a ++ b)%list <-> ForallOrdPairs Rel a /\ ForallOrdPairs Rel b /\ Forall (fun x => Forall (Rel x) b) a.
  Proof.
    induction a as [|x a IH]; cbn [app].
    - split; [intros H; split; [constructor|split; [assumption|constructor]]|tauto].
    - split.
      + intros H. inversion H as [|? ? F Q]; subst. apply Forall_app in F as [F1 F2]. apply IH in Q as (Q1 & Q2 & Q3).
        split; [now constructor|]. split; [assumption|now constructor].
      + intros (H1 & H2 & H3). inversion H1 as [|? ? F Q]; subst. inversion H3; subst. constructor; [apply Forall_app; now split|]. now apply IH.
  Qed.
  Lemma put_inv r done gs : P r -> Forall P done -> inv done gs -> exists gs', put l s r gs = Ok gs' /\ inv (done ++ [r])%list gs'.
  Proof.
    intros R D (G & C & A). destruct (put_right r done R D gs G A) as (gs' & Pt & W). exists gs'. split; [exact Pt|].
    destruct W as [[N ->]|(pre & h & t & post & -> & -> & Er)].
    - split; [|split].
      + apply Forall_app. split.
        * apply Forall_forall. intros g I. eapply Forall_forall in G; [|exact I]. eapply Forall_forall in N; [|exact I].
          pose proof G as (h & t & Eq & F). subst g. apply unaffected; auto. eapply Forall_forall in N; [exact N|now left].
        * constructor; [|constructor]. exists r, []. split; [reflexivity|]. rewrite filter_app. cbn [filter]. rewrite (E_refl r R).
          rewrite (proj2 (Forall_filter_nil (fun x => E x r) done)); [reflexivity|].
          apply Forall_forall. intros x X. destruct (E x r) eqn:Ex; [|reflexivity].
          destruct (C x X) as (g & I & Xg). eapply Forall_forall in N; [|exact I]. eapply Forall_forall in N; [|exact Xg].
          assert (Px : P x) by (eapply Forall_forall in D; eassumption). rewrite (E_sym x r Px R Ex) in N. discriminate.
      + intros x X. apply in_app_iff in X as [X|[<-|[]]].
        * destruct (C x X) as (g & I & Xg). exists g. split; [apply in_app_iff; now left|assumption].
        * exists [r]. split; [apply in_app_iff; right; now left|now left].
      + apply pairs_app. split; [assumption|]. split; [constructor; constructor|].
        apply Forall_forall. intros g I. constructor; [|constructor]. intros a b Ia [<-|[]].
        destruct (E a r) eqn:Ea; [|reflexivity]. eapply Forall_forall in N; [|exact I]. eapply Forall_forall in N; [|exact Ia].
        assert (Pa : P a) by (eapply group_in; [exact D|eapply Forall_forall in G; [exact G|exact I]|exact Ia]).
        rewrite (E_sym a r Pa R Ea) in N. discriminate.
    - apply Forall_app in G as [G1 G2]. inversion G2 as [|? ? Gh G3]; subst. apply pairs_app in A as (A1 & A2 & A3).
      inversion A2 as [|? ? Ah A4]; subst.
      assert (Ph : P h) by (eapply group_in; [exact D|exact Gh|now left]).
      assert (Oth : forall g, is_group done g -> (apart g (h :: t) \/ apart (h :: t) g) -> forall x, In x g -> E r x = false /\ E x r = false).
      { intros g Gg Ap x X. assert (Px : P x) by (eapply group_in; [exact D|exact Gg|exact X]).
        assert (K : E r x = false).
        { destruct (E r x) eqn:Ex; [|reflexivity]. destruct Ap as [Ap|Ap].
          - rewrite <- (Ap x h X (or_introl eq_refl)). symmetry. apply (E_trans x r h); auto.
          - rewrite <- (Ap h x (or_introl eq_refl) X). symmetry. apply (E_trans h r x); auto. }
        split; [exact K|]. destruct (E x r) eqn:Ex; [|reflexivity]. rewrite (E_sym x r Px R Ex) in K. discriminate. }
      assert (Pre : forall g, In g pre -> apart g (h :: t)).
      { intros g I. eapply Forall_forall in A3; [|exact I]. now inversion A3. }
      assert (Post : forall g, In g post -> apart (h :: t) g).
      { intros g I. eapply Forall_forall in Ah; [|exact I]. exact Ah. }
      split; [|split].
      + apply Forall_app. split; [|constructor].
        * apply Forall_forall. intros g I. eapply Forall_forall in G1; [|exact I]. pose proof G1 as (h' & t' & Eq & F). subst g.
          apply unaffected; auto. apply (Oth (h' :: t') G1 (or_introl (Pre _ I))). now left.
        * now apply extended.
        * apply Forall_forall. intros g I. eapply Forall_forall in G3; [|exact I]. pose proof G3 as (h' & t' & Eq & F). subst g.
          apply unaffected; auto. apply (Oth (h' :: t') G3 (or_intror (Post _ I))). now left.
      + intros x X. apply in_app_iff in X as [X|[<-|[]]].
        * destruct (C x X) as (g & I & Xg). apply in_app_iff in I as [I|[<-|I]].
          -- exists g. split; [apply in_app_iff; now left|assumption].
          -- exists (h :: t ++ [r])%list. split; [apply in_app_iff; right; now left|].
             destruct Xg as [->|Xg]; [now left|right; apply in_app_iff; now left].
          -- exists g. split; [apply in_app_iff; right; now right|assumption].
        * exists (h :: t ++ [r])%list. split; [apply in_app_iff; right; now left|]. right. apply in_app_iff. right. now left.
      + assert (Spl : forall x, In x (h :: t ++ [r])%list -> In x (h :: t) \/ x = r).
        { intros x [->|X]; [left; now left|]. apply in_app_iff in X as [X|[<-|[]]]; [left; now right|now right]. }
        apply pairs_app. split; [assumption|]. split.
        * constructor; [|assumption]. apply Forall_forall. intros g I a b Ia Ib. destruct (Spl a Ia) as [Ia'| ->].
          -- exact (Post g I a b Ia' Ib).
          -- eapply Forall_forall in G3; [|exact I]. now apply (Oth g G3 (or_intror (Post g I))).
        * apply Forall_forall. intros g I. constructor.
          -- intros a b Ia Ib. destruct (Spl b Ib) as [Ib'| ->]; [exact (Pre g I a b Ia Ib')|].
             eapply Forall_forall in G1; [|exact I]. now apply (Oth g G1 (or_introl (Pre g I))).
          -- eapply Forall_forall in A3; [|exact I]. now inversion A3.
  Qed.
  Lemma groups_inv rows : Forall P rows -> forall done gs, Forall P done -> inv done gs ->
    exists gs', groups l s gs rows = Ok gs' /\ inv (done ++ rows)%list gs'.
  Proof.
    induction 1 as [|r rows R F IH]; intros done gs D Iv; cbn [groups].
    - exists gs. rewrite app_nil_r. now split.
    - destruct (put_inv r done gs R D Iv) as (gs1 & -> & Iv1). cbn [bind].
      destruct (IH (done ++ [r])%list gs1) as (gs' & G & Iv').
      + apply Forall_app. split; [assumption|now constructor].
      + exact Iv1.
      + exists gs'. split; [exact G|]. now rewrite <- app_assoc in Iv'.
  Qed.
End Grouping.

(** ** UNNEST *)
Lemma integral_iff f z : integral f = Some z <-> float_is f z.
Proof.
  destruct f as [s|s| |s m e]; cbn [integral float_is]; try (split; [discriminate|tauto]).
  - split; intros H; congruence.
  - destruct (Z.leb_spec 0 e).
    + split.
      * intros H1. exists (Zpos m * 2 ^ e). split; [congruence|reflexivity].
      * intros (a & <- & ->). reflexivity.
    + assert (T : 0 < 2 ^ (- e)) by (apply Z.pow_pos_nonneg; lia).
      destruct (Z.eqb_spec (Zpos m mod 2 ^ (- e)) 0) as [M|M].
      * pose proof (Z.div_mod (Zpos m) (2 ^ (- e)) ltac:(lia)) as D. split.
        -- intros H1. exists (Zpos m / 2 ^ (- e)). split; [congruence|lia].
        -- intros (a & <- & A). do 2 f_equal. rewrite <- A, Z.div_mul by lia. now destruct s.
      * split; [discriminate|]. intros (a & _ & A). exfalso. apply M. rewrite <- A. apply Z.mod_mul. lia.
Qed.
Lemma float_is_finite f z : float_is f z -> finite f = true.
Proof. destruct f; cbn; tauto. Qed.
Lemma nspd_val : ns_per_day = 86400000000000.
Proof. reflexivity. Qed.
Lemma parsed_time_micros t w : parse_time (clock_text t) = Some w -> w mod 1000 = 0.
Proof.
  rewrite parse_time_text. intros H.
  assert (E : w = (godate 0 1 1 * 86400 + clock t) * ns_per_sec + nanosecond t / 1000 * 1000) by congruence.
  rewrite E. unfold ns_per_sec. replace ((godate 0 1 1 * 86400 + clock t) * 1000000000 + nanosecond t / 1000 * 1000) with
    (((godate 0 1 1 * 86400 + clock t) * 1000000 + nanosecond t / 1000) * 1000) by lia. apply Z.mod_mul. lia.
Qed.
Section UnnestProofs.
  Variable big : float -> enc.
  (** One element: into the array, out of it, into the JSON text, out of that. *)
  Definition passes (o w : cell) : Prop :=
    exists e v e2 e3, encode_elem o = Ok e /\ decode_elem e = Ok v /\ encode_opt v = Ok e2 /\ json_value big e2 = Ok e3 /\ decode_value e3 = Ok w.
  Lemma text_passes o h b v b2 w : encode_opt o = Ok (EText h b) -> decode_text h b = Ok (Some v) -> encode_value v = Ok (EText h b2) ->
    decode_text h b2 = Ok w -> passes o w.
  Proof.
    intros A B C D. exists (EText h b), (Some v), (EText h b2), (EText h b2). unfold encode_elem. rewrite A. now repeat split.
  Qed.
  Lemma element_passes o : element o -> exists w, passes o w /\ unnested o w.
  Proof.
    destruct o as [v|].
    2:{ intros _. exists None. split; [|exact I]. exists ENull, None, ENull, ENull. now repeat split. }
    destruct v as [z|s|s|f|q|b|s|l|l|t|t|t|t|m d n]; cbn [element]; intros H; try contradiction.
    - exists (Some (VInt z)). split; [|reflexivity].
      pose proof (float_is_of_int z H) as F. pose proof (proj2 (integral_iff _ _) F) as Iz.
      exists (EInt z), (Some (VFloat (float_of_int z))), (EFloat (float_of_int z)), (EInt z).
      split; [reflexivity|]. split; [reflexivity|]. split; [reflexivity|]. split; [|reflexivity].
      cbn [json_value]. rewrite (float_is_finite _ _ F), Iz. now rewrite (proj2 (Z.ltb_lt _ _) H).
    - exists (Some (VStr s)). split; [|reflexivity]. pose proof (sanitize_ok s H) as K.
      apply (text_passes _ HString (sanitize s) (VStr s) (sanitize s)); cbn [encode_opt encode_value decode_text]; now rewrite ?K.
    - exists (Some (VBytes s)). split; [|reflexivity].
      apply (text_passes _ HBytes (sanitize (base64_text s)) (VBytes s) (sanitize (base64_text s))); cbn [encode_opt encode_value decode_text]; rewrite ?base64_round; reflexivity.
    - destruct H as [Fi Sm]. destruct (integral f) as [z|] eqn:Iz.
      + exists (Some (VInt z)). pose proof (proj1 (integral_iff f z) Iz) as F. split; [|exact F].
        exists (EFloat f), (Some (VFloat f)), (EFloat f), (EInt z). unfold encode_elem. cbn [encode_opt encode_value bind marshal decode_elem decode_value].
        rewrite Fi. repeat split. cbn [json_value]. rewrite Fi, Iz. now rewrite (proj2 (Z.ltb_lt _ _) (Sm z F)).
      + exists (Some (VFloat f)). split; [|reflexivity].
        exists (EFloat f), (Some (VFloat f)), (EFloat f), (EFloat f). unfold encode_elem. cbn [encode_opt encode_value bind marshal decode_elem decode_value].
        rewrite Fi. repeat split. cbn [json_value]. now rewrite Fi, Iz.
    - exists (Some (VNum (Qred (Qred q)))). split; [|cbn [unnested alike]; now rewrite !Qred_correct].
      apply (text_passes _ HNumeric (sanitize (rat_text q)) (VNum (Qred q)) (sanitize (rat_text (Qred q)))); cbn [encode_opt encode_value decode_text]; rewrite ?rat_round; reflexivity.
    - exists (Some (VInt (if b then 1 else 0))). split; [|reflexivity].
      exists (EBool b), (Some (VBool b)), (EBool b), (EInt (if b then 1 else 0)). now repeat split.
    - destruct H as [M Y]. exists (Some (VDate t)). split; [|reflexivity].
      assert (D : decode_text HDate (date_text (day_no t)) = Ok (Some (VDate t))) by (apply date_round; [exact M|exact Y]).
      apply (text_passes _ HDate (date_text (day_no t)) (VDate t) (date_text (day_no t))); auto.
    - destruct H as [M Y]. exists (Some (VDatetime t)). split; [|reflexivity].
      assert (D : decode_text HDatetime (datetime_text t) = Ok (Some (VDatetime t))).
      { cbn [decode_text]. rewrite (proj1 (c100_datetime_text_reads_back t Y M)). reflexivity. }
      apply (text_passes _ HDatetime (datetime_text t) (VDatetime t) (datetime_text t)); auto.
    - destruct (c100_time_text_reads_back t H) as (t1 & E1 & C1 & N1 & _).
      pose proof (parsed_time_micros t t1 E1) as M1.
      destruct (c100_time_text_reads_back t1 M1) as (t2 & E2 & C2 & N2 & _).
      exists (Some (VTime t2)). split; [|cbn [unnested]; split; congruence].
      apply (text_passes _ HTime (clock_text t) (VTime t1) (clock_text t1)); cbn [encode_opt encode_value decode_text]; rewrite ?E1, ?E2; reflexivity.
    - destruct H as [M R]. exists (Some (VTimestamp t)). split; [|reflexivity].
      assert (D : decode_text HTimestamp (dec (unix_micro t)) = Ok (Some (VTimestamp t))).
      { cbn [decode_text]. rewrite timestamp_round by auto. reflexivity. }
      apply (text_passes _ HTimestamp (dec (unix_micro t)) (VTimestamp t) (dec (unix_micro t))); auto.
  Qed.
  Lemma elements_pass l ws : Forall2 passes l ws -> exists es vs e2,
    encode_elems l = Ok es /\ decode_elems es = Ok vs /\ each big vs = Ok e2 /\ decode_all e2 = Ok ws.
  Proof.
    induction 1 as [|o w l ws (e & v & e2 & e3 & A & B & C & D & F) _ (es & vs & es2 & E1 & E2 & E3 & E4)].
    - exists [], [], []. now repeat split.
    - exists (e :: es), (v :: vs), (e3 :: es2). cbn [encode_elems decode_elems each decode_all].
      rewrite A, B, C. cbn [bind]. rewrite D, E1, E2. cbn [bind]. rewrite E3, F. cbn [bind]. rewrite E4. now repeat split.
  Qed.
  Lemma unnest_passes l ws : Forall2 passes l ws ->
    unnest big (Some (VArray l)) = Ok (combine ws (map (fun i => Some (VInt (Z.of_nat i))) (seq 0 (List.length ws)))).
  Proof.
    intros H. destruct (elements_pass l ws H) as (es & vs & e2 & E1 & E2 & E3 & E4).
    unfold unnest, decode_array, round_trip. cbn [encode_opt]. rewrite encode_array, E1. cbn [bind through_engine].
    rewrite CodecProofs.decode_array, E2. cbn [bind]. rewrite E3. cbn [bind]. now rewrite E4.
  Qed.
End UnnestProofs.

(** ** WITH *)
Fixpoint env (db : string -> rows) (l : list with_entry) : string -> rows :=
  match l with [] => db | e :: r => env (set_table db (wname e) (body e (map db (uses e)))) r end.
Lemma with_means_env l : forall db main, with_means db l main = body main (map (env db l) (uses main)).
Proof. induction l as [|e l IH]; intros db main; [reflexivity|]. cbn [with_means env]. apply IH. Qed.
Lemma env_app a : forall db b, env db (a ++ b)%list = env (env db a) b.
Proof. induction a as [|e a IH]; intros db b; [reflexivity|]. cbn [app env]. apply IH. Qed.
Lemma all_some_mono {A B} (g h : A -> option B) l r : (forall x y, In x l -> g x = Some y -> h x = Some y) -> all_some g l = Some r -> all_some h l = Some r.
Proof.
  intros M. rewrite !all_some_iff. intros F. induction F as [|x y l r X F IH]; constructor.
  - apply M; [now left|assumption].
  - apply IH. intros a b I. apply M. now right.
Qed.
Lemma table_rows_more db l : forall k n r, table_rows k db l n = Some r -> table_rows (S k) db l n = Some r.
Proof.
  assert (Step : forall k n, table_rows (S k) db l n =
    match entry_of n l with None => Some (db n) | Some e => option_map (body e) (all_some (table_rows k db l) (uses e)) end) by reflexivity.
  induction k as [|k IH]; intros n r H.
  - rewrite Step. cbn [table_rows] in H. destruct (entry_of n l); [discriminate|assumption].
  - rewrite Step in H. rewrite Step. destruct (entry_of n l) as [e|]; [|assumption].
    destruct (all_some (table_rows k db l) (uses e)) as [rs|] eqn:A; [|discriminate].
    assert (A' : all_some (table_rows (S k) db l) (uses e) = Some rs).
    { eapply all_some_mono; [|exact A]. intros x y _. apply IH. }
    rewrite A'. exact H.
Qed.
Lemma reads_back_app a e b : reads_back (a ++ e :: b)%list -> Forall (fun u => ~ In (lower u) (map (fun e => lower (wname e)) (e :: b))) (uses e).
Proof. induction a as [|x a IH]; cbn [app reads_back]; [tauto|]. intros [_ H]. now apply IH. Qed.
Lemma entry_of_mid pre e post n : NoDup (map (fun e => lower (wname e)) (pre ++ e :: post)%list) -> lower (wname e) = lower n ->
  entry_of n (pre ++ e :: post)%list = Some e.
Proof.
  intros D E. unfold entry_of. induction pre as [|x pre IH]; cbn [app find].
  - now rewrite (proj2 (same_name_iff _ _) E).
  - cbn [app map] in D. inversion D as [|? ? N D']; subst. destruct (same_name (wname x) n) eqn:SN; [|now apply IH].
    apply same_name_iff in SN. exfalso. apply N. rewrite SN, <- E. apply in_map_iff. exists e. split; [reflexivity|]. apply in_app_iff. right. now left.
Qed.
Lemma with_rows db : forall pre suf n, NoDup (map (fun e => lower (wname e)) (pre ++ suf)%list) -> reads_back (pre ++ suf)%list ->
  ~ In (lower n) (map (fun e => lower (wname e)) suf) ->
  table_rows (List.length pre) db (pre ++ suf)%list n = Some (env db pre n).
Proof.
  intros pre. induction pre as [|e pre IH] using rev_ind; intros suf n D B N.
  - cbn [app List.length env table_rows] in *. destruct (entry_of n suf) as [x|] eqn:E; [|reflexivity].
    exfalso. apply N. unfold entry_of in E. apply find_some in E as [I E]. apply same_name_iff in E. rewrite <- E.
    apply in_map_iff. exists x. now split.
  - rewrite <- app_assoc in *. cbn [app] in *. rewrite app_length. cbn [List.length]. rewrite Nat.add_1_r.
    rewrite env_app. cbn [env]. unfold set_table at 1.
    destruct (String.eqb_spec (lower n) (lower (wname e))) as [E|E].
    + cbn [table_rows]. rewrite (entry_of_mid pre e suf n D (eq_sym E)).
      assert (A : all_some (table_rows (List.length pre) db (pre ++ e :: suf)%list) (uses e) = Some (map (env db pre) (uses e))).
      { apply all_some_iff. pose proof (reads_back_app pre e suf B) as R. induction R as [|u us U R IHu]; cbn [map]; constructor; [|assumption].
        apply (IH (e :: suf) u D B U). }
      rewrite A. reflexivity.
    + apply table_rows_more. apply (IH (e :: suf) n D B). cbn [map]. intros [H|H]; [congruence|contradiction].
Qed.
Lemma row_before_excl l r s : row_before l r s -> ~ row_before l s r /\ ~ rows_equal l r s /\ ~ rows_equal l s r.
Proof.
  induction 1 as [i l r s B|i l r s E B (I1 & I2 & I3)].
  - pose proof (cell_before_not_equal _ _ _ B) as [N1 N2]. split; [|split].
    + intros H. inversion H; subst; [eapply cell_before_asym; eassumption|contradiction].
    + intros H. inversion H; subst. contradiction.
    + intros H. inversion H; subst. contradiction.
  - split; [|split].
    + intros H. inversion H as [? ? ? ? B'|? ? ? ? E' B']; subst; [|contradiction].
      apply cell_before_not_equal in B' as [_ N]. contradiction.
    + intros H. inversion H; subst. contradiction.
    + intros H. inversion H; subst. contradiction.
Qed.
Section Transitive.
  Variable tcol : nat -> ty.
  Lemma equal_alike t a b : plain_value t a -> plain_value t b -> equal_keys (Some a) (Some b) -> a = b \/ alike a b.
  Proof. intros A B. destruct a, b; cbn [equal_keys]; try tauto; destruct t; cbn in A, B; try tauto; try (intros ->; now left); unfold real_float in *; intuition congruence. Qed.
  Lemma less_trans a b c : less a b -> less b c -> less a c.
  Proof.
    intros H K. destruct a, b; cbn [less] in H; try (cbn [before] in H; contradiction); destruct c; cbn [less] in K; try (cbn [before] in K; contradiction);
      try (exact (before_trans _ _ _ H K)). intuition congruence.
  Qed.
  Lemma less_alike a b c : less a b -> alike b c -> less a c.
  Proof.
    intros H K. destruct a, b; cbn [less] in H; try (cbn [before] in H; contradiction); destruct c; try (cbn [alike] in K; contradiction);
      exact (before_alike _ _ _ H K).
  Qed.
  Lemma alike_less a b c : alike a b -> less b c -> less a c.
  Proof.
    intros H K. destruct a, b; try (cbn [alike] in H; contradiction); destruct c; cbn [less] in K; try (cbn [before] in K; contradiction);
      exact (alike_before _ _ _ H K).
  Qed.
  Lemma cell_trans t i x y z : plain t x -> plain t y -> plain t z ->
    (cell_before i x y -> cell_before i y z -> cell_before i x z) /\
    (cell_before i x y -> equal_keys y z -> cell_before i x z) /\
    (equal_keys x y -> cell_before i y z -> cell_before i x z).
  Proof.
    intros X Y W.
    assert (AS : forall a b, alike a b -> alike b a) by apply alike_sym.
    destruct x as [x|], y as [y|], z as [z|]; cbn [cell_before plain] in *;
      (split; [|split]); intros H K; try tauto; try congruence; try (destruct x; cbn in H; tauto); try (destruct y; cbn in K; tauto); try (cbn in H; tauto); try (cbn in K; tauto).
    - destruct (desc i); eapply less_trans; eassumption.
    - destruct (equal_alike t y z Y W K) as [<- |A]; [assumption|].
      destruct (desc i); [eapply alike_less; [apply AS; exact A|exact H]|eapply less_alike; eassumption].
    - destruct (equal_alike t x y X Y H) as [-> |A]; [assumption|].
      destruct (desc i); [eapply less_alike; [exact K|apply AS; exact A]|eapply alike_less; eassumption].
  Qed.
  Lemma row_trans l r s u : fits tcol l r -> fits tcol l s -> fits tcol l u ->
    (row_before l r s \/ rows_equal l r s) -> (row_before l s u \/ rows_equal l s u) -> row_before l r u \/ rows_equal l r u.
  Proof.
    induction l as [|i l IH]; intros R Q W H K; [right; constructor|].
    inversion R as [|? ? Ri Rl]; subst. inversion Q as [|? ? Qi Ql]; subst. inversion W as [|? ? Wi Wl]; subst.
    destruct (cell_trans _ i _ _ _ Ri Qi Wi) as (T1 & T2 & T3).
    destruct (equal_keys_equiv _ _ _ _ Ri Qi Wi) as (_ & _ & T4).
    assert (H' : cell_before i (nth (col i) r None) (nth (col i) s None) \/
                 (equal_keys (nth (col i) r None) (nth (col i) s None) /\ (row_before l r s \/ rows_equal l r s))).
    { destruct H as [H|H]; inversion H; subst; tauto. }
    assert (K' : cell_before i (nth (col i) s None) (nth (col i) u None) \/
                 (equal_keys (nth (col i) s None) (nth (col i) u None) /\ (row_before l s u \/ rows_equal l s u))).
    { destruct K as [K|K]; inversion K; subst; tauto. }
    destruct H' as [H'|[H1 H2]], K' as [K'|[K1 K2]]; try (left; apply rb_here; tauto).
    destruct (IH Rl Ql Wl H2 K2) as [B|B]; [left; apply rb_next; tauto|right; constructor; tauto].
  Qed.
  Lemma order_le_trans l r s u : fits tcol l r -> fits tcol l s -> fits tcol l u ->
    order_cmp l r s <= 0 -> order_cmp l s u <= 0 -> order_cmp l r u <= 0.
  Proof.
    intros R Q W H K.
    assert (LE : forall a b, fits tcol l a -> fits tcol l b -> order_cmp l a b <= 0 -> row_before l a b \/ rows_equal l a b).
    { intros a b A B C. destruct (order_right tcol l a b A B) as [[_ D]|[[_ D]|[D _]]]; [now left|now right|lia]. }
    pose proof (row_trans l r s u R Q W (LE r s R Q H) (LE s u Q W K)) as T.
    destruct (order_right tcol l r u R W) as [[D _]|[[D _]|[_ D]]]; try lia. apply row_before_excl in D as (D1 & _ & D2). tauto.
  Qed.
End Transitive.
