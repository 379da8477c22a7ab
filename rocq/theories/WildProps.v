(** C82: selecting from `prefix*`. *)
From Coq Require Import Ascii String List ZArith Lia Bool Permutation.
From Verif Require Import GoBase GoBaseFacts WildModel WildSpec WildProofs.
Import ListNotations.
Local Open Scope string_scope.

Definition shop (n : string) (at_ : Z) : table := Table ["p"; "d"; n] ["id"; "price"] at_.
Definition shops : list table := [shop "sale_2020" 1; Table ["p"; "d"; "sale_2021"] ["id"; "tax"] 3; shop "stock" 2].

(** Proved part: a query that succeeds reads every table that the prefix names. *)
Theorem c82_complete_partial : forall n tables bs t,
  plain_name n -> read_wildcard [n ++ "*"] tables = Ok bs ->
  In t tables -> named_by n t ->
  exists cols suffix, In (join "_" (path t), cols, suffix) bs.
Proof.
  intros n tables bs t P H T N. unfold read_wildcard in H.
  destruct (create_wildcard [n ++ "*"] tables) as [w| |] eqn:C; try discriminate. cbn [bind] in H.
  assert (I : In t (w_tables w)) by (apply (create_in n tables w t P C); split; [assumption|now apply named_occurs]).
  destruct (format_all_ok w _ bs H t I) as (b & F & B). unfold format_one in F.
  destruct (Nat.leb _ _); [discriminate|]. assert (E : b = (table_name t, map (fun c => if existsb (String.eqb c) (columns t) then Some c else None) (w_columns w), substring (String.length (w_prefix w)) (String.length (full_name t) - String.length (w_prefix w)) (full_name t))) by congruence.
  subst b. eauto.
Qed.
Example c82_complete_example :
  plain_name "p.d.sale_" /\
  read_wildcard ["p.d.sale_*"] shops =
    Ok [("p_d_sale_2021", [Some "id"; Some "tax"], "2021"); ("p_d_sale_2020", [Some "id"; None], "2020")] /\
  named_by "p.d.sale_" (shop "sale_2020" 1) /\ named_by "d.sale_" (shop "sale_2020" 1).
Proof.
  split; [cbn; intuition reflexivity|]. split; [reflexivity|]. split.
  - left. exists "2020". reflexivity.
  - right. exists "p", ["d"; "sale_2020"]. split; [reflexivity|]. exists "2020". reflexivity.
Qed.

(** Which tables are read, exactly: those whose underscored name has the pattern in it
    anywhere, its dots standing for any character. *)
Theorem c82_read_partial : forall n tables w t,
  plain_name n -> create_wildcard [n ++ "*"] tables = Ok w ->
  (In t (w_tables w) <-> In t tables /\ occurs n (join "_" (path t))).
Proof. intros. now apply create_in. Qed.
(** There is a table to read exactly when one does so. *)
Theorem c82_found_partial : forall n tables,
  plain_name n ->
  ((exists w, create_wildcard [n ++ "*"] tables = Ok w) <-> exists t, In t tables /\ occurs n (join "_" (path t))).
Proof.
  intros n tables P. split.
  - intros [w C]. destruct (create_inv n tables w P C) as (t0 & rest & E & W & _). exists t0.
    apply (create_in n tables w t0 P C). rewrite W. now left.
  - intros (t & T & O). unfold create_wildcard. cbn [join length Nat.pred]. rewrite trim_star by assumption.
    destruct (newest_first _) as [|t0 rest] eqn:E; [|cbn; eauto]. exfalso.
    assert (I : In t (read_by n tables)) by (apply filter_In; split; [assumption|now apply search_iff]).
    apply (Permutation_in _ (Permutation_sym (newest_perm _))) in I. unfold read_by in I. rewrite E in I. destruct I.
Qed.
Example c82_read_example :
  map table_name (match create_wildcard ["d.sale_*"] shops with Ok w => w_tables w | _ => [] end) = ["p_d_sale_2021"; "p_d_sale_2020"] /\
  create_wildcard ["d.none_*"] shops = Err.
Proof. split; reflexivity. Qed.

(** Refuted: tables with other names are read too.  A table of another project whose name ends
    in this project's is read, and so is one whose name has a character where the pattern has a
    dot. *)
Theorem c82_other_project_refuted : forall x p d tb s tables w at_ cols,
  plain_name (p ++ "." ++ d ++ "." ++ tb) -> no_dot p -> no_dot x -> no_dot d -> x <> "" -> d <> p ->
  let t := Table [x ++ p; d; tb ++ s] cols at_ in
  In t tables -> create_wildcard [p ++ "." ++ d ++ "." ++ tb ++ "*"] tables = Ok w ->
  In t (w_tables w) /\ ~ named_by (p ++ "." ++ d ++ "." ++ tb) t.
Proof.
  intros x p d tb s tables w at_ cols P Np Nx Nd X Dp t T C.
  assert (Xp : x ++ p <> p) by (intros H; apply (f_equal String.length) in H; rewrite length_app_w in H; destruct x; [congruence|cbn in H; lia]).
  replace (p ++ "." ++ d ++ "." ++ tb ++ "*") with ((p ++ "." ++ d ++ "." ++ tb) ++ "*") in C by (now rewrite !string_app_assoc).
  split.
  - apply (create_in _ _ _ t P C). split; [assumption|]. apply search_iff. unfold table_name, t. cbn [path join].
    assert (O : occurs (p ++ "." ++ d ++ "." ++ tb) ((x ++ p) ++ "_" ++ d ++ "_" ++ tb ++ s)).
    { pose proof (undot_join [p; d; tb ++ s]) as U. cbn [join] in U.
      replace (p ++ "." ++ d ++ "." ++ tb ++ s) with ((p ++ "." ++ d ++ "." ++ tb) ++ s) in U by (now rewrite !string_app_assoc).
      apply undot_prefix in U. destruct U as (b1 & b2 & E & L). exists x, b1, b2. split; [|assumption].
      rewrite <- E. now rewrite !string_app_assoc. }
    now apply search_iff.
  - intros [[r E]|(pr & rest & E & r & R)].
    + unfold full_name, t in E. cbn [path] in E. rewrite join_cons in E by discriminate.
      replace ((p ++ "." ++ d ++ "." ++ tb) ++ r) with (p ++ "." ++ (d ++ "." ++ tb ++ r)) in E by (now rewrite !string_app_assoc).
      change ((x ++ p) ++ String "." (join "." [d; tb ++ s]) = p ++ String "." (d ++ "." ++ tb ++ r)) in E.
      apply first_dot in E; [destruct E as [E _]; contradiction| |assumption].
      apply no_dot_app. auto.
    + unfold t in E. cbn [path] in E. assert (rest = [d; tb ++ s]) by congruence. subst rest. cbn [join] in R.
      replace ((p ++ "." ++ d ++ "." ++ tb) ++ r) with (p ++ "." ++ (d ++ "." ++ tb ++ r)) in R by (now rewrite !string_app_assoc).
      apply (first_dot d p _ _ Nd Np) in R. destruct R as [R _]. contradiction.
Qed.
Example c82_other_project_example :
  read_wildcard ["p.d.sale_*"] [shop "sale_2020" 1; Table ["mp"; "d"; "sale_1999"] ["id"] 0; Table ["p"; "d"; "resale"] [] 0; Table ["p"; "dxsale_7"] ["id"] (-1)] =
    Ok [("p_d_sale_2020", [Some "id"; Some "price"], "2020"); ("mp_d_sale_1999", [Some "id"; None], "_1999"); ("p_dxsale_7", [Some "id"; None], "7")].
Proof. reflexivity. Qed.

(** Refuted: a table whose name is the prefix itself makes the query fail. *)
Theorem c82_bare_refuted : forall n tables t,
  plain_name n -> In t tables -> join "." (path t) = n ->
  read_wildcard [n ++ "*"] tables = Err.
Proof.
  intros n tables t P T F. unfold read_wildcard.
  assert (O : occurs n (table_name t)) by (apply named_occurs; left; exists ""; unfold full_name; rewrite F; now rewrite string_app_nil_r).
  destruct (proj2 (c82_found_partial n tables P) (ex_intro _ t (conj T O))) as [w C]. rewrite C. cbn [bind].
  apply format_all_err. exists t. split; [apply (create_in n tables w t P C); auto|].
  destruct (create_inv n tables w P C) as (t0 & rest & _ & _ & _ & Pf). unfold format_one.
  replace (Nat.leb _ _) with true; [reflexivity|]. symmetry. apply Nat.leb_le.
  unfold full_name. rewrite F, Pf. cbn zeta. destruct (has_prefix _ _); rewrite ?length_app_w; lia.
Qed.
Example c82_bare_example : read_wildcard ["p.d.sale*"] (shop "sale" 0 :: shops) = Err /\ exists bs, read_wildcard ["p.d.sale*"] shops = Ok bs.
Proof. split; [reflexivity|]. eexists. reflexivity. Qed.

(** Proved part: in a catalog of one project, _TABLE_SUFFIX is what follows the prefix, whether
    the project is written or left out, and the columns are those of the newest table, NULL
    where a table lacks them. *)
Theorem c82_suffix_partial : forall n p tables bs t s,
  plain_name n -> no_dot p -> read_wildcard [n ++ "*"] tables = Ok bs ->
  (forall x, In x tables -> exists rest, path x = p :: rest) ->
  In t tables -> s <> "" ->
  (is_prefix (p ++ ".") n /\ join "." (path t) = n ++ s \/
   ~ is_prefix (p ++ ".") n /\ join "." (path t) = p ++ "." ++ n ++ s) ->
  exists newest cols,
    is_newest newest (fun x => In x tables /\ occurs n (join "_" (path x))) /\
    In (join "_" (path t), cols, s) bs /\
    Forall2 (fun c o => (In c (columns t) -> o = Some c) /\ (~ In c (columns t) -> o = None)) (columns newest) cols.
Proof.
  intros n p tables bs t s P Np H One T S_ Q. unfold read_wildcard in H.
  destruct (create_wildcard [n ++ "*"] tables) as [w| |] eqn:C; try discriminate. cbn [bind] in H.
  destruct (create_inv n tables w P C) as (t0 & rest & E & W & Wc & Wp).
  assert (In0 : In t0 (read_by n tables)) by (apply (Permutation_in _ (newest_perm _)); rewrite E; now left).
  assert (F0 : exists r0, path t0 = p :: r0) by (apply One; apply filter_In in In0; tauto).
  destruct F0 as [r0 F0]. rewrite F0 in Wp. cbn zeta in Wp.
  assert (Full : full_name t = w_prefix w ++ s).
  { unfold full_name. rewrite Wp. destruct (has_prefix (p ++ ".") n) eqn:Hp.
    - apply has_prefix_iff in Hp. destruct Q as [[_ Q]|[Q _]]; [exact Q|contradiction].
    - assert (Hn : ~ is_prefix (p ++ ".") n) by (rewrite <- has_prefix_iff; congruence).
      destruct Q as [[Q _]|[_ Q]]; [contradiction|]. rewrite Q. now rewrite !string_app_assoc. }
  assert (O : occurs n (table_name t)).
  { apply named_occurs. destruct Q as [[_ Q]|[_ Q]]; [left; exists s; exact Q|].
    right. destruct (One t T) as [rest' Pt]. exists p, rest'. split; [assumption|]. exists s.
    rewrite Pt in Q. destruct rest' as [|y rest'].
    - exfalso. cbn in Q. apply (f_equal (has_char ".")) in Q. unfold no_dot in Np. rewrite Np in Q.
      symmetry in Q. change (no_dot (p ++ "." ++ n ++ s)) in Q. apply no_dot_app in Q. destruct Q as [_ Q]. unfold no_dot in Q. discriminate Q.
    - rewrite join_cons in Q by discriminate.
      assert (Z_ : forall a b c, a ++ b = a ++ c -> b = c) by (induction a as [|h a IHa]; cbn; intros; [assumption|apply IHa; congruence]).
      apply Z_ in Q. apply (Z_ "."). exact Q. }
  assert (I : In t (w_tables w)) by (apply (create_in n tables w t P C); auto).
  destruct (format_all_ok w _ bs H t I) as (b & F & B). unfold format_one in F.
  destruct (Nat.leb _ _); [discriminate|]. rewrite Full, substring_app_r in F.
  assert (Eb : b = (table_name t, map (fun c => if existsb (String.eqb c) (columns t) then Some c else None) (w_columns w), s)) by congruence.
  subst b. exists t0, (map (fun c => if existsb (String.eqb c) (columns t) then Some c else None) (w_columns w)).
  split; [|split; [exact B|]].
  - assert (R : forall x, In x (read_by n tables) <-> In x tables /\ occurs n (join "_" (path x)))
      by (intros x; unfold read_by; rewrite filter_In, search_iff; reflexivity).
    split; [now apply R|]. intros x X. apply (newest_head _ _ _ E). now apply R.
  - rewrite Wc. clear. induction (columns t0) as [|c l IH]; cbn [map]; [constructor|]. constructor; [|exact IH].
    destruct (existsb (String.eqb c) (columns t)) eqn:X.
    + apply existsb_exists in X. destruct X as (y & Y & Ey). apply String.eqb_eq in Ey. subst y. split; [reflexivity|tauto].
    + split; [|reflexivity]. intros Y. exfalso.
      assert (existsb (String.eqb c) (columns t) = true) by (apply existsb_exists; exists c; split; [assumption|apply String.eqb_refl]). congruence.
Qed.
Example c82_suffix_example :
  exists bs, read_wildcard ["d.sale_*"] shops = Ok bs /\ ~ is_prefix ("p" ++ ".") "d.sale_" /\
  join "." (path (shop "sale_2020" 1)) = "p" ++ "." ++ "d.sale_" ++ "2020" /\ In ("p_d_sale_2020", [Some "id"; None], "2020") bs.
Proof.
  eexists. split; [reflexivity|]. split; [intros [r E]; discriminate|]. split; [reflexivity|]. right. left. reflexivity.
Qed.

(** Refuted: with tables of two projects, the suffix of one is cut by the length of the other's
    name. *)
Theorem c82_two_projects_refuted : forall p q d tb s s' c c' a a' bs,
  plain_name (d ++ "." ++ tb) -> (a' < a)%Z -> ~ is_prefix (p ++ ".") (d ++ "." ++ tb) ->
  String.length p <> String.length q ->
  read_wildcard [d ++ "." ++ tb ++ "*"] [Table [p; d; tb ++ s] c a; Table [q; d; tb ++ s'] c' a'] = Ok bs ->
  exists cols wrong, In (q ++ "_" ++ d ++ "_" ++ tb ++ s', cols, wrong) bs /\ wrong <> s'.
Proof.
  intros p q d tb s s' c c' a a' bs P A Np L H.
  set (t1 := Table [p; d; tb ++ s] c a) in *. set (t2 := Table [q; d; tb ++ s'] c' a') in *.
  replace (d ++ "." ++ tb ++ "*") with ((d ++ "." ++ tb) ++ "*") in H by (now rewrite !string_app_assoc).
  set (n := d ++ "." ++ tb) in *. unfold read_wildcard in H.
  destruct (create_wildcard [n ++ "*"] [t1; t2]) as [w| |] eqn:C; try discriminate. cbn [bind] in H.
  destruct (create_inv n _ w P C) as (t0 & rest & E & W & Wc & Wp).
  assert (N1 : named_by n t1).
  { right. exists p, [d; tb ++ s]. split; [reflexivity|]. exists s. unfold n. cbn [join]. now rewrite !string_app_assoc. }
  assert (N2 : named_by n t2).
  { right. exists q, [d; tb ++ s']. split; [reflexivity|]. exists s'. unfold n. cbn [join]. now rewrite !string_app_assoc. }
  apply named_occurs, search_iff in N1. pose proof N2 as O2. apply named_occurs in O2. apply named_occurs, search_iff in N2.
  unfold read_by in E. cbn [filter] in E. rewrite N1, N2 in E. cbn in E. destruct (Z.ltb_spec a' a); [|lia].
  assert (t0 = t1) by congruence. subst t0. cbn [path t1] in Wp. cbn zeta in Wp.
  destruct (has_prefix (p ++ ".") n) eqn:Hp; [apply has_prefix_iff in Hp; contradiction|].
  assert (I : In t2 (w_tables w)) by (apply (create_in n _ w t2 P C); split; [right; now left|assumption]).
  destruct (format_all_ok w _ bs H t2 I) as (b & F & B). unfold format_one in F.
  destruct (Nat.leb_spec (String.length (full_name t2)) (String.length (w_prefix w))) as [|Lt]; [discriminate|].
  assert (Eb : b = (table_name t2, map (fun c => if existsb (String.eqb c) (columns t2) then Some c else None) (w_columns w),
     substring (String.length (w_prefix w)) (String.length (full_name t2) - String.length (w_prefix w)) (full_name t2))) by congruence.
  subst b. eexists _, _. split; [exact B|]. intros X. apply (f_equal String.length) in X.
  rewrite substring_len in X by lia. rewrite Wp in X, Lt. unfold full_name, t2 in X, Lt. cbn [path join] in X, Lt.
  unfold n in X, Lt. rewrite !length_app_w in X, Lt. cbn [String.length] in X, Lt. lia.
Qed.
Example c82_two_projects_example :
  read_wildcard ["d.sale_*"] [Table ["p"; "d"; "sale_1"] ["id"] 5; Table ["other"; "d"; "sale_2"] ["id"] 4] =
    Ok [("p_d_sale_1", [Some "id"], "1"); ("other_d_sale_2", [Some "id"], "ale_2")].
Proof. reflexivity. Qed.

(** Refuted: a path of separate identifiers (`p`.`d`.`sale_*`) does not read the table it names,
    unless the suffix is longer than the project's name: it fails, or stops the process when the
    table's own name is a single character. *)
Theorem c82_parts_refuted : forall p d tb s c a,
  plain_name (p ++ "_" ++ d ++ "_" ++ tb) -> no_dot p ->
  (String.length s <= S (String.length p))%nat ->
  read_wildcard [p; d; tb ++ "*"] [Table [p; d; tb ++ s] c a] =
  (if Nat.leb 2 (String.length (tb ++ s)) then Err else GoPanic).
Proof.
  intros p d tb s c a P Np L. set (t := Table [p; d; tb ++ s] c a). unfold read_wildcard, create_wildcard.
  replace (join "_" [p; d; tb ++ "*"]) with ((p ++ "_" ++ d ++ "_" ++ tb) ++ "*") by (cbn [join]; now rewrite !string_app_assoc).
  rewrite trim_star by assumption. set (n := p ++ "_" ++ d ++ "_" ++ tb) in *.
  assert (O : search n (table_name t) = true).
  { replace (table_name t) with (n ++ s) by (unfold table_name, t, n; cbn [path join]; now rewrite !string_app_assoc).
    apply search_iff. exists "", n, s. split; [reflexivity|].
    clear. induction n as [|ch n IH]; [constructor|]. destruct (Ascii.ascii_dec ch ".") as [->|N]; [apply ll_dot; [discriminate|exact IH]|now apply ll_same]. }
  cbn [filter]. rewrite O. cbn [newest_first fold_right insert path t last length Nat.pred]. unfold slice_to.
  destruct (Nat.leb 2 (String.length (tb ++ s))); [|reflexivity]. cbn [bind].
  destruct (has_prefix (p ++ ".") n) eqn:Hp.
  - exfalso. apply has_prefix_iff in Hp. destruct Hp as [r E]. unfold n in E. rewrite <- !string_app_assoc in E.
    assert (Z_ : forall a b c, a ++ b = a ++ c -> b = c) by (induction a0 as [|h a0 IHa]; cbn; intros; [assumption|apply IHa; congruence]).
    apply Z_ in E. cbn [append] in E. discriminate.
  - unfold format_wildcard. cbn [w_tables format_all]. unfold format_one. cbn [w_prefix].
    replace (Nat.leb _ _) with true; [reflexivity|]. symmetry. apply Nat.leb_le.
    unfold full_name, t, n. cbn [path join]. rewrite !length_app_w. cbn [String.length]. lia.
Qed.
Example c82_parts_example :
  read_wildcard ["p"; "d"; "sale_*"] [shop "sale_1" 0] = Err /\ read_wildcard ["p"; "d"; "*"] [shop "t" 0] = GoPanic /\
  read_wildcard ["p"; "d"; "sale_*"] [shop "sale_2020" 0] = Ok [("p_d_sale_2020", [Some "id"; Some "price"], "20")].
Proof. repeat split; reflexivity. Qed.

Print Assumptions c82_complete_partial.
Print Assumptions c82_read_partial.
Print Assumptions c82_found_partial.
Print Assumptions c82_other_project_refuted.
Print Assumptions c82_bare_refuted.
Print Assumptions c82_suffix_partial.
Print Assumptions c82_two_projects_refuted.
Print Assumptions c82_parts_refuted.
