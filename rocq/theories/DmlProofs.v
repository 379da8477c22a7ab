From Coq Require Import Ascii String List ZArith Lia Bool.
From Verif Require Import GoBase DecModel QueryModel QuerySpec QueryProofs QueryProps DmlModel DmlSpec EncModel CodecModel.
Import ListNotations.
Local Open Scope string_scope.

(** ** Constraints *)
Lemma same_key_eq a b : same_key a b = true <-> a = b.
Proof.
  revert b. induction a as [|x a IH]; intros [|y b]; cbn; split; try congruence; try discriminate.
  - intros H. apply andb_prop in H as [E H]. apply Z.eqb_eq in E. apply IH in H. congruence.
  - intros H. assert (x = y /\ a = b) as [-> ->] by (split; congruence). rewrite Z.eqb_refl. now apply IH.
Qed.
Lemma omap_map {A B C} (f : A -> B) (g : B -> option C) l : omap g (map f l) = omap (fun x => g (f x)) l.
Proof. induction l as [|x l IH]; [reflexivity|]. cbn. now rewrite IH. Qed.

Section Laws.
  Variable names : Z -> string.
  Variable cols : list cdef.
  Variable key : list Z.
  Definition the_table (rows : list frame) : table := Table (map (fun c => (names (k_id c), k_notnull c)) cols) (map names key) rows.
  Definition clash (a b : frame) : Prop := key <> [] /\ equal_keys names key a b.
  Definition full (r : frame) : Prop := forall c, In c cols -> k_notnull c = true -> exists z, in_frame (names (k_id c)) r = Some (Some z).

  Lemma clash_sym a b : clash a b -> clash b a.
  Proof. intros [N H]. split; [exact N|]. intros c I. destruct (H c I) as (z & E & E'). exists z. now split. Qed.
  Lemma pairs_mid (P : frame -> frame -> Prop) : (forall a b, P a b -> P b a) -> forall a n b,
    ForallOrdPairs P (a ++ n :: b) <-> ForallOrdPairs P (a ++ b) /\ Forall (P n) (a ++ b).
  Proof.
    intros Sy a n b. induction a as [|x a IH]; cbn [app].
    - split; [intros H; inversion H; now split|intros [H F]; now constructor].
    - split.
      + intros H. inversion H as [|? ? F R]; subst. apply IH in R as [R R']. apply Forall_app in F as [Fa Fb]. inversion Fb; subst.
        split; constructor; auto. now apply Forall_app.
      + intros [H F]. inversion H as [|? ? F' R]; subst. inversion F as [|? ? Q F'']; subst. constructor.
        * apply Forall_app in F' as [Fa Fb]. apply Forall_app. split; [assumption|]. constructor; [now apply Sy|assumption].
        * apply IH. now split.
  Qed.
  Lemma pairs_nth (P : frame -> frame -> Prop) : (forall a b, P a b -> P b a) -> forall l,
    ForallOrdPairs P l <-> (forall i j a b, i <> j -> nth_error l i = Some a -> nth_error l j = Some b -> P a b).
  Proof.
    intros Sy l. induction l as [|x l IH].
    - split; [intros _ [|i] j a b _ H; discriminate|constructor].
    - split.
      + intros H. inversion H as [|? ? F R]; subst. rewrite Forall_forall in F. intros [|i] [|j] a b N A B; cbn in A, B.
        * congruence.
        * assert (x = a) by congruence. subst. apply F. eapply nth_error_In, B.
        * assert (x = b) by congruence. subst. apply Sy, F. eapply nth_error_In, A.
        * apply (proj1 IH R i j); auto.
      + intros H. constructor.
        * apply Forall_forall. intros y I. apply In_nth_error in I as [j J]. apply (H 0%nat (S j)); auto.
        * apply IH. intros i j a b N A B. apply (H (S i) (S j)); auto.
  Qed.
  Lemma lawful_iff rows : lawful names cols key rows <-> Forall full rows /\ ForallOrdPairs (fun a b => ~ clash a b) rows.
  Proof.
    unfold lawful. rewrite Forall_forall, pairs_nth by (intros a b H C; apply H, clash_sym, C). split; intros [H H']; split.
    - intros r I c J. now apply H.
    - intros i j a b N A B [K E]. exact (H' K i j a b N A B E).
    - intros r c I J. now apply H.
    - intros K i j a b N A B E. apply (H' i j a b N A B). now split.
  Qed.
  Lemma lawful_mid a n b : lawful names cols key (a ++ n :: b) <-> lawful names cols key (a ++ b) /\ full n /\ Forall (fun o => ~ clash n o) (a ++ b).
  Proof.
    rewrite !lawful_iff, pairs_mid by (intros x y H C; apply H, clash_sym, C). rewrite !Forall_app.
    split.
    - intros [[Fa Fb] [P Q]]. inversion Fb; subst. tauto.
    - intros [[[Fa Fb] P] [F Q]]. repeat split; auto; tauto.
  Qed.
  Lemma nulls_iff rows r : nulls_ok (the_table rows) r = true <-> full r.
  Proof.
    unfold nulls_ok, full. cbn [s_cols the_table]. rewrite forallb_forall. split.
    - intros H c I N. specialize (H _ (in_map _ _ _ I)). cbn in H. rewrite N in H. cbn in H.
      destruct (in_frame (names (k_id c)) r) as [[z|]|]; try discriminate. now exists z.
    - intros H p I. apply in_map_iff in I as (c & <- & I). cbn. destruct (k_notnull c) eqn:N; [|reflexivity]. destruct (H c I N) as [z ->]. reflexivity.
  Qed.
  Lemma key_iff rows r k : key_of (the_table rows) r = Some k <-> Forall2 (fun c z => in_frame (names c) r = Some (Some z)) key k.
  Proof.
    unfold key_of. cbn [s_key the_table]. rewrite omap_map. revert k. clear cols. induction key as [|c ks IH]; intros k; cbn [omap].
    - split; [intros H; assert (k = []) by congruence; subst; constructor|intros H; inversion H; reflexivity].
    - split.
      + intros H. destruct (in_frame (names c) r) as [[z|]|] eqn:E; try discriminate. cbn in H.
        match type of H with context [omap ?f ks] => destruct (omap f ks) as [k'|] eqn:O end; [|discriminate].
        assert (k = z :: k') by (cbn in H; congruence). subst. constructor; [exact E|]. now apply IH.
      + intros H. inversion H as [|? z ? k' E F]; subst. rewrite E. apply IH in F. cbn. now rewrite F.
  Qed.
  Lemma clashes_iff rows r others : clashes (the_table rows) r others = true <-> Exists (clash r) others.
  Proof.
    unfold clashes. cbn [s_key the_table]. destruct (map names key) as [|k0 ks] eqn:K.
    - assert (key = []) as E by (destruct key; [reflexivity|discriminate]). split; [discriminate|]. intros H. apply Exists_exists in H as (o & _ & [N _]). congruence.
    - assert (Nk : key <> []) by (intros E; rewrite E in K; discriminate).
      destruct (key_of (the_table rows) r) as [k|] eqn:Q.
      + rewrite existsb_exists, Exists_exists. apply key_iff in Q. split.
        * intros (o & I & E). exists o. split; [exact I|]. split; [exact Nk|]. destruct (key_of (the_table rows) o) as [k'|] eqn:Q'; [|discriminate].
          apply same_key_eq in E. subst k'. apply key_iff in Q'. clear -Q Q'. revert k Q Q'. induction key as [|c ks IH]; intros k Q Q' d I; [contradiction|].
          inversion Q; subst. inversion Q'; subst. destruct I as [<-|I]; [eexists; split; eassumption|]. eapply IH; eassumption.
        * intros (o & I & _ & E). exists o. split; [exact I|]. assert (Q' : key_of (the_table rows) o = Some k).
          { apply key_iff. clear -Q E. revert k Q E. unfold equal_keys. induction key as [|c ks IH]; intros k Q E; inversion Q as [|? z ? k' F R]; subst; constructor.
            - destruct (E c (or_introl eq_refl)) as (z' & A & B). congruence.
            - apply IH; [assumption|]. intros d J. apply E. now right. }
          rewrite Q'. now apply same_key_eq.
      + split; [discriminate|]. intros H. apply Exists_exists in H as (o & _ & [_ E]). exfalso.
        assert (X : exists k, key_of (the_table rows) r = Some k).
        { clear -E. unfold equal_keys in E. assert (Y : exists k, Forall2 (fun c z => in_frame (names c) r = Some (Some z)) key k).
          - induction key as [|c ks IH]; [exists []; constructor|]. destruct (E c (or_introl eq_refl)) as (z & A & _).
            destruct IH as [k K]; [intros d J; apply E; now right|]. exists (z :: k). now constructor.
          - destruct Y as [k Y]. exists k. now apply key_iff. }
        destruct X as [k X]. congruence.
  Qed.
  Lemma may_iff rows r others : may_add (the_table rows) r others = true <-> full r /\ Forall (fun o => ~ clash r o) others.
  Proof.
    unfold may_add. rewrite andb_true_iff, nulls_iff, negb_true_iff. rewrite Forall_Exists_neg. rewrite <- (clashes_iff rows r others).
    destruct (clashes (the_table rows) r others); split; intros [A B]; split; auto; try discriminate. exfalso. now apply B.
  Qed.
  Lemma add_rows_iff l : forall old t', lawful names cols key old ->
    (add_rows (the_table old) l = Some t' <-> lawful names cols key (old ++ l) /\ t' = the_table (old ++ l)).
  Proof.
    induction l as [|r l IH]; intros old t' L; cbn [add_rows].
    - rewrite app_nil_r. split; [intros H; split; [exact L|congruence]|intros [_ ->]; reflexivity].
    - assert (Q : (old ++ r :: l = (old ++ [r]) ++ l)%list) by now rewrite <- app_assoc. rewrite Q.
      assert (R : add_row (the_table old) r = if may_add (the_table old) r old then Some (the_table (old ++ [r])) else None) by reflexivity.
      rewrite R. destruct (may_add (the_table old) r old) eqn:M; cbn [obind].
      + apply IH. apply lawful_mid. rewrite app_nil_r. split; [exact L|]. now apply (may_iff old).
      + split; [discriminate|]. intros [W _]. exfalso. assert (X : may_add (the_table old) r old = true).
        { apply may_iff. rewrite <- Q in W. apply lawful_mid in W as (_ & F & C). split; [exact F|]. now apply Forall_app in C as [C _]. }
        congruence.
  Qed.
  Lemma change_iff todo : forall done rows, lawful names cols key (done ++ map fst todo) ->
    change_rows (the_table rows) done todo = Some (done ++ map snd todo)%list /\ lawful names cols key (done ++ map snd todo) \/
    change_rows (the_table rows) done todo = None.
  Proof.
    induction todo as [|[o n] todo IH]; intros done rows L; cbn [change_rows map fst snd].
    - left. rewrite app_nil_r. split; [reflexivity|]. now rewrite app_nil_r in L.
    - destruct (may_add (the_table rows) n (done ++ map fst todo)) eqn:M; [|now right].
      cbn [map fst] in L. apply lawful_mid in L as (L & _). apply may_iff in M as [F C].
      destruct (IH (done ++ [n])%list rows) as [[E L']|E].
      + rewrite <- app_assoc. cbn [app]. apply lawful_mid. now split.
      + left. rewrite <- app_assoc in E, L'. now split.
      + now right.
  Qed.
  (** Rows whose keys stay as they are can be changed when the result is lawful. *)
  Lemma change_keys todo : forall done rows, lawful names cols key (done ++ map fst todo) ->
    (forall p c, In p todo -> In c key -> in_frame (names c) (snd p) = in_frame (names c) (fst p)) ->
    Forall full (map snd todo) ->
    change_rows (the_table rows) done todo = Some (done ++ map snd todo)%list.
  Proof.
    induction todo as [|[o n] todo IH]; intros done rows L K F; cbn [change_rows map fst snd].
    - now rewrite app_nil_r.
    - cbn [map fst snd] in L, F. inversion F as [|? ? Fn F']; subst. pose proof L as L0. apply lawful_mid in L as (L & _ & C).
      assert (Cn : Forall (fun x => ~ clash n x) (done ++ map fst todo)).
      { eapply Forall_impl; [|exact C]. intros x H [N E]. apply H. split; [exact N|]. intros c I. destruct (E c I) as (z & A & B). exists z. split; [|exact B].
        rewrite <- A. symmetry. apply (K (o, n) c (or_introl eq_refl) I). }
      assert (M : may_add (the_table rows) n (done ++ map fst todo) = true) by (apply may_iff; now split). rewrite M.
      rewrite (IH (done ++ [n])%list rows).
      + now rewrite <- app_assoc.
      + rewrite <- app_assoc. cbn [app]. apply lawful_mid. now split.
      + intros p c I J. apply K; [now right|assumption].
      + exact F'.
  Qed.
  Lemma lawful_filter (f : frame * val -> bool) (l : list (frame * val)) : lawful names cols key (map fst l) -> lawful names cols key (map fst (filter f l)).
  Proof.
    intros H. apply lawful_iff in H as [F P]. apply lawful_iff. induction l as [|x l IH]; [now split|]. cbn [map] in F, P. inversion F; subst. inversion P; subst.
    destruct IH as [F' P']; auto. cbn [filter]. destruct (f x); [|now split]. cbn [map]. split; constructor; auto.
    rewrite Forall_forall in *. intros y I. apply H3. apply in_map_iff in I as (p & <- & I). apply filter_In in I as [I _]. now apply in_map.
  Qed.
End Laws.

(** ** CREATE TABLE *)
Lemma distinct_inj : forall l, distinct l = true -> forall i j a b, nth_error l i = Some a -> nth_error l j = Some b -> same_name a b = true -> i = j.
Proof.
  induction l as [|x l IH]; intros D i j a b A B E; [destruct i; discriminate|]. cbn in D. apply andb_prop in D as [X D].
  assert (N : forall k c, nth_error l k = Some c -> same_name x c = false).
  { intros k c K. destruct (same_name x c) eqn:Q; [|reflexivity]. apply negb_true_iff in X. rewrite <- X. symmetry. apply existsb_exists. exists c.
    split; [eapply nth_error_In; exact K|exact Q]. }
  destruct i as [|i], j as [|j]; cbn in A, B.
  - reflexivity.
  - assert (x = a) by congruence. subst. rewrite (N j b B) in E. discriminate.
  - assert (x = b) by congruence. subst. rewrite QueryProps.same_sym, (N i a A) in E. discriminate.
  - f_equal. exact (IH D i j a b A B E).
Qed.
Lemma created fn db names cols key t : exec_create fn db (create_sql (table_def names cols key None)) = Some t ->
  t = the_table names cols key [] /\ distinct (map (fun c => names (k_id c)) cols) = true.
Proof.
  cbn. rewrite !map_map. cbn. destruct (distinct _) eqn:D; cbn; [|discriminate].
  match goal with |- (if ?b then _ else _) = _ -> _ => destruct b end; [|discriminate]. intros H. split; [|reflexivity].
  assert (Q : forall x y : table, Some x = Some y -> x = y) by (intros; congruence). apply Q in H. rewrite <- H. reflexivity.
Qed.
Lemma ids_inj names cols : distinct (map (fun c => names (k_id c)) cols) = true -> NoDup (map k_id cols) ->
  forall a b, In a (map k_id cols) -> In b (map k_id cols) -> same_name (names a) (names b) = true -> a = b.
Proof.
  intros D _ a b I J E. apply In_nth_error in I as [i I]. apply In_nth_error in J as [j J].
  assert (i = j). { eapply (distinct_inj _ D); [| |exact E]; rewrite <- (map_map k_id names); apply map_nth_error; assumption. }
  subst. congruence.
Qed.

(** ** INSERT *)
Lemma find_names names (ids : list Z) c : (forall a b, In a ids -> In b ids -> same_name (names a) (names b) = true -> a = b) -> In c ids ->
  forall listed vs, incl listed ids ->
  match find (fun p => same_name (fst p) (names c)) (combine (map names listed) vs) with Some p => snd p | None => None end =
  match col c (combine listed vs) with Some v => v | None => (None : val) end.
Proof.
  intros Inj Ic. induction listed as [|d l IH]; intros vs Sub; [reflexivity|]. destruct vs as [|v vs]; [reflexivity|].
  unfold col. cbn [map combine find fst snd].
  destruct (same_name (names d) (names c)) eqn:E.
  - apply Inj in E; auto; [|apply Sub; now left]. subst. rewrite Z.eqb_refl. reflexivity.
  - destruct (d =? c)%Z eqn:Q.
    + apply Z.eqb_eq in Q. subst. unfold same_name in E. rewrite String.eqb_refl in E. discriminate.
    + apply IH. intros x I. apply Sub. now right.
Qed.
Lemma new_row_ok names cols key rows listed vs : distinct (map (fun c => names (k_id c)) cols) = true -> NoDup (map k_id cols) ->
  incl listed (map k_id cols) -> length vs = length listed ->
  new_row (the_table names cols key rows) (map names listed) vs = Some (filled names cols listed vs).
Proof.
  intros D N Sub Ln. unfold new_row. rewrite map_length, Ln, Nat.eqb_refl. cbn [andb s_cols the_table].
  match goal with |- (if ?b then _ else _) = _ => assert (X : b = true) end.
  { apply forallb_forall. intros n I. apply in_map_iff in I as (c & <- & I). apply Sub in I. apply in_map_iff in I as (d & <- & I).
    apply existsb_exists. exists (names (k_id d), k_notnull d). split; [apply in_map_iff; now exists d|]. cbn. unfold same_name. apply String.eqb_refl. }
  rewrite X. f_equal. unfold filled. rewrite map_map. apply map_ext_in. intros c I. cbn [fst]. f_equal.
  apply (find_names names (map k_id cols)); [now apply ids_inj|now apply in_map|assumption].
Qed.
Lemma new_rows_ok names cols key rows listed vss : distinct (map (fun c => names (k_id c)) cols) = true -> NoDup (map k_id cols) ->
  incl listed (map k_id cols) -> (forall vs, In vs vss -> length vs = length listed) ->
  omap (new_row (the_table names cols key rows) (map names listed)) vss = Some (map (filled names cols listed) vss).
Proof.
  intros D N Sub. induction vss as [|vs vss IH]; intros Ln; [reflexivity|]. cbn [omap map].
  rewrite new_row_ok by (auto; apply Ln; now left). rewrite IH by (intros; apply Ln; now right). reflexivity.
Qed.


Lemma simple_expr fn db names e : no_query e = true -> forall m, exists x v, format_expr names names e m = Some (x, m) /\
  (forall env, mean fn db names env e = Some v) /\ forall env, eval_expr fn db env x = Some v
with simple_exprs fn db names a : no_queries a = true -> forall m, exists x v, format_exprs names names a m = Some (x, m) /\
  (forall env, mean_list fn db names env a = Some v) /\ forall env, eval_exprs fn db env x = Some v.
Proof.
  - destruct e; intros H m; try discriminate H.
    + exists (XLit v), v. repeat split; reflexivity.
    + cbn [no_query] in H. destruct (simple_exprs fn db names a H m) as (x & vs & F & M & E). exists (XCall f x), (fn f vs). split; [|split].
      * change (format_expr names names (ECall f a) m) with (obind (format_exprs names names a m) (fun p => Some (XCall f (fst p), snd p))). now rewrite F.
      * intros env. change (mean fn db names env (ECall f a)) with (match mean_list fn db names env a with Some l => Some (fn f l) | None => None end). now rewrite M.
      * intros env. now rewrite ev_call, E.
  - destruct a as [|e r]; intros H m.
    + exists XNil, []. repeat split; reflexivity.
    + cbn [no_queries] in H. apply andb_prop in H as [He Hr]. destruct (simple_expr fn db names e He m) as (x & v & F & M & E).
      destruct (simple_exprs fn db names r Hr m) as (xs & vs & Fs & Ms & Es). exists (XCons x xs), (v :: vs). split; [|split].
      * change (format_exprs names names (ECons e r) m) with (obind (format_expr names names e m) (fun p => obind (format_exprs names names r (snd p)) (fun q => Some (XCons (fst p) (fst q), snd q)))). rewrite F. cbn [obind fst snd]. now rewrite Fs.
      * intros env. change (mean_list fn db names env (ECons e r)) with (match mean fn db names env e, mean_list fn db names env r with Some v, Some l => Some (v :: l) | _, _ => None end). now rewrite M, Ms.
      * intros env. now rewrite ev_cons, E, Es.
Qed.
Lemma simple_row fn db names l : Forall simple l -> exists vs, every (mean_value fn db names) l = Some vs /\ length vs = length l /\
  forall m, exists xs, format_row names l m = Some (map Some xs, m) /\ omap (eval_expr fn db []) xs = Some vs.
Proof.
  induction l as [|v l IH]; intros H.
  - exists []. repeat split. intros m. exists []. split; reflexivity.
  - inversion H as [|? ? Hv Hl]; subst. destruct (IH Hl) as (vs & M & Ln & F). destruct v as [e|]; [|contradiction]. cbn in Hv.
    destruct (simple_expr fn db names e Hv []) as (x0 & v0 & _ & Me & _). exists (v0 :: vs). split; [|split].
    + change (every (mean_value fn db names) (DExpr e :: l)) with (match mean fn db names [] e, every (mean_value fn db names) l with Some y, Some l0 => Some (y :: l0) | _, _ => None end).
      now rewrite Me, M.
    + cbn. now rewrite Ln.
    + intros m. destruct (simple_expr fn db names e Hv m) as (x & v & Fe & Me' & Ee). destruct (F m) as (xs & Fs & Es). exists (x :: xs). split.
      * cbn [format_row format_value]. rewrite Fe. cbn. rewrite Fs. reflexivity.
      * cbn [omap]. rewrite Ee, Es. cbn. specialize (Me []). specialize (Me' []). congruence.
Qed.
Lemma omap_id {A} (l : list A) : omap (fun o : option A => o) (map Some l) = Some l.
Proof. induction l as [|x l IH]; [reflexivity|]. cbn. now rewrite IH. Qed.
Lemma simple_rows fn db names l : Forall (Forall simple) l -> exists vss, every (every (mean_value fn db names)) l = Some vss /\
  Forall2 (fun vs (r : list dml_value) => length vs = length r) vss l /\
  forall m, exists xs, format_rows names l m = Some (xs, m) /\
    omap (fun r => obind (omap (fun o : option sexpr => o) r) (omap (eval_expr fn db []))) xs = Some vss.
Proof.
  induction l as [|r l IH]; intros H.
  - exists []. repeat split; [constructor|]. intros m. exists []. split; reflexivity.
  - inversion H as [|? ? Hr Hl]; subst. destruct (IH Hl) as (vss & M & Ln & F). destruct (simple_row fn db names r Hr) as (vs & Mr & Lr & Fr).
    exists (vs :: vss). split; [|split].
    + change (every (every (mean_value fn db names)) (r :: l)) with
        (match every (mean_value fn db names) r, every (every (mean_value fn db names)) l with Some y, Some l0 => Some (y :: l0) | _, _ => None end).
      now rewrite Mr, M.
    + now constructor.
    + intros m. destruct (Fr m) as (xr & Fx & Ex). destruct (F m) as (xs & Fs & Es). exists (map Some xr :: xs). split.
      * cbn [format_rows]. rewrite Fx. cbn. rewrite Fs. reflexivity.
      * cbn [omap]. rewrite omap_id. cbn [obind]. rewrite Ex, Es. reflexivity.
Qed.

(** ** UPDATE and DELETE *)
Lemma omap_length {A B} (f : A -> option B) l : forall r, omap f l = Some r -> length r = length l.
Proof.
  induction l as [|x l IH]; intros r H; cbn in H; [assert (r = []) by congruence; now subst|].
  destruct (f x); [|discriminate]. destruct (omap f l) as [r'|]; [|discriminate]. assert (r = b :: r') by (cbn in H; congruence). subst. cbn. f_equal. now apply IH.
Qed.
Lemma map_fst_combine {A B} (a : list A) (b : list B) : length a = length b -> map fst (combine a b) = a.
Proof. revert b. induction a as [|x a IH]; intros [|y b] H; cbn in *; try discriminate; [reflexivity|]. f_equal. apply IH. congruence. Qed.
Lemma map_snd_combine {A B} (a : list A) (b : list B) : length a = length b -> map snd (combine a b) = b.
Proof. revert b. induction a as [|x a IH]; intros [|y b] H; cbn in *; try discriminate; [reflexivity|]. f_equal. apply IH. congruence. Qed.
Lemma exec_lawful fn other name names cols key rows m t' : lawful names cols key rows ->
  exec_dml fn other name (the_table names cols key rows) m = Some t' ->
  exists rows', t' = the_table names cols key rows' /\ lawful names cols key rows'.
Proof.
  intros L. unfold exec_dml. set (db := fun n => if String.eqb n name then _ else _). destruct m as [i|l w|w].
  - destruct (new_rows fn db (the_table names cols key rows) i) as [new|]; [|discriminate]. cbn [obind]. intros H.
    apply (add_rows_iff names cols key new rows t' L) in H as [L' ->]. eexists. now split.
  - destruct (update_rows fn db name l w) as [new|] eqn:U; [|discriminate]. cbn [obind].
    assert (Ln : length (s_rows (the_table names cols key rows)) = length new).
    { unfold update_rows in U. apply omap_length in U. rewrite U. unfold db. now rewrite String.eqb_refl. }
    cbn [s_rows the_table] in Ln. cbn [s_rows the_table].
    destruct (change_iff names cols key (combine rows new) [] rows) as [[E L']|E].
    + cbn [app]. now rewrite map_fst_combine.
    + rewrite E. cbn [obind]. intros H. eexists. split; [|exact L']. assert (Q : forall x y : table, Some x = Some y -> x = y) by (intros; congruence). apply Q in H. now rewrite <- H.
    + rewrite E. discriminate.
  - unfold delete_rows. match goal with |- context [omap ?f (db name)] => destruct (omap f (db name)) as [vs|] eqn:O end; [|discriminate]. cbn [obind].
    intros H. assert (Q : forall x y : table, Some x = Some y -> x = y) by (intros; congruence). apply Q in H. eexists. split; [rewrite <- H; reflexivity|].
    apply lawful_filter. apply omap_length in O. rewrite map_fst_combine by congruence. unfold db. now rewrite String.eqb_refl.
Qed.
Lemma exec_all_lawful name names cols key l : forall rows, lawful names cols key rows ->
  exists rows', exec_all name (the_table names cols key rows) l = the_table names cols key rows' /\ lawful names cols key rows'.
Proof.
  induction l as [|m l IH]; intros rows L; [exists rows; now split|]. unfold exec_all. cbn [fold_left].
  destruct (exec_dml (fst (fst m)) (snd (fst m)) name (the_table names cols key rows) (snd m)) as [t'|] eqn:E.
  - destruct (exec_lawful _ _ _ _ _ _ _ _ _ L E) as (r & -> & L'). now apply IH.
  - now apply IH.
Qed.

(** ** Column types *)
Lemma base64_head rest : exists s, base64_text (String "{" (String """" (String "h" rest))) = String "e" (String "y" (String "J" (String "o" s))).
Proof. unfold base64_text, to_base64, encode_with. cbn [list_ascii_of_string length]. cbn [encode_blocks]. eexists. reflexivity. Qed.
