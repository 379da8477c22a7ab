From Coq Require Import Ascii String List ZArith Lia Bool.
From Verif Require Import GoBase GoBaseFacts ParamModel ParamSpec.
Import ListNotations.
Local Open Scope string_scope.
Local Open Scope nat_scope.

Section P.
  Context {V T W : Type} (enc : T -> V -> option W).
  Implicit Types (values : list (arg V)) (ps : list (param T)).

  Lemma get_params_from_in seen ps p :
    In p (get_params_from seen ps) -> In p ps /\ (p_name p = "" \/ ~ In (p_name p) seen).
  Proof.
    revert seen. induction ps as [|q r IH]; intros seen H; [contradiction|].
    cbn [get_params_from] in H. destruct (String.eqb_spec (p_name q) "") as [E|E].
    - destruct H as [<-|H]; [split; [now left|now left]|].
      apply IH in H. destruct H; split; [now right|assumption].
    - destruct (existsb (String.eqb (p_name q)) seen) eqn:X.
      + apply IH in H. destruct H; split; [now right|assumption].
      + destruct H as [<-|H].
        * split; [now left|]. right. intros Hin.
          enough (existsb (String.eqb (p_name q)) seen = true) by congruence.
          apply existsb_exists. exists (p_name q). split; [assumption|]. apply String.eqb_refl.
        * apply IH in H. destruct H as [H1 H2]. split; [now right|].
          destruct H2 as [H2|H2]; [now left|right]. intros H3. apply H2. now right.
  Qed.

  Lemma get_params_in ps p : In p (get_params ps) -> In p ps.
  Proof. intros H. now apply get_params_from_in in H. Qed.

  Lemma get_params_from_covers seen ps p :
    In p ps -> p_name p <> "" -> ~ In (p_name p) seen ->
    exists q, In q (get_params_from seen ps) /\ p_name q = p_name p.
  Proof.
    revert seen. induction ps as [|q r IH]; intros seen H Hn Hs; [contradiction|].
    cbn [get_params_from]. destruct (String.eqb_spec (p_name q) "") as [E|E].
    - destruct H as [->|H]; [contradiction|]. destruct (IH seen H Hn Hs) as [x [Hx Ex]].
      exists x. split; [now right|assumption].
    - destruct (existsb (String.eqb (p_name q)) seen) eqn:X.
      + destruct H as [->|H]; [|now apply IH].
        exfalso. apply existsb_exists in X. destruct X as [y [Hy Ey]]. apply String.eqb_eq in Ey. congruence.
      + destruct (String.eqb_spec (p_name q) (p_name p)) as [Eq|Eq].
        * exists q. split; [now left|assumption].
        * destruct H as [->|H]; [contradiction|].
          destruct (IH (p_name q :: seen) H Hn) as [x [Hx Ex]].
          { intros [H1|H1]; contradiction. }
          exists x. split; [now right|assumption].
  Qed.

  Lemma get_params_covers ps p :
    In p ps -> p_name p <> "" -> exists q, In q (get_params ps) /\ p_name q = p_name p.
  Proof. intros H Hn. apply get_params_from_covers; auto. Qed.

  Lemma get_params_from_nodup seen ps :
    (forall p, In p ps -> p_name p <> "") -> NoDup (map p_name (get_params_from seen ps)).
  Proof.
    revert seen. induction ps as [|q r IH]; intros seen H; [constructor|].
    cbn [get_params_from]. destruct (String.eqb_spec (p_name q) "") as [E|E].
    - exfalso. apply (H q); [now left|assumption].
    - destruct (existsb (String.eqb (p_name q)) seen) eqn:X.
      + apply IH. intros p Hp. apply H. now right.
      + cbn [map]. constructor; [|apply IH; intros p Hp; apply H; now right].
        intros Hin. apply in_map_iff in Hin. destruct Hin as [x [Ex Hx]].
        destruct (get_params_from_in _ _ _ Hx) as [Hx1 [Hx2|Hx2]].
        * apply (H x); [now right|assumption].
        * apply Hx2. left. now symmetry.
  Qed.

  Lemma get_params_positional ps : (forall p, In p ps -> p_name p = "") -> get_params ps = ps.
  Proof.
    unfold get_params. generalize (@nil string). induction ps as [|q r IH]; intros seen H; [reflexivity|].
    cbn [get_params_from]. rewrite (H q (or_introl eq_refl)). cbn. f_equal. apply IH.
    intros p Hp. apply H. now right.
  Qed.

  (** The map holds the last argument of each name. *)
  Lemma named_map_spec m values n :
    aget (named_map m values) n =
    match find (fun a => String.eqb (lower (a_name a)) n) (rev values) with
    | Some a => Some a
    | None => aget m n
    end.
  Proof.
    revert m. induction values as [|v r IH]; intros m; [reflexivity|].
    cbn [named_map rev]. rewrite IH.
    assert (F : forall l, find (fun a => String.eqb (lower (a_name a)) n) (l ++ [v])%list =
      match find (fun a => String.eqb (lower (a_name a)) n) l with
      | Some a => Some a
      | None => if String.eqb (lower (a_name v)) n then Some v else None end).
    { induction l as [|x l IHl]; cbn; [reflexivity|]. now destruct (String.eqb (lower (a_name x)) n). }
    rewrite F. destruct (find _ (rev r)); [reflexivity|].
    rewrite aget_aset. now destruct (String.eqb (lower (a_name v)) n).
  Qed.

  Lemma arg_named_find values n v :
    arg_named values n v ->
    exists a, find (fun a => String.eqb (lower (a_name a)) n) (rev values) = Some a /\
      In a values /\ lower (a_name a) = n /\ a_val a = v.
  Proof.
    intros [l [a [r [-> [Hn [Hv Hr]]]]]]. exists a. split; [|split; [|split]]; auto.
    2:{ apply in_or_app. right. now left. }
    rewrite rev_app_distr. cbn [rev]. rewrite <- app_assoc. cbn [app].
    assert (Hr' : forall b, In b (rev r) -> lower (a_name b) <> n).
    { intros b Hb. apply Hr. now apply in_rev. }
    induction (rev r) as [|x l' IHl]; cbn.
    - rewrite Hn, String.eqb_refl. reflexivity.
    - destruct (String.eqb_spec (lower (a_name x)) n) as [E|E].
      + exfalso. apply (Hr' x); [now left|assumption].
      + apply IHl. intros b Hb. apply Hr'. now right.
  Qed.

  Lemma pick_all_ok m values idx ps :
    (forall k p, nth_error ps k = Some p -> exists v w, pick m values (idx + k) p = Ok v /\ enc (p_ty p) (a_val v) = Some w) ->
    exists l, pick_all enc m values idx ps = Ok l.
  Proof.
    revert idx. induction ps as [|p r IH]; intros idx H; [eexists; reflexivity|].
    destruct (H 0 p eq_refl) as [v [w [Hp He]]]. rewrite Nat.add_0_r in Hp.
    cbn [pick_all]. rewrite Hp. cbn [bind]. unfold encode_named. rewrite He. cbn [bind].
    destruct (IH (S idx)) as [l Hl].
    { intros k q Hq. specialize (H (S k) q Hq). now rewrite Nat.add_succ_r in H. }
    rewrite Hl. eexists. reflexivity.
  Qed.

  Lemma pick_all_nth m values idx ps l :
    pick_all enc m values idx ps = Ok l ->
    length l = length ps /\
    forall k p, nth_error ps k = Some p ->
      exists v w, pick m values (idx + k) p = Ok v /\ enc (p_ty p) (a_val v) = Some w /\
        nth_error l k = Some (lower (a_name v), w).
  Proof.
    revert idx l. induction ps as [|p r IH]; intros idx l H.
    - injection H as <-. split; [reflexivity|]. intros [|k] q Hq; discriminate.
    - cbn [pick_all] in H. destruct (pick m values idx p) as [v| |] eqn:Ep; try discriminate.
      cbn [bind] in H. unfold encode_named in H. destruct (enc (p_ty p) (a_val v)) as [w|] eqn:Ee; [|discriminate].
      cbn [bind] in H. destruct (pick_all enc m values (S idx) r) as [ws| |] eqn:Ea; try discriminate.
      injection H as <-. destruct (IH _ _ Ea) as [Hl Hn]. split; [cbn; lia|].
      intros [|k] q Hq.
      + injection Hq as <-. exists v, w. rewrite Nat.add_0_r. auto.
      + destruct (Hn k q Hq) as [v' [w' H']]. exists v', w'. rewrite Nat.add_succ_r. auto.
  Qed.

  (** Binding by name. *)
  Lemma bound_from_named (args : list (string * W)) n i acc ord w :
    n <> "" ->
    (forall m x, In (m, x) args -> m <> "") ->
    In n (map fst args) ->
    (forall x, In (n, x) args -> x = w) ->
    bound_from ord args (n, i) acc = Some w.
  Proof.
    revert ord acc. induction args as [|[m x] t IH]; intros ord acc Hn Hm Hin Hw; [contradiction|].
    cbn [bound_from fst snd]. assert (m <> "") as Hm0 by (eapply Hm; now left).
    apply String.eqb_neq in Hm0. rewrite Hm0. clear Hm0.
    destruct (in_dec string_dec n (map fst t)) as [Ht|Ht].
    - apply IH; auto; [intros m' x' Hx; eapply Hm; right; eassumption|intros x' Hx; apply Hw; now right].
    - destruct Hin as [E|E]; [|contradiction]. cbn in E. subst m. rewrite String.eqb_refl.
      rewrite (Hw x (or_introl eq_refl)). clear - Ht Hm.
      assert (forall acc' o, bound_from o t (n, i) acc' = acc') as G; [|apply G].
      assert (Hm' : forall m x, In (m, x) t -> m <> "") by (intros; eapply Hm; right; eassumption).
      clear Hm. induction t as [|[m y] t IH]; intros acc' o; [reflexivity|].
      cbn [bound_from fst snd]. assert (m <> "") as Hm0 by (eapply Hm'; now left).
      apply String.eqb_neq in Hm0. rewrite Hm0.
      destruct (String.eqb_spec m n) as [->|_]; [exfalso; apply Ht; now left|].
      apply IH; [intros H; apply Ht; now right|]. intros. eapply Hm'. right. eassumption.
  Qed.

  Lemma numbers_fst refs next known : map fst (numbers_from next known refs) = refs.
  Proof.
    revert next known. induction refs as [|r t IH]; intros next known; [reflexivity|].
    cbn [numbers_from]. destruct (String.eqb_spec r "") as [->|_]; [cbn; f_equal; apply IH|].
    destruct (find _ known); cbn; f_equal; apply IH.
  Qed.

  Lemma mode_named s : (forall p, In p (ps_params s) -> p_name p <> "") -> mode (T := T) s = Some false.
  Proof.
    intros H. unfold mode.
    enough (existsb (fun p => String.eqb (p_name p) "") (ps_params s) = false) as -> by reflexivity.
    destruct (existsb _ (ps_params s)) eqn:X; [|reflexivity].
    apply existsb_exists in X. destruct X as [p [Hp E]]. apply String.eqb_eq in E. now apply H in Hp.
  Qed.

  Lemma mode_positional s : (forall p, In p (ps_params s) -> p_name p = "") ->
    mode (T := T) s = Some (match ps_params s with [] => false | _ => true end).
  Proof.
    intros H. unfold mode.
    assert (existsb (fun p => negb (String.eqb (p_name p) "")) (ps_params s) = false) as ->.
    { destruct (existsb _ (ps_params s)) eqn:X; [|reflexivity].
      apply existsb_exists in X. destruct X as [p [Hp E]]. now rewrite (H p Hp) in E. }
    rewrite andb_false_r. destruct (ps_params s) as [|p r]; [reflexivity|].
    cbn. now rewrite (H p (or_introl eq_refl)).
  Qed.

  Lemma named_run values s :
    named_stmt s ->
    (forall p a, In p (ps_params s) -> In a values -> enc (p_ty p) (a_val a) <> None) ->
    (forall p, In p (ps_params s) -> exists v, arg_named values (p_name p) v) ->
    exists args bs, run_stmt enc values s = Ok (args, bs) /\
      forall i r, nth_error (ps_refs s) i = Some r ->
        exists p v w, In p (ps_params s) /\ p_name p = r /\ arg_named values r v /\
          enc (p_ty p) v = Some w /\ nth_error bs i = Some (Some w).
  Proof.
    intros [Hnames Hrefs] Henc Hargs. unfold run_stmt.
    rewrite mode_named by (intros p Hp; now apply Hnames in Hp).
    set (ps := get_params (ps_params s)).
    assert (Hps : forall p, In p ps -> In p (ps_params s)) by (intros p; apply get_params_in).
    assert (Hlen : length ps <= length values).
    { rewrite <- (map_length p_name ps), <- (map_length (fun a => lower (a_name a)) values).
      apply NoDup_incl_length; [apply get_params_from_nodup; intros p Hp; now apply Hnames in Hp|].
      intros n Hn. apply in_map_iff in Hn. destruct Hn as [p [<- Hp]].
      destruct (Hargs p (Hps p Hp)) as [v [l [a [r [-> [En _]]]]]].
      rewrite <- En. rewrite map_app. apply in_or_app. right. now left. }
    assert (Hpick : forall idx p, In p ps -> exists a v, pick (named_map [] values) values idx p = Ok a /\
        In a values /\ lower (a_name a) = p_name p /\ a_val a = v /\ arg_named values (p_name p) v).
    { intros idx p Hp. destruct (Hargs p (Hps p Hp)) as [v Hv].
      destruct (arg_named_find _ _ _ Hv) as [a [Hf [Ha [En Ev]]]].
      exists a, v. split; [|auto]. unfold pick.
      destruct (String.eqb_spec (p_name p) "") as [E|_]; [exfalso; now apply (Hnames p (Hps p Hp))|].
      rewrite named_map_spec, Hf. reflexivity. }
    destruct (pick_all_ok (named_map [] values) values 0 ps) as [l Hl].
    { intros k p Hk. apply nth_error_In in Hk. destruct (Hpick (0 + k) p Hk) as [a [v [Hp1 [Hp2 _]]]].
      exists a. destruct (enc (p_ty p) (a_val a)) as [w|] eqn:E; [exists w; auto|].
      exfalso. apply (Henc p a); auto. }
    cbn [get_args]. assert ((length values <? length ps) = false) as -> by (apply Nat.ltb_ge; lia).
    rewrite Hl. cbn [bind]. eexists _, _. split; [reflexivity|].
    destruct (pick_all_nth _ _ _ _ _ Hl) as [Hll Hnth].
    assert (Hentry : forall n x, In (n, x) l -> exists p a, In p ps /\ n = p_name p /\
        In a values /\ arg_named values n (a_val a) /\ enc (p_ty p) (a_val a) = Some x).
    { intros n x Hin. apply In_nth_error in Hin. destruct Hin as [k Hk].
      destruct (nth_error ps k) as [p|] eqn:Ep.
      2:{ apply nth_error_None in Ep. rewrite <- Hll in Ep. apply nth_error_None in Ep. congruence. }
      destruct (Hnth k p Ep) as [a [w [Hp1 [Hp2 Hp3]]]]. rewrite Hk in Hp3. injection Hp3 as -> ->.
      pose proof (nth_error_In _ _ Ep) as Hin.
      destruct (Hpick (0 + k) p Hin) as [a' [v [Hq1 [Hq2 [Hq3 [Hq4 Hq5]]]]]].
      assert (a = a') as -> by congruence. subst v.
      exists p, a'. split; [assumption|]. split; [assumption|]. split; [assumption|].
      split; [now rewrite Hq3|assumption]. }
    intros i r Hi.
    pose proof (nth_error_In _ _ Hi) as Hin. destruct (Hrefs r Hin) as [p0 [Hp0 En0]].
    assert (Hr0 : r <> "") by (subst r; now apply Hnames in Hp0).
    destruct (get_params_covers _ p0 Hp0) as [p [Hp En]]; [now subst r|].
    rewrite En0 in En. change (In p ps) in Hp.
    assert (exists k, nth_error ps k = Some p) as [k Hk] by now apply In_nth_error.
    destruct (Hnth k p Hk) as [a [w [Hq1 [Hq2 Hq3]]]].
    destruct (Hpick (0 + k) p Hp) as [a' [v [Hx1 [Hx2 [Hx3 [Hx4 Hx5]]]]]].
    assert (a = a') as -> by congruence. subst v. rewrite En in Hx5.
    exists p, (a_val a'), w.
    split; [now apply Hps|]. split; [assumption|]. split; [assumption|]. split; [assumption|].
    rewrite nth_error_map. unfold numbers.
    assert (exists j, nth_error (numbers_from 1 [] (ps_refs s)) i = Some (r, j)) as [j Hj].
    { assert (nth_error (map fst (numbers_from 1 [] (ps_refs s))) i = Some r) as Hm by now rewrite numbers_fst.
      rewrite nth_error_map in Hm. destruct (nth_error (numbers_from 1 [] (ps_refs s)) i) as [[r' j]|]; [|discriminate].
      cbn in Hm. injection Hm as ->. now exists j. }
    rewrite Hj. cbn [option_map]. f_equal. unfold bound.
    apply bound_from_named; auto.
    - intros m x Hmx. destruct (Hentry m x Hmx) as [q [b [Hb1 [-> _]]]]. now apply (Hnames q (Hps q Hb1)).
    - apply nth_error_In in Hq3. apply in_map_iff. rewrite Hx3, En in Hq3. now exists (r, w).
    - intros x Hxx. apply In_nth_error in Hxx. destruct Hxx as [k' Hk'].
      destruct (nth_error ps k') as [p'|] eqn:Ep'.
      2:{ apply nth_error_None in Ep'. rewrite <- Hll in Ep'. apply nth_error_None in Ep'. congruence. }
      destruct (Hnth k' p' Ep') as [b [w' [Hb1 [Hb2 Hb3]]]]. rewrite Hk' in Hb3. injection Hb3 as Hb3 <-.
      destruct (Hpick (0 + k') p' (nth_error_In _ _ Ep')) as [b' [v' [Hy1 [Hy2 [Hy3 _]]]]].
      assert (b = b') as -> by congruence.
      assert (p_name p' = r) by congruence.
      assert (k' = k) as ->.
      { assert (ND : NoDup (map p_name ps)) by (apply get_params_from_nodup; intros q Hq; now apply Hnames in Hq).
        rewrite NoDup_nth_error in ND. apply ND.
        - rewrite map_length. apply nth_error_Some. congruence.
        - rewrite !nth_error_map, Ep', Hk. cbn. congruence. }
      congruence.
  Qed.

  (** ---- question marks ---- *)
  Lemma numbers_marks (l : list (param T)) next known :
    numbers_from next known (map (fun _ => "") l) = map (fun i => ("", i)) (seq next (length l)).
  Proof. revert next. induction l as [|x l IH]; intros next; cbn; [reflexivity|]. f_equal. apply IH. Qed.

  Lemma bound_from_marks (args : list (string * W)) ord i acc :
    (forall m x, In (m, x) args -> m = "") -> ord <= i ->
    bound_from ord args ("", i) acc =
    match nth_error args (i - ord) with Some (_, w) => Some w | None => acc end.
  Proof.
    revert ord acc. induction args as [|[m x] t IH]; intros ord acc Hm Hi.
    - cbn. now destruct (i - ord).
    - cbn [bound_from fst snd]. rewrite (Hm m x (or_introl eq_refl)). cbn [String.eqb].
      destruct (Nat.eqb_spec ord i) as [->|Hne].
      + rewrite Nat.sub_diag. cbn.
        assert (G : forall acc' o, i < o -> bound_from o t ("", i) acc' = acc').
        { assert (Hm' : forall m x, In (m, x) t -> m = "") by (intros; eapply Hm; right; eassumption).
          clear - Hm'. induction t as [|[m y] t IH]; intros acc' o Ho; [reflexivity|].
          cbn [bound_from fst snd]. rewrite (Hm' m y (or_introl eq_refl)). cbn.
          destruct (Nat.eqb_spec o i); [lia|]. apply IH; [|lia]. intros. eapply Hm'. right. eassumption. }
        apply G. lia.
      + rewrite IH; [|intros; eapply Hm; right; eassumption|lia].
        replace (i - ord) with (S (i - S ord)) by lia. reflexivity.
  Qed.

  Lemma run_stmt_marks values s args bs :
    positional_stmt s -> (forall a, In a values -> a_name a = "") ->
    run_stmt enc values s = Ok (args, bs) ->
    length args = marks s /\ length bs = marks s /\ marks s <= length values /\
    forall i p, nth_error (ps_params s) i = Some p ->
      exists a w, nth_error values i = Some a /\ enc (p_ty p) (a_val a) = Some w /\
        nth_error bs i = Some (Some w).
  Proof.
    intros [Hp Hr] Ha H. unfold run_stmt in H. rewrite mode_positional in H by assumption.
    rewrite get_params_positional in H by assumption. cbn [get_args] in H.
    destruct (length values <? length (ps_params s)) eqn:L; [discriminate|]. apply Nat.ltb_ge in L.
    destruct (pick_all enc (named_map [] values) values 0 (ps_params s)) as [l| |] eqn:El; try discriminate.
    cbn [bind] in H. injection H as <- <-. destruct (pick_all_nth _ _ _ _ _ El) as [Hl Hn].
    unfold marks. split; [assumption|]. split.
    { unfold numbers. rewrite Hr, numbers_marks, !map_length, seq_length. reflexivity. }
    split; [assumption|]. intros i p Hi.
    assert (Hempty : forall k q, nth_error (ps_params s) k = Some q ->
       exists a w, nth_error values k = Some a /\ enc (p_ty q) (a_val a) = Some w /\ nth_error l k = Some ("", w)).
    { intros k q Hk. destruct (Hn k q Hk) as [a [w [H1 [H2 H3]]]].
      unfold pick in H1. rewrite (Hp q (nth_error_In _ _ Hk)) in H1. cbn in H1.
      destruct (nth_error values k) as [a'|] eqn:Ea; [|discriminate]. injection H1 as ->.
      exists a, w. rewrite (Ha a (nth_error_In _ _ Ea)) in H3. auto. }
    destruct (Hempty i p Hi) as [a [w [H1 [H2 H3]]]]. exists a, w. split; [assumption|]. split; [assumption|].
    unfold numbers. rewrite Hr, numbers_marks, !nth_error_map.
    assert (i < length (ps_params s)) as Hlt by (apply nth_error_Some; congruence).
    rewrite (nth_error_nth' (seq 1 (length (ps_params s))) 0) by now rewrite seq_length.
    rewrite seq_nth by assumption. cbn [option_map]. unfold bound.
    rewrite bound_from_marks.
    - replace (1 + i - 1) with i by lia. now rewrite H3.
    - intros m x Hin. apply In_nth_error in Hin. destruct Hin as [k Hk].
      destruct (nth_error (ps_params s) k) as [q|] eqn:Eq.
      2:{ apply nth_error_None in Eq. rewrite <- Hl in Eq. apply nth_error_None in Eq. congruence. }
      destruct (Hempty k q Eq) as [a' [w' [_ [_ H']]]]. congruence.
    - lia.
  Qed.

  Lemma run_stmt_marks_ok values s :
    positional_stmt s -> marks s <= length values ->
    (forall p a, In p (ps_params s) -> In a values -> enc (p_ty p) (a_val a) <> None) ->
    exists args bs, run_stmt enc values s = Ok (args, bs).
  Proof.
    intros [Hp Hr] Hl Henc. unfold run_stmt. rewrite mode_positional by assumption.
    rewrite get_params_positional by assumption. cbn [get_args].
    unfold marks in Hl. assert ((length values <? length (ps_params s)) = false) as -> by (apply Nat.ltb_ge; lia).
    destruct (pick_all_ok (named_map [] values) values 0 (ps_params s)) as [l El].
    { intros k p Hk. unfold pick. rewrite (Hp p (nth_error_In _ _ Hk)). cbn.
      assert (k < length (ps_params s)) by (apply nth_error_Some; congruence).
      destruct (nth_error values k) as [a|] eqn:Ea.
      2:{ apply nth_error_None in Ea. lia. }
      exists a. destruct (enc (p_ty p) (a_val a)) as [w|] eqn:Ee; [exists w; auto|].
      exfalso. apply (Henc p a); eauto using nth_error_In. }
    rewrite El. eexists _, _. reflexivity.
  Qed.

  Lemma skipn_in {A} n (l : list A) x : In x (skipn n l) -> In x l.
  Proof. intros H. rewrite <- (firstn_skipn n l). apply in_or_app. now right. Qed.

  Lemma nth_error_skipn {A} n (l : list A) i : nth_error (skipn n l) i = nth_error l (n + i).
  Proof. revert l. induction n as [|n IH]; intros [|x l]; cbn; auto. now destruct i. Qed.

  (** What each question mark of a script receives. *)
  Lemma run_params_offset ss : forall values bss,
    (forall s, In s ss -> positional_stmt s) -> (forall a, In a values -> a_name a = "") ->
    run_params enc values ss = Ok bss ->
    length bss = length ss /\
    forall j s, nth_error ss j = Some s ->
      exists bs, nth_error bss j = Some bs /\ length bs = marks s /\
      forall i p, nth_error (ps_params s) i = Some p ->
        exists a w, nth_error values (kept_before ss j + i) = Some a /\
          enc (p_ty p) (a_val a) = Some w /\ nth_error bs i = Some (Some w).
  Proof.
    induction ss as [|s0 r IH]; intros values bss Hs Ha H.
    - injection H as <-. split; [reflexivity|]. intros [|j] s Hj; discriminate.
    - cbn [run_params] in H. destruct (run_stmt enc values s0) as [[args bs]| |] eqn:E; try discriminate.
      cbn [bind] in H.
      destruct (run_stmt_marks _ _ _ _ (Hs s0 (or_introl eq_refl)) Ha E) as [L1 [L2 [L3 Hn]]].
      rewrite mode_positional in H by (apply (Hs s0 (or_introl eq_refl))).
      set (k := if ps_keeps s0 then marks s0 else 0) in *.
      assert (Hsk : match Some match ps_params s0 with [] => false | _ :: _ => true end with
                    | Some true => skipn (if ps_keeps s0 then length args else 0) values
                    | _ => values end = skipn k values).
      { unfold k, marks in *. destruct (ps_params s0); [destruct (ps_keeps s0); reflexivity|].
        rewrite L1. reflexivity. }
      rewrite Hsk in H. clear Hsk.
      destruct (run_params enc (skipn k values) r) as [rest| |] eqn:Er; try discriminate.
      cbn [bind] in H. injection H as <-.
      destruct (IH (skipn k values) rest) as [Lr Hr]; auto.
      { intros s Hin. apply Hs. now right. }
      { intros a Hin. apply Ha. eapply skipn_in. eassumption. }
      split; [cbn; lia|]. intros [|j] s Hj.
      + injection Hj as <-. exists bs. split; [reflexivity|]. split; [assumption|]. cbn [kept_before]. exact Hn.
      + destruct (Hr j s Hj) as [bs' [Hb [Lb Hi]]]. exists bs'. split; [assumption|]. split; [assumption|].
        intros i p Hip. destruct (Hi i p Hip) as [a [w [H1 H2]]]. exists a, w.
        rewrite nth_error_skipn in H1. cbn [kept_before]. fold k.
        rewrite <- Nat.add_assoc. auto.
  Qed.

  Lemma kept_all ss j : (forall s, In s ss -> ps_keeps s = true) -> kept_before (T := T) ss j = marks_before ss j.
  Proof.
    revert j. induction ss as [|s r IH]; intros [|j] H; cbn; auto.
    rewrite (H s (or_introl eq_refl)). f_equal. apply IH. intros x Hx. apply H. now right.
  Qed.

  Lemma kept_firstn ss j :
    (forall s, In s (firstn j ss) -> ps_keeps s = true \/ marks s = 0) -> kept_before (T := T) ss j = marks_before ss j.
  Proof.
    revert j. induction ss as [|s r IH]; intros [|j] H; cbn; auto.
    rewrite IH.
    - destruct (H s (or_introl eq_refl)) as [->|E]; [reflexivity|]. rewrite E. now destruct (ps_keeps s).
    - intros x Hx. apply H. now right.
  Qed.

  Lemma kept_le ss j : kept_before (T := T) ss j <= marks_before ss j.
  Proof.
    revert j. induction ss as [|s r IH]; intros [|j]; cbn; auto. specialize (IH j). destruct (ps_keeps s); lia.
  Qed.

  Lemma kept_lt ss j :
    (exists s, In s (firstn j ss) /\ ps_keeps s = false /\ marks s <> 0) -> kept_before (T := T) ss j < marks_before ss j.
  Proof.
    revert j. induction ss as [|s r IH]; intros [|j] [x [Hx [K M]]]; cbn in *; try contradiction.
    destruct Hx as [->|Hx].
    - rewrite K. pose proof (kept_le r j). lia.
    - assert (kept_before r j < marks_before r j) by (apply IH; eauto). destruct (ps_keeps s); lia.
  Qed.

  Lemma same_number refs next known i j r x y :
    r <> "" -> nth_error (numbers_from next known refs) i = Some (r, x) ->
    nth_error (numbers_from next known refs) j = Some (r, y) -> x = y.
  Proof.
    assert (G : forall refs next known i x, r <> "" ->
       nth_error (numbers_from next known refs) i = Some (r, x) ->
       forall kn, find (fun kn => String.eqb (fst kn) r) known = Some kn -> x = snd kn).
    { clear. induction refs as [|c t IH]; intros next known i x Hr Hi kn Hf; [destruct i; discriminate|].
      cbn [numbers_from] in Hi. destruct (String.eqb_spec c "") as [->|Hc].
      - destruct i as [|i]; cbn in Hi; [injection Hi as <- _; contradiction|]. eauto.
      - destruct (find (fun kn => String.eqb (fst kn) c) known) as [kc|] eqn:Fc.
        + destruct i as [|i]; cbn in Hi; [injection Hi as -> <-; congruence|]. eauto.
        + destruct i as [|i]; cbn in Hi; [injection Hi as -> <-; congruence|].
          eapply IH; eauto. cbn [find fst]. destruct (String.eqb_spec c r) as [->|]; [congruence|assumption]. }
    intros Hr. revert next known i j. induction refs as [|c t IH]; intros next known i j Hi Hj; [destruct i; discriminate|].
    cbn [numbers_from] in Hi, Hj. destruct (String.eqb_spec c "") as [->|Hc].
    - destruct i as [|i]; cbn in Hi; [injection Hi as <- _; contradiction|].
      destruct j as [|j]; cbn in Hj; [injection Hj as <- _; contradiction|]. eauto.
    - destruct (find (fun kn => String.eqb (fst kn) c) known) as [kc|] eqn:Fc.
      + destruct i as [|i], j as [|j]; cbn in Hi, Hj.
        * congruence.
        * injection Hi as -> <-. symmetry. eapply G; eauto.
        * injection Hj as -> <-. eapply G; eauto.
        * eauto.
      + destruct i as [|i], j as [|j]; cbn in Hi, Hj.
        * congruence.
        * injection Hi as -> <-. symmetry.
          change next with (snd (r, next)). eapply G; eauto. cbn. now rewrite String.eqb_refl.
        * injection Hj as -> <-.
          change next with (snd (r, next)). eapply G; eauto. cbn. now rewrite String.eqb_refl.
        * eauto.
  Qed.

  Lemma same_name_same_value values s args bs i j r :
    named_stmt s ->
    run_stmt enc values s = Ok (args, bs) ->
    nth_error (ps_refs s) i = Some r -> nth_error (ps_refs s) j = Some r ->
    nth_error bs i = nth_error bs j.
  Proof.
    intros [Hn Hr] H Hi Hj. unfold run_stmt in H. destruct (mode s); [|discriminate].
    destruct (get_args enc (Some values) (get_params (ps_params s))) as [l| |]; try discriminate.
    cbn [bind] in H. injection H as <- <-. rewrite !nth_error_map. unfold numbers.
    assert (r <> "") as Hr0.
    { destruct (Hr r (nth_error_In _ _ Hi)) as [p [Hp <-]]. now apply Hn in Hp. }
    assert (F : forall k, nth_error (ps_refs s) k = Some r ->
       exists x, nth_error (numbers_from 1 [] (ps_refs s)) k = Some (r, x)).
    { intros k Hk. rewrite <- (numbers_fst (ps_refs s) 1 []), nth_error_map in Hk.
      destruct (nth_error (numbers_from 1 [] (ps_refs s)) k) as [[c x]|]; [|discriminate].
      cbn in Hk. injection Hk as ->. now exists x. }
    destruct (F i Hi) as [x Hx], (F j Hj) as [y Hy].
    rewrite Hx, Hy. now rewrite (same_number _ _ _ _ _ _ _ _ Hr0 Hx Hy).
  Qed.

  Lemma after_create_table ss values bss j s :
    (forall s, In s ss -> positional_stmt s) -> (forall a, In a values -> a_name a = "") ->
    run_params enc values ss = Ok bss ->
    nth_error ss j = Some s ->
    (forall s', In s' (firstn j ss) -> ps_keeps s' = true \/ marks s' = 0) ->
    exists bs, nth_error bss j = Some bs /\ length bs = marks s /\
      forall i p, nth_error (ps_params s) i = Some p ->
        exists a w, nth_error values (marks_before ss j + i) = Some a /\
          enc (p_ty p) (a_val a) = Some w /\ nth_error bs i = Some (Some w).
  Proof.
    intros Hs Ha H Hj Hk. destruct (run_params_offset ss values bss Hs Ha H) as [_ Hn].
    rewrite <- (kept_firstn ss j Hk). now apply Hn.
  Qed.

  Lemma positional_wrong ss values bss j s i p :
    (forall s, In s ss -> positional_stmt s) -> (forall a, In a values -> a_name a = "") ->
    run_params enc values ss = Ok bss ->
    nth_error ss j = Some s -> nth_error (ps_params s) i = Some p ->
    (exists s', In s' (firstn j ss) /\ ps_keeps s' = false /\ marks s' <> 0) ->
    exists k a w, k < marks_before ss j + i /\ nth_error values k = Some a /\
      enc (p_ty p) (a_val a) = Some w /\
      exists bs, nth_error bss j = Some bs /\ nth_error bs i = Some (Some w).
  Proof.
    intros Hs Ha H Hj Hi Hk. destruct (run_params_offset ss values bss Hs Ha H) as [_ Hn].
    destruct (Hn j s Hj) as [bs [Hb [_ Hx]]]. destruct (Hx i p Hi) as [a [w [H1 [H2 H3]]]].
    exists (kept_before ss j + i), a, w. split.
    - apply kept_lt in Hk. lia.
    - split; [assumption|]. split; [assumption|]. now exists bs.
  Qed.

  Lemma get_params_names_incl ps :
    (forall p, In p ps -> p_name p <> "") ->
    length (nodup string_dec (map p_name ps)) <= length (get_params ps).
  Proof.
    intros H. rewrite <- (map_length p_name (get_params ps)). apply NoDup_incl_length; [apply NoDup_nodup|].
    intros n Hn. apply nodup_In, in_map_iff in Hn. destruct Hn as [p [<- Hp]].
    destruct (get_params_covers _ p Hp (H p Hp)) as [x [Hx <-]]. now apply in_map.
  Qed.

  Lemma too_few values s :
    named_stmt s -> length values < length (nodup string_dec (map p_name (ps_params s))) ->
    run_stmt enc values s = Err.
  Proof.
    intros [Hn _] Hl. assert (Hn' : forall p, In p (ps_params s) -> p_name p <> "") by (intros p Hp; now apply Hn in Hp).
    unfold run_stmt. rewrite mode_named by assumption. cbn [get_args].
    pose proof (get_params_names_incl _ Hn').
    assert ((length values <? length (get_params (ps_params s))) = true) as -> by (apply Nat.ltb_lt; lia).
    reflexivity.
  Qed.
End P.

Lemma missing_argument (V W : Type) (enc : unit -> V -> option W) (n m : string) (v : V) (w : W) :
    n <> "" -> lower n = n -> m <> "" -> lower m <> n -> enc tt v = Some w ->
    run_stmt enc [mkarg m v] (mkpstmt [mkparam n tt] [n] false) = Ok ([(lower m, w)], [None]).
Proof.
  intros Hn Ln Hm Hlm He.
  assert (Hn0 : String.eqb n "" = false) by now apply String.eqb_neq.
  assert (E : String.eqb (lower m) n = false) by now apply String.eqb_neq.
  assert (Hm0 : String.eqb (lower m) "" = false) by (destruct m; [contradiction|reflexivity]).
  unfold run_stmt, mode, get_params, numbers, bound, pick, encode_named.
  cbn -[String.eqb lower]. rewrite Hn0. cbn -[String.eqb lower].
  unfold pick, encode_named. cbn -[String.eqb lower]. rewrite ?Hn0, ?E. cbn -[String.eqb lower]. rewrite He.
  cbn -[String.eqb lower]. unfold bound. cbn -[String.eqb lower]. rewrite Hm0, E. reflexivity.
Qed.
