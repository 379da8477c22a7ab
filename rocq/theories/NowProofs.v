(** Facts about the functions of the clock. *)
From Coq Require Import Ascii String List ZArith Lia Bool.
From Verif Require Import GoBase DecModel DecFacts InstantModel ClockTextModel ZoneModel ZoneSpec ZoneProofs PartModel CastModel NowModel NowSpec.
Import ListNotations.
Open Scope Z_scope.

Lemma show_face f l t : show f l t = clock_in l f t.
Proof. destruct f; reflexivity. Qed.
Lemma wrap_id t : representable t <-> wrap64 t = t.
Proof.
  unfold representable, wrap64. change (2 ^ 63) with two63. assert (T : two64 = 2 * two63) by reflexivity. assert (P : 0 < two63) by reflexivity. split; intros H.
  - rewrite Z.mod_small by lia. lia.
  - pose proof (Z.mod_pos_bound (t + two63) two64 eq_refl). lia.
Qed.

Lemma digits_no_sign s : all_digits s = true -> no_sign s = true.
Proof.
  induction s as [|c r IH]; [reflexivity|]. cbn [all_digits no_sign]. intros H. apply andb_true_iff in H as [D A].
  destruct (digit_not_sign c D) as [M P]. now rewrite M, P, (IH A).
Qed.

Section Now.
Variable load : string -> option loc.
Variable local : loc.

Lemma locate_digits n : 0 <= n -> locate load (dec n) = match load (dec n) with Some l => Ok l | None => Err end.
Proof.
  intros H. unfold locate, make.
  assert (N : no_sign (dec n) = true).
  { unfold dec. destruct (Z.ltb_spec n 0); [lia|]. apply digits_no_sign, udec_all_digits; lia. }
  rewrite (leftmost_no_sign offset2_at _ offset2_at_sign eq_refl N), (leftmost_no_sign offset_at _ offset_at_sign eq_refl N).
  now destruct (load (dec n)).
Qed.
Lemma locate_default : load ""%string = Some utc -> locate load ""%string = Ok utc.
Proof. intros H. unfold locate, make. cbn [leftmost offset2_at offset_at]. now rewrite H. Qed.
Lemma locate_no_panic z : locate load z <> GoPanic.
Proof. unfold locate. destruct (make load z) as [[k p]|]; discriminate. Qed.
Lemma cast_no_panic s : cast_string_int64 s <> GoPanic.
Proof. unfold cast_string_int64. destruct (String.eqb s ""); [discriminate|]. destruct (if contains _ _ then _ else _); discriminate. Qed.

Lemma run_steps clock ds cur : forall e s i, own e -> format ds cur e = Some s ->
  (exists v, run load local clock s i = (Ok v, (i + calls e)%nat)) \/ (exists r k, run load local clock s i = (r, k) /\ forall v, r <> Ok v).
Proof.
  induction e as [f z|n|a IHa b IHb|v]; intros s i O F; cbn [format own calls] in *.
  - injection F as <-. cbn [run]. destruct (current load local f _ (clock i)) as [w| |]; cbn [bind].
    + left. exists (VShown w). f_equal. lia.
    + right. now exists Err, (S i).
    + right. now exists GoPanic, (S i).
  - injection F as <-. left. exists (VConst n). cbn. f_equal. lia.
  - destruct O as [Oa Ob]. destruct (format ds cur a) as [x|] eqn:Ea; [|discriminate].
    destruct (format ds cur b) as [y|] eqn:Eb; [|discriminate]. injection F as <-. cbn [run].
    destruct (IHa x i Oa eq_refl) as [[v Hv]|[r [k [Hr N]]]].
    + rewrite Hv. destruct (IHb y (i + calls a)%nat Ob eq_refl) as [[w Hw]|[r [k [Hr N]]]]; rewrite ?Hw, ?Hr.
      * left. exists (VBoth v w). f_equal. lia.
      * right. destruct r as [w| |]; [now specialize (N w)|now exists Err, k|now exists GoPanic, k].
    + rewrite Hr. right. destruct r as [w| |]; [now specialize (N w)|now exists Err, k|now exists GoPanic, k].
  - contradiction.
Qed.

Lemma format_own ds cur e : own e -> exists s, format ds cur e = Some s.
Proof.
  induction e as [f z|n|a IHa b IHb|v]; intros O; cbn [format own] in *; [eauto|eauto| |contradiction].
  destruct O as [A B]. destruct (IHa A) as [x ->], (IHb B) as [y ->]. eauto.
Qed.

(** With the time of the context, no call looks at the clock. *)
Lemma run_fixed ds t c c' : forall e s i i', own e -> format ds (Some t) e = Some s ->
  fst (run load local c s i) = fst (run load local c' s i').
Proof.
  induction e as [f z|n|a IHa b IHb|v]; intros s i i' O F; cbn [format own] in *.
  - injection F as <-. cbn [run fst]. now destruct z.
  - now injection F as <-.
  - destruct O as [Oa Ob]. destruct (format ds (Some t) a) as [x|] eqn:Ea; [|discriminate].
    destruct (format ds (Some t) b) as [y|] eqn:Eb; [|discriminate]. injection F as <-. cbn [run].
    specialize (IHa x i i' Oa eq_refl).
    destruct (run load local c x i) as [r j], (run load local c' x i') as [r' j']. cbn [fst] in IHa. subst r'.
    destruct r as [v| |]; cbn [fst]; try reflexivity. specialize (IHb y j j' Ob eq_refl).
    destruct (run load local c y j) as [r k], (run load local c' y j') as [r' k']. cbn [fst] in IHb. subst r'. now destruct r.
  - contradiction.
Qed.

Lemma run_plain ds t clock zone : forall e s i, plain e -> format ds (Some t) e = Some s ->
  exists v j, run load local clock s i = (Ok v, j) /\ at_time local zone (wrap64 t) e = Some v.
Proof.
  induction e as [f z|n|a IHa b IHb|v]; intros s i P F; cbn [format plain] in *.
  - destruct z; [contradiction|]. injection F as <-. cbn. eauto.
  - injection F as <-. cbn. eauto.
  - destruct P as [Pa Pb]. destruct (format ds (Some t) a) as [x|] eqn:Ea; [|discriminate].
    destruct (format ds (Some t) b) as [y|] eqn:Eb; [|discriminate]. injection F as <-. cbn [run].
    destruct (IHa x i Pa eq_refl) as [v [j [-> Va]]]. destruct (IHb y j Pb eq_refl) as [w [k [-> Vb]]].
    cbn [at_time]. rewrite Va, Vb. eauto.
  - contradiction.
Qed.
Lemma plain_own e : plain e -> own e.
Proof. induction e as [f z|n|a IHa b IHb|v]; cbn; tauto. Qed.

(** Without one, a call with no zone is in UTC and a call with a zone in that zone. *)
Lemma run_still ds t zone : load ""%string = Some utc ->
  (forall z, zone z = match locate load z with Ok l => Some l | _ => None end) ->
  forall e s i clock, (forall j, clock j = t) -> own e -> format ds None e = Some s ->
  match at_time utc zone t e with Some v => exists j, run load local clock s i = (Ok v, j) | None => exists j, run load local clock s i = (Err, j) end.
Proof.
  intros U Z. induction e as [f z|n|a IHa b IHb|v]; intros s i clock C O F; cbn [format own at_time] in *.
  - injection F as <-. destruct z as [z|]; cbn [app run current].
    + rewrite Z. pose proof (locate_no_panic z). destruct (locate load z) as [l| |]; [| |contradiction]; cbn [bind]; rewrite ?C; eauto.
    + rewrite locate_default by assumption. cbn [bind]. rewrite C. eauto.
  - injection F as <-. cbn. eauto.
  - destruct O as [Oa Ob]. destruct (format ds None a) as [x|] eqn:Ea; [|discriminate].
    destruct (format ds None b) as [y|] eqn:Eb; [|discriminate]. injection F as <-. cbn [run].
    specialize (IHa x i clock C Oa eq_refl). destruct (at_time utc zone t a) as [va|].
    + destruct IHa as [j ->]. specialize (IHb y j clock C Ob eq_refl). destruct (at_time utc zone t b) as [vb|]; destruct IHb as [k ->]; eauto.
    + destruct IHa as [j ->]. eauto.
  - contradiction.
Qed.

(** Every instant of a result is a reading, and the readings are in the order of the calls. *)
Lemma run_readings ds clock : forall e s i v j, own e -> format ds None e = Some s -> run load local clock s i = (Ok v, j) ->
  exists ks, instants v = map clock ks /\ (forall k, In k ks -> (i <= k < i + calls e)%nat) /\
  (forall p q a b, (p <= q)%nat -> nth_error ks p = Some a -> nth_error ks q = Some b -> (a <= b)%nat).
Proof.
  induction e as [f z|n|a IHa b IHb|w]; intros s i v j O F R; cbn [format own calls] in *.
  - injection F as <-. cbn [run] in R.
    assert (E : exists l, current load local f (match z with Some z => [AText z] | None => [] end ++ [])%list (clock i) = Ok (show f l (clock i)) \/
      forall x, current load local f (match z with Some z => [AText z] | None => [] end ++ [])%list (clock i) <> Ok x).
    { destruct z as [z|]; cbn [app current].
      - destruct (locate load z) as [l| |]; cbn [bind]; [exists l; now left| |]; exists utc; right; discriminate.
      - destruct (locate load ""%string) as [l| |]; cbn [bind]; [exists l; now left| |]; exists utc; right; discriminate. }
    destruct E as [l [E|E]].
    + rewrite E in R. cbn [bind] in R. assert (v = VShown (show f l (clock i))) as -> by congruence.
      destruct f; cbn [show instants].
      4: { exists [i]. split; [reflexivity|]. split; [intros k [<-|[]]; lia|]. intros p q x y L P Q.
           destruct p as [|p]; [|destruct p; discriminate]. destruct q as [|q]; [|destruct q; discriminate]. cbn in *. assert (x = y) by congruence. lia. }
      all: exists (@nil nat); split; [reflexivity|]; split; [intros k []|]; intros p q x y _ P; destruct p; discriminate.
    + destruct (current load local f _ (clock i)) as [x| |] eqn:Ex; [now specialize (E x)|discriminate|discriminate].
  - injection F as <-. cbn in R. assert (v = VConst n) as -> by congruence. exists []. split; [reflexivity|]. split; [intros k []|].
    intros p q x y _ P. destruct p; discriminate.
  - destruct O as [Oa Ob]. destruct (format ds None a) as [x|] eqn:Ea; [|discriminate].
    destruct (format ds None b) as [y|] eqn:Eb; [|discriminate]. injection F as <-. cbn [run] in R.
    destruct (run_steps clock ds None a x i Oa Ea) as [[va Ra]|[r [k [Ra N]]]].
    2: { rewrite Ra in R. destruct r as [w| |]; [now specialize (N w)|discriminate|discriminate]. }
    rewrite Ra in R.
    destruct (run_steps clock ds None b y (i + calls a)%nat Ob Eb) as [[vb Rb]|[r [k [Rb N]]]].
    2: { rewrite Rb in R. destruct r as [w| |]; [now specialize (N w)|discriminate|discriminate]. }
    rewrite Rb in R. assert (v = VBoth va vb) as -> by congruence.
    destruct (IHa x i va _ Oa eq_refl Ra) as [ka [Ia [Ba Sa]]]. destruct (IHb y _ vb _ Ob eq_refl Rb) as [kb [Ib [Bb Sb]]].
    exists (ka ++ kb)%list. split; [cbn [instants]; now rewrite Ia, Ib, map_app|]. split.
    + intros k K. apply in_app_iff in K as [K|K]; [specialize (Ba k K)|specialize (Bb k K)]; lia.
    + intros p q u w L P Q.
      destruct (Nat.ltb_spec p (length ka)) as [Lp|Lp]; destruct (Nat.ltb_spec q (length ka)) as [Lq|Lq].
      * rewrite nth_error_app1 in P, Q by assumption. exact (Sa p q u w L P Q).
      * rewrite nth_error_app1 in P by assumption. rewrite nth_error_app2 in Q by assumption.
        apply nth_error_In in P, Q. specialize (Ba _ P). specialize (Bb _ Q). lia.
      * lia.
      * rewrite nth_error_app2 in P, Q by assumption. apply (Sb (p - length ka)%nat (q - length ka)%nat u w); [lia|assumption|assumption].
  - contradiction.
Qed.
End Now.
