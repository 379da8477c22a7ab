(** Proofs about nested ARRAY and STRUCT expressions. *)
From Coq Require Import Ascii String List ZArith QArith Lia Bool SpecFloat.
From Verif Require Import GoBase CalendarModel InstantModel ValueModel CodecModel CodecSpec CodecProofs TextModel ArrayFnModel NestModel NestSpec.
Import ListNotations.
Open Scope Z_scope.

Lemma stands_array l l' : stands (VArray l) (VArray l') <-> Forall2 stands_opt l l'.
Proof.
  cbn [stands]. revert l'. induction l as [|o l IH]; intros [|o' l']; split; intros H; try (inversion H; fail); try constructor; auto.
  - destruct H as [H _]. destruct o, o'; exact H.
  - apply IH, H.
  - inversion H as [|? ? ? ? S]; subst. destruct o, o'; exact S.
  - apply IH. now inversion H.
Qed.
Lemma stands_struct l l' : stands (VStruct l) (VStruct l') <-> Forall2 (fun p q => fst p = fst q /\ stands_opt (snd p) (snd q)) l l'.
Proof.
  cbn [stands]. revert l'. induction l as [|[k o] l IH]; intros [|[k' o'] l']; split; intros H; try (inversion H; fail); try constructor; auto.
  - destruct H as (K & H & _). split; [exact K|]. destruct o, o'; exact H.
  - apply IH, H.
  - inversion H as [|? ? ? ? [S _]]; subst. exact S.
  - inversion H as [|? ? ? ? [_ S] R]; subst. split; [destruct o, o'; exact S|]. now apply IH.
Qed.
Lemma time_storable t t' : t mod 1000 = 0 -> nanosecond t = nanosecond t' -> t' mod 1000 = 0.
Proof.
  unfold nanosecond. intros H E.
  assert (G : forall x, x mod 1000 = (x mod ns_per_sec) mod 1000).
  { intros x. change ns_per_sec with (1000 * 1000000). rewrite Z.rem_mul_r by lia. rewrite (Z.add_comm (x mod 1000)), Z.mul_comm, Z.add_comm. rewrite Z.mod_add by lia. now rewrite Z.mod_mod by lia. }
  rewrite G. rewrite <- E, <- G. exact H.
Qed.

Lemma weaken v : storable true v -> storable false v.
Proof.
  destruct v as [| |f| | | | |l|l| | | | |]; cbn [storable]; try tauto.
  destruct f; try tauto; intros; discriminate.
Qed.
Lemma stands_storable : forall v w, storable true v -> stands v w -> storable true w.
Proof.
  refine (val_ind2 (fun v => forall w, storable true v -> stands v w -> storable true w) _ _ _).
  - intros v NA NS w S Q.
    assert (Fl : forall f z, float_is f z -> storable true (VFloat f)) by (intros f z; destruct f; cbn; tauto).
    destruct v; try (now destruct (NA l)); try (now destruct (NS l)); destruct w; cbn [stands same] in Q; try contradiction; try (subst; exact S); try (exact (Fl _ _ Q)); try exact I.
    + subst. cbn [storable]. destruct b; reflexivity.
    + cbn [storable] in *. destruct Q as [_ Q]. exact (time_storable _ _ S Q).
  - intros l H w S Q. destruct w as [| | | | | | |l'| | | | | |]; try contradiction. apply stands_array in Q. apply storable_array in S. apply storable_array.
    revert H S. induction Q as [|o o' l l' Qo Q IH]; intros H S; constructor; inversion H; inversion S; subst; [|now apply IH].
    destruct o as [x|], o' as [y|]; cbn in *; try contradiction; auto.
  - intros l H w S Q. destruct w as [| | | | | | | |l'| | | | |]; try contradiction. apply stands_struct in Q. apply storable_struct in S. apply storable_struct.
    revert H S. induction Q as [|[k o] [k' o'] l l' [K Qo] Q IH]; intros H S; constructor; inversion H; inversion S as [|? ? [T So]]; subst; [|now apply IH].
    cbn [fst snd] in *. subst k'. split; [exact T|]. destruct o as [x|], o' as [y|]; cbn in *; try contradiction; auto.
Qed.
Lemma stands_same : forall v u w, stands v u -> same u w -> stands v w.
Proof.
  refine (val_ind2 (fun v => forall u w, stands v u -> same u w -> stands v w) _ _ _).
  - intros v NA NS u w A B.
    destruct v; try (now destruct (NA l)); try (now destruct (NS l)); destruct u; cbn [stands same] in A; try contradiction; destruct w; cbn [same] in B; try contradiction; cbn [stands same]; subst; auto.
    + now rewrite A, B.
    + destruct A, B. split; congruence.
  - intros l H u w A B. destruct u as [| | | | | | |l1| | | | | |]; try contradiction. destruct w as [| | | | | | |l2| | | | | |]; try contradiction.
    apply stands_array in A. apply same_array in B. apply stands_array.
    revert l2 B H. induction A as [|o o1 l l1 Qo Q IH]; intros l2 B H; inversion B as [|? o2 ? l3 Bo B']; subst; constructor; inversion H; subst; [|now apply IH].
    destruct o as [x|], o1 as [y|], o2 as [z|]; cbn in *; try contradiction; eauto.
  - intros l H u w A B. destruct u as [| | | | | | | |l1| | | | |]; try contradiction. destruct w as [| | | | | | | |l2| | | | |]; try contradiction.
    apply stands_struct in A. apply same_struct in B. apply stands_struct.
    revert l2 B H. induction A as [|[k o] [k1 o1] l l1 [K Qo] Q IH]; intros l2 B H; inversion B as [|? [k2 o2] ? l3 [K2 Bo] B']; subst; constructor; inversion H; subst; [|now apply IH].
    cbn [fst snd] in *. split; [congruence|]. destruct o as [x|], o1 as [y|], o2 as [z|]; cbn in *; try contradiction; eauto.
Qed.
Definition kept (o : option val) : Prop := match o with Some v => storable true v | None => True end.
Lemma passes o o' : kept o -> stands_opt o o' -> exists o'', round_trip o' = Ok o'' /\ stands_opt o o''.
Proof.
  destruct o as [v|], o' as [w|]; cbn [kept stands_opt]; try contradiction.
  - intros S Q. destruct (comes_back_all w false (weaken w (stands_storable v w S Q))) as (e & w' & E & _ & D & Q').
    exists (Some w'). split; [|exact (stands_same v w w' Q Q')]. unfold round_trip, encode_opt. rewrite E. exact D.
  - intros _ _. exists None. split; reflexivity.
Qed.
Lemma stands_self : forall v, storable true v -> stands v v.
Proof.
  refine (val_ind2 (fun v => storable true v -> stands v v) _ _ _).
  - intros v NA NS S. destruct v; try (now destruct (NA l)); try (now destruct (NS l)); cbn [stands same]; try reflexivity; try contradiction. split; reflexivity.
  - intros l H S. apply storable_array in S. apply stands_array. induction l as [|o l IH]; constructor; inversion H; inversion S; subst; [|now apply IH]. destruct o; cbn in *; auto.
  - intros l H S. apply storable_struct in S. apply stands_struct. induction l as [|[k o] l IH]; constructor; inversion H; inversion S as [|? ? [T So]]; subst; [|now apply IH]. split; [reflexivity|]. cbn [snd] in *. destruct o; cbn in *; auto.
Qed.

Lemma fields_back vs : make_fields name_text (flat_map (fun p : string * option val => [Some (VStr (fst p)); snd p]) vs) = Ok vs.
Proof. induction vs as [|[k o] vs IH]; [reflexivity|]. cbn [flat_map app fst snd make_fields name_text bind]. rewrite IH. reflexivity. Qed.
Lemma struct_back vs : bind_make_struct name_text (flat_map (fun p : string * option val => [Some (VStr (fst p)); snd p]) vs) = Ok (Some (VStruct vs)).
Proof.
  unfold bind_make_struct. rewrite fields_back. cbn [bind].
  assert (O : Nat.odd (List.length (flat_map (fun p : string * option val => [Some (VStr (fst p)); snd p]) vs)) = false).
  { induction vs as [|p vs IH]; [reflexivity|]. cbn [flat_map app List.length]. exact IH. }
  now rewrite O.
Qed.
Scheme expr_both := Induction for expr Sort Prop with exprs_both := Induction for exprs Sort Prop.
Combined Scheme expr_exprs from expr_both, exprs_both.
Lemma nth_forall2 {A B} (R : A -> B -> Prop) l l' : Forall2 R l l' -> forall i, match nth_error l i, nth_error l' i with Some x, Some y => R x y | None, None => True | _, _ => False end.
Proof. induction 1 as [|x y l l' H F IH]; intros [|i]; cbn; auto. apply IH. Qed.
Lemma nth_all {A} (P : A -> Prop) l i x : Forall P l -> nth_error l i = Some x -> P x.
Proof. intros F E. apply nth_error_In in E. rewrite Forall_forall in F. now apply F. Qed.
Lemma nested :
  (forall e o, fine e -> mean e = Some o -> kept o /\ exists o', eval e = Ok o' /\ stands_opt o o') /\
  (forall l vs, fine_all l -> mean_all l = Some vs -> Forall (fun p => text_ok (fst p) /\ kept (snd p)) vs /\
     exists vs', eval_all l = Ok vs' /\ Forall2 (fun p q => fst p = fst q /\ stands_opt (snd p) (snd q)) vs vs').
Proof.
  apply expr_exprs.
  - intros o o1 F M. cbn in M. assert (o1 = o) by congruence. subst o1. split; [exact F|]. exists o. split; [reflexivity|]. destruct o as [v|]; [|exact I]. now apply stands_self.
  - intros l IH o F M. cbn [mean fine] in *. destruct (mean_all l) as [vs|] eqn:E; [|discriminate]. destruct (IH vs F eq_refl) as (K & vs' & Ev & Q).
    assert (o = Some (VArray (map snd vs))) by (cbn in M; congruence). subst o. split.
    + cbn [kept]. apply storable_array. clear -K. induction K as [|[k o] vs [_ H] K IH]; constructor; [exact H|exact IH].
    + cbn [eval]. rewrite Ev. cbn [bind]. eexists. split; [reflexivity|]. cbn [stands_opt]. apply stands_array. clear -Q. induction Q as [|p q vs vs' [_ H] Q IH]; constructor; [exact H|exact IH].
  - intros l IH o F M. cbn [mean fine] in *. destruct (mean_all l) as [vs|] eqn:E; [|discriminate]. destruct (IH vs F eq_refl) as (K & vs' & Ev & Q).
    assert (o = Some (VStruct vs)) by (cbn in M; congruence). subst o. split.
    + cbn [kept]. apply storable_struct. clear -K. induction K as [|[k o] vs [T H] K IH]; constructor; [split; [exact T|exact H]|exact IH].
    + cbn [eval]. rewrite Ev. cbn [bind]. rewrite struct_back. eexists. split; [reflexivity|]. cbn [stands_opt]. now apply stands_struct.
  - intros e IH i o F M. cbn [mean fine] in *. destruct (mean e) as [m|] eqn:E; [|discriminate]. destruct (IH m F eq_refl) as (K & o1 & Ev & Q).
    destruct (passes m o1 K Q) as (o2 & R & Q2). cbn [eval]. rewrite Ev. cbn [bind]. rewrite R. cbn [bind].
    destruct m as [v|].
    + destruct v as [| | | | | | | |l| | | | |]; try discriminate. destruct o2 as [w|]; [|contradiction]. cbn [stands_opt] in Q2. destruct w as [| | | | | | | |l'| | | | |]; try contradiction.
      apply stands_struct in Q2. cbn [kept] in K. apply storable_struct in K. pose proof (nth_forall2 _ _ _ Q2 i) as N. destruct (nth_error l i) as [[k x]|] eqn:Ni; [|discriminate].
      destruct (nth_error l' i) as [[k' y]|] eqn:Ni'; [|contradiction]. assert (o = x) by (cbn in M; congruence). subst o. destruct N as [_ N]. cbn [snd] in N. split.
      * destruct (nth_all _ _ _ _ K Ni) as [_ S]. exact S.
      * unfold bind_struct_field, to_int, bind. assert (L : (Z.of_nat i <? 0) = false) by (apply Z.ltb_ge; lia). rewrite L, Nat2Z.id, Ni'. eexists. split; [reflexivity|exact N].
    + assert (o = None) by congruence. subst o. destruct o2; [contradiction|]. split; [exact I|]. exists None. split; [reflexivity|exact I].
  - intros base safe e IH i o F M. cbn [mean fine] in *. destruct (mean e) as [m|] eqn:E; [|discriminate]. destruct (IH m F eq_refl) as (K & o1 & Ev & Q).
    destruct (passes m o1 K Q) as (o2 & R & Q2). cbn [eval]. rewrite Ev. cbn [bind]. rewrite R. cbn [bind].
    destruct m as [v|].
    + destruct v as [| | | | | | |l| | | | | |]; try discriminate. destruct o2 as [w|]; [|contradiction]. cbn [stands_opt] in Q2. destruct w as [| | | | | | |l'| | | | | |]; try contradiction.
      apply stands_array in Q2. cbn [kept] in K. apply storable_array in K. cbn [subscript]. unfold index.
      assert (Ln : zlen l' = zlen l) by (unfold zlen; f_equal; clear -Q2; induction Q2; cbn; congruence).
      destruct (base <=? i) eqn:Bi.
      * apply Z.leb_le in Bi. pose proof (nth_forall2 _ _ _ Q2 (Z.to_nat (i - base))) as N. destruct (nth_error l (Z.to_nat (i - base))) as [x|] eqn:Ni.
        -- destruct (nth_error l' (Z.to_nat (i - base))) as [y|] eqn:Ni'; [|contradiction]. assert (o = x) by congruence. subst o.
           assert (Lt : (Z.to_nat (i - base) < List.length l')%nat) by (apply nth_error_Some; congruence).
           assert (B : ((i - base <? 0) || (zlen l' <=? i - base))%bool = false) by (apply orb_false_intro; [apply Z.ltb_ge|apply Z.leb_gt; unfold zlen]; lia).
           rewrite B. split; [exact (nth_all _ _ _ _ K Ni)|]. eexists. split; [reflexivity|exact N].
        -- destruct (nth_error l' (Z.to_nat (i - base))) as [y|] eqn:Ni'; [contradiction|]. destruct safe; [|discriminate]. assert (o = None) by congruence. subst o.
           split; [exact I|]. exists None. split; [|exact I]. now destruct (_ || _)%bool.
      * destruct safe; [|discriminate]. assert (o = None) by congruence. subst o. apply Z.leb_gt in Bi.
        assert (B : ((i - base <? 0) || (zlen l' <=? i - base))%bool = true) by (apply orb_true_intro; left; apply Z.ltb_lt; lia).
        rewrite B. split; [exact I|]. exists None. split; [reflexivity|exact I].
    + assert (o = None) by congruence. subst o. destruct o2; [contradiction|]. split; [exact I|]. exists None. split; [reflexivity|exact I].
  - intros vs _ M. assert (vs = []) by (cbn in M; congruence). subst vs. split; [constructor|]. exists []. split; [reflexivity|constructor].
  - intros n e IHe r IHr vs F M. cbn [mean_all fine_all] in *. destruct F as (T & Fe & Fr). destruct (mean e) as [m|]; [|discriminate]. destruct (mean_all r) as [ms|]; [|discriminate].
    destruct (IHe m Fe eq_refl) as (K & o1 & Ev & Q). destruct (IHr ms Fr eq_refl) as (Kr & vs' & Er & Qr). destruct (passes m o1 K Q) as (o2 & R & Q2).
    assert (vs = (n, m) :: ms) by congruence. subst vs. split; [constructor; [split; assumption|exact Kr]|].
    cbn [eval_all]. rewrite Ev. cbn [bind]. rewrite R. cbn [bind]. rewrite Er. cbn [bind]. rewrite (sanitize_ok n T). eexists. split; [reflexivity|]. constructor; [split; [reflexivity|exact Q2]|exact Qr].
Qed.
