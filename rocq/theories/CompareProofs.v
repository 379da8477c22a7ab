From Coq Require Import Ascii String List ZArith QArith Lia Bool SpecFloat Sorted Permutation.
From Verif Require Import GoBase GoBaseFacts ValueModel ValueFacts CompareSpec.
Import ListNotations.
Open Scope Z_scope.

(** ** Scalars *)

Lemma bytes_compare_spec : forall a b,
  match bytes_compare a b with
  | Eq => a = b
  | Lt => bytes_before (bytes_of a) (bytes_of b)
  | Gt => bytes_before (bytes_of b) (bytes_of a)
  end.
Proof.
  induction a as [|x a IH]; intros [|y b]; simpl; auto; try constructor.
  destruct (N.compare_spec (N_of_ascii x) (N_of_ascii y)) as [E|E|E].
  - specialize (IH b). 
    assert (x = y) by (rewrite <- (ascii_N_embedding x), <- (ascii_N_embedding y); congruence). subst y.
    destruct (bytes_compare a b); [now f_equal| now constructor | now constructor].
  - now constructor.
  - now constructor.
Qed.

Lemma bytes_before_irrefl : forall l, ~ bytes_before l l.
Proof. induction l as [|x l IH]; intros H; inversion H; subst; try lia; auto. Qed.

Lemma bytes_before_trans : forall a b c, bytes_before a b -> bytes_before b c -> bytes_before a c.
Proof.
  intros a b c H. revert c. induction H; intros c K; inversion K; subst;
    try (apply bb_nil); try (apply bb_head; lia); try (apply bb_tail; auto); apply bb_head; assumption.
Qed.

Lemma float_compare_spec : forall f g, real_float f -> real_float g ->
  SFcompare f g = Some (float_scaled f ?= float_scaled g).
Proof.
  intros f g [Vf Nf] [Vg Ng]. rewrite SFcompare_key by assumption. f_equal.
  assert (P : forall s m e, valid_binary prec64 emax64 (S754_finite s m e) = true -> canonical m e)
    by (intros; assumption).
  assert (B : forall s m e, valid_binary prec64 emax64 (S754_finite s m e) = true ->
              0 < Zpos m * 2 ^ (e + 1074) < 2 ^ 2098).
  { intros s m e V. apply (scaled_bound m e). exact V. }
  assert (Z0 : 0 < 2 ^ 2098) by (apply Z.pow_pos_nonneg; lia).
  destruct f as [[]|[]| |[] m e]; destruct g as [[]|[]| |[] m' e']; try discriminate;
    cbn [fkey float_scaled];
    repeat match goal with H : valid_binary _ _ (S754_finite _ _ _) = true |- _ =>
             pose proof (B _ _ _ H); pose proof (P _ _ _ H); clear H end;
    set (I := 2 ^ 2098) in *; clearbody I; cbn [key_compare];
    try (symmetry; first [apply Z.compare_eq_iff | apply Z.compare_lt_iff | apply Z.compare_gt_iff]; lia);
    try (rewrite Z.compare_refl; cbn [lex];
         rewrite ?Z.compare_refl; symmetry; apply Z.compare_refl).
  - rewrite Z.compare_refl. cbn [lex]. rewrite !Z.compare_opp. fold (scaled m e) (scaled m' e').
    symmetry. now apply scaled_compare.
  - rewrite Z.compare_refl. cbn [lex]. fold (scaled m e) (scaled m' e').
    symmetry. now apply scaled_compare.
Qed.

(** The comparison of two comparable scalars decides their order. *)
Lemma scalar_compare_spec : forall a b, comparable a b ->
  exists c, scalar_compare a b = Some (Some c) /\
    match c with Eq => alike a b | Lt => before a b | Gt => before b a end.
Proof.
  intros a b C; destruct a, b; cbn [comparable] in C; try contradiction; cbn [scalar_compare];
    try (eexists; split; [reflexivity|]; cbn [alike before];
         match goal with |- context [?x ?= ?y] => destruct (Z.compare_spec x y); auto end; fail);
    try (eexists; split; [reflexivity|]; cbn [alike before];
         match goal with |- context [bytes_compare ?x ?y] => pose proof (bytes_compare_spec x y) as B;
           destruct (bytes_compare x y); auto end; fail).
  - destruct C. rewrite float_compare_spec by assumption. eexists; split; [reflexivity|].
    cbn [alike before]. destruct (Z.compare_spec (float_scaled f) (float_scaled f0)); auto.
  - eexists; split; [reflexivity|]. cbn [alike before].
    destruct (Qcompare_spec q q0); auto.
Qed.

Lemma comparable_sym : forall a b, comparable a b -> comparable b a.
Proof. intros a b; destruct a, b; cbn; tauto. Qed.

Lemma comparable_trans : forall a b c, comparable a b -> comparable b c -> comparable a c.
Proof. intros a b c; destruct a, b; cbn; try tauto; destruct c; cbn; tauto. Qed.

Lemma before_irrefl : forall a, ~ before a a.
Proof.
  destruct a; cbn; try lia; try tauto; try apply bytes_before_irrefl.
  apply Qlt_irrefl.
Qed.

Lemma before_trans : forall a b c, before a b -> before b c -> before a c.
Proof.
  intros a b c; destruct a, b; cbn; try tauto; destruct c; cbn; try tauto; try lia.
  - apply bytes_before_trans.
  - apply bytes_before_trans.
  - apply Qlt_trans.
Qed.

Lemma alike_sym : forall a b, alike a b -> alike b a.
Proof. intros a b; destruct a, b; cbn; try tauto; try congruence; try apply Qeq_sym. Qed.

Lemma alike_trans : forall a b c, alike a b -> alike b c -> alike a c.
Proof.
  intros a b c; destruct a, b; cbn; try tauto; destruct c; cbn; try tauto; try congruence.
  all: apply Qeq_trans.
Qed.

Lemma alike_before : forall a b c, alike a b -> before b c -> before a c.
Proof.
  intros a b c; destruct a, b; cbn; try tauto; destruct c; cbn; try tauto; try (intros ->; auto; fail); try lia.
  all: intros E; now rewrite E.
Qed.

Lemma before_alike : forall a b c, before a b -> alike b c -> before a c.
Proof.
  intros a b c; destruct a, b; cbn; try tauto; destruct c; cbn; try tauto; try (intros H E; subst; auto; fail); try lia.
  all: intros H E; now rewrite <- E.
Qed.

Lemma trichotomy : forall a b, comparable a b -> before a b \/ alike a b \/ before b a.
Proof. intros a b C. destruct (scalar_compare_spec a b C) as (c & _ & H). destruct c; auto. Qed.

Lemma before_not_alike : forall a b, before a b -> ~ alike a b.
Proof. intros a b H E. apply (before_irrefl a). eapply before_alike; eauto using alike_sym. Qed.

Lemma before_asym : forall a b, before a b -> ~ before b a.
Proof. intros a b H E. apply (before_irrefl a). eapply before_trans; eauto. Qed.

Lemma comparable_cmp : forall op sw a b, comparable a b ->
  cmp_sw op sw a b = if sw then scalar_op op b a else scalar_op op a b.
Proof. intros op sw a b C; destruct a, b; cbn in C; try contradiction; reflexivity. Qed.

Lemma scalar_op_spec : forall op a b, comparable a b ->
  exists c, scalar_op op a b = Ok c /\ (c = true <-> means op a b).
Proof.
  intros op a b C. destruct (scalar_compare_spec a b C) as (c & E & S).
  assert (R : scalar_op op a b = Ok (decide op (Some c))).
  { unfold scalar_op.
    assert (refuses op a = false) as -> by (destruct a, b; cbn in C; try contradiction; destruct op; reflexivity).
    rewrite E. destruct a, b; cbn in C; try contradiction; reflexivity. }
  eexists; split; [exact R|].
  assert (N1 := before_not_alike a b). assert (N2 := before_asym a b).
  assert (N3 := before_not_alike b a). assert (N4 := alike_sym a b).
  destruct c; destruct op; cbn [decide means] in *; split; intros; try discriminate; try tauto; auto.
Qed.

Lemma cmp_scalar : forall op a b, comparable a b ->
  exists c, cmp op a b = Ok c /\ (c = true <-> means op a b).
Proof.
  intros. unfold cmp. rewrite comparable_cmp by assumption. now apply scalar_op_spec.
Qed.

Lemma collate_spec : forall a b, comparable a b ->
  (collate a b = -1 /\ before a b) \/ (collate a b = 0 /\ alike a b) \/ (collate a b = 1 /\ before b a).
Proof.
  intros a b C. unfold collate.
  destruct (cmp_scalar EQ a b C) as (c & -> & E). destruct (cmp_scalar GT a b C) as (d & -> & G).
  cbn [means] in *. destruct c; [right; left; tauto|]. destruct d; [right; right; tauto|].
  left. split; auto. destruct (trichotomy a b C) as [H|[H|H]]; auto.
  - apply E in H. discriminate.
  - apply G in H. discriminate.
Qed.

Lemma collate_le : forall a b, comparable a b -> (collate a b <= 0 <-> before a b \/ alike a b).
Proof.
  intros a b C. destruct (collate_spec a b C) as [[-> H]|[[-> H]|[-> H]]]; split; auto; intros K; try lia.
  destruct K as [K|K].
  - exfalso. eapply before_asym; eauto.
  - exfalso. eapply before_not_alike; eauto using alike_sym.
Qed.

Definition nondecreasing (l : list val) : Prop := StronglySorted (fun a b => before a b \/ alike a b) l.

(** Whatever algorithm SQLite uses to sort by the collation, neighbours in order
    means the whole list is in order. *)
Lemma order_by_sorted : forall l,
  (forall a b, In a l -> In b l -> comparable a b) ->
  LocallySorted (fun a b => collate a b <= 0) l -> nondecreasing l.
Proof.
  intros l C S. apply Sorted_LocallySorted_iff in S.
  assert (S' : Sorted (fun a b => before a b \/ alike a b) l).
  { induction S as [|a l S IH H]; constructor.
    - apply IH. intros; apply C; now right.
    - destruct H as [|b l H]; constructor. apply collate_le; auto. apply C; [now left|right; now left]. }
  apply Sorted_StronglySorted; auto.
  intros a b c [H|H] [K|K].
  - left. eapply before_trans; eauto.
  - left. eapply before_alike; eauto.
  - left. eapply alike_before; eauto.
  - right. eapply alike_trans; eauto.
Qed.

(** ** Arrays and structs *)

Section TyInd.
  Variable P : ty -> Prop.
  Hypothesis Hs : forall t, match t with TArray _ | TStruct _ => False | _ => True end -> P t.
  Hypothesis Ha : forall t, P t -> P (TArray t).
  Hypothesis Hst : forall fs, Forall (fun ft => P (snd ft)) fs -> P (TStruct fs).
  Fixpoint ty_ind' (t : ty) : P t :=
    match t with
    | TArray t => Ha t (ty_ind' t)
    | TStruct fs =>
        Hst fs ((fix go (fs : list (string * ty)) : Forall (fun ft => P (snd ft)) fs :=
                   match fs with
                   | [] => Forall_nil _
                   | ft :: r => Forall_cons ft (ty_ind' (snd ft)) (go r)
                   end) fs)
    | t => Hs t I
    end.
End TyInd.

(** The array loop, named. *)
Fixpoint arr_loop (op : cmpop) (sw : bool) (l l' : list (option val)) : res bool :=
  match l, l' with
  | x :: r, y :: r' => match elem_op (cmp_sw op) op sw x y with Ok true => arr_loop op sw r r' | o => o end
  | _, _ => Ok true
  end.

Lemma cmp_array : forall op sw l l',
  cmp_sw op sw (VArray l) (VArray l') =
  if negb (Nat.eqb (length l) (length l')) then Ok false else arr_loop op sw l l'.
Proof.
  intros. cbn [cmp_sw]. destruct (negb _); auto.
  revert l'. induction l as [|x r IH]; intros [|y r']; auto.
  cbn [arr_loop]. rewrite <- IH. reflexivity.
Qed.

Fixpoint str_loop (op : cmpop) (sw : bool) (m' : list (string * option val)) (l : list (string * option val)) : res bool :=
  match l with
  | [] => Ok true
  | (k, x) :: r =>
      if existsb (fun kv => String.eqb (fst kv) k) r then str_loop op sw m' r
      else
        let y := match aget m' k with Some y => y | None => None end in
        match elem_op (cmp_sw op) op sw x y with
        | Ok true => str_loop op sw m' r
        | o => o
        end
  end.

Lemma cmp_struct : forall op sw l l',
  cmp_sw op sw (VStruct l) (VStruct l') =
  if negb (Nat.eqb (length (field_map l [])) (length (field_map l' []))) then Ok false
  else str_loop op sw (field_map l' []) l.
Proof.
  intros. cbn [cmp_sw]. cbv zeta. destruct (negb _); auto.
  generalize (field_map l' []) as m'. intros m'.
  induction l as [|[k x] r IH]; auto. cbn [str_loop]. rewrite <- IH. reflexivity.
Qed.

Lemma field_map_distinct : forall l acc,
  NoDup (map fst l) -> (forall k, In k (map fst acc) -> ~ In k (map fst l)) ->
  field_map l acc = (acc ++ l)%list.
Proof.
  induction l as [|[k v] l IH]; intros acc N D; cbn [field_map].
  - now rewrite app_nil_r.
  - cbn in N. inversion N; subst.
    assert (A : aset acc k v = (acc ++ [(k, v)])%list).
    { assert (K : ~ In k (map fst acc)) by (intros K; apply (D k K); now left).
      clear -K. induction acc as [|[k' v'] acc IH]; cbn; auto.
      destruct (String.eqb_spec k' k) as [->|]; [exfalso; apply K; now left|].
      rewrite IH; auto. intros H; apply K; now right. }
    rewrite A, IH; auto.
    + now rewrite <- app_assoc.
    + intros k' K' K''. rewrite map_app, in_app_iff in K'. destruct K' as [K'|[<-|[]]]; auto.
      apply (D k' K'). now right.
Qed.

(** EQ of full values, by induction on the type. *)
Definition eq_right (t : ty) : Prop := forall sw a b, full t a -> full t b ->
  exists c, cmp_sw EQ sw a b = Ok c /\ (c = true <-> same t a b).

Lemma eq_right_array : forall t, eq_right t -> eq_right (TArray t).
Proof.
  intros t IH sw a b Fa Fb. destruct a; cbn in Fa; try contradiction. destruct b; cbn in Fb; try contradiction.
  rename l0 into l'. rewrite cmp_array. cbn [same].
  destruct (Nat.eqb_spec (length l) (length l')) as [E|E]; cbn [negb].
  - revert l' Fb E. induction Fa as [|o l Fo Fa IHl]; intros l' Fb E.
    + destruct l'; [|discriminate]. exists true. split; auto. split; auto.
    + destruct l' as [|o' l']; [discriminate|]. inversion Fb; subst.
      destruct o as [x|]; [|contradiction]. destruct o' as [y|]; [|contradiction].
      cbn [arr_loop elem_op].
      destruct (IH (negb sw) x y) as (c & -> & C); auto.
      destruct c.
      * destruct (IHl l') as (d & -> & D); auto.
        exists d. split; auto. rewrite D. split.
        -- intros H. constructor; auto. now apply C.
        -- intros H. inversion H; auto.
      * exists false. split; auto. split; [discriminate|]. intros H. inversion H; subst.
        apply C. assumption.
  - exists false. split; auto. split; [discriminate|]. intros H. exfalso. apply E.
    clear -H. induction H; cbn; congruence.
Qed.

Definition full_fields := fix go (fs : list (string * ty)) (l : list (string * option val)) : Prop :=
         match fs, l with
         | [], [] => True
         | (k, t) :: fs', (k', Some x) :: l' => k = k' /\ full t x /\ go fs' l'
         | _, _ => False
         end.
Definition same_fields := fix go (fs : list (string * ty)) (l l' : list (string * option val)) : Prop :=
         match fs, l, l' with
         | [], [], [] => True
         | (_, t) :: fs', (_, Some x) :: r, (_, Some y) :: r' => same t x y /\ go fs' r r'
         | _, _, _ => False
         end.

Lemma full_fields_names : forall fs l, full_fields fs l -> map fst l = map fst fs.
Proof.
  induction fs as [|[k t] fs IH]; intros [|[k' [x|]] l] H; cbn in H; try contradiction; auto.
  destruct H as (-> & _ & H). cbn. f_equal. auto.
Qed.

Lemma aget_app_r : forall V (l l' : list (string * V)) k, ~ In k (map fst l) -> aget (l ++ l')%list k = aget l' k.
Proof.
  induction l as [|[k' v] l IH]; intros l' k H; cbn; auto.
  destruct (String.eqb_spec k' k) as [->|]; [exfalso; apply H; now left|].
  apply IH. intros K; apply H; now right.
Qed.

Lemma str_loop_right : forall fs, Forall (fun ft => eq_right (snd ft)) fs ->
  forall sw l l' pre, full_fields fs l -> full_fields fs l' ->
  NoDup (map fst (pre ++ l')%list) ->
  exists c, str_loop EQ sw (pre ++ l')%list l = Ok c /\ (c = true <-> same_fields fs l l').
Proof.
  induction fs as [|[k t] fs IH]; intros Fr sw l l' pre Fl Fl' N.
  - destruct l; [|contradiction]. destruct l'; [|contradiction]. exists true. cbn. tauto.
  - inversion Fr as [|? ? Ht Fr']; subst. cbn in Ht.
    destruct l as [|[k1 [x|]] l]; cbn in Fl; try contradiction. destruct Fl as (<- & Fx & Fl).
    destruct l' as [|[k1 [y|]] l']; cbn in Fl'; try contradiction. destruct Fl' as (<- & Fy & Fl').
    fold full_fields in *.
    assert (Nk : ~ In k (map fst l) /\ ~ In k (map fst pre)).
    { rewrite map_app in N. cbn in N. apply NoDup_remove_2 in N. rewrite in_app_iff in N.
      rewrite (full_fields_names fs l Fl), <- (full_fields_names fs l' Fl'). tauto. }
    destruct Nk as [N1 N2]. cbn [str_loop].
    assert (existsb (fun kv : string * option val => String.eqb (fst kv) k) l = false) as ->.
    { apply not_true_is_false. intros E. apply existsb_exists in E as ([k' v'] & I & E).
      apply String.eqb_eq in E. cbn in E. subst. apply N1. apply in_map_iff. exists (k, v'). auto. }
    rewrite aget_app_r by assumption. cbn [aget]. rewrite String.eqb_refl. cbv zeta.
    cbn [elem_op]. destruct (Ht (negb sw) x y Fx Fy) as (c & -> & C).
    change (pre ++ (k, Some y) :: l')%list with (pre ++ ([(k, Some y)] ++ l'))%list.
    rewrite app_assoc. 
    destruct c.
    + destruct (IH Fr' sw l l' (pre ++ [(k, Some y)])%list) as (d & -> & D); auto.
      { rewrite <- app_assoc. exact N. }
      exists d. split; auto. rewrite D. cbn. fold same_fields. tauto.
    + exists false. split; auto. cbn. split; [discriminate|]. intros [H _]. tauto.
Qed.

Lemma distinct_fields : forall fs,
  (fix go (fs : list (string * ty)) : Prop :=
         match fs with [] => True | (_, t) :: r => distinct_names t /\ go r end) fs ->
  Forall (fun ft => distinct_names (snd ft)) fs.
Proof. induction fs as [|[k t] fs IH]; intros H; constructor; [apply H|apply IH, H]. Qed.

Lemma eq_full : forall t, distinct_names t -> eq_right t.
Proof.
  induction t as [t S|t IH|fs IH] using ty_ind'; intros D.
  - intros sw a b Fa Fb.
    assert (K : (exists x y, a = VBool x /\ b = VBool y /\ t = TBool) \/ (comparable a b /\ same t a b = alike a b)).
    { destruct t; try contradiction; destruct a; cbn in Fa; try contradiction; destruct b; cbn in Fb; try contradiction;
        try (right; split; [exact I|reflexivity]); try (left; eauto; fail).
      right. split; [split; assumption|reflexivity]. }
    destruct K as [(x & y & -> & -> & ->)|[C E]].
    + exists (Bool.eqb x y). cbn [same]. split.
      * cbn. destruct sw; cbn; f_equal. destruct x, y; reflexivity.
      * apply Bool.eqb_true_iff.
    + rewrite comparable_cmp by assumption. rewrite E. destruct sw.
      * destruct (scalar_op_spec EQ b a) as (c & -> & H); [now apply comparable_sym|].
        exists c. split; auto. rewrite H. cbn. split; apply alike_sym.
      * destruct (scalar_op_spec EQ a b C) as (c & -> & H). exists c. split; auto.
  - apply eq_right_array. auto.
  - intros sw a b Fa Fb. cbn in D. destruct D as [N D]. apply distinct_fields in D.
    destruct a; cbn in Fa; try contradiction. destruct b; cbn in Fb; try contradiction.
    fold full_fields in *. rename l0 into l'. rewrite cmp_struct. cbn [same]. fold same_fields.
    pose proof (full_fields_names fs l Fa) as El. pose proof (full_fields_names fs l' Fb) as El'.
    rewrite !field_map_distinct by (rewrite ?El, ?El'; auto). cbn [app].
    assert (length l = length l') as ->.
    { rewrite <- (map_length fst l), <- (map_length fst l'). congruence. }
    rewrite Nat.eqb_refl. cbn [negb].
    apply (str_loop_right fs) with (pre := []); auto.
    + clear -IH D. induction IH as [|ft fs H IH2 IH3]; constructor; inversion D; subst; auto.
    + cbn. now rewrite El'.
Qed.

(** A NULL at the same place as anything stops the process, once the elements
    before it have compared equal. *)
Lemma eq_null_panics : forall l l' r r' x,
  length l = length l' -> length r = length r' ->
  arr_loop EQ false l l' = Ok true ->
  cmp EQ (VArray (l ++ None :: r)%list) (VArray (l' ++ x :: r')%list) = GoPanic \/
  exists y, x = Some y /\ refuses EQ y = true.
Proof.
  intros l l' r r' x L R E. destruct x as [y|].
  - destruct (refuses EQ y) eqn:F; eauto. left. unfold cmp. rewrite cmp_array.
    rewrite !app_length. cbn [length]. rewrite L, R, Nat.eqb_refl. cbn [negb].
    revert l' L E. induction l as [|a l IH]; intros [|a' l'] L E; try discriminate; cbn [app arr_loop].
    + cbn [elem_op]. now rewrite F.
    + cbn [arr_loop] in E. destruct (elem_op (cmp_sw EQ) EQ false a a') as [[]| |]; try discriminate.
      apply IH; auto.
  - left. unfold cmp. rewrite cmp_array.
    rewrite !app_length. cbn [length]. rewrite L, R, Nat.eqb_refl. cbn [negb].
    revert l' L E. induction l as [|a l IH]; intros [|a' l'] L E; try discriminate; cbn [app arr_loop].
    + reflexivity.
    + cbn [arr_loop] in E. destruct (elem_op (cmp_sw EQ) EQ false a a') as [[]| |]; try discriminate.
      apply IH; auto.
Qed.
