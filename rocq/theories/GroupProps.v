(** Properties C74 and C136: GROUP BY. *)
From Coq Require Import Ascii String List ZArith QArith Lia Bool SpecFloat.
From Verif Require Import GoBase GoBaseFacts CalendarModel CalendarFacts InstantModel DecModel ValueModel CompareSpec PartModel GroupModel GroupSpec GroupProofs.
Import ListNotations.
Local Open Scope string_scope.
Open Scope Z_scope.
Local Opaque civil year_start leap godate.

(** ** C74 *)
(** Columns of every scalar type but TIMESTAMP, without NaN: two rows are in one group
    exactly when their keys are equal, column by column. *)
Theorem c74_columns_partial : forall l ts a b,
  Forall2 column ts a -> Forall2 column ts b -> Forall not_nan a -> Forall not_nan b ->
  exists r, together l a b = Ok r /\ (r = true <-> Forall2 equal_keys a b).
Proof.
  intros l ts. induction ts as [|t ts IH]; intros a b A B Na Nb.
  - inversion A; inversion B; subst. exists true. split; [reflexivity|]. split; constructor.
  - inversion A as [|t' x ts' a' Cx Ca]; subst. inversion B as [|t' y ts' b' Cy Cb]; subst.
    inversion Na as [|? ? Nx Na']; subst. inversion Nb as [|? ? Ny Nb']; subst.
    destruct (IH a' b' Ca Cb Na' Nb') as (r & R & E).
    destruct (key_iff l t x y Nx Ny Cx Cy) as (kx & ky & Kx & Ky & K).
    exists (same_key kx ky && r). cbn [together]. rewrite Kx, Ky, R. cbn [bind]. split; [reflexivity|].
    rewrite andb_true_iff, K, E. split.
    + intros [H1 H2]. now constructor.
    + intros H. inversion H; subst. tauto.
Qed.
(** Timestamps are grouped by the second. *)
Theorem c74_timestamp_refuted : forall l a b, minute_zone l -> year_in l a -> year_in l b ->
  together l [Some (VTimestamp a)] [Some (VTimestamp b)] = Ok (unix a =? unix b) /\
  (unix a = unix b -> a <> b -> ~ Forall2 equal_keys [Some (VTimestamp a)] [Some (VTimestamp b)] /\
     together l [Some (VTimestamp a)] [Some (VTimestamp b)] = Ok true).
Proof.
  intros l a b M A B.
  assert (T : together l [Some (VTimestamp a)] [Some (VTimestamp b)] = Ok (unix a =? unix b)).
  { cbn [together group_key bind same_key]. rewrite andb_true_r. f_equal.
    pose proof (rfc3339_key l a b M A B) as K. destruct (String.eqb_spec (rfc3339 l a) (rfc3339 l b)) as [E|E].
    - symmetry. apply Z.eqb_eq. tauto.
    - symmetry. apply Z.eqb_neq. tauto. }
  split; [exact T|]. intros U N. split; [|now rewrite T, U, Z.eqb_refl].
  intros H. inversion H as [|? ? ? ? E _]; subst. cbn in E. contradiction.
Qed.
(** NaN is put in the group of NULL. *)
Theorem c74_nan_refuted : forall l f, is_nan f = true ->
  together l [Some (VFloat f)] [None] = Ok true /\ ~ equal_keys (Some (VFloat f)) None.
Proof. intros l f N. cbn [together group_key bind]. rewrite N. split; [reflexivity|]. cbn. tauto. Qed.
(** A STRUCT or an ARRAY key makes the query fail. *)
Theorem c74_compound_refuted : forall l fs es a b,
  together l (Some (VStruct fs) :: a) b = Err /\ together l (Some (VArray es) :: a) b = Err.
Proof. intros l fs es a b. destruct b; split; reflexivity. Qed.

(** ** C136: the types that group exactly *)
Definition exact_type (t : ty) : Prop :=
  match t with TInt | TStr | TBool | TNum | TDate | TDatetime | TTime => True | _ => False end.
Theorem c136_exact : forall l ts a b, Forall exact_type ts -> Forall2 column ts a -> Forall2 column ts b ->
  exists r, together l a b = Ok r /\ (r = true <-> Forall2 equal_keys a b).
Proof.
  intros l ts a b E A B.
  assert (N : forall x, Forall2 column ts x -> Forall not_nan x).
  { clear A B a b. induction ts as [|t ts IH]; intros x X; inversion X; subst; constructor.
    - inversion E; subst. intros f ->. destruct t; cbn in *; tauto.
    - inversion E; subst. auto. }
  apply (c74_columns_partial l ts); auto.
Qed.
(** Being in one group is then an equivalence: the rows fall into groups. *)
Theorem c136_equivalence : forall l ts a b c, Forall exact_type ts ->
  Forall2 column ts a -> Forall2 column ts b -> Forall2 column ts c ->
  together l a a = Ok true /\
  (together l a b = Ok true -> together l b a = Ok true) /\
  (together l a b = Ok true -> together l b c = Ok true -> together l a c = Ok true).
Proof.
  intros l ts a b c E A B C.
  assert (K : forall x y, Forall2 column ts x -> Forall2 column ts y -> (together l x y = Ok true <-> Forall2 equal_keys x y)).
  { intros x y X Y. destruct (c136_exact l ts x y E X Y) as (r & R & I). rewrite R. rewrite <- I. split; congruence. }
  rewrite !K by assumption.
  assert (Qe : forall t x y z, exact_type t -> column t x -> column t y -> column t z ->
    equal_keys x x /\ (equal_keys x y -> equal_keys y x) /\ (equal_keys x y -> equal_keys y z -> equal_keys x z)).
  { intros t x y z T X Y Z_.
    destruct t; cbn in T; try tauto; destruct x as [[]|]; cbn in X; try tauto; destruct y as [[]|]; cbn in Y; try tauto;
      destruct z as [[]|]; cbn in Z_; try tauto; cbn; repeat split; try tauto; try congruence; try reflexivity;
      try (intros H; now symmetry); try (intros H1 H2; now rewrite H1). }
  clear K. revert a b c A B C. induction ts as [|t ts IH]; intros a b c A B C.
  - inversion A; inversion B; inversion C; subst. repeat split; auto.
  - inversion E as [|? ? E1 E2]; subst. inversion A as [|? x ? a' A1 A2]; subst. inversion B as [|? y ? b' B1 B2]; subst.
    inversion C as [|? z ? c' C1 C2]; subst.
    destruct (IH E2 a' b' c' A2 B2 C2) as (I1 & I2 & I3). destruct (Qe t x y z E1 A1 B1 C1) as (Q1 & Q2 & Q3).
    repeat split.
    + now constructor.
    + intros H. inversion H; subst. constructor; auto.
    + intros H1 H2. inversion H1; inversion H2; subst. constructor; auto.
Qed.

Example c74_example :
  Forall2 column [TInt; TDate; TNum] [Some (VInt 3); None; Some (VNum (2 # 4))] /\
  Forall2 column [TInt; TDate; TNum] [Some (VInt 3); Some (VDate (go_time 2024 2 29 0 0 0 0)); Some (VNum (1 # 2))] /\
  together utc [Some (VInt 3); None; Some (VNum (2 # 4))] [Some (VInt 3); Some (VDate (go_time 2024 2 29 0 0 0 0)); Some (VNum (1 # 2))] = Ok false /\
  together utc [Some (VInt 3); None; Some (VNum (2 # 4))] [Some (VInt 3); None; Some (VNum (1 # 2))] = Ok true /\
  rfc3339 (fixed (-12600)) (go_time 2024 2 29 12 34 56 789012000) = "2024-02-29T09:04:56-03:30" /\
  together utc [Some (VTimestamp 1000)] [Some (VTimestamp 999999000)] = Ok true.
Proof.
  split; [repeat constructor|]. split.
  { repeat constructor; vm_compute; congruence. }
  vm_compute. repeat split.
Qed.
Example c74_timestamp_example : minute_zone utc /\ year_in utc 1000 /\ year_in utc 999999000 /\ minute_zone (fixed (-12600)).
Proof. unfold minute_zone, year_in. repeat split; vm_compute; congruence. Qed.

Print Assumptions c74_columns_partial.
Print Assumptions c74_timestamp_refuted.
Print Assumptions c74_nan_refuted.
Print Assumptions c74_compound_refuted.
Print Assumptions c136_exact.
Print Assumptions c136_equivalence.
