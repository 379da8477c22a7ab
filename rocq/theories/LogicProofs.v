From Coq Require Import Ascii String List ZArith Lia Bool.
From Verif Require Import GoBase GoBaseFacts ValueModel ValueFacts CompareSpec CompareProofs FloatFacts LogicModel LogicSpec.
Import ListNotations.
Open Scope Z_scope.

(** ** AND, OR, NOT *)

Lemma and_loop_spec : forall args ts, Forall2 is_tv args ts ->
  and_loop args = Ok (if existsb (fun t => match t with FF => true | _ => false end) ts then Some false else None).
Proof.
  intros args ts H. induction H as [|a t args ts A H IH]; auto.
  destruct A; cbn [and_loop to_bool existsb orb]; auto.
Qed.
Lemma or_loop_spec : forall args ts, Forall2 is_tv args ts ->
  or_loop args = Ok (if existsb (fun t => match t with TT => true | _ => false end) ts then Some true else None).
Proof.
  intros args ts H. induction H as [|a t args ts A H IH]; auto.
  destruct A; cbn [or_loop to_bool existsb orb]; auto.
Qed.
Lemma exists_null_spec : forall args ts, Forall2 is_tv args ts ->
  (exists_null args = true <-> In UU ts).
Proof.
  intros args ts H. induction H as [|a t args ts A H IH]; cbn; [intuition discriminate|].
  fold (exists_null args). destruct A; cbn; rewrite ?IH; intuition (try discriminate; auto).
Qed.

Lemma in_ff : forall ts, existsb (fun t => match t with FF => true | _ => false end) ts = true <-> In FF ts.
Proof.
  intros ts. rewrite existsb_exists. split.
  - intros (x & I & E). destruct x; try discriminate. exact I.
  - intros I. exists FF. auto.
Qed.
Lemma in_tt : forall ts, existsb (fun t => match t with TT => true | _ => false end) ts = true <-> In TT ts.
Proof.
  intros ts. rewrite existsb_exists. split.
  - intros (x & I & E). destruct x; try discriminate. exact I.
  - intros I. exists TT. auto.
Qed.

Lemma and_right : forall args ts, Forall2 is_tv args ts ->
  exists r t, fn_and args = Ok r /\ is_tv r t /\ conj3 ts t.
Proof.
  intros args ts H. unfold fn_and. rewrite (and_loop_spec args ts H).
  pose proof (in_ff ts) as F. pose proof (exists_null_spec args ts H) as N.
  destruct (existsb _ ts) eqn:E; cbn [bind].
  - exists (sbool false), FF. split; auto. split; [constructor|]. cbn. now apply F.
  - destruct (exists_null args) eqn:X.
    + exists None, UU. split; auto. split; [constructor|]. cbn. split; [|now apply N].
      intros I. apply F in I. discriminate.
    + exists (sbool true), TT. split; auto. split; [constructor|]. cbn. intros x I.
      destruct x; auto; exfalso.
      * apply F in I. discriminate.
      * apply N in I. discriminate.
Qed.
Lemma or_right : forall args ts, Forall2 is_tv args ts ->
  exists r t, fn_or args = Ok r /\ is_tv r t /\ disj3 ts t.
Proof.
  intros args ts H. unfold fn_or. rewrite (or_loop_spec args ts H).
  pose proof (in_tt ts) as F. pose proof (exists_null_spec args ts H) as N.
  destruct (existsb _ ts) eqn:E; cbn [bind].
  - exists (sbool true), TT. split; auto. split; [constructor|]. cbn. now apply F.
  - destruct (exists_null args) eqn:X.
    + exists None, UU. split; auto. split; [constructor|]. cbn. split; [|now apply N].
      intros I. apply F in I. discriminate.
    + exists (sbool false), FF. split; auto. split; [constructor|]. cbn. intros x I.
      destruct x; auto; exfalso.
      * apply F in I. discriminate.
      * apply N in I. discriminate.
Qed.
Lemma not_right : forall a t, is_tv a t -> exists r, bind_not a = Ok r /\ is_tv r (neg3 t).
Proof. intros a t H; destruct H; eexists; split; try reflexivity; constructor. Qed.

(** ** IN *)

Lemma in_loop_spec : forall a l, (forall b, In (Some b) l -> comparable a b) ->
  exists c, in_loop a l = Ok c /\ (c = true <-> exists b, In (Some b) l /\ alike a b).
Proof.
  intros a l. induction l as [|[b|] l IH]; intros C.
  - exists false. split; auto. split; [discriminate|]. intros (b & [] & _).
  - destruct IH as (c & E & H); [intros; apply C; now right|].
    cbn [in_loop]. destruct (cmp_scalar EQ a b) as (d & -> & D); [apply C; now left|].
    destruct d.
    + exists true. split; auto. split; auto. intros _. exists b. split; [now left|now apply D].
    + exists c. split; auto. rewrite H. split; intros (b' & I & A).
      * exists b'. split; auto. now right.
      * destruct I as [I|I]; [|eauto]. exfalso.
        assert (b' = b) by congruence. subst. apply D in A. discriminate.
  - destruct IH as (c & E & H); [intros; apply C; now right|].
    cbn [in_loop]. exists c. split; auto. rewrite H. split; intros (b' & I & A); exists b'; split; auto.
    + now right.
    + destruct I as [I|I]; [discriminate|exact I].
Qed.

Lemma has_loop_ints : forall z l, Z.abs z < 2 ^ 53 -> (forall y, In y l -> Z.abs y < 2 ^ 53) ->
  exists c, has_loop (VInt z) (map (fun y => decoded_elem (Some (VInt y))) l) = Ok c /\ (c = true <-> In z l).
Proof.
  intros z l Bz. induction l as [|y l IH]; intros B.
  - exists false. split; auto. cbn. split; [discriminate|tauto].
  - destruct IH as (c & E & H); [intros; apply B; now right|].
    cbn [map has_loop decoded_elem]. unfold cmp. cbn [cmp_sw]. unfold scalar_op. cbn [refuses scalar_compare].
    destruct (float_of_int_scaled y) as [Ry Sy]; [apply B; now left|].
    destruct (float_of_int_scaled z) as [Rz Sz]; [assumption|].
    rewrite float_compare_spec by assumption. rewrite Sy, Sz.
    assert (P : 0 < 2 ^ 1074) by (apply Z.pow_pos_nonneg; lia).
    rewrite <- Zmult_compare_compat_r by lia.
    destruct (Z.compare_spec y z) as [->|L|L]; cbn [decide].
    + exists true. split; auto. split; auto. intros _. now left.
    + exists c. split; auto. rewrite H. cbn. split; auto. intros [->|]; auto. lia.
    + exists c. split; auto. rewrite H. cbn. split; auto. intros [->|]; auto. lia.
Qed.

(** A NULL before any match stops the process. *)
Lemma has_loop_null : forall v l r, has_loop v l = Ok false -> has_loop v (l ++ None :: r)%list = GoPanic.
Proof.
  intros v l r. induction l as [|[x|] l IH]; cbn [has_loop app]; intros E; auto; try discriminate.
  destruct (cmp EQ x v) as [[]| |]; try discriminate. auto.
Qed.

(** ** CASE *)

Fixpoint pairs (args : list ev) : list (ev * ev) :=
  match args with w :: t :: r => (w, t) :: pairs r | _ => [] end.

Fixpoint unpairs (ps : list (ev * ev)) (els : option ev) : list ev :=
  match ps with
  | [] => match els with Some e => [e] | None => [] end
  | (w, t) :: r => w :: t :: unpairs r els
  end.

Lemma case_right : forall test yes ps els,
  (forall v t, In (Ok v, t) ps -> (test v = true <-> yes v)) ->
  case_of yes ps (match els with Some e => e | None => Ok None end) (eval_case_args test (unpairs ps els)).
Proof.
  intros test yes ps els H. induction ps as [|[w t] ps IH].
  - destruct els; constructor.
  - cbn [unpairs eval_case_args].
    destruct w as [v| |]; cbn [bind].
    + pose proof (H v t (or_introl eq_refl)) as Hv. destruct (test v) eqn:T.
      * eapply case_hit; [reflexivity|]. now apply Hv.
      * eapply case_miss; [reflexivity| |apply IH; intros; apply (H v0 t0); now right].
        intros Y. apply Hv in Y. congruence.
    + apply case_fail; auto.
    + apply case_fail; auto.
Qed.
Lemma truthy_true v : truthy v = true <-> is_true v.
Proof.
  unfold is_true. destruct v as [[]|]; cbn; try (split; [discriminate|intros [H|(y & H & _)]; discriminate]).
  - rewrite negb_true_iff, Z.eqb_neq. split; [eauto|]. intros [H|(y & H & N)]; [discriminate|]. congruence.
  - split; [intros ->; auto|]. intros [H|(y & H & _)]; [congruence|discriminate].
Qed.
Lemma stored_eq_same x w : (forall y, w = Some y -> comparable x y) -> (stored_eq (Some x) w = true <-> same_value (Some x) w).
Proof.
  intros C. unfold same_value, stored_eq. destruct w as [y|].
  - destruct (cmp_scalar EQ x y (C y eq_refl)) as (c & -> & H). cbn [means] in H. rewrite H. split.
    + intros A. exists x, y. auto.
    + intros (x' & y' & X & Y & A). congruence.
  - split; [discriminate|]. intros (x' & y' & X & Y & A). discriminate.
Qed.

Lemma coalesce_values : forall vs, first_non_null (map (fun v => Ok v) vs) (fn_coalesce vs).
Proof. induction vs as [|[v|] vs IH]; cbn; constructor; auto. Qed.

Lemma eval_all_ok : forall vs, eval_all (map (fun v => Ok v) vs) = Ok vs.
Proof. induction vs as [|v vs IH]; cbn; auto. now rewrite IH. Qed.
