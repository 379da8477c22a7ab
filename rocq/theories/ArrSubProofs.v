(** Proofs for C365. *)
From Coq Require Import Ascii String List ZArith Lia Bool.
From Verif Require Import GoBase DecModel QueryModel QuerySpec QueryProofs QueryProps AcceptSpec AcceptProofs AcceptProps ArrSubModel ArrSubSpec.
From Verif Require ValueModel AggModel AggSpec AggProofs.
Import ListNotations.
Local Open Scope string_scope.
Local Open Scope list_scope.

Lemma array_steps text loose : forall vs d s, (forall x, In (Some x) vs -> no_option text loose x) ->
  AggModel.outer_steps text loose agg_array (d, s) (map (fun v => [AggModel.AVal v]) vs) = Ok (d, s ++ vs).
Proof.
  induction vs as [|v vs IH]; intros d s H.
  - cbn. now rewrite app_nil_r.
  - cbn [map AggModel.outer_steps]. unfold AggModel.outer_step.
    assert (P : AggModel.parse_args text loose [AggModel.AVal v] [] AggModel.no_opt = ([v], AggModel.no_opt)).
    { cbn [AggModel.parse_args]. destruct v as [x|]; [|reflexivity]. destruct (text x) as [t| |] eqn:T; try reflexivity.
      unfold AggModel.option_of. destruct (AggModel.starts_brace t) eqn:B; [|reflexivity]. now rewrite (H x (or_introl eq_refl) t T B). }
    rewrite P.
    unfold AggModel.admit_row. cbn [AggModel.no_opt AggModel.a_ignore AggModel.a_distinct andb bind fst snd AggModel.step agg_array array_step AggModel.arg0].
    rewrite IH by (intros x I; apply H; now right). now rewrite <- app_assoc.
Qed.
Lemma array_call text loose vs r : (forall x, In (Some x) vs -> no_option text loose x) ->
  (AggModel.call text loose agg_array (map (fun v => [AggModel.AVal v]) vs) r <-> r = Ok (Some (ValueModel.VArray vs))).
Proof. intros H. unfold AggModel.call. rewrite array_steps by exact H. reflexivity. Qed.

Lemma column conv c : forall rows a, Forall (fun b : binding => map fst b = [c]) rows -> array_of conv c rows a ->
  exists vs, map (map (@snd Z val)) rows = map (fun v => [v]) vs /\ a = map conv vs /\ length vs = length rows.
Proof.
  induction rows as [|b rows IH]; intros a F A; inversion A; subst.
  - exists []. repeat split.
  - inversion F; subst. destruct (IH _ H4 H3) as (vs & E & -> & L).
    destruct b as [|[d w] [|p b]]; cbn in *; try discriminate. assert (d = c) by congruence. subst d.
    unfold col in H1. cbn [find fst] in H1. rewrite Z.eqb_refl in H1. assert (w = v) by (cbn in H1; congruence). subst w.
    exists (v :: vs). cbn [map length]. rewrite E, L. repeat split.
Qed.

Lemma values_array conv k : forall rows a, column_values conv k rows = Some a -> array_of conv k rows a.
Proof.
  induction rows as [|b rows IH]; intros a H.
  - unfold column_values in H. cbn in H. assert (a = []) by congruence. subst. constructor.
  - unfold column_values in H. rewrite every_cons in H. destruct (col k b) as [v|] eqn:C; [|discriminate]. cbn [option_map] in H.
    destruct (every (fun b0 : binding => option_map conv (col k b0)) rows) as [a'|] eqn:E; [|discriminate].
    assert (a = conv v :: a') by congruence. subst. constructor; [exact C|]. now apply IH.
Qed.
