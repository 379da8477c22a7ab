(** Proofs for C367 and C368. *)
From Coq Require Import String List Bool.
From Verif Require Import OverModel OverSpec.
Import ListNotations.

Scheme call_m := Induction for wcall Sort Prop
with calls_m := Induction for wcalls Sort Prop
with group_m := Induction for wgroup Sort Prop
with groups_m := Induction for wgroups Sort Prop
with scan_m := Induction for wscan Sort Prop
with scans_m := Induction for wscans Sort Prop.
Combined Scheme tree_m from call_m, calls_m, group_m, groups_m, scan_m, scans_m.
Scheme scan_n := Induction for wscan Sort Prop with scans_n := Induction for wscans Sort Prop.

Lemma calls_flat p o : forall fs, flat_calls fs ->
  forall parts ord, parts = listed p -> ord = map (fun c => (c, true)) (listed p) ++ listed o ->
  fmt_calls parts ord fs = (own_calls p o fs, ord).
Proof.
  fix IH 1. intros fs F parts ord P O. destruct fs as [|[n args] r]; [reflexivity|].
  destruct F as [-> F]. cbn [fmt_calls fmt_call fmt_scans own_calls own_call own_scans app]. rewrite (IH r F parts ord P O).
  subst parts ord. reflexivity.
Qed.
Lemma groups_flat : forall gs, flat_groups gs -> fmt_groups [] [] gs = (own_groups gs, []).
Proof.
  fix IH 1. intros gs F. destruct gs as [|[p o fs] r]; [reflexivity|]. destruct F as [Ff F].
  cbn [fmt_groups fmt_group own_groups own_group]. rewrite (IH r F).
  rewrite (calls_flat p o fs Ff); [reflexivity|now destruct p|now destruct p, o].
Qed.
Lemma scans_flat : forall l, flat_scans l -> fmt_scans [] [] l = (own_scans l, []).
Proof.
  fix IH 1. intros l F. destruct l as [|[input gs] r]; [reflexivity|]. destruct F as [[Fi Fg] F].
  cbn [fmt_scans fmt_scan own_scans own_scan]. rewrite (IH input Fi), (groups_flat gs Fg), (IH r F). reflexivity.
Qed.

(** Whatever the context: the functions that are written, and their order *)
Definition names_of (l : list written) : list nat := map w_name l.
Lemma names_all :
  (forall f parts ord p o, names_of (fst (fmt_call parts ord f)) = names_of (own_call p o f)) /\
  (forall fs parts ord p o, names_of (fst (fmt_calls parts ord fs)) = names_of (own_calls p o fs)) /\
  (forall g parts ord, names_of (fst (fmt_group parts ord g)) = names_of (own_group g)) /\
  (forall gs parts ord, names_of (fst (fmt_groups parts ord gs)) = names_of (own_groups gs)) /\
  (forall s parts ord, names_of (fst (fmt_scan parts ord s)) = names_of (own_scan s)) /\
  (forall l parts ord, names_of (fst (fmt_scans parts ord l)) = names_of (own_scans l)).
Proof.
  apply tree_m.
  - intros n args IH parts ord p o. cbn [fmt_call own_call]. specialize (IH parts ord). destruct (fmt_scans parts ord args) as [l o']. cbn [fst] in *.
    unfold names_of in *. rewrite !map_app, IH. reflexivity.
  - reflexivity.
  - intros f IHf r IHr parts ord p o. cbn [fmt_calls own_calls]. specialize (IHf parts ord p o). destruct (fmt_call parts ord f) as [a o1].
    specialize (IHr parts o1 p o). destruct (fmt_calls parts o1 r) as [b o2]. cbn [fst] in *. unfold names_of in *. rewrite !map_app. congruence.
  - intros p o fs IH parts ord. cbn [fmt_group own_group]. apply IH.
  - reflexivity.
  - intros g IHg r IHr parts ord. cbn [fmt_groups own_groups]. specialize (IHg parts ord). destruct (fmt_group parts ord g) as [a o1].
    specialize (IHr [] []). destruct (fmt_groups [] [] r) as [b o2]. cbn [fst] in *. unfold names_of in *. rewrite !map_app. congruence.
  - intros i IHi gs IHg parts ord. cbn [fmt_scan own_scan]. specialize (IHi parts ord). destruct (fmt_scans parts ord i) as [a o1].
    specialize (IHg parts o1). destruct (fmt_groups parts o1 gs) as [b o2]. cbn [fst] in *. unfold names_of in *. rewrite !map_app. congruence.
  - reflexivity.
  - intros s IHs r IHr parts ord. cbn [fmt_scans own_scans]. specialize (IHs parts ord). destruct (fmt_scan parts ord s) as [a o1].
    specialize (IHr parts o1). destruct (fmt_scans parts o1 r) as [b o2]. cbn [fst] in *. unfold names_of in *. rewrite !map_app. congruence.
Qed.
Lemma partition_all :
  (forall f parts ord p o, (listed p <> [] -> parts = listed p) -> Forall2 own_partition (fst (fmt_call parts ord f)) (own_call p o f)) /\
  (forall fs parts ord p o, (listed p <> [] -> parts = listed p) -> Forall2 own_partition (fst (fmt_calls parts ord fs)) (own_calls p o fs)) /\
  (forall g parts ord, Forall2 own_partition (fst (fmt_group parts ord g)) (own_group g)) /\
  (forall gs parts ord, Forall2 own_partition (fst (fmt_groups parts ord gs)) (own_groups gs)) /\
  (forall s parts ord, Forall2 own_partition (fst (fmt_scan parts ord s)) (own_scan s)) /\
  (forall l parts ord, Forall2 own_partition (fst (fmt_scans parts ord l)) (own_scans l)).
Proof.
  apply tree_m.
  - intros n args IH parts ord p o H. cbn [fmt_call own_call]. specialize (IH parts ord). destruct (fmt_scans parts ord args) as [l o']. cbn [fst] in *.
    apply Forall2_app; [exact IH|]. apply Forall2_cons; [|apply Forall2_nil]. split; [reflexivity|exact H].
  - intros. apply Forall2_nil.
  - intros f IHf r IHr parts ord p o H. cbn [fmt_calls own_calls]. specialize (IHf parts ord p o H). destruct (fmt_call parts ord f) as [a o1].
    specialize (IHr parts o1 p o H). destruct (fmt_calls parts o1 r) as [b o2]. cbn [fst] in *. now apply Forall2_app.
  - intros p o fs IH parts ord. cbn [fmt_group own_group]. apply IH. destruct p as [l|]; [reflexivity|]. intros N. now destruct (N eq_refl).
  - intros. apply Forall2_nil.
  - intros g IHg r IHr parts ord. cbn [fmt_groups own_groups]. specialize (IHg parts ord). destruct (fmt_group parts ord g) as [a o1].
    specialize (IHr [] []). destruct (fmt_groups [] [] r) as [b o2]. cbn [fst] in *. now apply Forall2_app.
  - intros i IHi gs IHg parts ord. cbn [fmt_scan own_scan]. specialize (IHi parts ord). destruct (fmt_scans parts ord i) as [a o1].
    specialize (IHg parts o1). destruct (fmt_groups parts o1 gs) as [b o2]. cbn [fst] in *. now apply Forall2_app.
  - intros. apply Forall2_nil.
  - intros s IHs r IHr parts ord. cbn [fmt_scans own_scans]. specialize (IHs parts ord). destruct (fmt_scan parts ord s) as [a o1].
    specialize (IHr parts o1). destruct (fmt_scans parts o1 r) as [b o2]. cbn [fst] in *. now apply Forall2_app.
Qed.
