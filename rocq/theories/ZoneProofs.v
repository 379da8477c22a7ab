(** Lemmas about time zone names. *)
From Coq Require Import Ascii String List ZArith Lia Bool.
From Verif Require Import GoBase GoBaseFacts DecModel ClockTextModel ClockTextSpec ClockTextProofs ZoneModel ZoneSpec.
Import ListNotations.
Local Open Scope string_scope.
Open Scope Z_scope.

Lemma leftmost_skip {A} (f : string -> option A) a s :
  (forall c r, Ascii.eqb c "+" = false -> Ascii.eqb c "-" = false -> f (String c r) = None) ->
  no_sign a = true -> leftmost f (a ++ s) = leftmost f s.
Proof.
  intros F. induction a as [|c r IH]; [reflexivity|]. cbn [no_sign append leftmost]. intros H.
  apply andb_true_iff in H as [H N]. apply andb_true_iff in H as [P M].
  rewrite F by now apply negb_true_iff. now apply IH.
Qed.
Lemma offset_at_sign c r : Ascii.eqb c "+" = false -> Ascii.eqb c "-" = false -> offset_at (String c r) = None.
Proof. intros A B. cbn [offset_at]. now rewrite A, B. Qed.
Lemma offset2_at_sign c r : Ascii.eqb c "+" = false -> Ascii.eqb c "-" = false -> offset2_at (String c r) = None.
Proof. intros A B. unfold offset2_at. now rewrite offset_at_sign. Qed.
Lemma leftmost_no_sign {A} (f : string -> option A) a :
  (forall c r, Ascii.eqb c "+" = false -> Ascii.eqb c "-" = false -> f (String c r) = None) -> f "" = None ->
  no_sign a = true -> leftmost f a = None.
Proof.
  intros F E N.
  induction a as [|c r IH]; [cbn; now rewrite E|]. cbn [no_sign leftmost] in *.
  apply andb_true_iff in N as [H N]. apply andb_true_iff in H as [P M].
  rewrite F by now apply negb_true_iff. now apply IH.
Qed.

Section Load.
Variable L : Type.
Variable load : string -> option L.
Definition resolve (z : string) : option (place L) := match make load z with Some (_, l) => Some l | None => None end.
Lemma leftmost_utc {A} (f : string -> option A) z :
  (forall c r, Ascii.eqb c "+" = false -> Ascii.eqb c "-" = false -> f (String c r) = None) ->
  leftmost f ("UTC" ++ z) = leftmost f z.
Proof. intros F. now apply leftmost_skip. Qed.
Definition has_offset (z : string) : bool :=
  match leftmost offset2_at z, leftmost offset_at z with None, None => false | _, _ => true end.
Lemma make_utc z : has_offset z = true -> resolve ("UTC" ++ z) = resolve z.
Proof.
  intros H. unfold resolve, make, has_offset in *.
  rewrite (leftmost_utc offset2_at) by exact offset2_at_sign. rewrite (leftmost_utc offset_at) by exact offset_at_sign.
  destruct (leftmost offset2_at z) as [[h m]|]; [reflexivity|]. destruct (leftmost offset_at z) as [[h q]|]; [reflexivity|discriminate].
Qed.
Lemma make_plain z : has_offset z = false -> make load z = match load z with Some l => Some (z, Loaded l) | None => None end.
Proof.
  unfold make, has_offset. destruct (leftmost offset2_at z) as [[h m]|]; [discriminate|].
  destruct (leftmost offset_at z) as [[h q]|]; [discriminate|reflexivity].
Qed.
Lemma make_offset z : has_offset z = true -> exists l, make load z = Some ("UTC" ++ z, l).
Proof.
  unfold make, has_offset. destruct (leftmost offset2_at z) as [[h m]|]; [eexists; reflexivity|].
  destruct (leftmost offset_at z) as [[h q]|]; [eexists; reflexivity|discriminate].
Qed.
Lemma has_offset_utc z : has_offset ("UTC" ++ z) = has_offset z.
Proof.
  unfold has_offset. rewrite (leftmost_utc offset2_at) by exact offset2_at_sign. now rewrite (leftmost_utc offset_at) by exact offset_at_sign.
Qed.
Lemma stored_resolves z k l : make load z = Some (k, l) -> resolve k = Some l.
Proof.
  intros H. destruct (has_offset z) eqn:O.
  - destruct (make_offset z O) as [l' E]. assert (K : k = "UTC" ++ z) by congruence. subst k.
    rewrite (make_utc z O). unfold resolve. now rewrite H.
  - assert (K : k = z). { rewrite (make_plain z O) in H. destruct (load z); congruence. } subst k. unfold resolve. now rewrite H.
Qed.
Lemma aget_aset {V} (c : amap V) k v k' : aget (aset c k v) k' = if String.eqb k k' then Some v else aget c k'.
Proof.
  induction c as [|[a x] r IH]; cbn [aset aget].
  - destruct (String.eqb k k'); reflexivity.
  - destruct (String.eqb_spec a k) as [->|N]; cbn [aget].
    + destruct (String.eqb_spec k k'); reflexivity.
    + rewrite IH. destruct (String.eqb_spec a k') as [->|N']; [|reflexivity].
      destruct (String.eqb_spec k k'); [congruence|reflexivity].
Qed.
Definition right_cache (c : cache L) : Prop := forall k l, aget c k = Some l -> resolve k = Some l.
Lemma store_right c z : right_cache c -> right_cache (store load c z).
Proof.
  intros R k l. unfold store. destruct (make load z) as [[k0 l0]|] eqn:M; [|apply R].
  rewrite aget_aset. destruct (String.eqb_spec k0 k) as [->|]; [|apply R].
  intros E. assert (l0 = l) by congruence. subst. now apply (stored_resolves z).
Qed.
Lemma after_right zs : right_cache (after load zs).
Proof.
  unfold after. assert (G : forall c, right_cache c -> right_cache (fold_left (store load) zs c)).
  { induction zs as [|z r IH]; cbn [fold_left]; [auto|]. intros c H. apply IH. now apply store_right. }
  apply G. intros k l H. discriminate.
Qed.
Hypothesis only_utc : forall z, load ("UTC" ++ z) <> None -> z = "".
Hypothesis empty_is_utc : load "" = load "UTC".
Lemma cached_right c z l : right_cache c -> cached c z = Some l -> resolve z = Some l.
Proof.
  intros R. unfold cached. destruct (aget c z) as [x|] eqn:E.
  - intros H. apply R. congruence.
  - intros H. apply R in H. destruct (has_offset z) eqn:O.
    + now rewrite make_utc in H.
    + assert (N : load ("UTC" ++ z) <> None).
      { unfold resolve in H. rewrite make_plain in H by (now rewrite has_offset_utc). destruct (load ("UTC" ++ z)); congruence. }
      apply only_utc in N. subst z. change ("UTC" ++ "") with "UTC" in H. unfold resolve in *.
      rewrite make_plain in * by reflexivity. rewrite empty_is_utc. destruct (load "UTC"); [exact H|discriminate].
Qed.
Lemma to_location_right c z : right_cache c -> fst (to_location load c z) = resolve z.
Proof.
  intros R. unfold to_location. destruct (cached c z) as [l|] eqn:C.
  - symmetry. now apply (cached_right c).
  - unfold resolve. destruct (make load z) as [[k l]|]; reflexivity.
Qed.
End Load.

Lemma offset_at_text s h r : 0 <= h < 100 -> offset_at (hours s h ++ r) = Some (signed s h, r).
Proof. intros H. destruct s; unfold hours, sign_text; cbn [append offset_at]; cbn [Ascii.eqb Bool.eqb]; rewrite num2_two by assumption; reflexivity. Qed.
Lemma leftmost_head {A} (f : string -> option A) s a : f s = Some a -> leftmost f s = Some a.
Proof. intros H. destruct s; cbn [leftmost]; now rewrite H. Qed.
Lemma offset2_text s h m r : 0 <= h < 100 -> 0 <= m < 100 -> offset2_at (hours_minutes s h m ++ r) = Some (signed s h, m).
Proof.
  intros H M. unfold offset2_at, hours_minutes.
  replace ((sign_text s ++ two h ++ ":" ++ two m) ++ r) with (hours s h ++ String ":" (two m ++ r)).
  - rewrite offset_at_text by assumption. cbn [Ascii.eqb Bool.eqb]. now rewrite num2_two.
  - unfold hours. destruct s; reflexivity.
Qed.
