(** Lemmas about GoBase. *)
From Coq Require Import Ascii String List ZArith Lia Bool.
From Verif Require Import GoBase.
Import ListNotations.
Open Scope Z_scope.

Lemma wrap64_range z : in64 (wrap64 z).
Proof. unfold in64, wrap64, two63, two64. pose proof (Z.mod_pos_bound (z + 9223372036854775808) 18446744073709551616). lia. Qed.

Lemma wrap64_id z : in64 z -> wrap64 z = z.
Proof. unfold in64, wrap64, two63, two64; intros H. rewrite Z.mod_small; lia. Qed.

Lemma wrap64_cong z : exists k, wrap64 z = z + k * two64.
Proof.
  unfold wrap64, two63, two64.
  exists (- ((z + 9223372036854775808) / 18446744073709551616)).
  pose proof (Z.div_mod (z + 9223372036854775808) 18446744073709551616). lia.
Qed.

Lemma wrap64_eq_iff z : wrap64 z = z <-> in64 z.
Proof. split; [intros H; rewrite <- H; apply wrap64_range | apply wrap64_id]. Qed.

Lemma wrap64_add_two64 z k : wrap64 (z + k * two64) = wrap64 z.
Proof. unfold wrap64, two63, two64. replace (z + k * 18446744073709551616 + 9223372036854775808) with (z + 9223372036854775808 + k * 18446744073709551616) by lia. rewrite Z.mod_add; lia. Qed.

Lemma in64b_iff z : in64b z = true <-> in64 z.
Proof. unfold in64b, in64. rewrite andb_true_iff, Z.leb_le, Z.ltb_lt. tauto. Qed.

Lemma wrap32_range z : in32 (wrap32 z).
Proof. unfold in32, wrap32, two31, two32. pose proof (Z.mod_pos_bound (z + 2147483648) 4294967296). lia. Qed.

Lemma wrap32_id z : in32 z -> wrap32 z = z.
Proof. unfold in32, wrap32, two31, two32; intros H. rewrite Z.mod_small; lia. Qed.

Lemma zlen_app {A} (l r : list A) : zlen (l ++ r) = zlen l + zlen r.
Proof. unfold zlen; rewrite app_length; lia. Qed.

Lemma zlen_nonneg {A} (l : list A) : 0 <= zlen l.
Proof. unfold zlen; lia. Qed.

Lemma zlen_cons {A} (x : A) l : zlen (x :: l) = 1 + zlen l.
Proof. unfold zlen; cbn [length]; lia. Qed.

Lemma zlen_nil {A} : zlen (@nil A) = 0.
Proof. reflexivity. Qed.

(** ** split1 *)
Lemma split1_nonempty c s : split1 c s <> [].
Proof. destruct s as [|a r]; simpl; [discriminate|]. destruct (Ascii.eqb a c); [discriminate|]. destruct (split1 c r); discriminate. Qed.

Lemma split1_pieces c s p : In p (split1 c s) -> has_char c p = false.
Proof.
  revert p; induction s as [|a r IH]; simpl; intros p H.
  - destruct H as [<-|[]]; reflexivity.
  - destruct (Ascii.eqb a c) eqn:E.
    + destruct H as [<-|H]; [reflexivity | exact (IH _ H)].
    + destruct (split1 c r) as [|h t] eqn:Es.
      * destruct H as [<-|[]]. simpl. rewrite E. reflexivity.
      * destruct H as [<-|H].
        -- simpl. rewrite E. apply IH. left; reflexivity.
        -- apply IH. right; exact H.
Qed.

Lemma split1_nochar c s : has_char c s = false -> split1 c s = [s].
Proof.
  induction s as [|a r IH]; simpl; intros H; [reflexivity|].
  apply orb_false_iff in H. destruct H as [Ha Hr]. rewrite Ha, (IH Hr). reflexivity.
Qed.

Lemma split1_join c s : join (String c EmptyString) (split1 c s) = s.
Proof.
  induction s as [|a r IH]; simpl; [reflexivity|].
  destruct (Ascii.eqb a c) eqn:E.
  - apply Ascii.eqb_eq in E; subst a.
    destruct (split1 c r) as [|h t] eqn:Es; [exfalso; exact (split1_nonempty c r Es)|].
    rewrite <- IH. simpl. destruct t; reflexivity.
  - destruct (split1 c r) as [|h t] eqn:Es; [exfalso; exact (split1_nonempty c r Es)|].
    rewrite <- IH. destruct t; reflexivity.
Qed.

Lemma string_app_assoc (a b c : string) : (a ++ (b ++ c) = (a ++ b) ++ c)%string.
Proof. induction a as [|x a IH]; simpl; [reflexivity | now rewrite IH]. Qed.

Lemma string_app_nil_r (a : string) : (a ++ "" = a)%string.
Proof. induction a as [|x a IH]; simpl; [reflexivity | now rewrite IH]. Qed.

Lemma split1_app c s r : has_char c s = false ->
  split1 c (s ++ String c r) = s :: split1 c r.
Proof.
  induction s as [|a s IH]; simpl; intros H.
  - rewrite Ascii.eqb_refl. reflexivity.
  - apply orb_false_iff in H. destruct H as [Ha Hr]. rewrite Ha, (IH Hr). reflexivity.
Qed.

Lemma join_split1 c l : l <> [] -> (forall p, In p l -> has_char c p = false) ->
  split1 c (join (String c EmptyString) l) = l.
Proof.
  induction l as [|x l IH]; intros Hne H; [congruence|].
  destruct l as [|y l'].
  - simpl. apply split1_nochar, H. left; reflexivity.
  - change (join (String c EmptyString) (x :: y :: l')) with
      (x ++ String c EmptyString ++ join (String c EmptyString) (y :: l'))%string.
    cbn [append]. rewrite split1_app by (apply H; left; reflexivity).
    f_equal. apply IH; [discriminate|]. intros p Hp. apply H. right; exact Hp.
Qed.

Lemma join_inj c l r : l <> [] -> r <> [] ->
  (forall p, In p l -> has_char c p = false) ->
  (forall p, In p r -> has_char c p = false) ->
  join (String c EmptyString) l = join (String c EmptyString) r -> l = r.
Proof.
  intros Hl Hr Hcl Hcr E.
  rewrite <- (join_split1 c l Hl Hcl), <- (join_split1 c r Hr Hcr), E. reflexivity.
Qed.

(** ** association maps *)
Section AMapFacts.
  Context {V : Type}.
  Implicit Types m : amap V.

  Lemma aget_aset m k v k' : aget (aset m k v) k' = if String.eqb k k' then Some v else aget m k'.
  Proof.
    induction m as [|[k0 v0] m IH]; simpl.
    - destruct (String.eqb k k'); reflexivity.
    - destruct (String.eqb_spec k0 k) as [->|Hne]; simpl.
      + destruct (String.eqb k k'); reflexivity.
      + destruct (String.eqb_spec k0 k') as [->|Hne'].
        * destruct (String.eqb_spec k k') as [->|]; [congruence|reflexivity].
        * exact IH.
  Qed.

  Lemma aget_adel m k k' : aget (adel m k) k' = if String.eqb k k' then None else aget m k'.
  Proof.
    induction m as [|[k0 v0] m IH]; simpl.
    - destruct (String.eqb k k'); reflexivity.
    - destruct (String.eqb_spec k0 k) as [->|Hne]; simpl.
      + rewrite IH. destruct (String.eqb_spec k k'); reflexivity.
      + destruct (String.eqb_spec k0 k') as [->|Hne'].
        * destruct (String.eqb_spec k k') as [->|]; [congruence|reflexivity].
        * exact IH.
  Qed.

  Lemma aget_in m k v : aget m k = Some v -> In (k, v) m.
  Proof.
    induction m as [|[k0 v0] m IH]; simpl; [discriminate|].
    destruct (String.eqb_spec k0 k) as [->|]; intros H; [left; congruence | right; auto].
  Qed.

  Lemma aget_none m k : aget m k = None <-> ~ In k (map fst m).
  Proof.
    induction m as [|[k0 v0] m IH]; simpl; [tauto|].
    destruct (String.eqb_spec k0 k) as [->|Hne].
    - split; [discriminate | intros H; exfalso; apply H; left; reflexivity].
    - rewrite IH. split; [intros H [H'|H']; [congruence|tauto] | intros H H'; apply H; right; exact H'].
  Qed.

  Lemma in_aget m k v : NoDup (map fst m) -> In (k, v) m -> aget m k = Some v.
  Proof.
    induction m as [|[k0 v0] m IH]; simpl; [tauto|].
    intros Hnd [H|H]; inversion_clear Hnd as [|? ? Hni Hnd'].
    - inversion H; subst. rewrite String.eqb_refl. reflexivity.
    - destruct (String.eqb_spec k0 k) as [->|]; [|auto].
      exfalso; apply Hni. apply in_map_iff. exists (k, v); auto.
  Qed.

  Lemma aset_keys_nodup m k v : NoDup (map fst m) -> NoDup (map fst (aset m k v)).
  Proof.
    induction m as [|[k0 v0] m IH]; simpl; intros H.
    - constructor; [intros []|constructor].
    - inversion_clear H as [|? ? Hni Hnd].
      destruct (String.eqb_spec k0 k) as [->|Hne]; simpl.
      + constructor; assumption.
      + constructor; [|auto]. intros Hin. apply Hni.
        apply in_map_iff in Hin. destruct Hin as [[k1 v1] [E Hin]]; simpl in E; subst k1.
        destruct (in_dec string_dec k0 (map fst m)) as [?|Hn]; [assumption|exfalso].
        assert (aget (aset m k v) k0 = Some v1) as Hg.
        { clear -Hin Hn Hne. induction m as [|[k2 v2] m IHm]; simpl in *.
          - destruct Hin as [H|[]]; inversion H; congruence.
          - destruct (String.eqb_spec k2 k) as [->|]; simpl in *.
            + destruct Hin as [H|H]; [inversion H; congruence|].
              exfalso; apply Hn; right; apply in_map_iff; exists (k0,v1); auto.
            + destruct Hin as [H|H].
              * inversion H; subst. exfalso; apply Hn; left; reflexivity.
              * destruct (String.eqb_spec k2 k0) as [->|]; [exfalso; apply Hn; left; reflexivity|].
                apply IHm; auto. }
        rewrite aget_aset in Hg. destruct (String.eqb_spec k k0); [congruence|].
        apply aget_in in Hg. apply Hn. apply in_map_iff. exists (k0, v1); auto.
  Qed.
End AMapFacts.

Lemma lower_ascii_idem a : lower_ascii (lower_ascii a) = lower_ascii a.
Proof. destruct a as [b0 b1 b2 b3 b4 b5 b6 b7]; destruct b0, b1, b2, b3, b4, b5, b6, b7; reflexivity. Qed.

Lemma lower_idem s : lower (lower s) = lower s.
Proof. induction s as [|a s IH]; simpl; [reflexivity | now rewrite lower_ascii_idem, IH]. Qed.

Lemma has_prefix_iff p s : has_prefix p s = true <-> exists t, s = (p ++ t)%string.
Proof.
  revert s; induction p as [|a p IH]; intros s; simpl.
  - split; [intros _; exists s; reflexivity | reflexivity].
  - destruct s as [|b s]; [split; [discriminate | intros [t H]; discriminate]|].
    rewrite andb_true_iff, Ascii.eqb_eq, IH. split.
    + intros [-> [t ->]]. exists t; reflexivity.
    + intros [t H]. inversion H; subst. split; [reflexivity | exists t; reflexivity].
Qed.

Lemma contains_iff s sub : contains s sub = true <-> exists a b, s = (a ++ sub ++ b)%string.
Proof.
  induction s as [|c s IH]; simpl; rewrite orb_true_iff, has_prefix_iff.
  - split.
    + intros [[t Ht]|H]; [exists EmptyString, t; exact Ht | discriminate].
    + intros [a [b H]]. left. exists b. destruct a; [exact H | discriminate].
  - rewrite IH. split.
    + intros [[t Ht]|[a [b Hab]]]; [exists EmptyString, t; exact Ht|].
      exists (String c a), b. simpl. now rewrite Hab.
    + intros [a [b H]]. destruct a as [|a0 a]; [left; exists b; exact H|].
      inversion H; subst. right. exists a, b. reflexivity.
Qed.
