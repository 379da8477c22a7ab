(** Lemmas about Utf8Model. *)
From Coq Require Import Ascii String List ZArith Lia Bool.
From Verif Require Import GoBase GoBaseFacts Utf8Model.
Import ListNotations.
Open Scope Z_scope.

Lemma b2z_range a : 0 <= b2z a < 256.
Proof. unfold b2z. pose proof (N_ascii_bounded a). lia. Qed.
Lemma z2b_b2z a : z2b (b2z a) = a.
Proof.
  unfold z2b. pose proof (b2z_range a). rewrite Z.mod_small by lia.
  unfold b2z. rewrite N2Z.id. apply ascii_N_embedding.
Qed.
Lemma b2z_z2b z : b2z (z2b z) = z mod 256.
Proof.
  unfold b2z, z2b. pose proof (Z.mod_pos_bound z 256 ltac:(lia)).
  rewrite N_ascii_embedding by lia. rewrite Z2N.id; lia.
Qed.
Lemma b2z_z2b_small z : 0 <= z < 256 -> b2z (z2b z) = z.
Proof. intros. rewrite b2z_z2b. now apply Z.mod_small. Qed.
Lemma b2z_inj a b : b2z a = b2z b -> a = b.
Proof. intros H. rewrite <- (z2b_b2z a), <- (z2b_b2z b). now f_equal. Qed.

Lemma between_true lo hi x : between lo hi x = true <-> lo <= x <= hi.
Proof. unfold between. rewrite andb_true_iff, !Z.leb_le. tauto. Qed.
Lemma between_false lo hi x : between lo hi x = false <-> ~ lo <= x <= hi.
Proof. rewrite <- (between_true lo hi x). destruct (between lo hi x); intuition congruence. Qed.
Lemma scalarb_iff r : scalarb r = true <-> scalar r.
Proof.
  unfold scalarb, scalar. rewrite andb_true_iff, negb_true_iff, between_true, between_false. tauto.
Qed.

Ltac btw := repeat match goal with
  | H : between _ _ _ = true |- _ => apply between_true in H
  | H : between _ _ _ = false |- _ => apply between_false in H
  | H : andb _ _ = true |- _ => apply andb_true_iff in H; destruct H
  | H : (_ <=? _) = true |- _ => apply Z.leb_le in H
  | H : (_ <=? _) = false |- _ => apply Z.leb_gt in H
  | H : (_ <? _) = true |- _ => apply Z.ltb_lt in H
  | H : (_ <? _) = false |- _ => apply Z.ltb_ge in H
  | H : (_ =? _) = true |- _ => apply Z.eqb_eq in H
  | H : (_ =? _) = false |- _ => apply Z.eqb_neq in H
  end.

Lemma two_ok_iff a b : two_ok a b = true <-> 194 <= a <= 223 /\ 128 <= b <= 191.
Proof. unfold two_ok, cont. rewrite andb_true_iff, !between_true. tauto. Qed.
Lemma three_ok_iff a b c : three_ok a b c = true <->
  224 <= a <= 239 /\ 128 <= b <= 191 /\ (a = 224 -> 160 <= b) /\ (a = 237 -> b <= 159) /\ 128 <= c <= 191.
Proof.
  unfold three_ok, cont. rewrite !andb_true_iff, !between_true.
  destruct (a =? 224) eqn:E1; destruct (a =? 237) eqn:E2; btw; lia.
Qed.
Lemma four_ok_iff a b c d : four_ok a b c d = true <->
  240 <= a <= 244 /\ 128 <= b <= 191 /\ (a = 240 -> 144 <= b) /\ (a = 244 -> b <= 143) /\
  128 <= c <= 191 /\ 128 <= d <= 191.
Proof.
  unfold four_ok, cont. rewrite !andb_true_iff, !between_true.
  destruct (a =? 240) eqn:E1; destruct (a =? 244) eqn:E2; btw; lia.
Qed.

(** One step of the decoder on the encoding of a scalar value. *)
Lemma decode_scalar r rest : scalar r -> decode (encode_scalar r ++ rest) = r :: decode rest.
Proof.
  intros [H1 H2]. unfold encode_scalar.
  destruct (r <=? 127) eqn:E1; [|destruct (r <=? 2047) eqn:E2; [|destruct (r <=? 65535) eqn:E3]]; btw.
  - cbn [app decode]. rewrite b2z_z2b_small by lia.
    destruct (r <? 128) eqn:E; btw; [reflexivity|lia].
  - pose proof (Z.div_mod r 64 ltac:(lia)). pose proof (Z.mod_pos_bound r 64 ltac:(lia)).
    assert (3 <= r / 64 <= 31 -> True) by trivial.
    assert (2 <= r / 64 <= 31) by lia.
    cbn [app decode]. rewrite !b2z_z2b_small by lia.
    destruct (192 + r / 64 <? 128) eqn:E; btw; [lia|].
    replace (two_ok _ _) with true by (symmetry; apply two_ok_iff; lia).
    f_equal. lia.
  - set (x := r / 64) in *.
    assert (X : r / 4096 = x / 64) by (unfold x; rewrite Z.div_div by lia; reflexivity). rewrite X.
    pose proof (Z.div_mod r 64 ltac:(lia)). pose proof (Z.mod_pos_bound r 64 ltac:(lia)).
    pose proof (Z.div_mod x 64 ltac:(lia)). pose proof (Z.mod_pos_bound x 64 ltac:(lia)).
    fold x in H. set (y := x / 64) in *. set (m := x mod 64) in *. set (n := r mod 64) in *.
    assert (0 <= y <= 15) by lia.
    cbn [app decode]. rewrite !b2z_z2b_small by lia.
    destruct (224 + y <? 128) eqn:E; btw; [lia|].
    replace (two_ok _ _) with false
      by (symmetry; apply not_true_is_false; rewrite two_ok_iff; lia).
    replace (three_ok _ _ _) with true by (symmetry; apply three_ok_iff; lia).
    f_equal. lia.
  - set (x := r / 64) in *.
    assert (X : r / 4096 = x / 64) by (unfold x; rewrite Z.div_div by lia; reflexivity).
    assert (Y : r / 262144 = x / 64 / 64) by (unfold x; rewrite !Z.div_div by lia; reflexivity).
    rewrite X, Y. set (y := x / 64) in *.
    pose proof (Z.div_mod r 64 ltac:(lia)). pose proof (Z.mod_pos_bound r 64 ltac:(lia)).
    pose proof (Z.div_mod x 64 ltac:(lia)). pose proof (Z.mod_pos_bound x 64 ltac:(lia)).
    pose proof (Z.div_mod y 64 ltac:(lia)). pose proof (Z.mod_pos_bound y 64 ltac:(lia)).
    fold x in H. fold y in H3. set (w := y / 64) in *. set (k := y mod 64) in *.
    set (m := x mod 64) in *. set (n := r mod 64) in *.
    assert (0 <= w <= 4) by lia.
    cbn [app decode]. rewrite !b2z_z2b_small by lia.
    destruct (240 + w <? 128) eqn:E; btw; [lia|].
    replace (two_ok _ _) with false
      by (symmetry; apply not_true_is_false; rewrite two_ok_iff; lia).
    replace (three_ok _ _ _) with false
      by (symmetry; apply not_true_is_false; rewrite three_ok_iff; lia).
    replace (four_ok _ _ _ _) with true by (symmetry; apply four_ok_iff; lia).
    f_equal. lia.
Qed.
Lemma rune_error_scalar : scalar rune_error.
Proof. unfold scalar, rune_error. lia. Qed.
Lemma encode_rune_scalar r : scalar r -> encode_rune r = encode_scalar r.
Proof. intros H. unfold encode_rune. now rewrite (proj2 (scalarb_iff r) H). Qed.
Lemma decode_encode_app rs rest : Forall scalar rs -> decode (encode rs ++ rest) = rs ++ decode rest.
Proof.
  induction 1 as [|r rs H _ IH]; [reflexivity|].
  unfold encode. cbn [flat_map app]. rewrite encode_rune_scalar by assumption.
  rewrite <- app_assoc, decode_scalar by assumption. f_equal. exact IH.
Qed.
Lemma decode_encode rs : Forall scalar rs -> decode (encode rs) = rs.
Proof.
  intros H. rewrite <- (app_nil_r (encode rs)), decode_encode_app by assumption. apply app_nil_r.
Qed.
Lemma encode_app a b : encode (a ++ b) = encode a ++ encode b.
Proof. apply flat_map_app. Qed.

(** Whatever the bytes, the decoder only yields scalar values. *)
Lemma decode_scalars s : Forall scalar (decode s).
Proof.
  assert (G : forall n s, (length s <= n)%nat -> Forall scalar (decode s)).
  { clear. induction n as [|n IH]; intros [|a r] L; cbn [length] in L; try (now constructor); [lia|].
    assert (E : Forall scalar (decode r)) by (apply IH; lia).
    pose proof (b2z_range a). pose proof rune_error_scalar.
    cbn [decode]. destruct (b2z a <? 128) eqn:E0; btw.
    - constructor; [unfold scalar; lia|assumption].
    - destruct r as [|b r1]; [now constructor|]. pose proof (b2z_range b).
      destruct (two_ok _ _) eqn:E1.
      { apply two_ok_iff in E1. constructor; [unfold scalar; lia|apply IH; cbn [length] in L; lia]. }
      destruct r1 as [|c r2]; [now constructor|]. pose proof (b2z_range c).
      destruct (three_ok _ _ _) eqn:E2.
      { apply three_ok_iff in E2. constructor; [unfold scalar; lia|apply IH; cbn [length] in L; lia]. }
      destruct r2 as [|d r3]; [now constructor|]. pose proof (b2z_range d).
      destruct (four_ok _ _ _ _) eqn:E3; [|now constructor].
      apply four_ok_iff in E3. constructor; [unfold scalar; lia|apply IH; cbn [length] in L; lia]. }
  apply (G (length s)). lia.
Qed.
Lemma well_formed_iff s : well_formed s <-> encode (decode s) = s.
Proof.
  split.
  - intros (rs & H & ->). now rewrite decode_encode.
  - intros H. exists (decode s). split; [apply decode_scalars|congruence].
Qed.
Lemma well_formed_decode s : well_formed s -> encode (decode s) = s.
Proof. apply well_formed_iff. Qed.
Lemma well_formed_encode rs : well_formed (encode rs).
Proof.
  exists (map (fun r => if scalarb r then r else rune_error) rs). split.
  - apply Forall_forall. intros x H. apply in_map_iff in H. destruct H as (r & <- & _).
    destruct (scalarb r) eqn:E; [now apply scalarb_iff|apply rune_error_scalar].
  - unfold encode. rewrite flat_map_concat_map, (flat_map_concat_map _ (map _ _)), map_map. f_equal.
    apply map_ext. intros r. unfold encode_rune.
    destruct (scalarb r) eqn:E; [now rewrite E|]. reflexivity.
Qed.
Lemma decode_inj a b : well_formed a -> well_formed b -> decode a = decode b -> a = b.
Proof.
  intros A B E. rewrite <- (well_formed_decode a A), <- (well_formed_decode b B). now f_equal.
Qed.

(** ASCII strings. *)
Definition ascii_only (s : bytes) : Prop := Forall (fun a => b2z a < 128) s.
Lemma decode_ascii s : ascii_only s -> decode s = map b2z s.
Proof.
  induction 1 as [|a s H _ IH]; [reflexivity|]. cbn [decode map].
  destruct (b2z a <? 128) eqn:E; btw; [|lia]. now f_equal.
Qed.
Lemma encode_rune_ascii a : b2z a < 128 -> encode_rune (b2z a) = [a].
Proof.
  intros H. pose proof (b2z_range a). rewrite encode_rune_scalar by (unfold scalar; lia).
  unfold encode_scalar. destruct (b2z a <=? 127) eqn:E; btw; [|lia]. now rewrite z2b_b2z.
Qed.
Lemma encode_ascii s : ascii_only s -> encode (map b2z s) = s.
Proof.
  induction 1 as [|a s H _ IH]; [reflexivity|]. unfold encode. cbn [map flat_map].
  rewrite encode_rune_ascii by assumption. cbn [app]. f_equal. exact IH.
Qed.
Lemma ascii_well_formed s : ascii_only s -> well_formed s.
Proof. intros H. apply well_formed_iff. rewrite decode_ascii by assumption. now apply encode_ascii. Qed.
Lemma encode_rune_nonempty r : encode_rune r <> [].
Proof.
  unfold encode_rune, encode_scalar. destruct (scalarb r).
  - repeat destruct (_ <=? _); discriminate.
  - discriminate.
Qed.
Lemma decode_length s : (length (decode s) <= length s)%nat.
Proof.
  assert (G : forall n s, (length s <= n)%nat -> (length (decode s) <= length s)%nat).
  { clear. induction n as [|n IH]; intros [|a r] L; cbn [length] in L; try (cbn; lia).
    assert (E : (length (decode r) <= length r)%nat) by (apply IH; lia).
    cbn [decode]. destruct (_ <? _); [cbn [length]; lia|].
    destruct r as [|b r1]; [cbn [length] in *; lia|].
    destruct (two_ok _ _); [pose proof (IH r1 ltac:(cbn [length] in *; lia)); cbn [length] in *; lia|].
    destruct r1 as [|c r2]; [cbn [length] in *; lia|].
    destruct (three_ok _ _ _); [pose proof (IH r2 ltac:(cbn [length] in *; lia)); cbn [length] in *; lia|].
    destruct r2 as [|d r3]; [cbn [length] in *; lia|].
    destruct (four_ok _ _ _ _); [pose proof (IH r3 ltac:(cbn [length] in *; lia)); cbn [length] in *; lia|].
    cbn [length] in *; lia. }
  apply (G (length s)). lia.
Qed.

(** Searching. *)
Lemma prefixb_iff p s : prefixb p s = true <-> exists t, s = p ++ t.
Proof.
  revert s. induction p as [|a p IH]; intros s; cbn [prefixb].
  - split; [now exists s|trivial].
  - destruct s as [|b s].
    + split; [discriminate|intros (t & E); discriminate].
    + rewrite andb_true_iff, Ascii.eqb_eq, IH. split.
      * intros (-> & t & ->). now exists t.
      * intros (t & E). cbn [app] in E. inversion E. eauto.
Qed.
Lemma suffixb_iff p s : suffixb p s = true <-> exists t, s = t ++ p.
Proof.
  unfold suffixb. rewrite prefixb_iff. split; intros (t & E).
  - exists (rev t). rewrite <- (rev_involutive s), E, rev_app_distr, rev_involutive. reflexivity.
  - exists (rev t). subst s. apply rev_app_distr.
Qed.
(** [sub] occurs in [s] at offset [i]. *)
Definition occurs_at (sub s : bytes) (i : nat) : Prop := exists a b, s = a ++ sub ++ b /\ length a = i.
Lemma occurs_at_0 sub s : occurs_at sub s 0 <-> prefixb sub s = true.
Proof.
  rewrite prefixb_iff. split.
  - intros (a & b & -> & L). destruct a; [|discriminate]. now exists b.
  - intros (t & ->). now exists [], t.
Qed.
Lemma occurs_at_S sub c s i : occurs_at sub (c :: s) (S i) <-> occurs_at sub s i.
Proof.
  split.
  - intros (a & b & E & L). destruct a as [|x a]; [discriminate|]. cbn [app length] in *.
    inversion E. exists a, b. auto.
  - intros (a & b & -> & L). exists (c :: a), b. cbn [app length]. auto.
Qed.
Lemma occurs_at_nil sub i : occurs_at sub [] (S i) -> False.
Proof. intros (a & b & E & L). destruct a; discriminate. Qed.
Lemma index_of_some sub s i : index_of sub s = Some i <->
  occurs_at sub s i /\ forall j, (j < i)%nat -> ~ occurs_at sub s j.
Proof.
  revert i. induction s as [|c s IH]; intros i; cbn [index_of].
  - destruct (prefixb sub []) eqn:P.
    + pose proof (proj2 (occurs_at_0 _ _) P). split.
      * intros E. inversion E. subst. split; [assumption|lia].
      * intros [O _]. destruct i; [reflexivity|]. now apply occurs_at_nil in O.
    + split; [discriminate|]. intros [O _]. destruct i.
      * apply occurs_at_0 in O. congruence.
      * now apply occurs_at_nil in O.
  - destruct (prefixb sub (c :: s)) eqn:P.
    + pose proof (proj2 (occurs_at_0 _ _) P) as Q. split.
      * intros E. inversion E. subst. split; [assumption|lia].
      * intros [_ F]. destruct i; [reflexivity|]. exfalso. apply (F O); [lia|assumption].
    + assert (Q : ~ occurs_at sub (c :: s) 0) by (rewrite occurs_at_0; congruence).
      destruct i as [|i].
      * split; [destruct (index_of sub s); discriminate|]. intros [O _]. contradiction.
      * rewrite occurs_at_S. specialize (IH i).
        transitivity (index_of sub s = Some i).
        { destruct (index_of sub s) as [x|]; cbn [option_map]; split; intros E; congruence. }
        rewrite IH. split; intros [O F]; (split; [assumption|]); intros j L.
        -- destruct j; [assumption|]. rewrite occurs_at_S. apply F. lia.
        -- rewrite <- (occurs_at_S _ c). apply F. lia.
Qed.
Lemma index_of_none sub s : index_of sub s = None <-> forall i, ~ occurs_at sub s i.
Proof.
  induction s as [|c s IH]; cbn [index_of].
  - destruct (prefixb sub []) eqn:P; split.
    + discriminate.
    + intros F. exfalso. apply (F O). now apply occurs_at_0.
    + intros _ [|i] O; [apply occurs_at_0 in O; congruence|now apply occurs_at_nil in O].
    + trivial.
  - destruct (prefixb sub (c :: s)) eqn:P; split.
    + discriminate.
    + intros F. exfalso. apply (F O). now apply occurs_at_0.
    + intros E [|i] O; [apply occurs_at_0 in O; congruence|]. rewrite occurs_at_S in O.
      destruct (index_of sub s) eqn:I; [discriminate|]. exact (proj1 IH eq_refl i O).
    + intros F. destruct (index_of sub s) eqn:I; [|reflexivity]. exfalso.
      apply index_of_some in I. apply (F (S n)). apply occurs_at_S. tauto.
Qed.
Lemma occurs_split sub s i : occurs_at sub s i ->
  s = firstn i s ++ sub ++ skipn (i + length sub) s /\ length (firstn i s) = i.
Proof.
  intros (a & b & -> & <-).
  rewrite firstn_app, Nat.sub_diag, firstn_all, firstn_O, app_nil_r. split; [|reflexivity].
  do 2 f_equal.
  rewrite app_assoc, skipn_app, app_length, Nat.sub_diag, skipn_O.
  rewrite skipn_all2 by (rewrite app_length; lia). reflexivity.
Qed.

(** Splitting. *)
Lemma joinb_cons d x l : l <> [] -> joinb d (x :: l) = x ++ d ++ joinb d l.
Proof. destruct l; [congruence|reflexivity]. Qed.
Lemma split_loop_nonempty fuel d s : split_loop fuel d s <> [].
Proof. destruct fuel; [discriminate|]. cbn [split_loop]. destruct (index_of d s); discriminate. Qed.
Lemma split_loop_join fuel d s : joinb d (split_loop fuel d s) = s.
Proof.
  revert s. induction fuel as [|f IH]; intros s; [reflexivity|]. cbn [split_loop].
  destruct (index_of d s) as [i|] eqn:E; [|reflexivity].
  rewrite joinb_cons by apply split_loop_nonempty. rewrite IH.
  apply index_of_some in E. destruct (occurs_split _ _ _ (proj1 E)) as [H _]. congruence.
Qed.
Lemma split_loop_pieces fuel d s p : d <> [] -> (length s <= fuel)%nat ->
  In p (split_loop fuel d s) -> forall i, ~ occurs_at d p i.
Proof.
  intros D. revert s. induction fuel as [|f IH]; intros s L H.
  - destruct s; [|cbn in L; lia]. cbn in H. destruct H as [<-|[]]. intros i (a & b & E & _).
    destruct a, d; try discriminate. congruence.
  - cbn [split_loop] in H. destruct (index_of d s) as [i|] eqn:E.
    + apply index_of_some in E. destruct E as [O F].
      destruct (occurs_split _ _ _ O) as [S1 L1]. destruct H as [<-|H].
      * intros j (a & b & E & La). apply (F j).
        -- rewrite <- L1, E, !app_length. destruct d; [congruence|]. cbn [length]. lia.
        -- exists a, (b ++ d ++ skipn (i + length d) s). split; [|assumption].
           rewrite S1 at 1. rewrite E. now rewrite <- !app_assoc.
      * apply (IH (skipn (i + length d) s)); [|assumption].
        rewrite skipn_length. destruct d; [congruence|]. cbn [length].
        assert (length s <> 0)%nat.
        { intros Z. destruct s; [|discriminate]. destruct O as (xa & xb & E & _).
          destruct xa; discriminate. }
        lia.
    + destruct H as [<-|[]]. now apply index_of_none.
Qed.
(** Replacing is splitting and joining with the new separator. *)
Lemma replace_split fuel old new s : replace_loop fuel old new s = joinb new (split_loop fuel old s).
Proof.
  revert s. induction fuel as [|f IH]; intros s; [reflexivity|].
  cbn [replace_loop split_loop]. destruct (index_of old s); [|reflexivity].
  rewrite joinb_cons by apply split_loop_nonempty. now rewrite IH.
Qed.
Lemma joinb_nil_concat l : joinb [] l = concat l.
Proof.
  induction l as [|x l IH]; [reflexivity|]. cbn [concat]. rewrite <- IH.
  destruct l; [cbn; now rewrite app_nil_r|]. now rewrite joinb_cons by discriminate.
Qed.
