(** Lemmas on JSON texts and on the texts the code writes. *)
From Coq Require Import Ascii String List ZArith QArith Qcanon Lia Bool SpecFloat.
From Verif Require Import GoBase GoBaseFacts DecModel DecFacts Utf8Model Utf8Facts EncModel EncProofs CalendarModel InstantModel ClockTextModel CastModel
  ValueModel CodecModel CodecSpec CodecProofs JsonSpec JsonDocSpec JsonModel.
Import ListNotations.
Open Scope Z_scope.

(** ** The reader consumes its input *)
Lemma skip_length s : (List.length (skip s) <= List.length s)%nat.
Proof. induction s as [|c s IH]; cbn [skip List.length]; [lia|]. destruct (space c); cbn [List.length]; lia. Qed.
Lemma onto_some p o x r : onto p o = Some (x, r) -> exists y, o = Some (y, r) /\ x = (p ++ y)%list.
Proof. destruct o as [[y t]|]; cbn [onto]; [|discriminate]. intros H. exists y. split; congruence. Qed.
Lemma chars_length : forall n s x r, (List.length s <= n)%nat -> chars s = Some (x, r) -> (List.length r < List.length s)%nat.
Proof.
  induction n as [|n IH]; intros s x r L H; (destruct s as [|c s]; cbn [chars] in H; [discriminate|]); cbn [List.length] in L; [lia|].
  destruct (Ascii.eqb c quote_c). { assert (s = r) by congruence. subst. cbn [List.length]. lia. }
  destruct (Ascii.eqb c bslash_c).
  - destruct s as [|e s]; [discriminate|]. cbn [List.length] in *. destruct (escaped e).
    + apply onto_some in H. destruct H as (y & H & _). apply IH in H; lia.
    + destruct (Ascii.eqb e "u"); [|discriminate]. destruct s as [|h1 [|h2 [|h3 [|h4 s]]]]; try discriminate. cbn [List.length] in *.
      destruct (hex4 h1 h2 h3 h4); [|discriminate]. destruct (scalarb z).
      * apply onto_some in H. destruct H as (y & H & _). apply IH in H; lia.
      * destruct s as [|b [|u [|g1 [|g2 [|g3 [|g4 s]]]]]]; try discriminate. cbn [List.length] in *.
        destruct (hex4 g1 g2 g3 g4); [|discriminate]. destruct (_ && _); [|discriminate].
        apply onto_some in H. destruct H as (y & H & _). apply IH in H; lia.
  - destruct (b2z c <? 32); [discriminate|]. apply onto_some in H. destruct H as (y & H & _). cbn [List.length]. apply IH in H; lia.
Qed.
Lemma span_length s ds t : span s = (ds, t) -> (List.length t <= List.length s)%nat /\ (ds <> [] -> (List.length t < List.length s)%nat).
Proof.
  revert ds t. induction s as [|c s IH]; intros ds t H; cbn [span] in H.
  - assert (E : ds = [] /\ t = []) by (split; congruence). destruct E as [-> ->]. split; [cbn; lia|congruence].
  - destruct (num_char c).
    + destruct (span s) as [es u]. assert (E : t = u) by congruence. subst u. destruct (IH es t eq_refl) as [A _]. cbn [List.length]. split; intros; lia.
    + assert (E : ds = [] /\ t = c :: s) by (split; congruence). destruct E as [-> ->]. split; [lia|congruence].
Qed.
Lemma exponent_length neg ds k s q r : exponent neg ds k s = Some (q, r) -> (List.length r <= List.length s)%nat.
Proof.
  unfold exponent. destruct s as [|c s]; [intros H; assert (r = []) by congruence; subst; lia|].
  destruct (_ || _).
  - destruct (match s with [] => (false, s) | x :: t => if Ascii.eqb x "-" then (true, t) else if Ascii.eqb x "+" then (false, t) else (false, s) end) as [m r1] eqn:M.
    assert (L : (List.length r1 <= List.length s)%nat).
    { destruct s as [|x t]; [assert (r1 = []) by congruence; subst; lia|].
      destruct (Ascii.eqb x "-"); [assert (r1 = t) by congruence; subst; cbn [List.length]; lia|].
      destruct (Ascii.eqb x "+"); [assert (r1 = t) by congruence; subst; cbn [List.length]; lia|].
      assert (r1 = x :: t) by congruence. subst. lia. }
    destruct (span r1) as [es r2] eqn:P. apply span_length in P. destruct es; [discriminate|]. intros H. assert (r = r2) by congruence. subst. cbn [List.length]. lia.
  - intros H. assert (r = c :: s) by congruence. subst. lia.
Qed.
Lemma fraction_length neg ds s q r : fraction neg ds s = Some (q, r) -> (List.length r <= List.length s)%nat.
Proof.
  unfold fraction. destruct s as [|c s]; [apply exponent_length|]. destruct (Ascii.eqb c "."); [|apply exponent_length].
  destruct (span s) as [fs r1] eqn:P. apply span_length in P. destruct fs; [discriminate|]. intros H. apply exponent_length in H. cbn [List.length]. lia.
Qed.
Lemma number_length s q r : number s = Some (q, r) -> (List.length r < List.length s)%nat.
Proof.
  unfold number. intros H.
  destruct (match s with [] => (false, s) | c :: r0 => if Ascii.eqb c "-" then (true, r0) else (false, s) end) as [neg s1] eqn:M.
  assert (L : (List.length s1 <= List.length s)%nat).
  { destruct s as [|x t]; [assert (s1 = []) by congruence; subst; lia|].
    destruct (Ascii.eqb x "-"); [assert (s1 = t) by congruence; subst; cbn [List.length]; lia|]. assert (s1 = x :: t) by congruence. subst. lia. }
  destruct s1 as [|c t]; [discriminate|]. destruct (num_char c) as [d|] eqn:D; [|discriminate].
  assert (A : forall ds u, span (c :: t) = (ds, u) -> (List.length u < List.length (c :: t))%nat).
  { intros ds u P. pose proof (span_length _ _ _ P) as [_ B]. apply B. cbn [span] in P. rewrite D in P. destruct (span t). congruence. }
  cbn [List.length] in L. destruct (span (c :: t)) as [ds u] eqn:P. specialize (A ds u eq_refl). cbn [List.length] in A.
  destruct d; apply fraction_length in H; lia.
Qed.
Lemma after_length w s t : after w s = Some t -> (List.length t + List.length w = List.length s)%nat.
Proof.
  revert s t. induction w as [|a w IH]; intros s t H; cbn [after] in H; [assert (s = t) by congruence; subst; cbn; lia|].
  destruct s as [|b s]; [discriminate|]. destruct (Ascii.eqb a b); [|discriminate]. apply IH in H. cbn [List.length]. lia.
Qed.

Ltac keep H := apply (f_equal (option_map snd)) in H; cbn [option_map snd] in H.
Lemma shorter : forall n,
  (forall s j r, value n s = Some (j, r) -> (List.length r < List.length s)%nat) /\
  (forall s l r, elements n s = Some (l, r) -> (List.length r < List.length s)%nat) /\
  (forall s l r, members n s = Some (l, r) -> (List.length r < List.length s)%nat).
Proof.
  induction n as [|n (V & E & M)]; [repeat split; intros; discriminate|]. repeat split.
  - intros s j r H. cbn [value] in H. pose proof (skip_length s) as K. destruct (skip s) as [|c u]; [discriminate|]. cbn [List.length] in K.
    destruct (Ascii.eqb c quote_c).
    { destruct (chars u) as [[x t]|] eqn:C; [|discriminate]. keep H. assert (t = r) by congruence. subst. apply (chars_length _ _ _ _ (le_n _)) in C. lia. }
    destruct (Ascii.eqb c "[").
    { pose proof (skip_length u) as K2. destruct (skip u) as [|x t]; [discriminate|]. cbn [List.length] in K2. destruct (Ascii.eqb x "]").
      - keep H. assert (t = r) by congruence. subst. lia.
      - destruct (elements n u) as [[l t']|] eqn:X; [|discriminate]. keep H. assert (t' = r) by congruence. subst. apply E in X. lia. }
    destruct (Ascii.eqb c "{").
    { pose proof (skip_length u) as K2. destruct (skip u) as [|x t]; [discriminate|]. cbn [List.length] in K2. destruct (Ascii.eqb x "}").
      - keep H. assert (t = r) by congruence. subst. lia.
      - destruct (members n u) as [[l t']|] eqn:X; [|discriminate]. keep H. assert (t' = r) by congruence. subst. apply M in X. lia. }
    destruct (after (word "true") (c :: u)) as [t|] eqn:A1; [keep H; assert (t = r) by congruence; subst; apply after_length in A1; cbn [List.length word list_ascii_of_string] in A1; lia|].
    destruct (after (word "false") (c :: u)) as [t|] eqn:A2; [keep H; assert (t = r) by congruence; subst; apply after_length in A2; cbn [List.length word list_ascii_of_string] in A2; lia|].
    destruct (after (word "null") (c :: u)) as [t|] eqn:A3; [keep H; assert (t = r) by congruence; subst; apply after_length in A3; cbn [List.length word list_ascii_of_string] in A3; lia|].
    destruct (number (c :: u)) as [[q t]|] eqn:X; [|discriminate]. keep H. assert (t = r) by congruence. subst. apply number_length in X. cbn [List.length] in X. lia.
  - intros s l r H. cbn [elements] in H. destruct (value n s) as [[j t]|] eqn:X; [|discriminate]. apply V in X.
    pose proof (skip_length t) as K. destruct (skip t) as [|c u]; [discriminate|]. cbn [List.length] in K. destruct (Ascii.eqb c "]").
    + keep H. assert (u = r) by congruence. subst. lia.
    + destruct (Ascii.eqb c ","); [|discriminate]. destruct (elements n u) as [[l' t']|] eqn:Y; [|discriminate]. keep H. assert (t' = r) by congruence. subst. apply E in Y. lia.
  - intros s l r H. cbn [members] in H. pose proof (skip_length s) as K. destruct (skip s) as [|c u]; [discriminate|]. cbn [List.length] in K.
    destruct (Ascii.eqb c quote_c); [|discriminate]. destruct (chars u) as [[k r1]|] eqn:C; [|discriminate]. apply (chars_length _ _ _ _ (le_n _)) in C.
    pose proof (skip_length r1) as K1. destruct (skip r1) as [|d r2]; [discriminate|]. cbn [List.length] in K1. destruct (Ascii.eqb d ":"); [|discriminate].
    destruct (value n r2) as [[j r3]|] eqn:X; [|discriminate]. apply V in X.
    pose proof (skip_length r3) as K3. destruct (skip r3) as [|e t]; [discriminate|]. cbn [List.length] in K3. destruct (Ascii.eqb e "}").
    + keep H. assert (t = r) by congruence. subst. lia.
    + destruct (Ascii.eqb e ","); [|discriminate]. destruct (members n t) as [[l' t']|] eqn:Y; [|discriminate]. keep H. assert (t' = r) by congruence. subst. apply M in Y. lia.
Qed.

(** A larger bound gives the same answer. *)
Lemma more : forall n,
  (forall s x m, value n s = Some x -> (n <= m)%nat -> value m s = Some x) /\
  (forall s x m, elements n s = Some x -> (n <= m)%nat -> elements m s = Some x) /\
  (forall s x m, members n s = Some x -> (n <= m)%nat -> members m s = Some x).
Proof.
  induction n as [|n (V & E & M)]; [repeat split; intros; discriminate|].
  repeat split; intros s x m H L; (destruct m as [|m]; [lia|]); apply le_S_n in L.
  - cbn [value] in *. destruct (skip s) as [|c u]; [discriminate|]. destruct (Ascii.eqb c quote_c); [exact H|]. destruct (Ascii.eqb c "[").
    { destruct (skip u) as [|y t]; [discriminate|]. destruct (Ascii.eqb y "]"); [exact H|]. destruct (elements n u) as [p|] eqn:X; [|discriminate]. now rewrite (E _ _ _ X L). }
    destruct (Ascii.eqb c "{").
    { destruct (skip u) as [|y t]; [discriminate|]. destruct (Ascii.eqb y "}"); [exact H|]. destruct (members n u) as [p|] eqn:X; [|discriminate]. now rewrite (M _ _ _ X L). }
    exact H.
  - cbn [elements] in *. destruct (value n s) as [[j t]|] eqn:X; [|discriminate]. rewrite (V _ _ _ X L). destruct (skip t) as [|c u]; [discriminate|].
    destruct (Ascii.eqb c "]"); [exact H|]. destruct (Ascii.eqb c ","); [|discriminate]. destruct (elements n u) as [p|] eqn:Y; [|discriminate]. now rewrite (E _ _ _ Y L).
  - cbn [members] in *. destruct (skip s) as [|c u]; [discriminate|]. destruct (Ascii.eqb c quote_c); [|discriminate]. destruct (chars u) as [[k r1]|]; [|discriminate].
    destruct (skip r1) as [|d r2]; [discriminate|]. destruct (Ascii.eqb d ":"); [|discriminate]. destruct (value n r2) as [[j r3]|] eqn:X; [|discriminate].
    rewrite (V _ _ _ X L). destruct (skip r3) as [|e t]; [discriminate|]. destruct (Ascii.eqb e "}"); [exact H|]. destruct (Ascii.eqb e ","); [|discriminate].
    destruct (members n t) as [p|] eqn:Y; [|discriminate]. now rewrite (M _ _ _ Y L).
Qed.
Lemma stable : forall n,
  (forall s m, (2 * List.length s < n)%nat -> (n <= m)%nat -> value m s = value n s) /\
  (forall s m, (2 * List.length s + 1 < n)%nat -> (n <= m)%nat -> elements m s = elements n s) /\
  (forall s m, (2 * List.length s + 1 < n)%nat -> (n <= m)%nat -> members m s = members n s).
Proof.
  induction n as [|n (V & E & M)]; [repeat split; intros; lia|].
  repeat split; intros s m B L; (destruct m as [|m]; [lia|]); apply le_S_n in L.
  - cbn [value]. pose proof (skip_length s) as K. destruct (skip s) as [|c u]; [reflexivity|]. cbn [List.length] in K. destruct (Ascii.eqb c quote_c); [reflexivity|].
    rewrite (E u m) by lia. rewrite (M u m) by lia. reflexivity.
  - cbn [elements]. rewrite (V s m) by lia. destruct (value n s) as [[j t]|] eqn:X; [|reflexivity]. apply (proj1 (shorter n)) in X.
    pose proof (skip_length t) as K. destruct (skip t) as [|c u]; [reflexivity|]. cbn [List.length] in K. destruct (Ascii.eqb c "]"); [reflexivity|].
    rewrite (E u m) by lia. reflexivity.
  - cbn [members]. pose proof (skip_length s) as K. destruct (skip s) as [|c u]; [reflexivity|]. cbn [List.length] in K. destruct (Ascii.eqb c quote_c); [|reflexivity].
    destruct (chars u) as [[k r1]|] eqn:C; [|reflexivity]. apply (chars_length _ _ _ _ (le_n _)) in C.
    pose proof (skip_length r1) as K1. destruct (skip r1) as [|d r2]; [reflexivity|]. cbn [List.length] in K1. destruct (Ascii.eqb d ":"); [|reflexivity].
    rewrite (V r2 m) by lia. destruct (value n r2) as [[j r3]|] eqn:X; [|reflexivity]. apply (proj1 (shorter n)) in X.
    pose proof (skip_length r3) as K3. destruct (skip r3) as [|e t]; [reflexivity|]. cbn [List.length] in K3. destruct (Ascii.eqb e "}"); [reflexivity|].
    rewrite (M t m) by lia. reflexivity.
Qed.
(** The bound of [denotes] is enough. *)
Lemma enough n s x : value n s = Some x -> value (2 * List.length s + 2) s = Some x.
Proof.
  intros H. destruct (le_lt_dec n (2 * List.length s + 2)) as [L|L].
  - exact (proj1 (more n) _ _ _ H L).
  - rewrite <- H. symmetry. apply (proj1 (stable (2 * List.length s + 2))); lia.
Qed.
Lemma denotes_iff s j : denotes s = Some j <-> exists n r, value n s = Some (j, r) /\ skip r = [].
Proof.
  unfold denotes. split.
  - destruct (value _ s) as [[i r]|] eqn:E; [|discriminate]. destruct (skip r) eqn:K; [|discriminate]. intros H. exists (2 * List.length s + 2)%nat, r.
    split; [congruence|exact K].
  - intros (n & r & H & K). apply enough in H. now rewrite H, K.
Qed.

(** ** Strings *)
Lemma hex_val_digit d : 0 <= d < 16 -> hex_val (hex_digit d) = Some d.
Proof.
  intros H. assert (I : In d [0; 1; 2; 3; 4; 5; 6; 7; 8; 9; 10; 11; 12; 13; 14; 15]) by (cbn [In]; lia).
  cbn [In] in I. repeat (destruct I as [<-|I]; [reflexivity|]). contradiction.
Qed.
Lemma hex4_hex r a b c d : 0 <= r < 65536 -> hex 4 r = [a; b; c; d] -> hex4 a b c d = Some r.
Proof.
  intros H. cbn [hex app]. intros E. assert (Ea : a = hex_digit (r / 16 / 16 / 16 mod 16)) by congruence. assert (Eb : b = hex_digit (r / 16 / 16 mod 16)) by congruence.
  assert (Ec : c = hex_digit (r / 16 mod 16)) by congruence. assert (Ed : d = hex_digit (r mod 16)) by congruence. subst. unfold hex4.
  rewrite !hex_val_digit by (apply Z.mod_pos_bound; lia). f_equal.
  pose proof (Z.div_mod r 16 ltac:(lia)) as D0. pose proof (Z.div_mod (r / 16) 16 ltac:(lia)) as D1. pose proof (Z.div_mod (r / 16 / 16) 16 ltac:(lia)) as D2.
  pose proof (Z.div_mod (r / 16 / 16 / 16) 16 ltac:(lia)) as D3.
  assert (0 <= r / 16 / 16 / 16 < 16).
  { rewrite !Z.div_div by lia. split; [apply Z.div_pos; lia|apply Z.div_lt_upper_bound; lia]. }
  assert (r / 16 / 16 / 16 / 16 = 0) by (apply Z.div_small; lia). lia.
Qed.

Section Written.
  Variable printable : Z -> bool.
  Variable float_text : float -> bytes.
  Variable interval_text : Z -> Z -> Z -> bytes.
  Notation quote_rune := (quote_rune printable).
  Notation quote := (quote printable).

  (** The characters strconv.Quote writes in a way JSON knows. *)
  Definition jsonable (r : Z) : bool :=
    between 32 126 r || existsb (Z.eqb r) [8; 9; 10; 12; 13] || between 128 65535 r || ((65536 <=? r) && printable r).

  Lemma chars_plain c t : 32 <= b2z c -> c <> quote_c -> c <> bslash_c -> chars (c :: t) = onto [c] (chars t).
  Proof.
    intros L Q B. cbn [chars]. apply Ascii.eqb_neq in Q, B. rewrite Q, B. destruct (Z.ltb_spec (b2z c) 32); [lia|reflexivity].
  Qed.
  Lemma onto_onto a b o : onto a (onto b o) = onto (a ++ b) o.
  Proof. destruct o as [[x r]|]; cbn [onto]; [|reflexivity]. now rewrite app_assoc. Qed.
  Lemma chars_plains p t : Forall (fun c => 32 <= b2z c /\ c <> quote_c /\ c <> bslash_c) p -> chars (p ++ t) = onto p (chars t).
  Proof.
    induction 1 as [|c p (L & Q & B) _ IH]; cbn [app]; [now destruct (chars t) as [[? ?]|]|].
    rewrite chars_plain, IH, onto_onto by assumption. reflexivity.
  Qed.
  Lemma not_quote c : b2z c <> 34 -> c <> quote_c. Proof. intros H ->. now apply H. Qed.
  Lemma not_bslash c : b2z c <> 92 -> c <> bslash_c. Proof. intros H ->. now apply H. Qed.
  Lemma high_bytes r : scalar r -> 128 <= r -> Forall (fun c => 128 <= b2z c) (encode_scalar r).
  Proof.
    intros S L. unfold scalar in S.
    assert (B : forall x, 128 <= x < 256 -> 128 <= b2z (z2b x)) by (intros x Hx; rewrite b2z_z2b_small; lia).
    assert (Hm : forall x, 128 <= b2z (z2b (128 + x mod 64))) by (intros x; apply B; pose proof (Z.mod_pos_bound x 64); lia).
    unfold encode_scalar. destruct (Z.leb_spec r 127); [lia|]. destruct (Z.leb_spec r 2047); [|destruct (Z.leb_spec r 65535)]; repeat apply Forall_cons; try apply Hm; try constructor; apply B.
    - pose proof (Z.div_pos r 64 ltac:(lia) ltac:(lia)). pose proof (Z.div_lt_upper_bound r 64 32 ltac:(lia) ltac:(lia)). lia.
    - pose proof (Z.div_pos r 4096 ltac:(lia) ltac:(lia)). pose proof (Z.div_lt_upper_bound r 4096 16 ltac:(lia) ltac:(lia)). lia.
    - pose proof (Z.div_pos r 262144 ltac:(lia) ltac:(lia)). pose proof (Z.div_lt_upper_bound r 262144 5 ltac:(lia) ltac:(lia)). lia.
  Qed.
  Lemma ascii_rune r : 0 <= r < 128 -> encode_rune r = [z2b r].
  Proof. intros H. rewrite encode_rune_scalar by (unfold scalar; lia). unfold encode_scalar. destruct (Z.leb_spec r 127); [reflexivity|lia]. Qed.
  Lemma copied r t : scalar r -> 32 <= r -> r <> 34 -> r <> 92 -> chars (encode_rune r ++ t) = onto (encode_rune r) (chars t).
  Proof.
    intros S L Q B. apply chars_plains. destruct (Z.ltb_spec r 128).
    - unfold scalar in S. rewrite ascii_rune by lia. constructor; [|constructor].
      rewrite b2z_z2b_small by lia. repeat split; [lia|apply not_quote; rewrite b2z_z2b_small; lia|apply not_bslash; rewrite b2z_z2b_small; lia].
    - rewrite encode_rune_scalar by exact S. eapply Forall_impl; [|apply (high_bytes r S); lia]. cbn beta. intros c Hc.
      repeat split; [lia|apply not_quote; lia|apply not_bslash; lia].
  Qed.
  Lemma rune_read r t : scalar r ->
    chars (quote_rune r ++ t) = if jsonable r then onto (encode_rune r) (chars t) else None.
  Proof.
    intros S. unfold JsonModel.quote_rune, jsonable. assert (R : 0 <= r <= 1114111) by (unfold scalar in S; lia).
    destruct (Z.eqb_spec r 34); [subst; reflexivity|]. destruct (Z.eqb_spec r 92); [subst; reflexivity|]. cbn [orb].
    unfold is_print. destruct (Z.ltb_spec r 128) as [A|A].
    - destruct (between 32 126 r) eqn:P.
      + apply between_true in P. cbn [orb]. apply copied; (assumption || lia).
      + apply between_false in P. cbn [orb].
        assert (I : In r [0;1;2;3;4;5;6;7;8;9;10;11;12;13;14;15;16;17;18;19;20;21;22;23;24;25;26;27;28;29;30;31;127]) by (cbn [In]; lia).
        cbn [In] in I. clear -I. repeat (destruct I as [<-|I]; [reflexivity|]). contradiction.
    - assert (P : between 32 126 r = false) by (apply between_false; lia). rewrite P. cbn [orb existsb].
      assert (N : forall k, k < 128 -> (r =? k) = false) by (intros k Hk; apply Z.eqb_neq; lia).
      rewrite !N by lia. cbn [orb]. destruct (printable r) eqn:Q.
      + rewrite andb_true_r. assert (E : between 128 65535 r || (65536 <=? r) = true).
        { destruct (Z.leb_spec 65536 r); [apply orb_true_r|]. rewrite (proj2 (between_true _ _ _)) by lia. reflexivity. }
        rewrite E. apply copied; (assumption || lia).
      + rewrite andb_false_r, orb_false_r. destruct (Z.ltb_spec r 32); [lia|]. destruct (Z.ltb_spec r 65536) as [B|B].
        * rewrite (proj2 (between_true _ _ _)) by lia.
          assert (H4 : exists a b c d, hex 4 r = [a; b; c; d]) by (cbn [hex app]; do 4 eexists; reflexivity). destruct H4 as (a & b & c & d & H4).
          rewrite H4. cbn [app chars]. change (Ascii.eqb bslash_c quote_c) with false. change (Ascii.eqb bslash_c bslash_c) with true.
          change (escaped "u") with (@None ascii). change (Ascii.eqb "u" "u") with true. cbv iota.
          rewrite (hex4_hex r a b c d) by (assumption || lia). rewrite (proj2 (scalarb_iff r) S). now rewrite encode_rune_scalar.
        * rewrite (proj2 (between_false _ _ _)) by lia. reflexivity.
  Qed.
  Lemma runes_read rs t : Forall scalar rs ->
    chars (flat_map quote_rune rs ++ t) = if forallb jsonable rs then onto (encode rs) (chars t) else None.
  Proof.
    induction 1 as [|r rs S _ IH]; cbn [flat_map forallb app]; [destruct (chars t) as [[? ?]|]; reflexivity|].
    rewrite <- app_assoc, rune_read by exact S. destruct (jsonable r); [|reflexivity]. rewrite IH. cbn [andb].
    destruct (forallb jsonable rs); [|reflexivity]. now rewrite onto_onto.
  Qed.
  Lemma quote_read s t : well_formed s ->
    chars (flat_map quote_rune (decode s) ++ quote_c :: t) = if forallb jsonable (decode s) then Some (s, t) else None.
  Proof.
    intros W. rewrite runes_read by apply decode_scalars. destruct (forallb _ _); [|reflexivity]. cbn [chars]. change (Ascii.eqb quote_c quote_c) with true. cbn [onto].
    now rewrite app_nil_r, well_formed_decode.
  Qed.
  Lemma value_quote s n t : well_formed s -> value (S n) (quote s ++ t) = if forallb jsonable (decode s) then Some (JStr s, t) else None.
  Proof.
    intros W. unfold JsonModel.quote. cbn [app value skip]. change (space quote_c) with false. cbv iota. change (Ascii.eqb quote_c quote_c) with true. cbv iota.
    rewrite <- app_assoc. cbn [app]. rewrite quote_read by exact W. now destruct (forallb _ _).
  Qed.

  (** ** Numbers *)
  Definition ends (rest : bytes) : Prop :=
    match rest with [] => True | c :: _ => c = ","%char \/ c = "]"%char \/ c = "}"%char end.
  Lemma num_char_val c : num_char c = digit_val c.
  Proof.
    unfold num_char, digit_val, Utf8Model.between. assert (E : b2z c = Z.of_nat (nat_of_ascii c)).
    { unfold b2z, nat_of_ascii. now rewrite N_nat_Z. }
    now rewrite E.
  Qed.
  Definition no_digit (rest : bytes) : Prop := match rest with [] => True | c :: _ => num_char c = None end.
  Lemma span_text s rest v : DecFacts.positional s = Some v -> no_digit rest ->
    exists ds, span (text_of s ++ rest) = (ds, rest) /\ List.length ds = String.length s /\
      forall a, fold_left (fun a d => 10 * a + d) ds a = a * 10 ^ Z.of_nat (String.length s) + v.
  Proof.
    intros P N. revert v P. induction s as [|c s IH]; intros v P.
    - cbn [DecFacts.positional] in P. assert (v = 0) by congruence. subst. exists []. cbn [text_of list_ascii_of_string app]. repeat split.
      + destruct rest as [|c r]; [reflexivity|]. cbn [no_digit span] in *. now rewrite N.
      + intros a. cbn. lia.
    - cbn [DecFacts.positional] in P. destruct (digit_val c) as [d|] eqn:D; [|discriminate]. destruct (DecFacts.positional s) as [w|] eqn:W; [|discriminate].
      destruct (IH w eq_refl) as (ds & E & L & F). exists (d :: ds). repeat split.
      + change (text_of (String c s)) with (c :: text_of s). cbn [app span]. rewrite num_char_val, D. fold (text_of s). now rewrite E.
      + cbn [List.length String.length]. now rewrite L.
      + intros a. cbn [fold_left]. rewrite F. cbn [String.length]. rewrite Nat2Z.inj_succ, Z.pow_succ_r by lia.
        assert (Ev : v = d * 10 ^ Z.of_nat (String.length s) + w) by congruence. rewrite Ev. ring.
  Qed.
  Lemma digits_head : forall f n acc, 0 < n < 10 ^ Z.of_nat f -> exists c t d, digits f n acc = String c t /\ digit_val c = Some d /\ 0 < d.
  Proof.
    induction f as [|f IH]; intros n acc H; [cbn in H; lia|]. cbn [digits]. destruct (Z.ltb_spec n 10).
    - exists (digit (n mod 10)), acc, n. rewrite Z.mod_small by lia. repeat split; [apply digit_val_digit; lia|lia].
    - apply IH. rewrite Nat2Z.inj_succ, Z.pow_succ_r in H by lia. split; [apply Z.div_str_pos; lia|apply Z.div_lt_upper_bound; lia].
  Qed.
  Lemma udec_head n : 0 < n -> exists c t d, udec n = String c t /\ digit_val c = Some d /\ 0 < d.
  Proof. intros H. apply digits_head. split; [lia|]. apply log_fuel. lia. Qed.
  Lemma udec_positional n : 0 <= n -> DecFacts.positional (udec n) = Some n.
  Proof.
    intros H. pose proof (read_udec n H) as R. unfold read_nat in R. destruct (udec n) eqn:U; [discriminate|]. rewrite <- U in *.
    rewrite read_positional in R. destruct (DecFacts.positional (udec n)) as [v|]; [|discriminate]. cbn [option_map] in R. f_equal. cbn in R. congruence.
  Qed.
  Definition signed (neg : bool) (z : Z) : Z := if neg then - z else z.
  Definition point (f : string) : bytes := match f with EmptyString => [] | _ => "."%char :: text_of f end.
  Lemma ends_no_digit rest : ends rest -> no_digit rest.
  Proof. destruct rest as [|c r]; [trivial|]. intros [-> | [-> | ->]]; reflexivity. Qed.
  Lemma exponent_end neg ds k rest : ends rest -> exponent neg ds k rest = Some (scaled (signed neg (positional ds)) (0 - k), rest).
  Proof. destruct rest as [|c r]; [reflexivity|]. intros [-> | [-> | ->]]; reflexivity. Qed.
  Lemma fraction_point neg ds f w rest : DecFacts.positional f = Some w -> ends rest ->
    fraction neg ds (point f ++ rest) = Some (scaled (signed neg (positional ds * 10 ^ Z.of_nat (String.length f) + w)) (- Z.of_nat (String.length f)), rest).
  Proof.
    intros P E. destruct f as [|c f].
    - cbn [DecFacts.positional] in P. assert (w = 0) by congruence. subst. cbn [point app String.length].
      replace (positional ds * 10 ^ Z.of_nat 0 + 0) with (positional ds) by (cbn; lia). change (- Z.of_nat 0) with (0 - 0). rewrite <- (exponent_end neg ds 0 rest E).
      unfold fraction. destruct rest as [|x r]; [reflexivity|]. destruct E as [-> | [-> | ->]]; reflexivity.
    - destruct (span_text _ rest _ P (ends_no_digit _ E)) as (fs & S & L & F). unfold point.
      change (("."%char :: text_of (String c f)) ++ rest)%list with ("."%char :: (text_of (String c f) ++ rest))%list.
      cbn [fraction]. change (Ascii.eqb "." ".") with true. cbv iota. rewrite S. destruct fs as [|x fs]; [discriminate|].
      rewrite exponent_end by exact E. do 3 f_equal.
      + unfold positional. rewrite fold_left_app, F. reflexivity.
      + unfold zlen. rewrite L. lia.
  Qed.
  Lemma number_read (neg : bool) n f w rest : 0 <= n -> DecFacts.positional f = Some w -> ends rest ->
    number ((if neg then ["-"%char] else []) ++ text_of (udec n) ++ point f ++ rest) =
      Some (scaled (signed neg (n * 10 ^ Z.of_nat (String.length f) + w)) (- Z.of_nat (String.length f)), rest).
  Proof.
    intros N P E.
    assert (Nd : no_digit (point f ++ rest)) by (destruct f; [apply (ends_no_digit _ E)|reflexivity]).
    assert (B : forall s1, s1 = (text_of (udec n) ++ point f ++ rest)%list ->
      match s1 with
      | c :: r => match num_char c with Some 0 => fraction neg [0] r | Some _ => let (ds, t) := span s1 in fraction neg ds t | None => None end
      | [] => None end = Some (scaled (signed neg (n * 10 ^ Z.of_nat (String.length f) + w)) (- Z.of_nat (String.length f)), rest)).
    { intros s1 Es. destruct (Z.eq_dec n 0) as [->|Nz].
      - change (text_of (udec 0)) with ["0"%char] in Es. cbn [app] in Es. subst s1. change (num_char "0") with (Some 0). cbv iota.
        rewrite (fraction_point neg [0] f w rest P E). reflexivity.
      - destruct (udec_head n ltac:(lia)) as (c & t & d & U & D & Dp).
        destruct (span_text _ _ _ (udec_positional n N) Nd) as (ds & Sp & _ & F). rewrite <- Es in Sp. rewrite U in Es.
        change (text_of (String c t)) with (c :: text_of t) in Es. cbn [app] in Es. subst s1. rewrite num_char_val, D.
        destruct d; try lia. rewrite Sp, (fraction_point neg ds f w rest P E). unfold positional. rewrite F. reflexivity. }
    unfold number. destruct neg.
    - cbn [app]. change (Ascii.eqb "-" "-") with true. cbv iota. now apply B.
    - cbn [app]. specialize (B _ eq_refl). destruct (text_of (udec n) ++ point f ++ rest)%list as [|c r] eqn:T; [exact B|].
      destruct (Ascii.eqb c "-") eqn:C; [|exact B]. apply Ascii.eqb_eq in C. subst c. discriminate B.
  Qed.

  (** ** Values inside longer texts *)
  Definition reads_as (b : bytes) (j : json) : Prop :=
    forall rest, ends rest -> exists n r, value n (b ++ rest) = Some (j, r) /\ skip r = rest.
  Lemma skip_ends rest : ends rest -> skip rest = rest.
  Proof. destruct rest as [|c r]; [reflexivity|]. intros [-> | [-> | ->]]; reflexivity. Qed.
  Lemma reads_denotes b j : reads_as b j -> denotes b = Some j.
  Proof. intros H. apply denotes_iff. destruct (H [] I) as (n & r & V & K). rewrite app_nil_r in V. eauto. Qed.
  Lemma exact_reads b j : (forall rest, ends rest -> exists n, value n (b ++ rest) = Some (j, rest)) -> reads_as b j.
  Proof. intros H rest E. destruct (H rest E) as (n & V). exists n, rest. split; [exact V|]. now apply skip_ends. Qed.

  Lemma reads_quote s : well_formed s -> forallb jsonable (decode s) = true -> reads_as (quote s) (JStr s).
  Proof. intros W J. apply exact_reads. intros rest _. exists 1%nat. now rewrite value_quote, J. Qed.
  Lemma reads_word (w : string) j : In (w, j) [("true", JBool true); ("false", JBool false); ("null", JNull)]%string -> reads_as (word w) j.
  Proof.
    intros H. apply exact_reads. intros rest _. exists 1%nat. cbn [In] in H.
    repeat (destruct H as [H|H]; [assert (w = _) by (apply (f_equal fst) in H; symmetry; exact H); assert (j = _) by (apply (f_equal snd) in H; symmetry; exact H); subst; reflexivity|]).
    contradiction.
  Qed.
  Lemma value_number n s q t : match s with c :: _ => c = "-"%char \/ num_char c <> None | [] => False end ->
    number s = Some (q, t) -> value (S n) s = Some (JNum q, t).
  Proof.
    intros H N. destruct s as [|c r]; [contradiction|]. cbn [value].
    assert (D : c = "-"%char \/ In c (word "0123456789")).
    { destruct H as [H|H]; [now left|right]. rewrite num_char_val in H. destruct (digit_val c) as [d|] eqn:E; [|congruence].
      pose proof (digit_val_range _ _ E) as R. apply digit_val_inj in E. subst c.
      assert (I : In d [0;1;2;3;4;5;6;7;8;9]) by (cbn [In]; lia). cbn [In] in I. repeat (destruct I as [<-|I]; [cbn; tauto|]). contradiction. }
    assert (Sk : skip (c :: r) = c :: r).
    { cbn [skip]. cbn [word list_ascii_of_string In] in D. repeat (destruct D as [<-|D]; [reflexivity|]). destruct D as [->|D]; [reflexivity|].
      repeat (destruct D as [<-|D]; [reflexivity|]). contradiction. }
    rewrite Sk, N. cbn [word list_ascii_of_string In] in D.
    destruct D as [->|D]; [reflexivity|]. repeat (destruct D as [<-|D]; [reflexivity|]). contradiction.
  Qed.
  Lemma udec_cons n : exists c t, udec n = String c t.
  Proof. destruct (udec n) eqn:U; [|eauto]. exfalso. now apply (udec_nonempty n). Qed.
  Lemma reads_number (neg : bool) n f w : 0 <= n -> DecFacts.positional f = Some w ->
    reads_as ((if neg then ["-"%char] else []) ++ text_of (udec n) ++ point f) (JNum (scaled (signed neg (n * 10 ^ Z.of_nat (String.length f) + w)) (- Z.of_nat (String.length f)))).
  Proof.
    intros N P. apply exact_reads. intros rest E. exists 1%nat. rewrite <- !app_assoc.
    apply value_number; [|now apply number_read]. destruct neg; cbn [app]; [now left|].
    pose proof (udec_positional n N) as Q. destruct (udec_cons n) as (c & t & U). rewrite U in *. change (text_of (String c t)) with (c :: text_of t). cbn [app].
    right. rewrite num_char_val. cbn [DecFacts.positional] in Q. destruct (digit_val c); congruence.
  Qed.
  Lemma Qred_int z : Qred (inject_Z z) = inject_Z z.
  Proof. apply Qred_identity. cbn. apply Z.gcd_1_r. Qed.
  Lemma reads_int z : reads_as (text_of (dec z)) (JNum (inject_Z z)).
  Proof.
    assert (E : text_of (dec z) = ((if (z <? 0)%Z then ["-"%char] else []) ++ text_of (udec (Z.abs z)) ++ point "")%list).
    { unfold dec. cbn [point]. rewrite app_nil_r. destruct (Z.ltb_spec z 0); cbn [app].
      - rewrite Z.abs_neq by lia. reflexivity.
      - now rewrite Z.abs_eq by lia. }
    rewrite E. pose proof (reads_number (z <? 0) (Z.abs z) "" 0 ltac:(lia) eq_refl) as R. cbn [String.length] in R.
    replace (scaled _ _) with (inject_Z z) in R; [exact R|]. unfold scaled. cbn [Z.leb Z.opp Z.of_nat Z.compare]. rewrite <- (Qred_int z). f_equal. f_equal.
    unfold signed. destruct (Z.ltb_spec z 0); cbn; lia.
  Qed.
  Lemma strip_all_digits s : all_digits s = true -> exists v, DecFacts.positional s = Some v.
  Proof. apply ClockTextProofs.digits_positional. Qed.
  Lemma pad_positional k n : 0 <= n -> DecFacts.positional (pad k n) = Some n.
  Proof.
    intros H. pose proof (read_pad k n H) as R. rewrite read_positional in R. destruct (DecFacts.positional (pad k n)) as [v|]; [|discriminate].
    cbn [option_map] in R. f_equal. assert (0 * 10 ^ Z.of_nat (String.length (pad k n)) + v = n) by congruence. lia.
  Qed.
  Definition billion : positive := 1000000000.
  Lemma reads_numeric q : reads_as (numeric_text q) (JNum (Qred (billionths q # billion))).
  Proof.
    unfold numeric_text. set (b := Z.abs (billionths q)). set (f := strip_zeros _).
    assert (Bm : 0 <= b mod 1000000000 < 1000000000) by (apply Z.mod_pos_bound; lia).
    destruct (ClockTextProofs.strip_positional _ _ (pad_positional 9 (b mod 1000000000) ltac:(lia))) as (w & k & W & L & V). fold f in W, L.
    rewrite (pad_length 9) in L by (cbn; lia).
    fold (point f). pose proof (reads_number (Qnum q <? 0) (b / 1000000000) f w ltac:(subst b; apply Z.div_pos; lia) W) as R.
    replace (Qred (billionths q # billion)) with (scaled (signed (Qnum q <? 0) (b / 1000000000 * 10 ^ Z.of_nat (String.length f) + w)) (- Z.of_nat (String.length f))); [exact R|].
    unfold scaled. apply Qred_complete. set (m := Z.of_nat (String.length f)) in *.
    assert (M : 0 <= m <= 9) by (subst m; lia). assert (K : Z.of_nat k = 9 - m) by (subst m; lia).
    assert (Sg : billionths q = signed (Qnum q <? 0) b).
    { subst b. unfold billionths, signed. assert (D : 0 <= (2 * Z.abs (Qnum q * 1000000000) + Z.pos (Qden q)) / (2 * Z.pos (Qden q))) by (apply Z.div_pos; lia).
      set (d := (_ / _)) in *. destruct (Z.ltb_spec (Qnum q) 0).
      - rewrite (Z.sgn_neg (Qnum q * 1000000000)) by lia. lia.
      - destruct (Z.eq_dec (Qnum q) 0) as [Z0|Z0]; [rewrite Z0; cbn; reflexivity|]. rewrite (Z.sgn_pos (Qnum q * 1000000000)) by lia. lia. }
    assert (P10 : 10 ^ m * 10 ^ Z.of_nat k = 1000000000).
    { rewrite K, <- Z.pow_add_r by lia. replace (m + (9 - m)) with 9 by lia. reflexivity. }
    assert (Pm : 0 < 10 ^ m) by (apply Z.pow_pos_nonneg; lia).
    assert (Val : (b / 1000000000 * 10 ^ m + w) * 10 ^ Z.of_nat k = b).
    { rewrite (Z.div_mod b 1000000000) at 2 by lia. rewrite V. rewrite <- P10. ring. }
    assert (Main : forall x y, x * 10 ^ Z.of_nat k = y -> (x # Z.to_pos (10 ^ m)) == (y # billion)).
    { intros x y Exy. unfold Qeq. cbn [Qnum Qden]. rewrite Z2Pos.id by exact Pm. change (Z.pos billion) with 1000000000. rewrite <- P10, <- Exy. ring. }
    assert (Sc : (if 0 <=? - m then inject_Z (signed (Qnum q <? 0) (b / 1000000000 * 10 ^ m + w) * 10 ^ (- m)) else signed (Qnum q <? 0) (b / 1000000000 * 10 ^ m + w) # Z.to_pos (10 ^ (- - m)))
                 == (signed (Qnum q <? 0) (b / 1000000000 * 10 ^ m + w) # Z.to_pos (10 ^ m))).
    { destruct (Z.leb_spec 0 (- m)).
      - assert (m = 0) by lia. subst. replace m with 0 by lia. cbn [Z.opp Z.pow Z.to_pos]. unfold inject_Z. rewrite Z.mul_1_r. reflexivity.
      - now rewrite Z.opp_involutive. }
    rewrite Sc. apply Main. rewrite Sg. unfold signed. destruct (Qnum q <? 0); lia.
  Qed.

  (** A text read by itself is read the same way before a closing bracket or a comma. *)
  Section Longer.
    Variable t : bytes.
    Hypothesis T : ends t.
    Lemma skip_longer s c r : skip s = c :: r -> skip (s ++ t) = (c :: r ++ t)%list.
    Proof.
      induction s as [|x s IH]; cbn [skip app]; [discriminate|]. destruct (space x); [exact IH|]. intros H.
      assert (x = c /\ s = r) by (split; congruence). destruct H0 as [-> ->]. reflexivity.
    Qed.
    Lemma skip_longer_nil s : skip s = [] -> skip (s ++ t) = t.
    Proof. induction s as [|x s IH]; cbn [skip app]; [intros _; now apply skip_ends|]. destruct (space x); [exact IH|discriminate]. Qed.
    Lemma onto_longer p o x r (o' : option (bytes * bytes)) :
      (forall y u, o = Some (y, u) -> o' = Some (y, (u ++ t)%list)) -> onto p o = Some (x, r) -> onto p o' = Some (x, (r ++ t)%list).
    Proof. intros H E. apply onto_some in E. destruct E as (y & E & ->). now rewrite (H _ _ E). Qed.
    Lemma chars_longer : forall n s x r, (List.length s <= n)%nat -> chars s = Some (x, r) -> chars (s ++ t) = Some (x, (r ++ t)%list).
    Proof.
      induction n as [|n IH]; intros s x r L H; (destruct s as [|c s]; cbn [chars] in H; [discriminate|]); cbn [List.length] in L; [lia|].
      cbn [app chars]. destruct (Ascii.eqb c quote_c). { assert (x = [] /\ s = r) by (split; congruence). destruct H0 as [-> ->]. reflexivity. }
      destruct (Ascii.eqb c bslash_c).
      - destruct s as [|e s]; [discriminate|]. cbn [List.length app] in *. destruct (escaped e).
        + eapply onto_longer; [|exact H]. intros y u E. apply IH; [lia|exact E].
        + destruct (Ascii.eqb e "u"); [|discriminate]. destruct s as [|h1 [|h2 [|h3 [|h4 s]]]]; try discriminate. cbn [List.length app] in *.
          destruct (hex4 h1 h2 h3 h4); [|discriminate]. destruct (scalarb z).
          * eapply onto_longer; [|exact H]. intros y u E. apply IH; [lia|exact E].
          * destruct s as [|b [|u [|g1 [|g2 [|g3 [|g4 s]]]]]]; try discriminate. cbn [List.length app] in *.
            destruct (hex4 g1 g2 g3 g4); [|discriminate]. destruct (_ && _); [|discriminate].
            eapply onto_longer; [|exact H]. intros y v E. apply IH; [lia|exact E].
      - destruct (b2z c <? 32); [discriminate|]. eapply onto_longer; [|exact H]. intros y u E. apply IH; [lia|exact E].
    Qed.
    Lemma span_longer s ds r : span s = (ds, r) -> span (s ++ t) = (ds, (r ++ t)%list).
    Proof.
      revert ds r. induction s as [|c s IH]; intros ds r H; cbn [span app] in *.
      - assert (ds = [] /\ r = []) by (split; congruence). destruct H0 as [-> ->]. pose proof (ends_no_digit _ T) as N. destruct t as [|c u]; [reflexivity|].
        cbn [no_digit] in N. cbn [span app]. now rewrite N.
      - destruct (num_char c).
        + destruct (span s) as [es u]. rewrite (IH es u eq_refl). assert (ds = z :: es /\ r = u) by (split; congruence). destruct H0 as [-> ->]. reflexivity.
        + assert (ds = [] /\ r = c :: s) by (split; congruence). destruct H0 as [-> ->]. reflexivity.
    Qed.
    Lemma exponent_longer neg ds k s q r : exponent neg ds k s = Some (q, r) -> exponent neg ds k (s ++ t) = Some (q, (r ++ t)%list).
    Proof.
      destruct s as [|c s].
      - cbn [app]. rewrite (exponent_end neg ds k t T). cbn [exponent]. intros H. assert (E : r = []) by congruence. subst r. cbn [app].
        assert (E : q = scaled (if neg then - positional ds else positional ds) (0 - k)) by congruence. now rewrite E.
      - cbn [app]. unfold exponent. cbv zeta. destruct (Ascii.eqb c "e" || Ascii.eqb c "E").
        + destruct s as [|x u]; [discriminate|]. cbn [app].
          destruct (Ascii.eqb x "-"); [|destruct (Ascii.eqb x "+")]; cbv zeta;
          [ destruct (span u) as [es v] eqn:P; rewrite (span_longer _ _ _ P)
          | destruct (span u) as [es v] eqn:P; rewrite (span_longer _ _ _ P)
          | destruct (span (x :: u)) as [es v] eqn:P; pose proof (span_longer _ _ _ P) as P2; cbn [app] in P2; rewrite P2 ];
          (destruct es; [discriminate|]; cbv beta iota; intros H; assert (r = v) by congruence; subst r; apply (f_equal (option_map fst)) in H; cbn [option_map fst] in H; injection H as <-; reflexivity).
        + intros H. assert (r = c :: s) by congruence. subst r. cbn [app]. apply (f_equal (option_map fst)) in H; cbn [option_map fst] in H; injection H as <-; reflexivity.
    Qed.
    Lemma fraction_longer neg ds s q r : fraction neg ds s = Some (q, r) -> fraction neg ds (s ++ t) = Some (q, (r ++ t)%list).
    Proof.
      destruct s as [|c s].
      - intros H. change (fraction neg ds []) with (exponent neg ds 0 []) in H. apply exponent_longer in H. cbn [app] in *. rewrite <- H. unfold fraction. destruct t as [|x u]; [reflexivity|].
        destruct T as [-> | [-> | ->]]; reflexivity.
      - cbn [app]. unfold fraction. destruct (Ascii.eqb c ".").
        + destruct (span s) as [fs v] eqn:P. rewrite (span_longer _ _ _ P). destruct fs; [discriminate|]. apply exponent_longer.
        + intros H. apply exponent_longer in H. exact H.
    Qed.
    Lemma number_longer s q r : number s = Some (q, r) -> number (s ++ t) = Some (q, (r ++ t)%list).
    Proof.
      destruct s as [|c s]; [discriminate|]. cbn [app]. unfold number. destruct (Ascii.eqb c "-").
      - destruct s as [|d s]; [discriminate|]. cbn [app]. destruct (num_char d) as [[|p|p]|]; [apply fraction_longer| | |discriminate];
          (destruct (span (d :: s)) as [ds u] eqn:P; apply span_longer in P; cbn [app] in P; rewrite P; apply fraction_longer).
      - destruct (num_char c) as [[|p|p]|]; [apply fraction_longer| | |discriminate];
          (destruct (span (c :: s)) as [ds u] eqn:P; apply span_longer in P; cbn [app] in P; rewrite P; apply fraction_longer).
    Qed.
    Lemma after_longer w s r : after w s = Some r -> after w (s ++ t) = Some (r ++ t)%list.
    Proof.
      revert s. induction w as [|a w IH]; intros s H; cbn [after] in *; [assert (E : s = r) by congruence; now rewrite E|]. destruct s as [|b s]; [discriminate|]. cbn [app].
      destruct (Ascii.eqb a b); [now apply IH|discriminate].
    Qed.
    Lemma number_head c s x : number (c :: s) = Some x -> c = "-"%char \/ num_char c <> None.
    Proof.
      unfold number. destruct (Ascii.eqb_spec c "-"); [now left|]. intros H. right. now destruct (num_char c).
    Qed.
    Ltac same H := apply (f_equal (option_map fst)) in H; cbn [option_map fst] in H; injection H as <-; reflexivity.
    Lemma value_longer : forall n,
      (forall s j r, value n s = Some (j, r) -> value n (s ++ t) = Some (j, (r ++ t)%list)) /\
      (forall s l r, elements n s = Some (l, r) -> elements n (s ++ t) = Some (l, (r ++ t)%list)) /\
      (forall s l r, members n s = Some (l, r) -> members n (s ++ t) = Some (l, (r ++ t)%list)).
    Proof.
      induction n as [|n (V & E & M)]; [repeat split; intros; discriminate|]. repeat split.
      - intros s j r H. cbn [value] in *. destruct (skip s) as [|c u] eqn:K; [discriminate|]. rewrite (skip_longer _ _ _ K).
        destruct (Ascii.eqb c quote_c).
        { destruct (chars u) as [[x v]|] eqn:C; [|discriminate]. rewrite (chars_longer _ _ _ _ (le_n _) C). assert (r = v) by congruence. subst r; same H. }
        destruct (Ascii.eqb c "[").
        { destruct (skip u) as [|x v] eqn:K2; [discriminate|]. rewrite (skip_longer _ _ _ K2). destruct (Ascii.eqb x "]").
          - assert (r = v) by congruence. subst r; same H.
          - destruct (elements n u) as [[l v']|] eqn:X; [|discriminate]. rewrite (E _ _ _ X). assert (r = v') by congruence. subst r; same H. }
        destruct (Ascii.eqb c "{").
        { destruct (skip u) as [|x v] eqn:K2; [discriminate|]. rewrite (skip_longer _ _ _ K2). destruct (Ascii.eqb x "}").
          - assert (r = v) by congruence. subst r; same H.
          - destruct (members n u) as [[l v']|] eqn:X; [|discriminate]. rewrite (M _ _ _ X). assert (r = v') by congruence. subst r; same H. }
        change (c :: u ++ t)%list with ((c :: u) ++ t)%list.
        destruct (after (word "true") (c :: u)) as [v|] eqn:A1; [rewrite (after_longer _ _ _ A1); assert (r = v) by congruence; subst r; same H|].
        destruct (after (word "false") (c :: u)) as [v|] eqn:A2.
        { assert (c = "f"%char) by (cbn [word list_ascii_of_string after] in A2; destruct (Ascii.eqb_spec "f" c); congruence). subst c.
          rewrite (after_longer _ _ _ A2). cbn [word list_ascii_of_string after app]. change (Ascii.eqb "t" "f") with false. cbv iota. assert (r = v) by congruence. subst r; same H. }
        destruct (after (word "null") (c :: u)) as [v|] eqn:A3.
        { assert (c = "n"%char) by (cbn [word list_ascii_of_string after] in A3; destruct (Ascii.eqb_spec "n" c); congruence). subst c.
          rewrite (after_longer _ _ _ A3). cbn [word list_ascii_of_string after app]. change (Ascii.eqb "t" "n") with false. change (Ascii.eqb "f" "n") with false. cbv iota.
          assert (r = v) by congruence. subst r; same H. }
        destruct (number (c :: u)) as [[q v]|] eqn:X; [|discriminate]. pose proof (number_head _ _ _ X) as Hc. apply number_longer in X. rewrite X.
        assert (N : forall a w, In a ["t"; "f"; "n"]%char -> after (a :: w) ((c :: u) ++ t) = None).
        { intros a w Ia. cbn [app after]. destruct (Ascii.eqb_spec a c) as [->|]; [|reflexivity]. exfalso.
          cbn [In] in Ia. destruct Ia as [<-|[<-|[<-|[]]]]; (destruct Hc as [Hc|Hc]; [discriminate|now apply Hc]). }
        cbn [word list_ascii_of_string]. rewrite !N by (cbn; tauto). assert (r = v) by congruence. subst r; same H.
      - intros s l r H. cbn [elements] in *. destruct (value n s) as [[j v]|] eqn:X; [|discriminate]. rewrite (V _ _ _ X).
        destruct (skip v) as [|c u] eqn:K; [discriminate|]. rewrite (skip_longer _ _ _ K). destruct (Ascii.eqb c "]").
        + assert (r = u) by congruence. subst r; same H.
        + destruct (Ascii.eqb c ","); [|discriminate]. destruct (elements n u) as [[l' v']|] eqn:Y; [|discriminate]. rewrite (E _ _ _ Y). assert (r = v') by congruence. subst r; same H.
      - intros s l r H. cbn [members] in *. destruct (skip s) as [|c u] eqn:K; [discriminate|]. rewrite (skip_longer _ _ _ K).
        destruct (Ascii.eqb c quote_c); [|discriminate]. destruct (chars u) as [[k r1]|] eqn:C; [|discriminate]. rewrite (chars_longer _ _ _ _ (le_n _) C).
        destruct (skip r1) as [|d r2] eqn:K1; [discriminate|]. rewrite (skip_longer _ _ _ K1). destruct (Ascii.eqb d ":"); [|discriminate].
        destruct (value n r2) as [[j r3]|] eqn:X; [|discriminate]. rewrite (V _ _ _ X).
        destruct (skip r3) as [|e v] eqn:K3; [discriminate|]. rewrite (skip_longer _ _ _ K3). destruct (Ascii.eqb e "}").
        + assert (r = v) by congruence. subst r; same H.
        + destruct (Ascii.eqb e ","); [|discriminate]. destruct (members n v) as [[l' v']|] eqn:Y; [|discriminate]. rewrite (M _ _ _ Y). assert (r = v') by congruence. subst r; same H.
    Qed.
  End Longer.
  Lemma reads_json s j : denotes s = Some j -> reads_as s j.
  Proof.
    intros D rest E. apply denotes_iff in D. destruct D as (n & r & V & K). exists n, (r ++ rest)%list. split.
    - now apply (proj1 (value_longer rest E n)).
    - now apply skip_longer_nil.
  Qed.

  (** ** Arrays and objects *)
  Lemma value_head n s : skip s <> [] -> (exists r, skip s = "]"%char :: r) -> value n s = None.
  Proof. intros _ (r & K). destruct n; [reflexivity|]. cbn [value]. rewrite K. reflexivity. Qed.
  Lemma elements_read bs js rest : bs <> [] -> Forall2 reads_as bs js ->
    exists n, elements n (joinb [","%char] bs ++ "]"%char :: rest) = Some (js, rest).
  Proof.
    intros N F. induction F as [|b j bs js R F IH]; [congruence|]. destruct bs as [|b' bs].
    - inversion F; subst. cbn [joinb]. destruct (R ("]"%char :: rest) ltac:(cbn; tauto)) as (n & r & V & K).
      exists (S n). cbn [elements]. rewrite V, K. reflexivity.
    - rewrite joinb_cons by discriminate. destruct (IH ltac:(discriminate)) as (m & Em).
      destruct (R (","%char :: joinb [","%char] (b' :: bs) ++ "]"%char :: rest)%list ltac:(cbn; tauto)) as (n & r & V & K).
      exists (S (n + m)). cbn [elements]. rewrite <- !app_assoc. cbn [app].
      rewrite (proj1 (more n) _ _ (n + m)%nat V ltac:(lia)), K. change (Ascii.eqb "," "]") with false. change (Ascii.eqb "," ",") with true. cbv iota.
      now rewrite (proj1 (proj2 (more m)) _ _ (n + m)%nat Em ltac:(lia)).
  Qed.
  Lemma reads_array bs js : Forall2 reads_as bs js -> reads_as ("["%char :: joinb [","%char] bs ++ ["]"%char]) (JArr js).
  Proof.
    intros F. apply exact_reads. intros rest _. destruct bs as [|b bs].
    - inversion F; subst. exists 1%nat. reflexivity.
    - destruct (elements_read (b :: bs) js rest ltac:(discriminate) F) as (n & E). exists (S n). cbn [app]. rewrite <- app_assoc. cbn [app].
      cbn [value skip]. change (space "[") with false. cbv iota. change (Ascii.eqb "[" quote_c) with false. change (Ascii.eqb "[" "[") with true. cbv iota.
      destruct (skip (joinb [","%char] (b :: bs) ++ "]"%char :: rest)) as [|x u] eqn:K.
      + exfalso. destruct n as [|n]; [discriminate|]. cbn [elements] in E. destruct n as [|n]; [discriminate|]. cbn [value] in E. rewrite K in E. discriminate.
      + destruct (Ascii.eqb_spec x "]") as [->|_]; [|now rewrite E]. exfalso. destruct n as [|n]; [discriminate|]. cbn [elements] in E.
        rewrite (value_head n) in E; [discriminate|rewrite K; discriminate|eauto].
  Qed.
  Definition member_text (m : bytes * bytes) : bytes := (quote (fst m) ++ ":"%char :: snd m)%list.
  Definition member_reads (m : bytes * bytes) (p : bytes * json) : Prop :=
    fst p = fst m /\ well_formed (fst m) /\ forallb jsonable (decode (fst m)) = true /\ reads_as (snd m) (snd p).
  Lemma members_read ms ps rest : ms <> [] -> Forall2 member_reads ms ps ->
    exists n, members n (joinb [","%char] (map member_text ms) ++ "}"%char :: rest) = Some (ps, rest).
  Proof.
    intros N F. induction F as [|m p ms ps (P & W & J & R) F IH]; [congruence|]. destruct p as [pk pj]. destruct m as [k b]. cbn [fst snd] in *. subst pk.
    assert (One : forall tail, ends tail -> exists n, forall m' : nat, (n <= m')%nat -> members (S m') (member_text (k, b) ++ tail) =
      match tail with
      | e :: t => if Ascii.eqb e "}" then Some ([(k, pj)], t)
                  else if Ascii.eqb e "," then match members m' t with Some (l, t') => Some ((k, pj) :: l, t') | None => None end else None
      | [] => None end).
    { intros tail E. destruct (R tail E) as (n & r & V & K). exists n. intros m' L. unfold member_text, JsonModel.quote. cbn [fst snd app]. rewrite <- !app_assoc. cbn [app].
      cbn [members skip]. change (space quote_c) with false. change (Ascii.eqb quote_c quote_c) with true. cbv iota. rewrite quote_read, J by exact W.
      cbn [skip]. change (space ":") with false. change (Ascii.eqb ":" ":") with true. cbv iota. rewrite (proj1 (more n) _ _ m' V L), K. reflexivity. }
    destruct ms as [|m2 ms].
    - inversion F; subst. cbn [map joinb]. destruct (One ("}"%char :: rest) ltac:(cbn; tauto)) as (n & H). exists (S n). now rewrite (H n (le_n n)).
    - cbn [map]. rewrite joinb_cons by discriminate. destruct (IH ltac:(discriminate)) as (m & Em). cbn [map] in Em.
      destruct (One (","%char :: joinb [","%char] (member_text m2 :: map member_text ms) ++ "}"%char :: rest)%list ltac:(cbn; tauto)) as (n & H).
      exists (S (n + m)). rewrite <- !app_assoc. cbn [app]. rewrite (H (n + m)%nat ltac:(lia)).
      change (Ascii.eqb "," "}") with false. change (Ascii.eqb "," ",") with true. cbv iota.
      now rewrite (proj2 (proj2 (more m)) _ _ (n + m)%nat Em ltac:(lia)).
  Qed.
  Lemma reads_object ms ps : Forall2 member_reads ms ps -> reads_as ("{"%char :: joinb [","%char] (map member_text ms) ++ ["}"%char]) (JObj ps).
  Proof.
    intros F. apply exact_reads. intros rest _. destruct ms as [|b ms].
    - inversion F; subst. exists 1%nat. reflexivity.
    - destruct (members_read (b :: ms) ps rest ltac:(discriminate) F) as (n & E). exists (S n). cbn [app]. rewrite <- app_assoc. cbn [app].
      cbn [value skip]. change (space "{") with false. cbv iota. change (Ascii.eqb "{" quote_c) with false. change (Ascii.eqb "{" "[") with false. change (Ascii.eqb "{" "{") with true. cbv iota.
      destruct (skip (joinb [","%char] (map member_text (b :: ms)) ++ "}"%char :: rest)) as [|x u] eqn:K.
      + exfalso. destruct n as [|n]; [discriminate|]. cbn [members] in E. rewrite K in E. discriminate.
      + destruct (Ascii.eqb_spec x "}") as [->|_]; [|now rewrite E]. exfalso. destruct n as [|n]; [discriminate|]. cbn [members] in E. rewrite K in E. discriminate.
  Qed.

  (** ** Everything together *)
  Lemma plain_iff r : 0 <= r -> jsonable r = true <-> plain_char printable r.
  Proof. clear float_text interval_text.
    intros R. unfold jsonable, plain_char. rewrite !orb_true_iff, andb_true_iff, Z.leb_le, !between_true.
    assert (E : existsb (Z.eqb r) [8; 9; 10; 12; 13] = true <-> In r [8; 9; 10; 12; 13]).
    { rewrite existsb_exists. split; [intros (x & I & X); apply Z.eqb_eq in X; now subst|intros I; exists r; split; [exact I|apply Z.eqb_refl]]. }
    rewrite E. tauto.
  Qed.
  Lemma plain_all s : forallb jsonable (decode s) = true <-> Forall (plain_char printable) (decode s).
  Proof. clear float_text interval_text.
    rewrite forallb_forall, Forall_forall. pose proof (decode_scalars s) as D. rewrite Forall_forall in D.
    split; intros H r I; pose proof (D r I) as Sr; unfold scalar in Sr; apply plain_iff; (auto || lia).
  Qed.
  Lemma billionths_nine q : nine q -> Qred (billionths q # billion) = Qred q.
  Proof.
    intros (z & E). apply Qred_complete. unfold Qeq in *. cbn [Qnum Qden] in *. change (Z.pos billion) with 1000000000. change (Z.pos 1000000000) with 1000000000 in E.
    unfold billionths. rewrite E. set (d := Z.pos (Qden q)). assert (Dp : 0 < d) by (subst d; lia).
    assert (A : (2 * Z.abs (z * d) + d) / (2 * d) = Z.abs z).
    { symmetry. apply (Z.div_unique_pos _ _ _ d); [lia|]. rewrite Z.abs_mul, (Z.abs_eq d) by lia. ring. }
    rewrite A. replace (Z.sgn (z * d)) with (Z.sgn z) by (rewrite Z.sgn_mul, (Z.sgn_pos d) by lia; lia).
    replace (Z.sgn z * Z.abs z) with z by (destruct z; cbn; lia). ring.
  Qed.
  Lemma base64_plain b : well_formed (to_base64 b) /\ Forall (plain_char printable) (decode (to_base64 b)).
  Proof.
    pose proof (base64_ascii b) as A. split; [now apply ascii_well_formed|]. rewrite decode_ascii by exact A. apply Forall_forall. intros r I. apply in_map_iff in I.
    destruct I as (c & <- & I). apply base64_chars in I. apply alpha64_ascii in I. left. lia.
  Qed.
  Lemma reads_text s : plain_text printable s -> reads_as (quote (text_of s)) (JStr (word s)).
  Proof. intros (W & F). apply reads_quote; [exact W|]. now apply plain_all. Qed.
  Notation to_json := (to_json printable float_text interval_text).
  Lemma reads_to_json v : plain printable v -> reads_as (to_json v) (json_of v).
  Proof.
    revert v. refine (val_ind2 (fun v => plain printable v -> reads_as (to_json v) (json_of v)) _ _ _).
    - intros v Nl Ns P. destruct v; cbn [plain] in P; try contradiction; cbn [JsonModel.to_json json_of].
      + apply reads_int.
      + now apply reads_text.
      + unfold base64_text, text_of. rewrite list_ascii_of_string_of_list_ascii. destruct (base64_plain (word s)) as [W F]. apply reads_quote; [exact W|]. now apply plain_all.
      + rewrite <- (billionths_nine q P). apply reads_numeric.
      + apply reads_word. destruct b; cbn; tauto.
      + unfold text_of. fold (word s). destruct (denotes (word s)) eqn:D; [|contradiction]. now apply reads_json.
      + exfalso. now apply (Nl l).
      + exfalso. now apply (Ns l).
    - intros l F P. cbn [JsonModel.to_json json_of].
      match goal with |- reads_as (_ :: joinb _ (?g l) ++ _) (JArr (?h l)) => set (go := g); set (ho := h) end.
      assert (R : Forall2 reads_as (go l) (ho l)).
      { revert P. induction F as [|o l Fo F IH]; intros P; [constructor|]. destruct o as [x|]; cbn [plain] in P.
        - destruct P as [Px P]. constructor; [exact (Fo Px)|exact (IH P)].
        - constructor; [apply reads_word; cbn; tauto|exact (IH P)]. }
      exact (reads_array _ _ R).
    - intros l F P. cbn [JsonModel.to_json json_of].
      match goal with |- reads_as (_ :: joinb _ (?g l) ++ _) (JObj (?h l)) => set (go := g); set (ho := h) end.
      assert (R : exists ms, go l = map member_text ms /\ Forall2 member_reads ms (ho l)).
      { revert P. induction F as [|[k o] l Fo F IH]; intros P; [exists []; split; [reflexivity|constructor]|]. destruct o as [x|]; cbn [plain] in P.
        - destruct P as (Pk & Px & P). destruct (IH P) as (ms & E & R). exists ((text_of k, to_json x) :: ms). split; [cbn [map]; now rewrite <- E|].
          constructor; [|exact R]. split; [reflexivity|]. split; [exact (proj1 Pk)|]. split; [apply plain_all, Pk|exact (Fo Px)].
        - destruct P as (Pk & P). destruct (IH P) as (ms & E & R). exists ((text_of k, word "null") :: ms). split; [cbn [map]; now rewrite <- E|].
          constructor; [|exact R]. split; [reflexivity|]. split; [exact (proj1 Pk)|]. split; [apply plain_all, Pk|apply reads_word; cbn; tauto]. }
      destruct R as (ms & E & R). rewrite E. exact (reads_object _ _ R).
  Qed.
End Written.

(** ** Digits followed by a dash or a colon are no JSON text *)
Lemma not_json s v c r : DecFacts.positional s = Some v -> s <> EmptyString -> c = "-"%char \/ c = ":"%char -> denotes (text_of s ++ c :: r) = None.
Proof.
  intros P Ne C.
  assert (N : exists q x t, number (text_of s ++ c :: r) = Some (q, x :: t) /\ space x = false).
  { destruct s as [|a s]; [congruence|]. change (text_of (String a s)) with (a :: text_of s). cbn [app].
    pose proof P as P0. cbn [DecFacts.positional] in P. destruct (digit_val a) as [d|] eqn:D; [|discriminate]. destruct (DecFacts.positional s) as [w|] eqn:W; [|discriminate].
    pose proof (digit_val_range _ _ D) as R.
    assert (Na : Ascii.eqb a "-" = false).
    { destruct (Ascii.eqb_spec a "-"); [subst a; discriminate D|reflexivity]. }
    unfold number. rewrite Na, num_char_val, D.
    assert (Plain : forall ds neg y t, num_char y <> None \/ y = "-"%char \/ y = ":"%char -> fraction neg ds (y :: t) = Some (scaled (if neg then - positional ds else positional ds) (0 - 0), y :: t) /\ space y = false).
    { intros ds neg y t [Y | [-> | ->]]; [|split; reflexivity|split; reflexivity].
      rewrite num_char_val in Y. destruct (digit_val y) as [e|] eqn:E; [|congruence]. pose proof (digit_val_range _ _ E) as Re. apply digit_val_inj in E. subst y.
      assert (I : In e [0;1;2;3;4;5;6;7;8;9]) by (cbn [In]; lia). cbn [In] in I. repeat (destruct I as [<-|I]; [split; reflexivity|]). contradiction. }
    destruct d as [|d|d]; [| |lia].
    - destruct s as [|b s]; cbn [text_of list_ascii_of_string app].
      + destruct (Plain [0] false c r ltac:(tauto)) as [F Sp]. eauto.
      + cbn [DecFacts.positional] in W. destruct (digit_val b) as [e|] eqn:E; [|discriminate].
        destruct (Plain [0] false b (list_ascii_of_string s ++ c :: r)%list ltac:(left; rewrite num_char_val, E; discriminate)) as [F Sp]. eauto.
    - assert (Nd : no_digit (c :: r)) by (destruct C as [-> | ->]; reflexivity).
      destruct (span_text (String a s) (c :: r) _ P0 Nd) as (ds & Sp & _). change (text_of (String a s)) with (a :: text_of s) in Sp. cbn [app] in Sp. rewrite Sp.
      destruct (Plain ds false c r ltac:(tauto)) as [F Sc]. eauto. }
  destruct N as (q & x & t & N & Sx). unfold denotes.
  replace (2 * List.length (text_of s ++ c :: r) + 2)%nat with (S (2 * List.length (text_of s ++ c :: r) + 1)) by lia.
  rewrite (value_number _ _ q (x :: t)); [cbn [skip]; now rewrite Sx| |exact N].
  destruct s as [|a s]; [congruence|]. cbn. right. cbn [DecFacts.positional] in P. rewrite num_char_val. destruct (digit_val a); congruence.
Qed.

(** ** fmt.Sprint of whole numbers *)
Lemma short_udec n : 0 <= n -> (String.length (udec n) <=? 6)%nat = (n <? 1000000).
Proof.
  intros N. destruct (Z.ltb_spec n 1000000) as [L|L].
  - apply Nat.leb_le. pose proof (digits_length (S (Z.to_nat (Z.log2 n))) n "" 6 ltac:(cbn; lia) ltac:(lia)) as D. fold (udec n) in D. cbn [String.length] in D. lia.
  - apply Nat.leb_gt. pose proof (positional_nonneg _ _ (udec_positional n N)) as B.
    destruct (Nat.le_gt_cases (String.length (udec n)) 6) as [K|K]; [|lia].
    assert (10 ^ Z.of_nat (String.length (udec n)) <= 10 ^ 6) by (apply Z.pow_le_mono_r; lia). change (10 ^ 6) with 1000000 in H. lia.
Qed.
Lemma whole_small z : - 1000000 < z < 1000000 -> whole_text z = word (dec z).
Proof.
  intros H. unfold whole_text, dec. rewrite short_udec by lia. destruct (Z.ltb_spec (Z.abs z) 1000000); [|lia].
  destruct (Z.ltb_spec z 0); [rewrite Z.abs_neq by lia|rewrite Z.abs_eq by lia]; reflexivity.
Qed.
Lemma whole_large z : 1000000 <= Z.abs z -> In "e"%char (whole_text z).
Proof.
  intros H. unfold whole_text. rewrite short_udec by lia. destruct (Z.ltb_spec (Z.abs z) 1000000); [lia|].
  apply in_or_app. right. apply in_or_app. right. now left.
Qed.
Lemma digits_no_e s : all_digits s = true -> ~ In "e"%char (word s).
Proof.
  induction s as [|c s IH]; intros H; [now intros []|]. cbn [all_digits] in H. apply andb_prop in H. destruct H as [D H]. intros [E|I]; [subst c; discriminate D|now apply IH].
Qed.
Lemma dec_no_e z : ~ In "e"%char (word (dec z)).
Proof.
  unfold dec. destruct (Z.ltb_spec z 0); [intros [E|I]; [discriminate E|]; revert I|]; apply digits_no_e, udec_all_digits; lia.
Qed.
