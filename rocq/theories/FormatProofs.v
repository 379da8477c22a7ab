(** Proofs about FORMAT. *)
From Coq Require Import Ascii String List ZArith Lia Bool.
From Verif Require Import GoBase GoBaseFacts DecModel DecFacts ValueModel FormatModel FormatSpec.
Import ListNotations.
Local Open Scope string_scope.
Open Scope Z_scope.

(** ** Numerals *)
Lemma sapp_assoc (a b c : string) : (a ++ b) ++ c = a ++ b ++ c.
Proof. induction a as [|x a IH]; [reflexivity|]. cbn [append]. now rewrite IH. Qed.
Lemma sapp_empty (a : string) : a ++ "" = a.
Proof. induction a as [|x a IH]; [reflexivity|]. cbn [append]. now rewrite IH. Qed.
Lemma slen_app (a b : string) : String.length (a ++ b) = (String.length a + String.length b)%nat.
Proof. induction a as [|x a IH]; [reflexivity|]. cbn [append String.length]. now rewrite IH. Qed.
Lemma in_base_pos b up s n : 1 < b -> in_base b up s n -> 0 <= n /\ (1 <= String.length s)%nat.
Proof. intros B H. induction H; cbn [String.length]; [lia|]. rewrite slen_app. cbn. nia. Qed.
Lemma in_base_unique b up s n : 1 < b -> in_base b up s n -> forall t, in_base b up t n -> s = t.
Proof.
  intros B H. induction H as [d Hd | s n d Hs IH Hn Hd]; intros t Ht.
  - inversion Ht as [d' Hd' | s' n' d' Hs' Hn' Hd']; subst; [reflexivity | nia].
  - inversion Ht as [d' Hd' | s' n' d' Hs' Hn' Hd' E1 E2]; subst; [nia|].
    assert (n' = n) by nia. subst n'. assert (d' = d) by lia. subst d'. now rewrite (IH s' Hs').
Qed.
Lemma hexa_char up d : 0 <= d < 16 -> hexa up d = digit_char up d.
Proof.
  intros H. assert (C : d = 0 \/ d = 1 \/ d = 2 \/ d = 3 \/ d = 4 \/ d = 5 \/ d = 6 \/ d = 7 \/ d = 8 \/ d = 9 \/ d = 10 \/ d = 11 \/ d = 12 \/ d = 13 \/ d = 14 \/ d = 15) by lia.
  destruct up; repeat destruct C as [->|C]; subst; reflexivity.
Qed.
Lemma digit_is_char up d : 0 <= d < 10 -> digit d = digit_char up d.
Proof. intros H. rewrite <- hexa_char by lia. unfold hexa. destruct (Z.ltb_spec d 10); [reflexivity | lia]. Qed.
Lemma base_digits_ok b up : 1 < b <= 16 -> forall fuel n acc, 0 <= n < 2 ^ Z.of_nat fuel -> (0 < fuel)%nat ->
  exists s, base_digits fuel b up n acc = s ++ acc /\ in_base b up s n.
Proof.
  intros B. induction fuel as [|k IH]; intros n acc H F; [lia|]. cbn [base_digits].
  pose proof (Z.div_mod n b ltac:(lia)) as Dm. pose proof (Z.mod_pos_bound n b ltac:(lia)) as M. rewrite hexa_char by lia.
  destruct (Z.eqb_spec (n / b) 0) as [E|E].
  - exists (String (digit_char up (n mod b)) ""). split; [reflexivity|]. assert (n mod b = n) by lia. rewrite H0. apply in_base_one. lia.
  - assert (0 <= n / b) by (apply Z.div_pos; lia).
    assert (Hk : (0 < k)%nat). { destruct k; [|lia]. exfalso. change (2 ^ Z.of_nat 1) with 2 in H. apply E. apply Z.div_small. lia. }
    assert (n / b < 2 ^ Z.of_nat k).
    { apply Z.div_lt_upper_bound; [lia|]. rewrite Nat2Z.inj_succ, Z.pow_succ_r in H by lia. pose proof (Z.pow_pos_nonneg 2 (Z.of_nat k) ltac:(lia) ltac:(lia)). nia. }
    destruct (IH (n / b) (String (digit_char up (n mod b)) acc)) as (s & Es & Hs); [lia | exact Hk|].
    exists (s ++ String (digit_char up (n mod b)) ""). split; [rewrite Es, sapp_assoc; reflexivity|].
    rewrite Dm at 2. apply in_base_more; auto; lia.
Qed.
Lemma digits_base : forall fuel n acc, 0 <= n -> digits fuel n acc = base_digits fuel 10 false n acc.
Proof.
  induction fuel as [|k IH]; intros n acc H; [reflexivity|]. cbn [digits base_digits]. pose proof (Z.mod_pos_bound n 10 ltac:(lia)).
  rewrite hexa_char, <- digit_is_char by lia.
  destruct (Z.ltb_spec n 10) as [L|L].
  - rewrite Z.div_small by lia. reflexivity.
  - assert (1 <= n / 10) by (apply Z.div_le_lower_bound; lia). destruct (Z.eqb_spec (n / 10) 0); [lia|]. apply IH. lia.
Qed.
Lemma log_fuel n : 0 <= n -> 0 <= n < 2 ^ Z.of_nat (S (Z.to_nat (Z.log2 n))).
Proof.
  intros H. split; [exact H|]. rewrite Nat2Z.inj_succ, Z2Nat.id by apply Z.log2_nonneg. destruct (Z.eq_dec n 0) as [->|]; [reflexivity|].
  apply Z.log2_spec. lia.
Qed.
Lemma unsigned_ok x b up n : base x = Some (b, up) -> 0 <= n -> in_base b up (unsigned (if Ascii.eqb x "i" then "d"%char else x) n) n.
Proof.
  intros Bx H. assert (C : (x = "d" \/ x = "i" \/ x = "o" \/ x = "x" \/ x = "X")%char).
  { destruct x as [[] [] [] [] [] [] [] []]; try discriminate Bx; auto 10. }
  assert (U : forall b up, 1 < b <= 16 -> in_base b up (base_digits (S (Z.to_nat (Z.log2 n))) b up n "") n).
  { intros b' up' B. destruct (base_digits_ok b' up' B _ n "" (log_fuel n H) ltac:(lia)) as (s & E & I). rewrite E, sapp_empty. exact I. }
  destruct C as [->|[->|[->|[->| ->]]]]; injection Bx as <- <-; cbn [Ascii.eqb Bool.eqb unsigned]; try (apply U; lia);
    unfold udec; rewrite digits_base by lia; apply U; lia.
Qed.
Lemma udec_in n : 0 <= n -> in_base 10 false (udec n) n.
Proof. intros H. apply (unsigned_ok "d"); auto. Qed.
Lemma zeros_copies n s : zeros n s = copies "0" n ++ s.
Proof. induction n as [|n IH]; [reflexivity|]. cbn [zeros copies append]. now rewrite IH. Qed.
Lemma spaces_copies n s : spaces n s = copies " " n ++ s.
Proof. induction n as [|n IH]; [reflexivity|]. cbn [spaces copies append]. now rewrite IH. Qed.
Lemma sprintf_ok zero width x v : base x <> None -> 0 <= width <= 10000009 ->
  int_text zero width x v (sprintf zero width (if Ascii.eqb x "i" then "d"%char else x) v).
Proof.
  intros Bx W. destruct (base x) as [[b up]|] eqn:E; [|congruence]. exists b, up, (unsigned (if Ascii.eqb x "i" then "d"%char else x) (Z.abs v)).
  split; [exact E|]. split; [apply unsigned_ok; auto; lia|]. unfold sprintf, aligned. set (a := unsigned _ _). set (sg := if v <? 0 then "-" else "").
  destruct (Z.ltb_spec 1000000 (width / 10)) as [L|L]. { exfalso. assert (width / 10 < 1000001); [|lia]. apply Z.div_lt_upper_bound; lia. }
  destruct zero.
  - exists (Z.to_nat width - String.length sg - String.length a)%nat. rewrite slen_app, zeros_copies. split; [lia | reflexivity].
  - exists (Z.to_nat width - String.length (sg ++ a))%nat. rewrite spaces_copies. split; [lia | reflexivity].
Qed.
Lemma int_text_unique zero width x v s t : int_text zero width x v s -> int_text zero width x v t -> s = t.
Proof.
  intros (b & up & a & B & I & k & K & ->) (b' & up' & a' & B' & I' & k' & K' & ->). assert (b' = b /\ up' = up) as [-> ->] by (split; congruence).
  assert (1 < b). { destruct x as [[] [] [] [] [] [] [] []]; try discriminate B; injection B as <- _; lia. }
  assert (a' = a) by (eapply in_base_unique; eauto). subst a'. assert (k' = k) by lia. now subst.
Qed.

(** ** Commas *)
Lemma of_list_app a b : string_of_list_ascii (a ++ b)%list = string_of_list_ascii a ++ string_of_list_ascii b.
Proof. induction a as [|x a IH]; [reflexivity|]. cbn [app string_of_list_ascii append]. now rewrite IH. Qed.
Lemma of_list_length a : String.length (string_of_list_ascii a) = List.length a.
Proof. induction a as [|x a IH]; [reflexivity|]. cbn. now rewrite IH. Qed.
Lemma mod3_next k : (k mod 3 = 0)%nat -> (S k mod 3 = 1)%nat /\ (S (S k) mod 3 = 2)%nat /\ (S (S (S k)) mod 3 = 0)%nat.
Proof.
  intros H. assert (exists q, k = (3 * q)%nat) as [q ->] by (exists (k / 3)%nat; pose proof (Nat.div_mod k 3 ltac:(lia)); lia).
  replace (S (3 * q)) with (1 + q * 3)%nat by lia. replace (S (1 + q * 3)) with (2 + q * 3)%nat by lia. replace (S (2 + q * 3)) with (0 + (S q) * 3)%nat by lia.
  rewrite !Nat.mod_add by lia. auto.
Qed.
Lemma put_commas_ok : forall n back done acc, (List.length back <= n)%nat -> back <> [] -> (done mod 3 = 0)%nat ->
  exists g, put_commas back (List.length back + (List.length back - 1) / 3) done acc = Ok (0%nat, g ++ acc) /\ grouped (string_of_list_ascii (rev back)) g.
Proof.
  induction n as [|n IH]; intros back done acc L N D; [destruct back; [congruence | cbn in L; lia]|].
  destruct (mod3_next done D) as (M1 & M2 & M3). assert (E1 := proj2 (Nat.eqb_neq (S done mod 3) 0) ltac:(lia)). assert (E2 := proj2 (Nat.eqb_neq (S (S done) mod 3) 0) ltac:(lia)).
  destruct back as [|a [|b [|c r]]]; [congruence| | |].
  - exists (String a ""). split; [|apply grouped_short; cbn; lia]. cbn [List.length Nat.sub Nat.add]. change (0 / 3)%nat with 0%nat. cbn [put_commas Nat.add]. now rewrite E1.
  - exists (String b (String a "")). split; [|apply grouped_short; cbn; lia]. cbn [List.length Nat.sub Nat.add]. change (1 / 3)%nat with 0%nat. cbn [put_commas Nat.add]. now rewrite E1, E2.
  - assert (E3 := proj2 (Nat.eqb_eq (S (S (S done)) mod 3) 0) M3).
    destruct r as [|d r].
    + exists (String c (String b (String a ""))). split; [|apply grouped_short; cbn; lia]. cbn [List.length Nat.sub Nat.add]. change (2 / 3)%nat with 0%nat. cbn [put_commas Nat.add]. now rewrite E1, E2, E3.
    + set (r' := d :: r) in *.
      assert (T : (List.length (a :: b :: c :: r') + (List.length (a :: b :: c :: r') - 1) / 3 = S (S (S (S (List.length r' + (List.length r' - 1) / 3)))))%nat).
      { cbn [List.length]. replace (S (S (S (List.length r'))) - 1)%nat with ((List.length r' - 1) + 1 * 3)%nat by (unfold r'; cbn [List.length]; lia). rewrite Nat.div_add by lia. lia. }
      rewrite T. cbn [put_commas]. rewrite E1, E2, E3.
      destruct (IH r' (S (S (S done))) (String "," (String c (String b (String a acc))))) as (g & Eg & Hg); [cbn [List.length] in *; lia | discriminate | exact M3|].
      exists (g ++ "," ++ String c (String b (String a ""))). split; [rewrite Eg, !sapp_assoc; reflexivity|].
      cbn [rev]. rewrite <- !app_assoc. cbn [app]. rewrite of_list_app. cbn [string_of_list_ascii]. now apply grouped_more.
Qed.
Lemma with_commas_ok s : s <> "" -> exists g, with_commas s = Ok g /\ grouped s g.
Proof.
  intros N. unfold with_commas. set (back := rev (list_ascii_of_string s)).
  assert (Lb : List.length back = String.length s) by (unfold back; rewrite rev_length; rewrite <- (string_of_list_ascii_of_string s) at 2; now rewrite of_list_length).
  assert (T : ((if (String.length s mod 3 =? 0)%nat then String.length s / 3 - 1 else String.length s / 3) = (String.length s - 1) / 3)%nat).
  { assert (P : (0 < String.length s)%nat) by (destruct s; [congruence | cbn; lia]). set (l := String.length s) in *. clearbody l.
    pose proof (Nat.div_mod l 3 ltac:(lia)) as Dm. pose proof (Nat.mod_upper_bound l 3 ltac:(lia)) as Mb. destruct (Nat.eqb_spec (l mod 3) 0) as [E|E].
    - apply Nat.div_unique with (r := 2%nat); lia.
    - apply Nat.div_unique with (r := (l mod 3 - 1)%nat); lia. }
  rewrite T, <- Lb. destruct (put_commas_ok (List.length back) back 0 "" ltac:(lia)) as (g & E & G); [intros X; apply N; destruct s; [reflexivity | rewrite X in Lb; discriminate] | reflexivity|].
  rewrite E. cbn [bind fst snd nuls]. rewrite sapp_empty. exists g. split; [reflexivity|].
  unfold back in G. now rewrite rev_involutive, string_of_list_ascii_of_string in G.
Qed.
Lemma no_commas_app a b : no_commas (a ++ b) = no_commas a ++ no_commas b.
Proof. induction a as [|c a IH]; [reflexivity|]. cbn [append no_commas]. rewrite IH. now destruct (Ascii.eqb c ","). Qed.
Lemma grouped_strip s g : grouped s g -> no_commas g = no_commas s.
Proof. intros H. induction H; [reflexivity|]. rewrite !no_commas_app, IHgrouped. reflexivity. Qed.
Lemma digit_no_comma d : 0 <= d < 10 -> Ascii.eqb (digit_char false d) "," = false.
Proof.
  intros H. assert (C : d = 0 \/ d = 1 \/ d = 2 \/ d = 3 \/ d = 4 \/ d = 5 \/ d = 6 \/ d = 7 \/ d = 8 \/ d = 9) by lia.
  repeat destruct C as [->|C]; subst; reflexivity.
Qed.
Lemma in_base_no_commas s n : in_base 10 false s n -> no_commas s = s.
Proof.
  intros H. induction H.
  - cbn [no_commas]. now rewrite digit_no_comma.
  - rewrite no_commas_app, IHin_base. cbn [no_commas]. now rewrite digit_no_comma.
Qed.
Lemma dec_no_commas v : no_commas (dec v) = dec v.
Proof.
  unfold dec. destruct (Z.ltb_spec v 0); [cbn [no_commas Ascii.eqb Bool.eqb]; f_equal|]; apply (in_base_no_commas _ (Z.abs v)).
  - replace (- v) with (Z.abs v) by lia. apply udec_in. lia.
  - replace v with (Z.abs v) at 1 by lia. apply udec_in. lia.
Qed.
(** A grouped text has its comma or its end behind every third character from the right *)
Lemma grouped_length s g : grouped s g -> String.length g = (String.length s + (String.length s - 1) / 3)%nat.
Proof.
  intros H. induction H as [s L | a g b H IH L].
  - rewrite (Nat.div_small (String.length s - 1) 3) by lia. lia.
  - rewrite !slen_app, IH, L. cbn [String.length].
    assert (P : (1 <= String.length a)%nat). { clear -H. induction H; [lia|]. rewrite slen_app. lia. }
    replace (String.length a + 3 - 1)%nat with ((String.length a - 1) + 1 * 3)%nat by lia. rewrite Nat.div_add by lia. lia.
Qed.
Lemma app_split_right (a b c d : string) : String.length b = String.length d -> a ++ b = c ++ d -> a = c /\ b = d.
Proof.
  intros L E. assert (La : String.length a = String.length c). { assert (String.length (a ++ b) = String.length (c ++ d)) by now rewrite E. rewrite !slen_app in H. lia. }
  clear L. revert c E La. induction a as [|x a IH]; intros [|y c] E La; cbn in La; try discriminate; [auto|].
  cbn [append] in E. injection E as -> E. destruct (IH c E ltac:(lia)) as [-> ->]. auto.
Qed.
Lemma grouped_unique s g : grouped s g -> forall h, grouped s h -> g = h.
Proof.
  intros H. induction H as [s L | a g b H IH L]; intros h Hh.
  - inversion Hh as [s' L' | a' g' b' H' L' E1 E2]; subst; [reflexivity|]. exfalso. rewrite slen_app in L.
    assert (P : (1 <= String.length a')%nat). { clear -H'. induction H'; [lia|]. rewrite slen_app. lia. } lia.
  - inversion Hh as [s' L' E | a' g' b' H' L' E1 E2]; subst.
    + exfalso. rewrite slen_app in L'. assert (P : (1 <= String.length a)%nat). { clear -H. induction H; [lia|]. rewrite slen_app. lia. } lia.
    + destruct (app_split_right a' b' a b) as [-> ->]; [lia | exact E1|]. now rewrite (IH g' H').
Qed.
(** A sign in front *)
Lemma grouped_sign s g : grouped s g -> grouped (String "-" s) (if (String.length s mod 3 =? 0)%nat then "-," ++ g else String "-" g).
Proof.
  intros H. induction H as [s L | a g b H IH L].
  - assert (C : (String.length s = 1 \/ String.length s = 2 \/ String.length s = 3)%nat) by lia. destruct C as [C|[C|C]]; rewrite C.
    + cbn. apply grouped_short. cbn. lia.
    + cbn. apply grouped_short. cbn. lia.
    + change (3 mod 3 =? 0)%nat with true. cbn iota. change (String "-" s) with ("-" ++ s). change ("-," ++ s) with ("-" ++ "," ++ s). apply grouped_more; [|exact C]. apply grouped_short. cbn. lia.
  - change (String "-" (a ++ b)) with (String "-" a ++ b). rewrite slen_app, L. replace (String.length a + 3)%nat with (String.length a + 1 * 3)%nat by lia. rewrite Nat.mod_add by lia.
    destruct (String.length a mod 3 =? 0)%nat; [change ("-," ++ g ++ "," ++ b) with (("-," ++ g) ++ "," ++ b) | change (String "-" (g ++ "," ++ b)) with (String "-" g ++ "," ++ b)]; now apply grouped_more.
Qed.
Lemma commas_exact v : exists g, with_commas (dec v) = Ok g /\ (grouped_int v g <-> 0 <= v \/ (String.length (udec (- v)) mod 3 <> 0)%nat) /\ no_commas g = dec v.
Proof.
  destruct (with_commas_ok (dec v)) as (g & E & G). { unfold dec. destruct (v <? 0); [discriminate | apply udec_nonempty]. }
  exists g. split; [exact E|]. split; [|rewrite (grouped_strip _ _ G); apply dec_no_commas].
  unfold dec in G. destruct (Z.ltb_spec v 0) as [L|L].
  - destruct (with_commas_ok (udec (- v)) (udec_nonempty _)) as (h & _ & Hh). pose proof (grouped_sign _ _ Hh) as Hs. rewrite (grouped_unique _ _ G _ Hs).
    pose proof (udec_in (- v) ltac:(lia)) as U. replace (- v) with (Z.abs v) in * by lia.
    split.
    + intros (a & g' & I & Ga & Eg). right. assert (a = udec (Z.abs v)) by (eapply in_base_unique; eauto; lia). subst a. assert (g' = h) by (eapply grouped_unique; eauto). subst g'.
      destruct (Z.ltb_spec v 0); [|lia]. destruct (Nat.eqb_spec (String.length (udec (Z.abs v)) mod 3) 0) as [M|M]; [|exact M].
      exfalso. assert (String.length ("-," ++ h) = String.length ("-" ++ h)) by now rewrite Eg. cbn in H0. lia.
    + intros [X|X]; [lia|]. apply Nat.eqb_neq in X. rewrite X. exists (udec (Z.abs v)), h. destruct (Z.ltb_spec v 0); [|lia]. auto.
  - split; [now left|]. intros _. exists (udec v), g. replace (Z.abs v) with v by lia. destruct (Z.ltb_spec v 0); [lia|]. split; [now apply udec_in | auto].
Qed.

(** ** Reading one specifier *)
Definition flag_text (g : flag) : string :=
  match g with FNone => "" | FMinus => "-" | FPlus => "+" | FSpace => " " | FSharp => "#" | FZero => "0" | FQuote => "'" end.
Definition count_of (w : fwidth) : option count := match w with Plain => None | W n => Some (Num n) | Star => Some FromArg end.
Definition letter (x : ascii) : bool := among specifiers x.
Definition good_width (w : fwidth) : Prop := match w with W n => 1 <= n /\ in64 n | _ => True end.
Fixpoint all_decimal (s : string) : Prop := match s with EmptyString => True | String c r => is_decimal c = true /\ all_decimal r end.
Lemma all_decimal_app a b : all_decimal a -> all_decimal b -> all_decimal (a ++ b).
Proof. induction a as [|c a IH]; cbn; [auto|]. intros [H1 H2] H3. auto. Qed.
Lemma digit_decimal d : 0 <= d < 10 -> is_decimal (digit_char false d) = true.
Proof.
  intros H. assert (C : d = 0 \/ d = 1 \/ d = 2 \/ d = 3 \/ d = 4 \/ d = 5 \/ d = 6 \/ d = 7 \/ d = 8 \/ d = 9) by lia.
  repeat destruct C as [->|C]; subst; reflexivity.
Qed.
Lemma in_base_decimal s n : in_base 10 false s n -> all_decimal s.
Proof.
  intros H. induction H; [cbn; split; [now apply digit_decimal | exact I]|]. apply all_decimal_app; [assumption|]. cbn. split; [now apply digit_decimal | exact I].
Qed.
Lemma span_all s x rest : all_decimal s -> is_decimal x = false -> span_digits (s ++ String x rest) = (s, String x rest).
Proof.
  intros A X. induction s as [|c s IH]; cbn [append span_digits].
  - now rewrite X.
  - destruct A as [A1 A2]. rewrite A1, (IH A2). reflexivity.
Qed.
Lemma in_base_first s n : in_base 10 false s n -> 0 < n -> exists d r, 0 < d < 10 /\ s = String (digit_char false d) r.
Proof.
  intros H. induction H as [d D | s n d H IH P D]; intros N.
  - exists d, "". split; [lia | reflexivity].
  - destruct (IH P) as (e & r & E & ->). exists e, (r ++ String (digit_char false d) ""). split; [exact E | reflexivity].
Qed.
Lemma letter_facts x : letter x = true -> is_decimal x = false /\ (forall rest, parse_flag (String x rest) = (FNone, String x rest)) /\
  Ascii.eqb x "*" = false /\ (forall rest, parse_precision (String x rest) = Ok (None, String x rest)).
Proof.
  intros H. unfold letter, among in H. apply existsb_exists in H as (y & I & E). apply Ascii.eqb_eq in E as ->.
  cbn [specifiers In] in I. repeat destruct I as [<-|I]; try contradiction; repeat split; reflexivity.
Qed.
Lemma number_text n : 1 <= n -> dec n = udec n.
Proof. intros H. unfold dec. destruct (Z.ltb_spec n 0); [lia | reflexivity]. Qed.
Lemma flag_width g w x rest : letter x = true -> good_width w -> parse_flag (flag_text g ++ width_text w ++ String x rest) = (g, width_text w ++ String x rest).
Proof.
  intros L G. destruct (letter_facts x L) as (D & F & S & P). destruct g; try reflexivity. destruct w as [|n|]; [apply F | | reflexivity].
  cbn [flag_text width_text append]. destruct G as [G _]. rewrite (number_text n G).
  destruct (in_base_first _ _ (udec_in n ltac:(lia)) ltac:(lia)) as (d & r & Dd & ->).
  assert (C : d = 1 \/ d = 2 \/ d = 3 \/ d = 4 \/ d = 5 \/ d = 6 \/ d = 7 \/ d = 8 \/ d = 9) by lia. repeat destruct C as [->|C]; subst; reflexivity.
Qed.
Lemma width_read w x rest : letter x = true -> good_width w -> parse_width (width_text w ++ String x rest) = Ok (count_of w, String x rest).
Proof.
  intros L G. destruct (letter_facts x L) as (D & F & Sx & P). unfold parse_width. destruct w as [|n|]; cbn [width_text count_of].
  - change ("" ++ String x rest) with (String x rest). cbn [span_digits]. rewrite D. cbn [number_of].
    destruct x as [[] [] [] [] [] [] [] []]; try reflexivity; discriminate Sx.
  - destruct G as [G I]. pose proof (in_base_decimal _ _ (udec_in n ltac:(lia))) as A. rewrite <- (number_text n G) in A. rewrite (span_all _ _ _ A D).
    assert (E : number_of (dec n) (String x rest) = Ok (Some (Num n), String x rest)).
    { unfold number_of. rewrite parse_dec by exact I. rewrite (number_text n G). destruct (udec n) eqn:U; [exfalso; eapply udec_nonempty; exact U | reflexivity]. }
    rewrite E. destruct x as [[] [] [] [] [] [] [] []]; try reflexivity; discriminate Sx.
  - reflexivity.
Qed.
Lemma spec_text_nonempty g w x rest : exists c r, flag_text g ++ width_text w ++ String x rest = String c r.
Proof. destruct (flag_text g); cbn [append]; [destruct (width_text w); cbn [append]|]; eauto. Qed.

Lemma bind_ok {A B} (r : res A) (f : A -> res B) b : bind r f = Ok b -> exists a, r = Ok a /\ f a = Ok b.
Proof. destruct r; cbn; try discriminate. eauto. Qed.
Section Loop.
  Variable float_text : ascii -> Z -> val -> res string.
  Variable positive : val -> bool.
  Variable json_text : ascii -> string -> res string.
  Variable printed : ascii -> val -> res string.
  Notation loop := (format_loop float_text positive json_text printed).
  Notation one := (format_one float_text positive json_text printed).
  Notation check := (validate printed).

  Lemma step g w x rest args n : letter x = true -> good_width w ->
    loop (S n) ("%" ++ flag_text g ++ width_text w ++ String x rest) args =
    (let p := Param g (count_of w) None x in let num := required p in
     if (List.length args <? num)%nat then Err
     else bind (check p (firstn num args)) (fun _ => bind (one p (firstn num args)) (fun text => bind (loop n rest (skipn num args)) (fun s => Ok (text ++ s))))).
  Proof.
    intros L G. destruct (spec_text_nonempty g w x rest) as (c & r & E). pose proof (flag_width g w x rest L G) as F. pose proof (width_read w x rest L G) as Wr.
    destruct (letter_facts x L) as (D & _ & _ & P). change ("%" ++ ?t) with (String "%" t).
    cbn [format_loop]. rewrite Ascii.eqb_refl. rewrite F, E. rewrite Wr. cbn [bind fst snd]. rewrite P. cbn [bind fst snd]. unfold letter in L. rewrite L. reflexivity.
  Qed.
  Lemma step_char c rest args n : c <> "%"%char -> loop (S n) (String c rest) args = bind (loop n rest args) (fun s => Ok (String c s)).
  Proof. intros H. cbn [format_loop]. apply Ascii.eqb_neq in H. now rewrite H. Qed.

  Lemma base_letter x : base x <> None -> letter x = true /\ Ascii.eqb x "%" = false /\ among ["d"; "i"; "o"; "x"; "X"]%char x = true.
  Proof. intros H. destruct x as [[] [] [] [] [] [] [] []]; cbn in H; try congruence; repeat split; reflexivity. Qed.
  Lemma base_signed x v : base x <> None -> (valid printed x (VInt v) = true <-> (x = "d"%char \/ x = "i"%char \/ 0 <= v)).
  Proof.
    intros H. unfold valid. destruct (among ["d"; "i"]%char x) eqn:D.
    - cbn. split; [intros _|reflexivity]. unfold among in D. cbn [existsb] in D. rewrite orb_false_r in D. apply orb_true_iff in D as [D|D]; apply Ascii.eqb_eq in D; auto.
    - destruct (among ["o"; "x"; "X"]%char x) eqn:O; [|exfalso; destruct x as [[] [] [] [] [] [] [] []]; cbn in H, D, O; congruence].
      rewrite Z.leb_le. split; [auto|]. intros [->|[->|X]]; [discriminate D | discriminate D | exact X].
  Qed.
  Lemma valid_int x v : base x <> None -> valid printed x v = true -> exists n, v = VInt n.
  Proof.
    intros H. unfold valid. destruct (among ["d"; "i"]%char x) eqn:D; [destruct v; try discriminate; eauto|].
    destruct (among ["o"; "x"; "X"]%char x) eqn:O; [destruct v; try discriminate; eauto|]. exfalso. destruct x as [[] [] [] [] [] [] [] []]; cbn in H, D, O; congruence.
  Qed.
  Definition zero_flag (z : bool) : flag := if z then FZero else FNone.
  Lemma one_int z w x mine : base x <> None ->
    one (Param (zero_flag z) (count_of w) None x) mine =
    (let (width, args) := width_of (count_of w) mine in
     match args with VInt v :: _ => Ok (sprintf z width (if Ascii.eqb x "i" then "d"%char else x) v) | [] => GoPanic | _ => Err end).
  Proof.
    intros H. destruct (base_letter x H) as (_ & P & A). unfold format_one. cbn [spec]. rewrite P, A. unfold format_int. cbn [fl wid spec].
    destruct (width_of (count_of w) mine) as [width [|v r]]; [reflexivity|]. destruct v; try reflexivity. now destruct z.
  Qed.
  Lemma written_int z w x rest : written (Int z w x) ++ rest = "%" ++ flag_text (zero_flag z) ++ width_text w ++ String x rest.
  Proof. cbn [written]. rewrite !sapp_assoc. now destruct z. Qed.
  Lemma width_good w n : match w with W n => 1 <= n <= 10000009 | _ => True end -> (w = W n -> in64 n) /\ good_width w.
  Proof. intros H. assert (T : 10000009 < two63) by reflexivity. destruct w; cbn; try (split; [discriminate|exact I]). split; [intros [= ->]; unfold in64; lia | unfold in64; lia]. Qed.
  Lemma written_length p rest : exists k, String.length (written p ++ rest) = (S k + String.length rest)%nat.
  Proof. destruct p; cbn [written]; rewrite slen_app; cbn [String.length append]; eauto. Qed.

  (** What the loop does with a piece *)
  Lemma loop_piece p rest args n : proper p -> (String.length (written p ++ rest) <= n)%nat ->
    exists n', (String.length rest <= n')%nat /\
      (forall a s more, prints p a s -> args = (a ++ more)%list -> loop n (written p ++ rest) args = bind (loop n' rest more) (fun t => Ok (s ++ t))) /\
      (forall a more, takes p a -> args = (a ++ more)%list -> exists s, loop n (written p ++ rest) args = bind (loop n' rest more) (fun t => Ok (s ++ t))) /\
      (forall t, p <> Show -> loop n (written p ++ rest) args = Ok t -> exists a more t', takes p a /\ args = (a ++ more)%list /\ loop n' rest more = Ok t').
  Proof.
    intros Pp Ln. destruct (written_length p rest) as [k Lk]. rewrite Lk in Ln. destruct n as [|n]; [lia|]. exists n. split; [lia|]. clear Ln Lk k.
    destruct p as [c| |z w x| |].
    - cbn [proper written append] in *. rewrite step_char by exact Pp. repeat split.
      + intros a s more P ->. inversion P; subst. reflexivity.
      + intros a more T ->. inversion T; subst. exists (String c ""). reflexivity.
      + intros t _ E. apply bind_ok in E as (t' & E & _). exists [], args, t'. (split; [constructor | split; [reflexivity | exact E]]).
    - pose proof (step FNone Plain "%" rest args n eq_refl I) as E. cbn [flag_text width_text append] in E. change (written Pct ++ rest) with (String "%" (String "%" rest)).
      rewrite E. change (required _) with 0%nat. cbn [Nat.ltb Nat.leb firstn skipn]. cbv zeta. change (check _ _) with (Ok tt). change (one _ _) with (Ok "%" : res string). cbn [bind]. repeat split.
      + intros a s more P ->. inversion P; subst. reflexivity.
      + intros a more T ->. inversion T; subst. exists "%". reflexivity.
      + intros t _ Et. apply bind_ok in Et as (t' & Et & _). exists [], args, t'. (split; [constructor | split; [reflexivity | exact Et]]).
    - destruct Pp as [Bx Pw]. destruct (base_letter x Bx) as (Lx & Px & Ax). destruct (width_good w 0 Pw) as [_ Gw].
      rewrite written_int. rewrite step by assumption. cbv zeta. unfold required. cbn [spec wid prec]. rewrite Px. cbn [from_arg].
      assert (V : forall mine, check (Param (zero_flag z) (count_of w) None x) mine = bind (skip_arg (count_of w) mine) (fun a => match a with v :: _ => if valid printed x v then Ok tt else Err | [] => GoPanic end)).
      { intros mine. unfold validate. cbn [spec wid prec]. rewrite Px. now destruct (skip_arg (count_of w) mine). }
      destruct w as [|wn|].
      + cbn [count_of from_arg Nat.add]. repeat split.
        * intros a s more P ->. inversion P; subst. cbn [app List.length Nat.ltb Nat.leb firstn skipn]. rewrite V. cbn [count_of skip_arg bind]. rewrite (proj2 (base_signed x v Bx)) by assumption.
          rewrite (one_int z Plain x _ Bx). cbn [count_of width_of bind].
          match goal with H : int_text _ _ _ _ _ |- _ => rewrite (int_text_unique _ _ _ _ _ _ H (sprintf_ok z 0 x v Bx ltac:(lia))) end. reflexivity.
        * intros a more T ->. inversion T; subst. cbn [app List.length Nat.ltb Nat.leb firstn skipn]. rewrite V. cbn [count_of skip_arg bind]. rewrite (proj2 (base_signed x v Bx)) by assumption.
          rewrite (one_int z Plain x _ Bx). cbn [count_of width_of bind]. eauto.
        * intros t _ E. destruct args as [|v more]; [discriminate E|]. cbn [List.length Nat.ltb Nat.leb firstn skipn] in E. rewrite V in E. cbn [count_of skip_arg bind] in E.
          destruct (valid printed x v) eqn:Vx; [|discriminate E]. destruct (valid_int x v Bx Vx) as [m ->]. rewrite (one_int z Plain x _ Bx) in E. cbn [count_of width_of bind] in E.
          apply bind_ok in E as (t' & E & _). exists [VInt m], more, t'. (split; [|split; [reflexivity | exact E]]). constructor; [discriminate|]. now apply base_signed.
      + cbn [count_of from_arg Nat.add]. assert (Wn : (wn <=? 0) = false) by (apply Z.leb_gt; lia). repeat split.
        * intros a s more P ->. inversion P; subst. cbn [app List.length Nat.ltb Nat.leb firstn skipn]. rewrite V. cbn [count_of skip_arg bind]. rewrite (proj2 (base_signed x v Bx)) by assumption.
          rewrite (one_int z (W wn) x _ Bx). cbn [count_of width_of bind]. try rewrite Wn.
          match goal with H : int_text _ _ _ _ _ |- _ => rewrite (int_text_unique _ _ _ _ _ _ H (sprintf_ok z wn x v Bx ltac:(lia))) end. reflexivity.
        * intros a more T ->. inversion T; subst. cbn [app List.length Nat.ltb Nat.leb firstn skipn]. rewrite V. cbn [count_of skip_arg bind]. rewrite (proj2 (base_signed x v Bx)) by assumption.
          rewrite (one_int z (W wn) x _ Bx). cbn [count_of width_of bind]. eauto.
        * intros t _ E. destruct args as [|v more]; [discriminate E|]. cbn [List.length Nat.ltb Nat.leb firstn skipn] in E. rewrite V in E. cbn [count_of skip_arg bind] in E.
          destruct (valid printed x v) eqn:Vx; [|discriminate E]. destruct (valid_int x v Bx Vx) as [m ->]. rewrite (one_int z (W wn) x _ Bx) in E. cbn [count_of width_of bind] in E.
          apply bind_ok in E as (t' & E & _). exists [VInt m], more, t'. (split; [|split; [reflexivity | exact E]]). constructor; [discriminate|]. now apply base_signed.
      + cbn [count_of from_arg Nat.add]. repeat split.
        * intros a s more P ->. inversion P; subst. cbn [app List.length Nat.ltb Nat.leb firstn skipn]. rewrite V. cbn [count_of skip_arg is_int bind]. rewrite (proj2 (base_signed x v Bx)) by assumption.
          rewrite (one_int z Star x _ Bx). cbn [count_of width_of bind].
          replace (if w <=? 0 then 0 else w) with (Z.max 0 w) by (destruct (Z.leb_spec w 0); lia).
          match goal with H : int_text _ _ _ _ _ |- _ => rewrite (int_text_unique _ _ _ _ _ _ H (sprintf_ok z (Z.max 0 w) x v Bx ltac:(lia))) end. reflexivity.
        * intros a more T ->. inversion T; subst; [congruence|]. cbn [app List.length Nat.ltb Nat.leb firstn skipn]. rewrite V. cbn [count_of skip_arg is_int bind]. rewrite (proj2 (base_signed x v Bx)) by assumption.
          rewrite (one_int z Star x _ Bx). cbn [count_of width_of bind]. eauto.
        * intros t _ E. destruct args as [|wv [|v more]]; [discriminate E | discriminate E|]. cbn [List.length Nat.ltb Nat.leb firstn skipn] in E. rewrite V in E. cbn [count_of skip_arg bind] in E.
          destruct wv as [wi| | | | | | | | | | | | | ]; try discriminate E. cbn [is_int bind] in E.
          destruct (valid printed x v) eqn:Vx; [|discriminate E]. destruct (valid_int x v Bx Vx) as [m ->]. rewrite (one_int z Star x _ Bx) in E. cbn [count_of width_of bind] in E.
          apply bind_ok in E as (t' & E & _). exists [VInt wi; VInt m], more, t'. (split; [|split; [reflexivity | exact E]]). constructor. now apply base_signed.
    - pose proof (step FNone Plain "s" rest args n eq_refl I) as E. cbn [flag_text width_text append] in E. change (written Str ++ rest) with (String "%" (String "s" rest)).
      rewrite E. change (required _) with 1%nat. cbv zeta. repeat split.
      + intros a s more P ->. inversion P; subst. reflexivity.
      + intros a more T ->. inversion T; subst. exists s. reflexivity.
      + intros t _ Et. destruct args as [|v more]; [discriminate Et|]. cbn [List.length Nat.ltb Nat.leb firstn skipn] in Et.
        destruct v; try discriminate Et. apply bind_ok in Et as (t1 & _ & Et). apply bind_ok in Et as (t0 & _ & Et). apply bind_ok in Et as (t' & Et & _). exists [VStr s], more, t'. (split; [constructor | split; [reflexivity | exact Et]]).
    - pose proof (step FNone Plain "t" rest args n eq_refl I) as E. cbn [flag_text width_text append] in E. change (written Show ++ rest) with (String "%" (String "t" rest)).
      rewrite E. change (required _) with 1%nat. cbv zeta. repeat split.
      + intros a s more P ->. inversion P; subst; reflexivity.
      + intros a more T ->. inversion T.
      + congruence.
  Qed.
  Theorem says_ok ps a s : says ps a s -> Forall proper ps -> forall extra n, (String.length (pattern ps) <= n)%nat -> loop n (pattern ps) (a ++ extra)%list = Ok s.
  Proof.
    intros H. induction H as [|p a s ps args t P H IH]; intros F extra n L.
    - destruct n; reflexivity.
    - inversion F as [|? ? F1 F2]; subst. cbn [pattern] in *. rewrite <- app_assoc. destruct (loop_piece p (pattern ps) (a ++ args ++ extra)%list n F1 L) as (n' & L' & A & _ & _).
      rewrite (A a s (args ++ extra)%list P eq_refl), (IH F2 extra n' L'). reflexivity.
  Qed.
  Theorem fits_ok ps : Forall (fun p => proper p /\ p <> Show) ps -> forall args n, (String.length (pattern ps) <= n)%nat ->
    ((exists s, loop n (pattern ps) args = Ok s) <-> fits ps args).
  Proof.
    intros F. induction F as [|p ps [Fp Np] F IH]; intros args n L.
    - split; [constructor|]. intros _. exists "". now destruct n.
    - cbn [pattern] in *. destruct (loop_piece p (pattern ps) args n Fp L) as (n' & L' & _ & B & C). split.
      + intros [s E]. destruct (C s Np E) as (a & more & t' & T & -> & E'). constructor; [exact T|]. apply (IH more n' L'). eauto.
      + intros H. inversion H as [|? a ? more T Fm]; subst. destruct (B a more T eq_refl) as (s & ->). apply (IH more n' L') in Fm as (t & ->). cbn [bind]. eauto.
  Qed.

  Lemma bind_no_panic {A B} (r : res A) (f : A -> res B) : r <> GoPanic -> (forall a, r = Ok a -> f a <> GoPanic) -> bind r f <> GoPanic.
  Proof. intros H F. destruct r; cbn; [apply F; reflexivity | discriminate | congruence]. Qed.
  Lemma number_no_panic ds rest : number_of ds rest <> GoPanic.
  Proof. unfold number_of. destruct ds; [discriminate|]. destruct (parse_int _); discriminate. Qed.
  Lemma width_no_panic f : parse_width f <> GoPanic.
  Proof.
    unfold parse_width. destruct (span_digits f) as [ds [|c rest]]; [apply number_no_panic|].
    destruct c as [[] [] [] [] [] [] [] []]; try apply number_no_panic. discriminate.
  Qed.
  Lemma precision_no_panic f : parse_precision f <> GoPanic.
  Proof.
    unfold parse_precision. destruct f as [|c f]; [discriminate|]. destruct c as [[] [] [] [] [] [] [] []]; try discriminate.
    destruct (span_digits f) as [ds [|c rest]]; [apply number_no_panic|]. destruct c as [[] [] [] [] [] [] [] []]; try apply number_no_panic. discriminate.
  Qed.
  Lemma skip_no_panic w args : (from_arg w <= List.length args)%nat -> skip_arg w args <> GoPanic /\ (forall a, skip_arg w args = Ok a -> List.length args = (from_arg w + List.length a)%nat).
  Proof.
    intros H. destruct w as [[m|]|]; cbn in *; try (split; [discriminate | intros a [= ->]; reflexivity]).
    destruct args as [|v r]; [cbn in H; lia|]. destruct (is_int v); (split; [discriminate|]); intros a E; [injection E as ->; reflexivity | discriminate].
  Qed.
  Lemma width_length w args : (from_arg w <= List.length args)%nat -> List.length args = (from_arg w + List.length (snd (width_of w args)))%nat.
  Proof. intros H. destruct w as [[m|]|]; try reflexivity. destruct args as [|v r]; [cbn in H; lia|]. destruct v; reflexivity. Qed.
  Hypothesis json_safe : forall c s, json_text c s <> GoPanic.
  Hypothesis printed_safe : forall c v, printed c v <> GoPanic.
  Lemma printable_safe c v : printable printed c v <> GoPanic.
  Proof. destruct v; cbn; try apply printed_safe; [discriminate|]. destruct (Ascii.eqb c "t"); [discriminate | apply printed_safe]. Qed.
  Definition not_float (v : val) : Prop := match v with VFloat _ | VNum _ => False | _ => True end.
  Lemma skip_in w args a : skip_arg w args = Ok a -> forall v, In v a -> In v args.
  Proof.
    destruct w as [[m|]|]; cbn; try (intros [= ->]; auto). destruct args as [|x r]; [discriminate|]. destruct (is_int x); intros [= ->] v I. now right.
  Qed.
  Lemma check_not_float p mine : Ascii.eqb (spec p) "%" = false -> check p mine = Ok tt -> Forall not_float mine ->
    among ["f"; "F"; "e"; "E"; "g"; "G"]%char (spec p) = true -> False.
  Proof.
    intros P C N A. unfold validate in C. rewrite P in C. apply bind_ok in C as (a & Ea & C). apply bind_ok in C as (b & Eb & C). destruct b as [|v r]; [discriminate|].
    assert (I : In v mine). { apply (skip_in _ _ _ Ea). apply (skip_in _ _ _ Eb). now left. }
    rewrite Forall_forall in N. specialize (N v I). destruct (valid printed (spec p) v) eqn:V; [|discriminate]. unfold valid in V. rewrite A in V.
    assert (D1 : among ["d"; "i"]%char (spec p) = false) by (destruct (spec p) as [[] [] [] [] [] [] [] []]; cbn in A; try discriminate A; reflexivity).
    assert (D2 : among ["o"; "x"; "X"]%char (spec p) = false) by (destruct (spec p) as [[] [] [] [] [] [] [] []]; cbn in A; try discriminate A; reflexivity).
    rewrite D1, D2 in V. destruct v; cbn in N; try discriminate V; contradiction.
  Qed.
  Lemma one_safe p mine : Ascii.eqb (spec p) "%" = false -> List.length mine = required p -> check p mine = Ok tt -> Forall not_float mine -> one p mine <> GoPanic.
  Proof.
    intros P L Ck Nf. unfold required in L. rewrite P in L. unfold format_one. rewrite P.
    assert (D : forall v : Z, with_commas (dec v) <> GoPanic). { intros v. destruct (commas_exact v) as (g & E & _). rewrite E. discriminate. }
    destruct (among ["d"; "i"; "o"; "x"; "X"]%char (spec p)).
    { unfold format_int. pose proof (width_length (wid p) mine ltac:(lia)) as Lw. destruct (width_of (wid p) mine) as [width [|v r]]; [cbn in Lw; lia|].
      destruct v; try discriminate. destruct (fl p); try discriminate. destruct (_ || _); [apply D | discriminate]. }
    destruct (among ["f"; "F"; "e"; "E"; "g"; "G"]%char (spec p)) eqn:Af; [exfalso; eapply check_not_float; eauto|].
    destruct mine as [|v r]; [cbn in L; lia|].
    destruct (among ["p"; "P"]%char (spec p)); [destruct v; try discriminate; apply json_safe|].
    destruct (Ascii.eqb (spec p) "s"); [destruct v; discriminate|]. apply printable_safe.
  Qed.
  Lemma check_safe p mine : List.length mine = required p -> check p mine <> GoPanic.
  Proof.
    intros L. unfold validate. unfold required in L. destruct (Ascii.eqb (spec p) "%"); [discriminate|].
    destruct (skip_no_panic (wid p) mine ltac:(lia)) as [N1 L1]. apply bind_no_panic; [exact N1|]. intros a Ea. specialize (L1 a Ea).
    destruct (skip_no_panic (prec p) a ltac:(lia)) as [N2 L2]. apply bind_no_panic; [exact N2|]. intros b Eb. specialize (L2 b Eb).
    destruct b as [|v r]; [cbn in L2; lia|]. destruct (valid printed (spec p) v); discriminate.
  Qed.
  Theorem loop_safe : forall n f args, Forall not_float args -> loop n f args <> GoPanic.
  Proof.
    induction n as [|n IH]; intros f args Nf; [discriminate|]. destruct f as [|c r]; [discriminate|]. cbn [format_loop].
    destruct (Ascii.eqb c "%"); [|apply bind_no_panic; [now apply IH | discriminate]].
    destruct r as [|c' r']; [discriminate|]. destruct (parse_flag (String c' r')) as [g r1].
    apply bind_no_panic; [apply width_no_panic|]. intros w _. apply bind_no_panic; [apply precision_no_panic|]. intros q _.
    destruct (snd q) as [|x rest]; [discriminate|]. destruct (among specifiers x); [|discriminate].
    set (p := Param g (fst w) (fst q) x). destruct (Nat.ltb_spec (List.length args) (required p)) as [Lt|Ge]; [discriminate|].
    assert (Lm : List.length (firstn (required p) args) = required p) by (rewrite firstn_length; lia).
    assert (Fm : Forall not_float (firstn (required p) args)) by (rewrite Forall_forall in *; intros v I; apply Nf; rewrite <- (firstn_skipn (required p) args); apply in_or_app; now left).
    assert (Fr : Forall not_float (skipn (required p) args)) by (rewrite Forall_forall in *; intros v I; apply Nf; rewrite <- (firstn_skipn (required p) args); apply in_or_app; now right).
    apply bind_no_panic; [now apply check_safe|]. intros [] Ck. apply bind_no_panic.
    - destruct (Ascii.eqb (spec p) "%") eqn:P; [unfold format_one; rewrite P; discriminate | now apply one_safe].
    - intros text _. apply bind_no_panic; [now apply IH | discriminate].
  Qed.
End Loop.

(** ** Flags *)
Lemma length_spec v : Z.of_nat (String.length (dec v)) = Z.of_nat (String.length (if v <? 0 then "-" else "")) + Z.of_nat (String.length (udec (Z.abs v))).
Proof.
  unfold dec. destruct (Z.ltb_spec v 0); cbn [String.length]; [replace (- v) with (Z.abs v) by lia | replace v with (Z.abs v) at 1 by lia]; lia.
Qed.
Lemma copies_length c n : String.length (copies c n) = n.
Proof. induction n; cbn; congruence. Qed.
Lemma sprintf_d z width v : 0 <= width <= 10000009 -> int_text z width "d" v (sprintf z width "d" v).
Proof. intros H. exact (sprintf_ok z width "d" v ltac:(discriminate) H). Qed.
Lemma digit_not c d : 0 <= d < 10 -> is_decimal c = false -> digit_char false d <> c.
Proof. intros H Hc E. pose proof (digit_decimal d H). congruence. Qed.
(** Two alignments of the same digits *)
Lemma copies_snoc c n s : copies c n ++ String c s = String c (copies c n ++ s).
Proof. induction n as [|n IH]; [reflexivity|]. cbn [copies append]. now rewrite IH. Qed.
Section Flags.
  Variable float_text : ascii -> Z -> val -> res string.
  Variable positive : val -> bool.
  Variable json_text : ascii -> string -> res string.
  Variable printed : ascii -> val -> res string.
  Notation text := (format_text float_text positive json_text printed).

  Lemma text_step g w x args : letter x = true -> good_width w ->
    text ("%" ++ flag_text g ++ width_text w ++ String x "") args =
    (let p := Param g (count_of w) None x in let num := required p in
     if (List.length args <? num)%nat then Err
     else bind (validate printed p (firstn num args)) (fun _ => format_one float_text positive json_text printed p (firstn num args))).
  Proof.
    intros L G. unfold format_text. destruct (spec_text_nonempty g w x "") as (c & r & E).
    change ("%" ++ ?t) with (String "%" t). cbn [String.length].
    change (String "%" ?t) with ("%" ++ t). rewrite step by assumption. cbv zeta. destruct (_ <? _)%nat; [reflexivity|]. destruct (validate _ _ _); [|reflexivity|reflexivity]. cbn [bind].
    destruct (format_one _ _ _ _ _ _) as [t| |]; [|reflexivity|reflexivity]. cbn [bind]. destruct (String.length _); cbn [format_loop bind]; now rewrite sapp_empty.
  Qed.
  Lemma fixed_good w : fixed_width w -> good_width w /\ 0 <= width_value w <= 10000009 /\ w <> Star.
  Proof. assert (T : 10000009 < two63) by reflexivity. destruct w; cbn; unfold in64; intros H; try contradiction; (split; [|split; [lia | discriminate]]); try exact I. lia. Qed.
  Lemma int_step g w v : fixed_width w -> text ("%" ++ flag_text g ++ width_text w ++ "d") [VInt v] =
    match g with
    | FPlus => Ok (if 0 <? v then String "+" (sprintf false (width_value w) "d" v) else sprintf false (width_value w) "d" v)
    | FSpace => Ok (String " " (sprintf false (width_value w) "d" v))
    | FQuote => with_commas (dec v)
    | FMinus | FSharp => Err
    | FNone => Ok (sprintf false (width_value w) "d" v)
    | FZero => Ok (sprintf true (width_value w) "d" v)
    end.
  Proof.
    intros F. destruct (fixed_good w F) as (G & Wv & Ns). rewrite text_step by (reflexivity || exact G). cbv zeta.
    destruct w as [|n|]; [| |congruence].
    - change (required _) with 1%nat. cbn [List.length Nat.ltb Nat.leb firstn]. change (validate _ _ _) with (Ok tt). cbn [bind]. destruct g; reflexivity.
    - change (required _) with 1%nat. cbn [List.length Nat.ltb Nat.leb firstn]. change (validate _ _ _) with (Ok tt). cbn [bind].
      unfold format_one, format_int. cbn [spec count_of wid width_of fl]. cbn [width_value fixed_width] in *. replace (n <=? 0) with false by (symmetry; apply Z.leb_gt; lia). destruct g; reflexivity.
  Qed.
End Flags.
Lemma plus_exact w v a : 0 <= w <= 10000009 -> in_base 10 false a (Z.abs v) ->
  (signed_text "+" w v (if 0 <? v then String "+" (sprintf false w "d" v) else sprintf false w "d" v) <-> v < 0 \/ (0 < v /\ w <= Z.of_nat (String.length a))).
Proof.
  intros Hw Ha. destruct (sprintf_d false w v Hw) as (b & up & a' & [= <- <-] & Ia & (k & Ek & Es)). assert (a' = a) by (eapply in_base_unique; eauto; lia). subst a'.
  rewrite Es. destruct (in_base_pos 10 false a (Z.abs v) ltac:(lia) Ha) as [_ La]. rewrite slen_app in Ek. unfold signed_text.
  destruct (Z.ltb_spec v 0) as [N|N].
  - split; [auto|]. intros _. destruct (Z.ltb_spec 0 v); [lia|]. exists a. split; [exact Ha|]. exists k. rewrite slen_app. auto.
  - cbn [String.length append] in *. destruct (Z.ltb_spec 0 v) as [P|P].
    + split.
      * intros (a2 & Ia2 & (k2 & Ek2 & Es2)). assert (a2 = a) by (eapply in_base_unique; eauto; lia). subst a2. right. split; [exact P|].
        cbn [String.length append] in *. assert (k = 0%nat); [|lia]. assert (k2 = k). { assert (L : String.length (String "+" (copies " " k ++ a)) = String.length (copies " " k2 ++ String "+" a)) by now rewrite Es2. cbn [String.length] in L. rewrite !slen_app, !copies_length in L. cbn in L. lia. }
        lia.
      * intros [X|[_ X]]; [lia|]. exists a. split; [exact Ha|]. exists 0%nat. cbn [String.length append copies]. split; [lia|]. replace k with 0%nat by lia. reflexivity.
    + split; [|lia]. intros (a2 & Ia2 & (k2 & Ek2 & Es2)). exfalso. assert (a2 = a) by (eapply in_base_unique; eauto; lia). subst a2. cbn [String.length append] in *.
      assert (v = 0) by lia. subst v. cbn in Ha.
      assert (Ea : a = "0"). { eapply in_base_unique; [|exact Ha|]; [lia|]. exact (in_base_one 10 false 0 ltac:(lia)). } subst a.
      revert Es2. assert (D : forall i j, copies " " i ++ "0" <> copies " " j ++ String "+" "0"). { induction i as [|i IH]; intros [|j]; cbn; try discriminate. intros [= E]. exact (IH j E). } apply D.
Qed.
Lemma space_exact w v a : 0 <= w <= 10000009 -> in_base 10 false a (Z.abs v) ->
  (signed_text " " w v (String " " (sprintf false w "d" v)) <-> 0 <= v /\ w <= Z.of_nat (String.length a)).
Proof.
  intros Hw Ha. destruct (sprintf_d false w v Hw) as (b & up & a' & [= <- <-] & Ia & (k & Ek & Es)). assert (a' = a) by (eapply in_base_unique; eauto; lia). subst a'.
  rewrite Es. destruct (in_base_pos 10 false a (Z.abs v) ltac:(lia) Ha) as [_ La]. rewrite slen_app in Ek. unfold signed_text. split.
  - intros (a2 & Ia2 & (k2 & Ek2 & Es2)). assert (a2 = a) by (eapply in_base_unique; eauto; lia). subst a2.
    assert (L : String.length (String " " (copies " " k ++ (if v <? 0 then "-" else "") ++ a)) = String.length (copies " " k2 ++ (if v <? 0 then "-" else " ") ++ a)) by now rewrite Es2.
    cbn [String.length] in L. rewrite !slen_app, !copies_length in L. rewrite slen_app in Ek2. destruct (Z.ltb_spec v 0); cbn [String.length] in *; lia.
  - intros [P X]. destruct (Z.ltb_spec v 0) as [N|N]; [lia|]. cbn [String.length append] in *. exists a. split; [exact Ha|]. exists 0%nat. cbn [String.length append copies]. split; [lia|]. replace k with 0%nat by lia. reflexivity.
Qed.
