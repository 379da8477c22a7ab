(** Lemmas about TextModel. *)
From Coq Require Import Ascii String List ZArith QArith Lia Bool SpecFloat.
From Verif Require Import GoBase ValueModel Utf8Model Utf8Facts CodecModel CodecSpec CodecProofs TextModel TextSpec.
Import ListNotations.
Local Open Scope string_scope.
Open Scope Z_scope.

Lemma code_b2z c : code c = b2z c.
Proof. unfold code, b2z. unfold nat_of_ascii. now rewrite N_nat_Z. Qed.
Lemma code_point_scalar n : code_point n <-> scalar n.
Proof. unfold code_point, scalar. lia. Qed.
Lemma code_points_scalar rs : Forall code_point rs <-> Forall scalar rs.
Proof. split; intros H; eapply Forall_impl; try exact H; intros n; apply code_point_scalar. Qed.
Lemma txt_str b : txt (str b) = b.
Proof. apply list_ascii_of_string_of_list_ascii. Qed.
Lemma str_txt s : str (txt s) = s.
Proof. apply string_of_list_ascii_of_string. Qed.
Lemma text_of_str rs : Forall code_point rs -> text_of rs (str (encode rs)).
Proof. intros H. split; [exact H|]. apply txt_str. Qed.
Lemma decode_text_of rs s : text_of rs s -> decode (txt s) = rs.
Proof. intros (A & B). unfold txt. rewrite B. apply decode_encode. now apply code_points_scalar. Qed.
Lemma rune32_small n : 0 <= n < 1114112 -> rune32 n = n.
Proof. intros H. unfold rune32. rewrite Z.mod_small; lia. Qed.
Lemma encode_one n : encode [n] = encode_rune n.
Proof. unfold encode. cbn [flat_map]. apply app_nil_r. Qed.
Lemma chr_text n : code_point n -> n <> 0 -> text_of [n] (fn_chr n).
Proof.
  intros C N. unfold fn_chr. destruct (Z.eqb_spec n 0) as [|_]; [contradiction|]. rewrite rune32_small by (unfold code_point in C; lia). rewrite <- encode_one.
  apply text_of_str. now constructor.
Qed.
Lemma chr_other n : ~ code_point n -> text_of [65533] (fn_chr n) \/ exists m, code_point m /\ (n - m) mod 4294967296 = 0 /\ text_of [m] (fn_chr n).
Proof.
  intros C. unfold fn_chr. destruct (Z.eqb_spec n 0) as [->|_]; [destruct C; left; lia|].
  destruct (scalarb (rune32 n)) eqn:E.
  - right. exists (rune32 n). apply scalarb_iff in E. apply code_point_scalar in E. split; [exact E|]. split.
    + unfold rune32. pose proof (Z.div_mod (n + 2147483648) 4294967296 ltac:(lia)) as D. remember ((n + 2147483648) / 4294967296) as q. remember ((n + 2147483648) mod 4294967296) as m.
      replace (n - (m - 2147483648)) with (q * 4294967296) by lia. apply Z.mod_mul. lia.
    + rewrite <- encode_one. apply text_of_str. now constructor.
  - left. assert (F : encode_rune (rune32 n) = encode_rune 65533) by (unfold encode_rune; rewrite E; reflexivity). rewrite F, <- encode_one. apply text_of_str. constructor; [|constructor]. right. lia.
Qed.
Lemma first_byte r rs s : text_of (r :: rs) s -> exists c t, s = String c t /\
  (r < 128 -> b2z c = r) /\ (128 <= r -> 194 <= b2z c <= 244).
Proof.
  intros (A & B). inversion A as [|x l C F]; subst. apply code_point_scalar in C. assert (B' : list_ascii_of_string s = (encode_rune r ++ encode rs)%list) by exact B.
  rewrite encode_rune_scalar in B' by exact C. unfold scalar in C. unfold encode_scalar in B'.
  assert (D4 : 0 <= r / 262144 <= 4) by (split; [apply Z.div_pos; lia|apply Z.lt_succ_r, Z.div_lt_upper_bound; lia]).
  destruct (Z.leb_spec r 127); [|destruct (Z.leb_spec r 2047); [|destruct (Z.leb_spec r 65535)]]; destruct s as [|c t]; cbn [list_ascii_of_string app] in B'; try discriminate;
    exists c, t; (split; [reflexivity|]).
  - assert (E : c = z2b r) by congruence. subst c. rewrite b2z_z2b_small by lia. lia.
  - assert (E : c = z2b (192 + r / 64)) by congruence. subst c.
    assert (D : 2 <= r / 64 <= 31) by (split; [apply Z.div_le_lower_bound; lia|apply Z.lt_succ_r, Z.div_lt_upper_bound; lia]). rewrite b2z_z2b_small by lia. lia.
  - assert (E : c = z2b (224 + r / 4096)) by congruence. subst c.
    assert (D : 0 <= r / 4096 <= 15) by (split; [apply Z.div_pos; lia|apply Z.lt_succ_r, Z.div_lt_upper_bound; lia]). rewrite b2z_z2b_small by lia. lia.
  - assert (E : c = z2b (240 + r / 262144)) by congruence. subst c. rewrite b2z_z2b_small by lia. lia.
Qed.

Lemma upper_ascii_byte c : upper_byte c (upper_ascii c).
Proof.
  unfold upper_byte, upper_ascii. rewrite !code_b2z. fold (between 97 122 (b2z c)). destruct (between 97 122 (b2z c)) eqn:E; [|reflexivity].
  apply between_true in E. rewrite b2z_z2b_small; lia.
Qed.
Lemma lower_letter_byte c : lower_byte c (lower_letter c).
Proof.
  unfold lower_byte, lower_letter. rewrite !code_b2z. fold (between 65 90 (b2z c)). destruct (between 65 90 (b2z c)) eqn:E; [|reflexivity].
  apply between_true in E. rewrite b2z_z2b_small; lia.
Qed.
Lemma code_inj c d : code c = code d -> c = d.
Proof. rewrite !code_b2z. apply b2z_inj. Qed.
Lemma bytewise_map (R : ascii -> ascii -> Prop) f : (forall c, R c (f c)) -> (forall c d e, R c d -> R c e -> d = e) ->
  forall s t, bytewise R s t <-> t = str (map f (txt s)).
Proof.
  intros H U s t. unfold bytewise. split.
  - intros F. rewrite <- (str_txt t). f_equal. unfold txt. induction F as [|c d l l' E F IH]; [reflexivity|]. cbn [map]. f_equal; [eapply U; eauto|exact IH].
  - intros ->. change (list_ascii_of_string (str (map f (txt s)))) with (txt (str (map f (txt s)))). rewrite txt_str. unfold txt. induction (list_ascii_of_string s); constructor; auto.
Qed.
Lemma upper_map s t : bytewise upper_byte s t <-> t = str (map upper_ascii (txt s)).
Proof. apply bytewise_map; [exact upper_ascii_byte|]. intros c d e A B. apply code_inj. unfold upper_byte in *. congruence. Qed.
Lemma lower_map s t : bytewise lower_byte s t <-> t = str (map lower_letter (txt s)).
Proof. apply bytewise_map; [exact lower_letter_byte|]. intros c d e A B. apply code_inj. unfold lower_byte in *. congruence. Qed.
Lemma all_ascii_iff s : all_ascii (txt s) = true <-> ascii_text s.
Proof.
  unfold all_ascii, ascii_text, txt. rewrite forallb_forall, Forall_forall. split; intros H c I; specialize (H c I); cbn beta in H; pose proof (code_b2z c); [apply Z.ltb_lt in H; lia|apply Z.ltb_lt; lia].
Qed.
Lemma ascii_well s : ascii_text s -> well_formed (txt s).
Proof. intros H. apply ascii_well_formed. unfold ascii_only. eapply Forall_impl; [|exact H]. intros c H0. pose proof (code_b2z c). cbn beta in *. lia. Qed.
Lemma no_letter_upper s : no_letter s -> map upper_ascii (txt s) = txt s /\ map lower_letter (txt s) = txt s.
Proof.
  unfold no_letter, txt. induction (list_ascii_of_string s) as [|c l IH]; intros H; [split; reflexivity|]. inversion H; subst. destruct (IH H3) as [A B]. unfold letter in H2. rewrite code_b2z in H2.
  assert (U : upper_ascii c = c) by (unfold upper_ascii; destruct (between 97 122 (b2z c)) eqn:E; [apply between_true in E; lia|reflexivity]).
  assert (L : lower_letter c = c) by (unfold lower_letter; destruct (between 65 90 (b2z c)) eqn:E; [apply between_true in E; lia|reflexivity]).
  split; cbn [map]; congruence.
Qed.
Lemma not_well_not_ascii s : ~ well_formed (txt s) -> all_ascii (txt s) = false.
Proof. intros H. destruct (all_ascii (txt s)) eqn:E; [|reflexivity]. destruct H. apply ascii_well. now apply all_ascii_iff. Qed.
Lemma map_runes_well f b : well_formed (map_runes f b).
Proof. apply well_formed_encode. Qed.

Lemma make_fields_all ot l : make_fields ot (flat_map (fun p => [Some (VStr (fst p)); snd p]) l) = Ok l.
Proof. induction l as [|[k o] l IH]; [reflexivity|]. cbn [flat_map app make_fields to_text bind fst snd]. rewrite IH. reflexivity. Qed.
Lemma pairs_even (l : list (string * option val)) : Nat.odd (length (flat_map (fun p => [Some (VStr (fst p)); snd p]) l)) = false.
Proof. induction l as [|p l IH]; [reflexivity|]. cbn [flat_map app length]. exact IH. Qed.
Lemma make_struct_all ot l : bind_make_struct ot (flat_map (fun p => [Some (VStr (fst p)); snd p]) l) = Ok (Some (VStruct l)).
Proof. unfold bind_make_struct. now rewrite pairs_even, make_fields_all. Qed.
Lemma same_fields_nth : forall l l', same (VStruct l) (VStruct l') -> forall i k o, nth_error l i = Some (k, o) ->
  exists o', nth_error l' i = Some (k, o') /\ same_opt o o'.
Proof.
  induction l as [|[k0 o0] l IH]; intros l' S i k o E; [destruct i; discriminate|]. destruct l' as [|[k1 o1] l']; [cbn in S; contradiction|].
  assert (S' : k0 = k1 /\ same_opt o0 o1 /\ same (VStruct l) (VStruct l')) by (cbn in S; exact S). destruct S' as (-> & A & B). destruct i as [|i]; cbn [nth_error] in *.
  - exists o1. assert (k = k1 /\ o = o0) as [-> ->] by (split; congruence). auto.
  - eauto.
Qed.
