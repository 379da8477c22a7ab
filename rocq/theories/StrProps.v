(** Theorems C50-C52, C54-C56, C96-C98. *)
From Coq Require Import Ascii String List ZArith Lia Bool.
From Verif Require Import GoBase GoBaseFacts Utf8Model Utf8Facts StrModel StrSpec StrProofs.
Import ListNotations.
Open Scope Z_scope.

Definition text (s : string) : sb := Str (ascii_text s).
(** U+00E9, U+4E2D *)
Definition e_acute : Z := 233.
Definition zhong : Z := 20013.

(** ---- C50: SUBSTR ---- *)
Theorem c50_substr_bytes : forall b pos len, (forall l, len = Some l -> 0 <= l) ->
  substr (Byt b) pos len = Ok (Byt (sub_list b pos len)).
Proof. intros b pos len H. cbn [substr]. now rewrite substr_at_exact. Qed.
Print Assumptions c50_substr_bytes.
Example c50_bytes_case : substr (Byt (ascii_text "apple")) (-3) (Some 2) = Ok (Byt (ascii_text "pl")).
Proof. reflexivity. Qed.

(** For STRING only texts of ASCII characters: the others are refuted below. *)
Theorem c50_substr_string_partial : forall rs pos len, Forall (fun r => 0 <= r < 128) rs ->
  (forall l, len = Some l -> 0 <= l) ->
  substr (Str (encode rs)) pos len = Ok (Str (encode (sub_list rs pos len))).
Proof.
  intros rs pos len A H.
  assert (E : rs = map b2z (map z2b rs)).
  { rewrite map_map. rewrite <- (map_id rs) at 1. apply map_ext_in. intros r I.
    rewrite Forall_forall in A. rewrite b2z_z2b_small; [reflexivity|]. specialize (A r I). lia. }
  assert (AO : ascii_only (map z2b rs)).
  { apply Forall_forall. intros a I. apply in_map_iff in I. destruct I as (r & <- & I).
    rewrite Forall_forall in A. specialize (A r I). rewrite b2z_z2b_small; lia. }
  set (s := map z2b rs) in *. rewrite E. rewrite encode_ascii by assumption. cbn [substr].
  rewrite decode_ascii by assumption.
  replace (zlen (map b2z s)) with (zlen s) by (unfold zlen; now rewrite map_length).
  rewrite substr_at_exact by assumption. cbn [bind]. rewrite sub_list_map.
  rewrite encode_ascii; [reflexivity|].
  unfold sub_list. destruct len; [apply Forall_firstn|]; now apply Forall_skipn.
Qed.
Print Assumptions c50_substr_string_partial.
Example c50_string_case : substr (text "apple") 2 (Some 3) = Ok (text "ppl") /\ substr (text "apple") 0 None = Ok (text "apple").
Proof. split; reflexivity. Qed.

(** Whatever follows, the first character of a text that starts with a character
    beyond ASCII is not what SUBSTR(s, 1, 1) returns. *)
Theorem c50_substr_multibyte_refuted : forall r rs, scalar r -> 128 <= r -> Forall scalar rs ->
  exists b, substr (Str (encode (r :: rs))) 1 (Some 1) = Ok (Str [b]) /\
    [b] <> encode (sub_list (r :: rs) 1 (Some 1)) /\ ~ well_formed [b].
Proof.
  intros r rs R B F.
  destruct (encode_scalar_shape r R) as (l & cs & SH & CL & CS & _ & HI). destruct (HI B) as [HL HC].
  assert (EN : encode (r :: rs) = l :: cs ++ encode rs).
  { unfold encode. cbn [flat_map]. now rewrite encode_rune_scalar, SH. }
  assert (NW : ~ well_formed [l]).
  { rewrite well_formed_iff. pose proof (b2z_range l) as RL. cbn [decode].
    destruct (b2z l <? 128) eqn:E; btw; [lia|]. discriminate. }
  exists l. split; [|split; [|assumption]].
  - cbn [substr]. rewrite decode_encode by now constructor. rewrite EN.
    unfold substr_at, substr_len. rewrite zlen_cons. pose proof (zlen_nonneg rs).
    unfold substr_pos. cbn [Z.eqb orb].
    destruct (1 <? - (1 + zlen rs)) eqn:E1; btw; [lia|].
    destruct (1 + zlen rs <? 1) eqn:E2; btw; [lia|]. cbn [Z.ltb Z.compare].
    change (0 <? 1) with true. cbn iota. change (1 <? 0) with false. cbn iota.
    cbn [bind]. change (1 - 1) with 0.
    destruct (1 + zlen rs <? 0 + 1) eqn:E3; btw; [lia|].
    rewrite slice_ok; [reflexivity|lia|]. rewrite zlen_cons. pose proof (zlen_nonneg (cs ++ encode rs)). lia.
  - intros E. apply NW. rewrite E. apply well_formed_encode.
Qed.
Print Assumptions c50_substr_multibyte_refuted.
Example c50_multibyte_case : 128 <= e_acute /\
  substr (Str (encode [e_acute; 97])) 2 (Some 1) <> Ok (Str (encode [97])).
Proof. split; [unfold e_acute; lia|]. vm_compute. discriminate. Qed.

Theorem c50_negative_length : forall v pos l, l < 0 -> substr v pos (Some l) = Err.
Proof.
  intros v pos l H. destruct v; cbn [substr]; unfold substr_at, substr_len;
    destruct (l <? 0) eqn:E; btw; reflexivity || lia.
Qed.
Print Assumptions c50_negative_length.
Example c50_negative_case : substr (text "apple") 1 (Some (-1)) = Err.
Proof. reflexivity. Qed.
Theorem c50_never_panics : forall v pos len, substr v pos len <> GoPanic.
Proof. exact substr_no_panic. Qed.
Print Assumptions c50_never_panics.

(** ---- C51: LPAD, RPAD ---- *)
(** STRING, pad text not empty, length not negative: any characters. *)
Theorem c51_pad_string_partial : forall rs n pat, Forall scalar rs -> 0 <= n ->
  (forall p, pat = Some p -> Forall scalar p /\ p <> []) ->
  (exists out, lpad (Str (encode rs)) n (option_map encode pat) = Ok (Str (encode out)) /\
     padded true rs (match pat with Some p => p | None => [32] end) n out) /\
  (exists out, rpad (Str (encode rs)) n (option_map encode pat) = Ok (Str (encode out)) /\
     padded false rs (match pat with Some p => p | None => [32] end) n out).
Proof.
  intros rs n pat F N P. split.
  - exact (pad_str true rs n pat F N P).
  - unfold rpad. destruct (n <? 0) eqn:E; btw; [lia|]. exact (pad_str false rs n pat F N P).
Qed.
Print Assumptions c51_pad_string_partial.
Example c51_string_case :
  lpad (Str (encode [zhong])) 5 (Some (encode [97; e_acute])) = Ok (Str (encode [97; e_acute; 97; e_acute; zhong])) /\
  rpad (text "abc") 2 None = Ok (text "ab").
Proof. split; vm_compute; reflexivity. Qed.
(** BYTES: the default pad, or one shorter than the missing part. *)
Theorem c51_pad_bytes_partial : forall b n p, 0 <= n -> p <> [] -> (zlen b < n -> zlen p < n - zlen b) ->
  (exists out, lpad (Byt b) n (Some p) = Ok (Byt out) /\ padded true b p n out) /\
  (exists out, rpad (Byt b) n (Some p) = Ok (Byt out) /\ padded false b p n out) /\
  (exists out, lpad (Byt b) n None = Ok (Byt out) /\ padded true b [" "%char] n out).
Proof.
  intros b n p N P H. split; [|split].
  - now apply pad_bytes_ok.
  - unfold rpad. destruct (n <? 0) eqn:E; btw; [lia|]. now apply pad_bytes_ok.
  - now apply pad_bytes_space.
Qed.
Print Assumptions c51_pad_bytes_partial.
Example c51_bytes_case : lpad (Byt (ascii_text "abc")) 8 (Some (ascii_text "de")) = Ok (Byt (ascii_text "dededabc")).
Proof. vm_compute. reflexivity. Qed.
(** Every BYTES pad that is at least as long as the missing part crashes the process. *)
Theorem c51_bytes_pad_panics_refuted : forall b n p, zlen b < n -> n - zlen b <= zlen p ->
  lpad (Byt b) n (Some p) = GoPanic /\ (0 <= n -> rpad (Byt b) n (Some p) = GoPanic).
Proof.
  intros b n p H L.
  assert (G : forall left, pad left (Byt b) n (Some p) = GoPanic).
  { intros left. cbn [pad]. destruct (n <=? zlen b) eqn:E; btw; [lia|].
    unfold pad_bytes. destruct (0 <? n - zlen b - zlen p) eqn:E1; btw; [lia|]. cbn [bind].
    rewrite slice_bad; [reflexivity|]. right. right. cbn. lia. }
  split; [apply G|]. intros N. unfold rpad. destruct (n <? 0) eqn:E; btw; [lia|]. apply G.
Qed.
Print Assumptions c51_bytes_pad_panics_refuted.
Example c51_bytes_panics_case : lpad (Byt (ascii_text "abc")) 5 (Some (ascii_text "defg")) = GoPanic.
Proof. reflexivity. Qed.
(** A negative length, or an empty pad when padding is needed, crashes the process. *)
Theorem c51_negative_or_empty_panics_refuted :
  (forall v n p, n < 0 -> lpad v n p = GoPanic) /\
  (forall s n, zlen (decode s) < n -> lpad (Str s) n (Some []) = GoPanic) /\
  (forall s n, zlen (decode s) < n -> rpad (Str s) n (Some []) = GoPanic).
Proof.
  split; [|split].
  - intros v n p N. unfold lpad. destruct v as [s|b]; cbn [pad].
    + pose proof (zlen_nonneg (decode s)). destruct (n <=? zlen (decode s)) eqn:E; btw; [|lia].
      rewrite slice_bad; [reflexivity|lia].
    + pose proof (zlen_nonneg b). destruct (n <=? zlen b) eqn:E; btw; [|lia].
      rewrite slice_bad; [reflexivity|lia].
  - intros s n H. unfold lpad. cbn [pad]. destruct (n <=? zlen (decode s)) eqn:E; btw; [lia|].
    unfold pad_runes. change (zlen (decode [])) with 0.
    destruct (0 <? n - zlen (decode s) - 0) eqn:E1; btw; [reflexivity|lia].
  - intros s n H. pose proof (zlen_nonneg (decode s)). unfold rpad.
    destruct (n <? 0) eqn:E0; btw; [lia|]. cbn [pad]. destruct (n <=? zlen (decode s)) eqn:E; btw; [lia|].
    unfold pad_runes. change (zlen (decode [])) with 0.
    destruct (0 <? n - zlen (decode s) - 0) eqn:E1; btw; [reflexivity|lia].
Qed.
Print Assumptions c51_negative_or_empty_panics_refuted.

(** ---- C52: TRANSLATE ---- *)
Definition unchained {A} (src tgt : list A) : Prop :=
  forall i j c, (i < j)%nat -> nth_error tgt i = Some c -> nth_error src j <> Some c.
Lemma unchained_apart src tgt : unchained src tgt -> apart src tgt.
Proof.
  revert tgt. induction src as [|s src IH]; intros tgt U; [exact I|].
  destruct tgt as [|t tgt]; [exact I|]. split.
  - intros I. apply In_nth_error in I. destruct I as (j & E).
    apply (U 0%nat (S j) t); [lia|reflexivity|exact E].
  - apply IH. intros i j c L E. apply (U (S i) (S j) c); [lia|exact E].
Qed.
(** BYTES, distinct sources, no target byte is itself a later source. *)
Theorem c52_translate_bytes_partial : forall e src tgt, NoDup src -> unchained src tgt ->
  translate (Byt e) (Byt src) (Byt tgt) = Ok (Byt (translated Ascii.eqb src tgt e)).
Proof.
  intros e src tgt D U. cbn [translate]. rewrite translate_loop_ok; [reflexivity|auto|assumption|auto|].
  now apply unchained_apart.
Qed.
Print Assumptions c52_translate_bytes_partial.
(** STRING: any text, ASCII sources and targets. *)
Theorem c52_translate_string_partial : forall rs src tgt, Forall scalar rs ->
  Forall (fun a => b2z a < 128) src -> Forall (fun a => b2z a < 128) tgt ->
  NoDup src -> unchained src tgt ->
  translate (Str (encode rs)) (Str src) (Str tgt) =
  Ok (Str (encode (translated Z.eqb (map b2z src) (map b2z tgt) rs))).
Proof.
  intros rs src tgt R S T D U. cbn [translate].
  rewrite translate_loop_ok; [|intros c [I|I]|assumption|auto|now apply unchained_apart].
  - cbn [bind]. now rewrite translated_chars.
  - apply encode_rune_ascii. rewrite Forall_forall in S. now apply S.
  - apply encode_rune_ascii. rewrite Forall_forall in T. now apply T.
Qed.
Print Assumptions c52_translate_string_partial.
Example c52_string_case : translate (Str (encode [zhong; 97; 98; 99])) (text "ab") (text "x") = Ok (Str (encode [zhong; 120; 99])).
Proof. vm_compute. reflexivity. Qed.
(** The error is exactly for a repeated source byte. *)
Theorem c52_duplicate_is_error : forall e src tgt,
  translate (Str e) (Str src) (Str tgt) = Err <-> ~ NoDup src.
Proof.
  intros e src tgt. cbn [translate]. pose proof (translate_loop_err byte_as_rune src tgt [] e) as H.
  transitivity (translate_loop byte_as_rune src tgt [] e = Err).
  - destruct (translate_loop byte_as_rune src tgt [] e); cbn [bind]; split; intros; congruence.
  - rewrite H. split; [intros [N|(c & _ & [])]; assumption|now left].
Qed.
Print Assumptions c52_duplicate_is_error.
Example c52_duplicate_case : translate (text "x") (text "aa") (text "bc") = Err.
Proof. reflexivity. Qed.
(** Replacements are made one after the other: whenever the target of one character
    is the next source, the replacement is replaced again. *)
Theorem c52_translate_chain_refuted : forall a b c, a <> b -> b <> c ->
  translate (Byt [a]) (Byt [a; b]) (Byt [b; c]) = Ok (Byt [c]) /\
  translated Ascii.eqb [a; b] [b; c] [a] = [b] /\ [c] <> [b].
Proof.
  intros a b c AB BC.
  assert (E1 : Ascii.eqb b a = false) by (apply Ascii.eqb_neq; congruence).
  assert (E2 : Ascii.eqb a b = false) by (apply Ascii.eqb_neq; congruence).
  split; [|split; [|congruence]].
  - cbn [translate translate_loop existsb orb tl]. rewrite E1. cbn [orb].
    unfold replace_all. cbn [length replace_loop index_of prefixb].
    rewrite !Ascii.eqb_refl. cbn [andb firstn app skipn Nat.add length].
    cbn [replace_loop index_of prefixb]. rewrite Ascii.eqb_refl. reflexivity.
  - unfold translated. cbn [flat_map target]. rewrite Ascii.eqb_refl. reflexivity.
Qed.
Print Assumptions c52_translate_chain_refuted.
Theorem c52_translate_multibyte_refuted : exists rs src tgt, Forall scalar (rs ++ src ++ tgt) /\ NoDup src /\
  unchained src tgt /\
  translate (Str (encode rs)) (Str (encode src)) (Str (encode tgt)) <>
  Ok (Str (encode (translated Z.eqb src tgt rs))).
Proof.
  exists [e_acute], [e_acute], [101]. split; [|split; [|split]].
  - repeat constructor; cbn; unfold scalar, e_acute; lia.
  - repeat constructor. intros [].
  - intros i j c L E1 E2. destruct j as [|[|j]]; [lia|discriminate|discriminate].
  - vm_compute. discriminate.
Qed.
Print Assumptions c52_translate_multibyte_refuted.

(** ---- C54: SPLIT / ARRAY_TO_STRING ---- *)
Theorem c54_split_join : forall s d, well_formed s -> exists l,
  go_split (Str s) (Some (Str d)) = Ok l /\ array_to_string l d [] = Ok (Str s).
Proof.
  intros s d W. eexists. split; [reflexivity|]. rewrite array_to_string_strs. cbn [app].
  now rewrite split_join.
Qed.
Print Assumptions c54_split_join.
Theorem c54_split_pieces : forall rs ds, Forall scalar rs -> Forall scalar ds -> ds <> [] ->
  exists ps, go_split (Str (encode rs)) (Some (Str (encode ds))) = Ok (map (fun p => Str (encode p)) ps) /\
    pieces ds rs ps /\ glue ds ps = rs /\ (forall p i, In p ps -> ~ occurs ds p i).
Proof.
  intros rs ds R D N. destruct (split_chars rs ds R D N) as (ps & P & E). exists ps.
  split; [|split; [assumption|split]].
  - cbn [go_split]. now rewrite E, map_map.
  - now apply pieces_glue.
  - intros p i I. now apply (pieces_clean ds rs ps).
Qed.
Print Assumptions c54_split_pieces.
Theorem c54_split_characters : forall rs, Forall scalar rs ->
  go_split (Str (encode rs)) (Some (Str [])) = Ok (map (fun r => Str (encode [r])) rs).
Proof.
  intros rs R. cbn [go_split split]. rewrite decode_encode, map_map by assumption. f_equal.
  apply map_ext. intros r. unfold encode. cbn [flat_map]. now rewrite app_nil_r.
Qed.
Print Assumptions c54_split_characters.
Theorem c54_split_bytes : forall b d, d <> [] -> exists ps,
  go_split (Byt b) (Some (Byt d)) = Ok (map Byt ps) /\ pieces d b ps.
Proof.
  intros b d D. exists (split d b). split; [reflexivity|]. unfold split.
  destruct d; [congruence|]. apply split_loop_spec; [assumption|lia].
Qed.
Print Assumptions c54_split_bytes.
Theorem c54_split_default : forall s, exists ps, go_split (Str s) None = Ok (map Str ps) /\ pieces [","%char] s ps.
Proof.
  intros s. exists (split [","%char] s). split; [reflexivity|]. unfold split. apply split_loop_spec; [discriminate|lia].
Qed.
Print Assumptions c54_split_default.
Example c54_default_case : go_split (text "a,b") None = Ok [text "a"; text "b"].
Proof. reflexivity. Qed.
(** The cut is determined by the specification. *)
Theorem c54_pieces_unique : forall (d l : list Z) p q, d <> [] -> pieces d l p -> pieces d l q -> p = q.
Proof. exact pieces_fun. Qed.
Print Assumptions c54_pieces_unique.
Example c54_case : go_split (text "aXXbXXX") (Some (text "XX")) = Ok [text "a"; text "b"; text "X"].
Proof. vm_compute. reflexivity. Qed.

(** ---- C55: STRPOS, STARTS_WITH, ENDS_WITH, INSTR ---- *)
Theorem c55_strpos_bytes : forall b p,
  (strpos (Byt b) (Byt p) = Ok 0 <-> forall i, ~ occurs p b i) /\
  (forall i, strpos (Byt b) (Byt p) = Ok (Z.of_nat i + 1) <-> first_occurrence p b i).
Proof.
  intros b p. cbn [strpos]. unfold go_index. destruct (index_of p b) as [k|] eqn:E.
  - pose proof (proj1 (index_of_some _ _ _) E) as H. split.
    + split; [intros X; inversion X; lia|]. intros F. exfalso. apply (F k). apply H.
    + intros i. split.
      * intros X. inversion X. assert (k = i) by lia. now subst.
      * intros F. apply index_of_some in F. do 2 f_equal. congruence.
  - pose proof (proj1 (index_of_none _ _) E) as H. split.
    + split; [intros _; exact H|reflexivity].
    + intros i. split; [intros X; inversion X; lia|]. intros [O _]. exfalso. now apply (H i).
Qed.
Print Assumptions c55_strpos_bytes.
(** STRING: 0 exactly when the text does not occur; otherwise the answer is the
    character position exactly when only ASCII characters come before. *)
Theorem c55_strpos_found : forall rs ps, Forall scalar rs -> Forall scalar ps ->
  (strpos (Str (encode rs)) (Str (encode ps)) = Ok 0 <-> forall i, ~ occurs ps rs i).
Proof.
  intros rs ps R P. destruct ps as [|p ps].
  - split.
    + cbn [strpos encode flat_map]. unfold go_index. destruct (encode rs); discriminate.
    + intros H. exfalso. apply (H 0%nat). now exists [], rs.
  - rewrite <- index_of_none_encode by (assumption || discriminate). cbn [strpos]. unfold go_index.
    destruct (index_of _ _) as [k|]; split; intros X; [|discriminate|reflexivity|reflexivity].
    assert (Z.of_nat k + 1 = 0) by congruence. lia.
Qed.
Print Assumptions c55_strpos_found.
Theorem c55_strpos_position_partial : forall rs ps j, Forall scalar rs -> Forall scalar ps -> ps <> [] ->
  first_occurrence ps rs j ->
  (strpos (Str (encode rs)) (Str (encode ps)) = Ok (Z.of_nat j + 1) <->
   Forall (fun r => r < 128) (firstn j rs)).
Proof.
  intros rs ps j R P N F. cbn [strpos]. unfold go_index.
  rewrite (proj2 (first_occurrence_encode rs ps _ R P N) (ex_intro _ j (conj F eq_refl))).
  pose proof (occurs_bound _ _ _ (proj1 F)) as B.
  rewrite <- encode_length_eq by now apply Forall_firstn.
  rewrite firstn_length, Nat.min_l by lia. split; intros H.
  - assert (Z.of_nat (length (encode (firstn j rs))) + 1 = Z.of_nat j + 1) by congruence. lia.
  - do 2 f_equal. lia.
Qed.
Print Assumptions c55_strpos_position_partial.
Example c55_strpos_case : strpos (text "banana") (text "nan") = Ok 3 /\ first_occurrence [110; 97] [98; 97; 110; 97] 2.
Proof.
  split; [vm_compute; reflexivity|]. split; [now exists [98; 97], []|].
  intros j L (a & b & E & La). destruct a as [|x [|y a]]; cbn in *; try lia; inversion E.
Qed.
Theorem c55_strpos_multibyte_refuted : forall r p, scalar r -> 128 <= r -> scalar p -> p <> r ->
  first_occurrence [p] [r; p] 1 /\
  strpos (Str (encode [r; p])) (Str (encode [p])) <> Ok 2.
Proof.
  intros r p R B P N.
  assert (F : first_occurrence [p] [r; p] 1).
  { split; [now exists [r], []|]. intros j L (a & b & E & La).
    destruct a; [|cbn in La; lia]. cbn in E. inversion E. congruence. }
  split; [exact F|]. intros E.
  assert (S2 : Forall scalar [r; p]) by (repeat constructor; assumption || apply R || apply P).
  assert (S1 : Forall scalar [p]) by (repeat constructor; assumption || apply P).
  change (Ok 2) with (Ok (Z.of_nat 1 + 1)) in E.
  apply c55_strpos_position_partial in E; [|assumption|assumption|discriminate|exact F].
  inversion E. lia.
Qed.
Print Assumptions c55_strpos_multibyte_refuted.
Theorem c55_starts_ends_with : forall rs ps, Forall scalar rs -> Forall scalar ps ->
  (starts_with (Str (encode rs)) (Str (encode ps)) = Ok true <-> exists t, rs = ps ++ t) /\
  (ends_with (Str (encode rs)) (Str (encode ps)) = Ok true <-> exists t, rs = t ++ ps) /\
  (forall b p, (starts_with (Byt b) (Byt p) = Ok true <-> exists t, b = p ++ t) /\
               (ends_with (Byt b) (Byt p) = Ok true <-> exists t, b = t ++ p)).
Proof.
  intros rs ps R P.
  assert (OKI : forall x, Ok x = Ok true <-> x = true) by (intros; split; congruence).
  split; [|split].
  - cbn [starts_with]. rewrite OKI, prefixb_iff. split; intros (t & E).
    + destruct (encode_inj_app ps rs t P R E) as (r2 & -> & _). now exists r2.
    + exists (encode t). subst rs. apply encode_app.
  - cbn [ends_with]. rewrite OKI, suffixb_iff. split; intros (t & E).
    + destruct ps as [|p ps]; [now exists rs; rewrite app_nil_r|].
      destruct (occurrence_chars rs (p :: ps) t [] R P) as (r1 & r2 & -> & _ & E2).
      { discriminate. }
      { now rewrite app_nil_r. }
      assert (r2 = []).
      { pose proof (encode_length_ge r2) as G. rewrite <- E2 in G. destruct r2; [reflexivity|cbn in G; lia]. }
      subst r2. exists r1. now rewrite app_nil_r.
    + exists (encode t). subst rs. apply encode_app.
  - intros b p. cbn [starts_with ends_with]. now rewrite !OKI, prefixb_iff, suffixb_iff.
Qed.
Print Assumptions c55_starts_ends_with.
Example c55_starts_case : starts_with (Str (encode [zhong; 97])) (Str (encode [zhong])) = Ok true /\
  ends_with (text "apple") (text "ple") = Ok true.
Proof. split; reflexivity. Qed.
(** INSTR with a position in 1 .. length-1, on bytes: the occurrence-th match from there. *)
Theorem c55_instr_partial : forall src sub pos occ os, 1 <= pos < zlen src -> 0 < occ ->
  offsets sub src (Z.to_nat (pos - 1)) os ->
  instr (Byt src) (Byt sub) (Some pos) (Some occ) =
    Ok (match nth_error os (Z.to_nat (occ - 1)) with Some i => Z.of_nat i + 1 | None => 0 end).
Proof. intros. cbn [instr]. now apply instr_forward. Qed.
Print Assumptions c55_instr_partial.
Example c55_instr_case : instr (Byt (ascii_text "helloooo")) (Byt (ascii_text "oo")) (Some 1) (Some 2) = Ok 6.
Proof. reflexivity. Qed.
(** Without a position INSTR always fails; so it does when it is the last character. *)
Theorem c55_instr_default_refuted : forall v p occ, instr v p None occ = Err.
Proof. intros v p occ. destruct v, p; reflexivity. Qed.
Print Assumptions c55_instr_default_refuted.
Theorem c55_instr_last_refuted : forall src sub occ, 0 < occ -> src <> [] ->
  instr (Byt src) (Byt sub) (Some (zlen src)) (Some occ) = Err.
Proof.
  intros src sub occ H N. cbn [instr]. unfold instr_at.
  assert (0 < zlen src). { destruct src; [congruence|]. rewrite zlen_cons. pose proof (zlen_nonneg src). lia. }
  destruct (zlen src =? 0) eqn:E1; btw; [lia|]. destruct (occ <=? 0) eqn:E2; btw; [lia|].
  rewrite Z.abs_eq by lia. destruct (zlen src <=? zlen src) eqn:E3; btw; [reflexivity|lia].
Qed.
Print Assumptions c55_instr_last_refuted.
(** Searching backwards reports the wrong place: the only "a" of "abc" is at 1. *)
Theorem c55_instr_backward_refuted : exists src sub i,
  (forall j, occurs sub src j <-> j = i) /\
  instr (Byt src) (Byt sub) (Some (-1)) (Some 1) <> Ok (Z.of_nat i + 1).
Proof.
  exists (ascii_text "abc"), (ascii_text "a"), 0%nat. split; [|vm_compute; discriminate].
  intros j. split.
  - intros (a & b & E & L). destruct a as [|x [|y [|z a]]]; cbn in *; inversion E; auto.
    destruct a; discriminate.
  - intros ->. now exists [], (ascii_text "bc").
Qed.
Print Assumptions c55_instr_backward_refuted.

(** ---- C56: REVERSE ---- *)
Theorem c56_reverse_involution : forall v, (forall s, v = Str s -> well_formed s) ->
  reverse (reverse v) = v /\ length_of (reverse v) = length_of v.
Proof.
  intros [s|b] H; cbn [reverse length_of].
  - assert (R : Forall scalar (rev (decode s))) by (apply Forall_rev, decode_scalars).
    rewrite decode_encode by assumption. rewrite rev_involutive.
    rewrite (well_formed_decode s (H s eq_refl)). split; [reflexivity|]. unfold zlen. now rewrite rev_length.
  - rewrite rev_involutive. split; [reflexivity|]. unfold zlen. now rewrite rev_length.
Qed.
Print Assumptions c56_reverse_involution.
Theorem c56_reverse_characters : forall rs, Forall scalar rs ->
  reverse (Str (encode rs)) = Str (encode (rev rs)) /\ length_of (Str (encode rs)) = zlen rs.
Proof. intros rs R. cbn [reverse length_of]. now rewrite decode_encode. Qed.
Print Assumptions c56_reverse_characters.
Example c56_case : reverse (Str (encode [zhong; 97; e_acute])) = Str (encode [e_acute; 97; zhong]) /\
  well_formed (encode [zhong]).
Proof. split; [vm_compute; reflexivity|apply well_formed_encode]. Qed.

(** ---- C96: LEFT, RIGHT ---- *)
Theorem c96_left_right : forall rs n, Forall scalar rs ->
  (n < 0 -> left_of (Str (encode rs)) n = Err /\ right_of (Str (encode rs)) n = Err) /\
  (0 <= n -> exists a b,
     left_of (Str (encode rs)) n = Ok (Str (encode a)) /\ right_of (Str (encode rs)) n = Ok (Str (encode b)) /\
     zlen a = Z.min n (zlen rs) /\ zlen b = Z.min n (zlen rs) /\
     (exists t, rs = a ++ t) /\ (exists t, rs = t ++ b)).
Proof.
  intros rs n R. split; intros N.
  - unfold left_of, right_of. destruct (n <? 0) eqn:E; btw; [auto|lia].
  - unfold left_of, right_of. destruct (n <? 0) eqn:E; btw; [lia|]. rewrite decode_encode by assumption.
    destruct (zlen rs <=? n) eqn:E1; btw.
    + exists rs, rs. repeat split; try lia; exists []; now rewrite ?app_nil_r.
    + rewrite slice_0 by lia. rewrite slice_ok by lia. cbn [bind].
      exists (firstn (Z.to_nat n) rs), (skipn (Z.to_nat (zlen rs - n)) rs). split; [reflexivity|]. split; [|split; [|split; [|split]]].
      * rewrite firstn_all2; [reflexivity|]. rewrite skipn_length. unfold zlen in *. lia.
      * rewrite zlen_firstn; lia.
      * unfold zlen in *. rewrite skipn_length. lia.
      * exists (skipn (Z.to_nat n) rs). symmetry. apply firstn_skipn.
      * exists (firstn (Z.to_nat (zlen rs - n)) rs). symmetry. apply firstn_skipn.
Qed.
Print Assumptions c96_left_right.
Theorem c96_left_right_bytes : forall b n, 0 <= n -> exists x y,
  left_of (Byt b) n = Ok (Byt x) /\ right_of (Byt b) n = Ok (Byt y) /\
  zlen x = Z.min n (zlen b) /\ zlen y = Z.min n (zlen b) /\ (exists t, b = x ++ t) /\ (exists t, b = t ++ y).
Proof.
  intros b n N. unfold left_of, right_of. destruct (n <? 0) eqn:E; btw; [lia|].
  destruct (zlen b <=? n) eqn:E1; btw.
  + exists b, b. repeat split; try lia; exists []; now rewrite ?app_nil_r.
  + rewrite slice_0 by lia. rewrite slice_ok by lia. cbn [bind].
    exists (firstn (Z.to_nat n) b), (skipn (Z.to_nat (zlen b - n)) b). split; [reflexivity|]. split; [|split; [|split; [|split]]].
    * rewrite firstn_all2; [reflexivity|]. rewrite skipn_length. unfold zlen in *. lia.
    * rewrite zlen_firstn; lia.
    * unfold zlen in *. rewrite skipn_length. lia.
    * exists (skipn (Z.to_nat n) b). symmetry. apply firstn_skipn.
    * exists (firstn (Z.to_nat (zlen b - n)) b). symmetry. apply firstn_skipn.
Qed.
Print Assumptions c96_left_right_bytes.
Example c96_case : left_of (Str (encode [zhong; 97; 98])) 2 = Ok (Str (encode [zhong; 97])) /\
  right_of (Str (encode [97; zhong])) 1 = Ok (Str (encode [zhong])).
Proof. split; vm_compute; reflexivity. Qed.

(** ---- C97: REPLACE, REPEAT ---- *)
Theorem c97_replace_partial : forall rs old new, Forall scalar rs -> Forall scalar old -> old <> [] ->
  exists ps, pieces old rs ps /\
    replace (Str (encode rs)) (Str (encode old)) (Str (encode new)) = Ok (Str (encode (glue new ps))).
Proof.
  intros rs old new R O N. destruct (split_chars rs old R O N) as (ps & P & E). exists ps.
  split; [assumption|]. cbn [replace]. rewrite glue_encode, <- E, <- joinb_glue. do 2 f_equal.
  assert (E0 : encode old <> []).
  { pose proof (encode_length_ge old) as G. destruct old as [|z old]; [congruence|]. cbn [length] in G.
    destruct (encode (z :: old)); [cbn in G; lia|discriminate]. }
  unfold replace_all, split. destruct (encode old); [congruence|]. apply replace_split.
Qed.
Print Assumptions c97_replace_partial.
Example c97_replace_case : replace (text "cherry pie") (text "pie") (text "cobbler") = Ok (text "cherry cobbler").
Proof. vm_compute. reflexivity. Qed.
(** With an empty search text nothing should be replaced; the new text is put in front
    of every character and at the end. *)
Theorem c97_replace_empty_refuted : forall rs new, Forall scalar rs -> new <> [] ->
  replace (Str (encode rs)) (Str []) (Str new) <> Ok (Str (encode rs)).
Proof.
  intros rs new R N E. cbn [replace] in E. assert (L : length (replace_all [] new (encode rs)) = length (encode rs)) by congruence.
  unfold replace_all in L. rewrite app_length, decode_encode in L by assumption.
  assert (G : (length (encode rs) <= length (flat_map (fun r => new ++ encode_rune r) rs))%nat).
  { clear. induction rs as [|r rs IH]; [reflexivity|]. unfold encode in *. cbn [flat_map].
    rewrite !app_length. lia. }
  destruct new; [congruence|]. cbn [length] in L. lia.
Qed.
Print Assumptions c97_replace_empty_refuted.
Theorem c97_repeat_partial : forall rs n, 0 <= n -> exists out,
  repeat_of (Str (encode rs)) n = Ok (Str (encode out)) /\ zlen out = n * zlen rs /\
  forall i, (i < length out)%nat -> nth_error out i = nth_error rs (i mod length rs).
Proof.
  intros rs n N. exists (times (Z.to_nat n) rs). cbn [repeat_of]. unfold go_repeat.
  destruct (n <? 0) eqn:E; btw; [lia|]. cbn [bind]. rewrite <- encode_times. split; [reflexivity|]. split.
  - unfold zlen. rewrite times_length. lia.
  - intros i L. rewrite times_length in L. now apply times_nth.
Qed.
Print Assumptions c97_repeat_partial.
Example c97_repeat_case : repeat_of (text "ab") 3 = Ok (text "ababab").
Proof. reflexivity. Qed.
Theorem c97_repeat_negative_panics_refuted : forall v n, n < 0 -> repeat_of v n = GoPanic.
Proof. intros v n N. destruct v; cbn [repeat_of]; unfold go_repeat; destruct (n <? 0) eqn:E; btw; reflexivity || lia. Qed.
Print Assumptions c97_repeat_negative_panics_refuted.

(** ---- C98: LENGTH, BYTE_LENGTH, CONCAT ---- *)
Theorem c98_concat_length : forall ls, ls <> [] -> Forall (Forall scalar) ls ->
  concat_of (map (fun rs => Str (encode rs)) ls) = Ok (Str (encode (List.concat ls))) /\
  length_of (Str (encode (List.concat ls))) = fold_right (fun rs n => length_of (Str (encode rs)) + n) 0 ls.
Proof.
  intros ls N F. split.
  - destruct ls as [|rs ls]; [congruence|].
    transitivity (Ok (Str (List.concat (map sb_bytes (map (fun rs => Str (encode rs)) (rs :: ls)))))); [reflexivity|].
    do 2 f_equal. rewrite map_map. cbn [sb_bytes]. clear.
    generalize (rs :: ls) as l. induction l as [|x l IH]; [reflexivity|]. cbn [map List.concat].
    now rewrite encode_app, IH.
  - clear N. induction F as [|rs ls R F IH]; [reflexivity|]. cbn [List.concat fold_right].
    rewrite <- IH. cbn [length_of]. rewrite encode_app, decode_encode_app by assumption.
    rewrite zlen_app. now rewrite (decode_encode rs).
Qed.
Print Assumptions c98_concat_length.
Theorem c98_length_bounds : forall v, 0 <= length_of v <= byte_length v.
Proof.
  intros [s|b]; unfold byte_length; cbn [length_of sb_bytes].
  - pose proof (decode_length s). unfold zlen. lia.
  - pose proof (zlen_nonneg b). lia.
Qed.
Print Assumptions c98_length_bounds.
Theorem c98_length_ascii : forall rs, Forall scalar rs ->
  (length_of (Str (encode rs)) = byte_length (Str (encode rs)) <-> Forall (fun r => r < 128) rs).
Proof.
  intros rs R. unfold byte_length. cbn [length_of sb_bytes]. rewrite decode_encode by assumption.
  rewrite <- encode_length_eq by assumption. unfold zlen. lia.
Qed.
Print Assumptions c98_length_ascii.
Example c98_case : length_of (Str (encode [zhong; e_acute; 97])) = 3 /\ byte_length (Str (encode [zhong; e_acute; 97])) = 6.
Proof. split; vm_compute; reflexivity. Qed.
(** CONCAT of BYTES *)
Theorem c98_concat_bytes : forall bs, bs <> [] ->
  concat_of (map Byt bs) = Ok (Byt (List.concat bs)) /\
  length_of (Byt (List.concat bs)) = fold_right (fun b n => length_of (Byt b) + n) 0 bs.
Proof.
  intros bs N. split.
  - destruct bs as [|b bs]; [congruence|].
    transitivity (Ok (Byt (List.concat (map sb_bytes (map Byt (b :: bs)))))); [reflexivity|].
    do 2 f_equal. rewrite map_map. cbn [sb_bytes]. now rewrite map_id.
  - clear N. induction bs as [|b bs IH]; [reflexivity|]. cbn [List.concat fold_right]. rewrite <- IH. cbn [length_of]. apply zlen_app.
Qed.
Print Assumptions c98_concat_bytes.
Example c98_bytes_case : concat_of [Byt ["255"%char]; Byt ["000"%char; "001"%char]] = Ok (Byt ["255"%char; "000"%char; "001"%char]).
Proof. reflexivity. Qed.
