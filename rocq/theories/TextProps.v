(** C317-C326: characters, letters, and fields of structs. *)
From Coq Require Import Ascii String List ZArith QArith Lia Bool SpecFloat.
From Verif Require Import GoBase ValueModel ValueFacts Utf8Model Utf8Facts CodecModel CodecSpec CodecProofs CodecProps TextModel TextSpec TextProofs.
Import ListNotations.
Local Open Scope string_scope.
Open Scope Z_scope.

(** The letter tables, the normal forms and the conversions of other types are arbitrary. *)
Section Text.
Variable up lo : Z -> Z.
Variable other_text : val -> res string.
Variable other_int : val -> res Z.
Variable nfc nfd nfkc nfkd : string -> string.
Let chr := bind_chr other_int.
Let unicode := bind_unicode other_text.
Let first_ascii := bind_ascii other_text.
Let upper := bind_upper up.
Let lower := bind_lower lo.
Let contains_substr := bind_contains_substr other_text.
Let collate := bind_collate other_text.
Let normalize := bind_normalize other_text nfc nfd nfkc nfkd.
Let casefold := bind_normalize_and_casefold lo other_text nfc nfd nfkc nfkd.
Let error := bind_error other_text.
Let field := struct_then_field other_text other_int.

(** ** C317: CHR and UNICODE *)
Theorem c317_round : forall n, code_point n ->
  exists s, chr (Some (VInt n)) = Ok (Some (VStr s)) /\ text_of (if n =? 0 then [] else [n]) s /\
            unicode (Some (VStr s)) = Ok (Some (VInt n)).
Proof.
  intros n C. exists (fn_chr n). split; [reflexivity|]. destruct (Z.eqb_spec n 0) as [->|N].
  - split; [split; [constructor|reflexivity]|reflexivity].
  - pose proof (chr_text n C N) as T. split; [exact T|]. subst unicode. cbn [bind_unicode to_text bind]. unfold fn_unicode. now rewrite (decode_text_of _ _ T).
Qed.
Theorem c317_first : forall r rs s, text_of (r :: rs) s -> unicode (Some (VStr s)) = Ok (Some (VInt r)).
Proof. intros r rs s T. subst unicode. cbn [bind_unicode to_text bind]. unfold fn_unicode. now rewrite (decode_text_of _ _ T). Qed.
Theorem c317_null : chr None = Ok None /\ unicode None = Ok None /\ unicode (Some (VStr "")) = Ok (Some (VInt 0)).
Proof. repeat split. Qed.

(** ** C318: numbers that are no code points *)
(** None of them is an error: the result is U+FFFD or the character of another number. *)
Theorem c318_error_refuted : forall n, ~ code_point n ->
  exists s, chr (Some (VInt n)) = Ok (Some (VStr s)) /\
    (text_of [65533] s \/ exists m, code_point m /\ (n - m) mod 2 ^ 32 = 0 /\ text_of [m] s).
Proof. intros n C. exists (fn_chr n). split; [reflexivity|]. exact (chr_other n C). Qed.

(** ** C319: ASCII *)
(** Full property: ASCII returns the code of the first character, and an error if that is
    128 or more. *)
Theorem c319_ascii_partial : forall r rs s, text_of (r :: rs) s -> r < 128 -> first_ascii (Some (VStr s)) = Ok (Some (VInt r)).
Proof.
  intros r rs s T H. destruct (first_byte r rs s T) as (c & t & -> & A & _). subst first_ascii. cbn [bind_ascii to_text bind]. cbn [String.eqb fn_ascii bind]. now rewrite (A H).
Qed.
Theorem c319_none_partial : first_ascii None = Ok None /\ first_ascii (Some (VStr "")) = Ok (Some (VInt 0)).
Proof. split; reflexivity. Qed.
Theorem c319_error_refuted : forall r rs s, text_of (r :: rs) s -> 128 <= r ->
  exists z, first_ascii (Some (VStr s)) = Ok (Some (VInt z)) /\ 194 <= z <= 244.
Proof.
  intros r rs s T H. destruct (first_byte r rs s T) as (c & t & -> & _ & A). exists (b2z c). split; [reflexivity|auto].
Qed.

(** ** C320: UPPER and LOWER of ASCII text *)
Theorem c320_upper : forall s, ascii_text s ->
  exists t, bytewise upper_byte s t /\ upper (Some (VStr s)) = Ok (Some (VStr t)) /\ upper (Some (VBytes s)) = Ok (Some (VBytes t)).
Proof.
  intros s A. exists (str (map upper_ascii (txt s))). split; [now apply upper_map|]. subst upper. cbn [bind_upper]. unfold to_upper. apply all_ascii_iff in A. rewrite A. split; reflexivity.
Qed.
Theorem c320_lower : forall s, ascii_text s ->
  exists t, bytewise lower_byte s t /\ lower (Some (VStr s)) = Ok (Some (VStr t)) /\ lower (Some (VBytes s)) = Ok (Some (VBytes t)).
Proof.
  intros s A. exists (str (map lower_letter (txt s))). split; [now apply lower_map|]. subst lower. cbn [bind_lower]. unfold to_lower. apply all_ascii_iff in A. rewrite A. split; reflexivity.
Qed.
Theorem c320_null : upper None = Ok None /\ lower None = Ok None.
Proof. split; reflexivity. Qed.
(** Other texts are mapped character by character, without a look at the neighbours. *)
Theorem c320_characters : forall rs s, text_of rs s -> ~ ascii_text s -> Forall code_point (map up rs) -> Forall code_point (map lo rs) ->
  (exists t, text_of (map up rs) t /\ upper (Some (VStr s)) = Ok (Some (VStr t))) /\
  (exists t, text_of (map lo rs) t /\ lower (Some (VStr s)) = Ok (Some (VStr t))).
Proof.
  intros rs s T N U L. assert (E : all_ascii (txt s) = false) by (destruct (all_ascii (txt s)) eqn:X; [apply all_ascii_iff in X; contradiction|reflexivity]).
  split; [exists (str (encode (map up rs)))|exists (str (encode (map lo rs)))]; (split; [now apply text_of_str|]);
    [subst upper|subst lower]; cbn [bind_upper bind_lower]; unfold to_upper, to_lower; rewrite E; unfold map_runes; rewrite (decode_text_of _ _ T); reflexivity.
Qed.

(** ** C321: UPPER and LOWER of BYTES *)
(** Full property: byte by byte, leaving the bytes of 128 and more alone. *)
Theorem c321_ascii_partial : forall s t, ascii_text s ->
  (bytewise upper_byte s t <-> upper (Some (VBytes s)) = Ok (Some (VBytes t))) /\
  (bytewise lower_byte s t <-> lower (Some (VBytes s)) = Ok (Some (VBytes t))).
Proof.
  intros s t A. destruct (c320_upper s A) as (u & U & _ & EU), (c320_lower s A) as (l & L & _ & EL). rewrite upper_map, lower_map. apply upper_map in U. apply lower_map in L.
  rewrite EU, EL. split; split; congruence.
Qed.
(** Bytes that are not UTF-8 never come back, even without any letter among them. *)
Theorem c321_invalid_refuted : forall s, ~ well_formed (list_ascii_of_string s) -> no_letter s ->
  bytewise upper_byte s s /\ bytewise lower_byte s s /\
  upper (Some (VBytes s)) <> Ok (Some (VBytes s)) /\ lower (Some (VBytes s)) <> Ok (Some (VBytes s)).
Proof.
  intros s W N. destruct (no_letter_upper s N) as [A B]. split; [apply upper_map; now rewrite A, str_txt|]. split; [apply lower_map; now rewrite B, str_txt|].
  assert (F := not_well_not_ascii s W).
  split; [subst upper|subst lower]; cbn [bind_upper bind_lower]; unfold to_upper, to_lower; rewrite F; intros H; apply W; change (list_ascii_of_string s) with (txt s);
    [assert (E : s = str (map_runes up (txt s))) by congruence|assert (E : s = str (map_runes lo (txt s))) by congruence]; rewrite E, txt_str; apply map_runes_well.
Qed.
(** A letter outside ASCII changes case. *)
Theorem c321_letter_refuted : forall r s, text_of [r] s -> 128 <= r -> up r <> r -> code_point (up r) ->
  bytewise upper_byte s s /\ upper (Some (VBytes s)) <> Ok (Some (VBytes s)).
Proof.
  intros r s T R U C. assert (NA : all_ascii (txt s) = false).
  { destruct (all_ascii (txt s)) eqn:X; [|reflexivity]. exfalso. destruct (first_byte r [] s T) as (c & t & -> & _ & A). cbn [txt list_ascii_of_string all_ascii forallb] in X. apply andb_prop in X. destruct X as [X _]. apply Z.ltb_lt in X. specialize (A R). lia. }
  split.
  - apply upper_map. assert (M : map upper_ascii (txt s) = txt s); [|now rewrite M, str_txt]. destruct T as (F & E). unfold txt. rewrite E, encode_one. inversion F; subst. apply code_point_scalar in H1.
    rewrite encode_rune_scalar by exact H1. unfold scalar in H1.
    assert (Z1 : forall z, 128 <= z < 256 -> upper_ascii (z2b z) = z2b z). { intros z Hz. unfold upper_ascii. rewrite b2z_z2b_small by lia. replace (between 97 122 z) with false; [reflexivity|]. symmetry. apply between_false. lia. }
    assert (M64 : forall a, 0 <= a mod 64 < 64) by (intros a; apply Z.mod_pos_bound; lia).
    assert (D1 : r <= 2047 -> 0 <= r / 64 <= 31) by (intros; split; [apply Z.div_pos; lia|apply Z.lt_succ_r, Z.div_lt_upper_bound; lia]).
    assert (D2 : r <= 65535 -> 0 <= r / 4096 <= 15) by (intros; split; [apply Z.div_pos; lia|apply Z.lt_succ_r, Z.div_lt_upper_bound; lia]).
    assert (D3 : 0 <= r / 262144 <= 4) by (split; [apply Z.div_pos; lia|apply Z.lt_succ_r, Z.div_lt_upper_bound; lia]).
    pose proof (M64 r). pose proof (M64 (r / 64)). pose proof (M64 (r / 4096)).
    unfold encode_scalar. destruct (Z.leb_spec r 127); [lia|]. destruct (Z.leb_spec r 2047); [|destruct (Z.leb_spec r 65535)]; cbn [map]; rewrite !Z1 by lia; reflexivity.
  - subst upper. cbn [bind_upper]. unfold to_upper. rewrite NA. unfold map_runes. rewrite (decode_text_of _ _ T). intros H. apply U.
    assert (E : txt s = encode [up r]) by (assert (E0 : s = str (encode [up r])) by (cbn [map] in H; congruence); rewrite E0 at 1; apply txt_str).
    pose proof (decode_text_of _ _ T) as D. rewrite E, decode_encode in D by (constructor; [now apply code_point_scalar|constructor]). congruence.
Qed.

(** ** C322: CONTAINS_SUBSTR *)
(** It is NULL whatever is searched for, never TRUE or FALSE. *)
Theorem c322_refuted : forall v s, contains_substr (Some v) (Some (VStr s)) = Ok None /\ contains_substr None (Some (VStr s)) = Ok None /\ contains_substr (Some v) None = Err.
Proof. repeat split. Qed.

(** ** C323: COLLATE *)
(** Full property: under the specification und:ci texts that differ in case only are equal. *)
Theorem c323_same_partial : forall v spec r, collate (Some (VStr v)) (Some (VStr spec)) = Ok r -> r = Some (VStr v).
Proof.
  intros v spec r. subst collate. cbn [bind_collate to_text bind]. unfold fn_collate. destruct (split [":"%char] (txt spec)) as [|a [|b [|c l]]]; try discriminate. destruct (String.eqb _ _); [congruence|discriminate].
Qed.
Theorem c323_case_refuted : forall v w, v <> w ->
  exists a b, collate (Some (VStr v)) (Some (VStr "und:ci")) = Ok (Some a) /\ collate (Some (VStr w)) (Some (VStr "und:ci")) = Ok (Some b) /\
    cmp EQ a b = Ok false.
Proof.
  intros v w N. exists (VStr v), (VStr w). split; [reflexivity|]. split; [reflexivity|]. cbn. destruct (bytes_compare v w) eqn:E; [|reflexivity|reflexivity]. apply bytes_compare_eq in E. contradiction.
Qed.
(** The specification binary is an error, as are the empty one and unicode:cs. *)
Theorem c323_binary_refuted : forall v, collate (Some (VStr v)) (Some (VStr "binary")) = Err /\
  collate (Some (VStr v)) (Some (VStr "")) = Err /\ collate (Some (VStr v)) (Some (VStr "unicode:cs")) = Err.
Proof. repeat split. Qed.
Theorem c323_null_partial : forall spec, collate None spec = Ok None.
Proof. reflexivity. Qed.

(** ** C324: NORMALIZE and NORMALIZE_AND_CASEFOLD *)
Definition form (mode : string) (f : string -> string) : Prop :=
  (mode = "NFC" /\ f = nfc) \/ (mode = "NFD" /\ f = nfd) \/ (mode = "NFKC" /\ f = nfkc) \/ (mode = "NFKD" /\ f = nfkd).
Theorem c324_normalize_partial : forall s mode f, form mode f ->
  normalize [Some (VStr s); Some (VStr mode)] = Ok (Some (VStr (f s))) /\ normalize [Some (VStr s)] = Ok (Some (VStr (nfc s))).
Proof. intros s mode f [[-> ->]|[[-> ->]|[[-> ->]|[-> ->]]]]; split; reflexivity. Qed.
Theorem c324_null_partial : forall v, normalize [None] = Ok None /\ casefold [None] = Ok None /\
  normalize [v; None] = Ok None /\ normalize [None; v] = Ok None /\ casefold [v; None] = Ok None /\ casefold [None; v] = Ok None.
Proof. intros [v|]; repeat split. Qed.
Theorem c324_mode_partial : forall s mode, ~ In mode ["NFC"; "NFD"; "NFKC"; "NFKD"] ->
  normalize [Some (VStr s); Some (VStr mode)] = Err /\ casefold [Some (VStr s); Some (VStr mode)] = Err.
Proof.
  intros s mode N. assert (E : forall t, fn_normalize nfc nfd nfkc nfkd t mode = Err).
  { intros t. unfold fn_normalize. destruct (String.eqb_spec mode "NFC") as [->|]; [destruct N; cbn; tauto|]. destruct (String.eqb_spec mode "NFD") as [->|]; [destruct N; cbn; tauto|].
    destruct (String.eqb_spec mode "NFKC") as [->|]; [destruct N; cbn; tauto|]. destruct (String.eqb_spec mode "NFKD") as [->|]; [destruct N; cbn; tauto|]. reflexivity. }
  split; apply E.
Qed.
(** For ASCII text, texts that differ in case only give the same result. *)
Theorem c324_ascii_partial : forall s t u mode f, form mode f -> ascii_text s -> ascii_text t -> bytewise lower_byte s u -> bytewise lower_byte t u ->
  casefold [Some (VStr s); Some (VStr mode)] = Ok (Some (VStr (f u))) /\ casefold [Some (VStr t); Some (VStr mode)] = Ok (Some (VStr (f u))).
Proof.
  intros s t u mode f F A B Ls Lt. apply lower_map in Ls, Lt. apply all_ascii_iff in A, B.
  assert (E : forall x, all_ascii (txt x) = true -> u = str (map lower_letter (txt x)) -> casefold [Some (VStr x); Some (VStr mode)] = Ok (Some (VStr (f u)))).
  { intros x X Y. subst casefold. unfold bind_normalize_and_casefold. cbn [with_mode to_text bind]. unfold fn_normalize_and_casefold, to_lower. rewrite X, <- Y.
    destruct F as [[-> ->]|[[-> ->]|[[-> ->]|[-> ->]]]]; reflexivity. }
  split; apply E; assumption.
Qed.
(** The letters that a normal form brings in are not folded: U+2102, which has no lower case
    and is normalized to C, stays C, while c gives c. *)
Theorem c324_after_refuted : forall s, text_of [8450] s -> lo 8450 = 8450 -> nfkc s = "C" -> nfkc "c" = "c" ->
  casefold [Some (VStr s); Some (VStr "NFKC")] = Ok (Some (VStr "C")) /\ casefold [Some (VStr "c"); Some (VStr "NFKC")] = Ok (Some (VStr "c")).
Proof.
  intros s T L N M. assert (NA : all_ascii (txt s) = false). { destruct T as (_ & E). unfold txt. rewrite E. reflexivity. }
  subst casefold. unfold bind_normalize_and_casefold. cbn [with_mode to_text bind]. unfold fn_normalize_and_casefold, to_lower. rewrite NA. unfold map_runes. rewrite (decode_text_of _ _ T). cbn [map]. rewrite L.
  assert (E : str (encode [8450]) = s) by (destruct T as (_ & E); rewrite <- E; apply str_txt). rewrite E. split; unfold fn_normalize; cbn [String.eqb Ascii.eqb Bool.eqb].
  - now rewrite N.
  - transitivity (Ok (Some (VStr (nfkc "c")))); [reflexivity|now rewrite M].
Qed.

(** ** C325: ERROR *)
(** Full property: ERROR never returns. *)
Theorem c325_text_partial : forall s, error (Some (VStr s)) = Err.
Proof. reflexivity. Qed.
Theorem c325_null_refuted : error None = Ok None.
Proof. reflexivity. Qed.

(** ** C326: fields of a constructed struct *)
Theorem c326_field_partial : forall l i k o, Forall (fun p => text_ok (fst p) /\ storable_opt (snd p)) l -> nth_error l i = Some (k, o) ->
  exists o', field l (Z.of_nat i) = Ok o' /\ same_opt o o'.
Proof.
  intros l i k o S E. apply (proj2 (storable_struct false l)) in S. destruct (proj2 c26_stored_values_come_back_partial (VStruct l) S) as (w & R & Q).
  destruct w; try (cbn in Q; contradiction). destruct (same_fields_nth _ _ Q _ _ _ E) as (o' & E' & Q'). exists o'. split; [|exact Q'].
  subst field. unfold struct_then_field. rewrite make_struct_all. cbn [bind]. rewrite R. cbn [bind bind_struct_field to_int].
  destruct (Z.ltb_spec (Z.of_nat i) 0); [lia|]. now rewrite Nat2Z.id, E'.
Qed.
(** An INT64 comes back as a FLOAT64, so that from 2^53 on another number can come back. *)
Theorem c326_integer_refuted :
  (forall k z, text_ok k -> field [(k, Some (VInt z))] 0 = Ok (Some (VFloat (float_of_int z)))) /\
  exists z, - 2 ^ 63 <= z < 2 ^ 63 /\ ~ float_is (float_of_int z) z.
Proof.
  split.
  - intros k z T. subst field. unfold struct_then_field. rewrite make_struct_all. cbn [bind]. unfold round_trip, encode_opt. cbn. try reflexivity.
  - exists (2 ^ 53 + 1). split; [lia|]. change (float_of_int (2 ^ 53 + 1)) with (S754_finite false 4503599627370496 1). intros [a [A B]]. cbn in A. subst a. revert B. vm_compute. discriminate.
Qed.
End Text.

(** Libraries for the examples. *)
Definition t_up (r : Z) : Z := if r =? 233 then 201 else r.
Definition t_text (v : val) : res string := Err.
Definition t_int (v : val) : res Z := Err.
Definition acute_e : string := str (encode [233]).
Lemma acute_text : text_of [233] acute_e.
Proof. apply text_of_str. constructor; [left; lia|constructor]. Qed.
Example c317_example : bind_chr t_int (Some (VInt 233)) = Ok (Some (VStr acute_e)) /\ bind_unicode t_text (Some (VStr acute_e)) = Ok (Some (VInt 233)).
Proof. split; reflexivity. Qed.
Example c318_example : ~ code_point (-1) /\ ~ code_point (2 ^ 32 + 65) /\ bind_chr t_int (Some (VInt (2 ^ 32 + 65))) = Ok (Some (VStr "A")).
Proof. split; [unfold code_point; lia|]. split; [unfold code_point; lia|reflexivity]. Qed.
Example c319_example : bind_ascii t_text (Some (VStr "abc")) = Ok (Some (VInt 97)) /\ bind_ascii t_text (Some (VStr acute_e)) = Ok (Some (VInt 195)).
Proof. split; reflexivity. Qed.
Example c320_example : bind_upper t_up (Some (VStr "a-Z")) = Ok (Some (VStr "A-Z")) /\ bind_lower t_up (Some (VBytes "a-Z")) = Ok (Some (VBytes "a-z")) /\
  ~ ascii_text acute_e /\ Forall code_point (map t_up [233]).
Proof. split; [reflexivity|]. split; [reflexivity|]. split; [intros H; apply all_ascii_iff in H; discriminate|]. constructor; [left; cbn; lia|constructor]. Qed.
Example c321_example : let s := String "255"%char "" in ~ well_formed (list_ascii_of_string s) /\ no_letter s /\
  bind_upper t_up (Some (VBytes s)) = Ok (Some (VBytes (str (encode [65533])))) /\
  t_up 233 <> 233 /\ code_point (t_up 233) /\ bind_upper t_up (Some (VBytes acute_e)) = Ok (Some (VBytes (str (encode [201])))).
Proof.
  split; [intros H; apply well_formed_iff in H; discriminate|]. split; [constructor; [unfold letter, code; cbn; lia|constructor]|]. split; [reflexivity|].
  split; [discriminate|]. split; [left; cbn; lia|reflexivity].
Qed.
Example c322_example : contains "banana" "nan" /\ bind_contains_substr t_text (Some (VStr "banana")) (Some (VStr "nan")) = Ok None.
Proof. split; [exists "ba", "a"; reflexivity|reflexivity]. Qed.
Example c323_example : bind_collate t_text (Some (VStr "A")) (Some (VStr "und:ci")) = Ok (Some (VStr "A")) /\ cmp EQ (VStr "A") (VStr "a") = Ok false.
Proof. split; reflexivity. Qed.
Example c324_example : let k (s : string) := if String.eqb s (str (encode [8450])) then "C" else s in
  text_of [8450] (str (encode [8450])) /\ t_up 8450 = 8450 /\ k (str (encode [8450])) = "C" /\ k "c" = "c" /\
  bytewise lower_byte "aB" "ab" /\ bytewise lower_byte "Ab" "ab" /\ ascii_text "aB" /\ ascii_text "Ab".
Proof.
  split; [apply text_of_str; constructor; [left; lia|constructor]|]. do 3 (split; [reflexivity|]). split; [now apply lower_map|]. split; [now apply lower_map|]. split; now apply all_ascii_iff.
Qed.
Example c326_example : struct_then_field t_text t_int [("a", Some (VStr "x")); ("a", None); ("b", Some (VNum (1 # 2)))] 1 = Ok None /\
  Forall (fun p => text_ok (fst p) /\ storable_opt (snd p)) [("a", Some (VStr "x")); ("a", None); ("b", Some (VNum (1 # 2)))].
Proof.
  split; [reflexivity|]. assert (W : forall s, all_ascii (txt s) = true -> text_ok s) by (intros s H; apply (ascii_well s); now apply all_ascii_iff).
  repeat constructor; try (apply W; reflexivity).
Qed.

Print Assumptions c317_round.
Print Assumptions c317_first.
Print Assumptions c317_null.
Print Assumptions c318_error_refuted.
Print Assumptions c319_ascii_partial.
Print Assumptions c319_none_partial.
Print Assumptions c319_error_refuted.
Print Assumptions c320_upper.
Print Assumptions c320_lower.
Print Assumptions c320_null.
Print Assumptions c320_characters.
Print Assumptions c321_ascii_partial.
Print Assumptions c321_invalid_refuted.
Print Assumptions c321_letter_refuted.
Print Assumptions c322_refuted.
Print Assumptions c323_same_partial.
Print Assumptions c323_case_refuted.
Print Assumptions c323_binary_refuted.
Print Assumptions c323_null_partial.
Print Assumptions c324_normalize_partial.
Print Assumptions c324_null_partial.
Print Assumptions c324_mode_partial.
Print Assumptions c324_ascii_partial.
Print Assumptions c324_after_refuted.
Print Assumptions c325_text_partial.
Print Assumptions c325_null_refuted.
Print Assumptions c326_field_partial.
Print Assumptions c326_integer_refuted.
