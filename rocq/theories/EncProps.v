(** Theorems C53, C99. *)
From Coq Require Import Ascii String List ZArith Lia Bool.
From Verif Require Import GoBase GoBaseFacts Utf8Model Utf8Facts StrModel StrProofs EncModel EncProofs.
Import ListNotations.
Open Scope Z_scope.

Theorem c53_hex_round_trip : forall b, from_hex (to_hex b) = Ok b.
Proof. exact from_to_hex. Qed.
Print Assumptions c53_hex_round_trip.
Theorem c53_base64_round_trip : forall b, from_base64 (to_base64 b) = Ok b.
Proof. intros b. exact (decode_with_encode_with base64 ends64 good_base64 b). Qed.
Print Assumptions c53_base64_round_trip.
Theorem c53_base32_round_trip : forall b, from_base32 (to_base32 b) = Ok b.
Proof. intros b. exact (decode_with_encode_with base32 ends32 good_base32 b). Qed.
Print Assumptions c53_base32_round_trip.
(** Different bytes have different texts. *)
Theorem c53_texts_distinct : forall a b,
  (to_hex a = to_hex b -> a = b) /\ (to_base64 a = to_base64 b -> a = b) /\ (to_base32 a = to_base32 b -> a = b).
Proof.
  intros a b. repeat split; intros E.
  - pose proof (from_to_hex a) as H. rewrite E, from_to_hex in H. congruence.
  - pose proof (c53_base64_round_trip a) as H. rewrite E, c53_base64_round_trip in H. congruence.
  - pose proof (c53_base32_round_trip a) as H. rewrite E, c53_base32_round_trip in H. congruence.
Qed.
Print Assumptions c53_texts_distinct.
Example c53_encode_cases :
  to_hex (map z2b [0; 171; 255]) = ascii_text "00abff" /\
  to_base64 (ascii_text "light work.") = ascii_text "bGlnaHQgd29yay4=" /\
  to_base32 (ascii_text "foob") = ascii_text "MZXW6YQ=" /\
  from_hex (ascii_text "ABC") = Ok (map z2b [10; 188]).
Proof. vm_compute. repeat split. Qed.

(** BYTES through code points. *)
Theorem c53_code_points_bytes : forall b, code_points_to_bytes (to_code_points (Byt b)) = b.
Proof.
  intros b. unfold code_points_to_bytes. cbn [to_code_points]. rewrite map_map.
  transitivity (map (fun x : ascii => x) b); [apply map_ext, z2b_b2z|apply map_id].
Qed.
Print Assumptions c53_code_points_bytes.
(** STRING through code points: what comes back, and when it is the same text. *)
Theorem c53_code_points_string_partial : forall rs, Forall scalar rs ->
  to_code_points (Str (encode rs)) = rs /\
  code_points_to_string (map Some rs) = Some (encode (filter (fun r => negb (r =? 0)) rs)) /\
  (code_points_to_string (map Some (to_code_points (Str (encode rs)))) = Some (encode rs) <-> ~ In 0 rs).
Proof.
  intros rs R. cbn [to_code_points]. rewrite decode_encode by assumption.
  assert (E : code_points_to_string (map Some rs) = Some (encode (filter (fun r => negb (r =? 0)) rs))).
  { unfold code_points_to_string. rewrite code_points_loop_some. cbn [app option_map].
    now rewrite wrap32_scalars by now apply Forall_filter. }
  split; [reflexivity|]. split; [exact E|]. rewrite E. split.
  - intros H I. assert (X : filter (fun r => negb (r =? 0)) rs = rs).
    { rewrite <- (decode_encode rs) at 2 by assumption.
      rewrite <- (decode_encode (filter _ rs)) by now apply Forall_filter. f_equal. congruence. }
    rewrite filter_id_iff, Forall_forall in X. specialize (X 0 I). discriminate.
  - intros N. do 2 f_equal. apply filter_id_iff, Forall_forall. intros r I.
    apply negb_true_iff, Z.eqb_neq. intros ->. contradiction.
Qed.
Print Assumptions c53_code_points_string_partial.
Example c53_code_points_case : code_points_to_string (map Some (to_code_points (Str (encode [20013; 97; 128512])))) = Some (encode [20013; 97; 128512]).
Proof. vm_compute. reflexivity. Qed.
(** Every text with a NUL character loses it. *)
Theorem c53_code_points_nul_refuted : forall rs, Forall scalar rs -> In 0 rs ->
  code_points_to_string (map Some (to_code_points (Str (encode rs)))) <> Some (encode rs).
Proof. intros rs R I E. apply (proj2 (proj2 (c53_code_points_string_partial rs R))) in E. contradiction. Qed.
Print Assumptions c53_code_points_nul_refuted.

(** C99: SAFE_CONVERT_BYTES_TO_STRING always yields valid text and keeps valid text;
    so it is idempotent. *)
Theorem c99_safe_convert : forall b,
  well_formed (safe_convert b) /\ (safe_convert b = b <-> well_formed b) /\
  safe_convert (safe_convert b) = safe_convert b.
Proof.
  intros b. assert (W : well_formed (safe_convert b)) by apply well_formed_encode.
  split; [exact W|]. split; [unfold safe_convert; now rewrite well_formed_iff|].
  apply well_formed_iff in W. exact W.
Qed.
Print Assumptions c99_safe_convert.
(** The valid parts around bad bytes are kept: text in front survives unchanged. *)
Theorem c99_safe_convert_keeps_prefix : forall rs b, Forall scalar rs ->
  safe_convert (encode rs ++ b) = encode rs ++ safe_convert b.
Proof. intros rs b R. unfold safe_convert. now rewrite decode_encode_app, encode_app. Qed.
Print Assumptions c99_safe_convert_keeps_prefix.
Example c99_case : safe_convert (map z2b [194]) = encode [65533] /\ ~ well_formed (map z2b [194]).
Proof. split; [vm_compute; reflexivity|]. rewrite well_formed_iff. vm_compute. discriminate. Qed.
