(** C26, C27: values stored in SQLite and literals in generated SQL. *)
From Coq Require Import Ascii String List ZArith QArith Lia Bool SpecFloat.
From Verif Require Import GoBase CalendarModel InstantModel ValueModel FloatFacts Utf8Model Utf8Facts StrModel EncModel EncProofs ClockTextModel
  CodecModel CodecSpec CodecProofs.
Import ListNotations.
Local Open Scope string_scope.
Open Scope Z_scope.

(** C26: every storable value, however nested, comes back as the same value, and NULL as
    NULL.  Missing from the full claim: what [storable] leaves out, see below. *)
Theorem c26_stored_values_come_back_partial :
  round_trip None = Ok None /\
  forall v, storable false v -> exists w, round_trip (Some v) = Ok (Some w) /\ same v w.
Proof.
  split; [reflexivity|]. intros v S. destruct (comes_back_all v false S) as (e & w & E & _ & D & Q).
  exists w. split; [|exact Q]. unfold round_trip, encode_opt. rewrite E. exact D.
Qed.
(** Outside arrays and structs: every INT64, every FLOAT64 but NaN and every BYTES is exact. *)
Theorem c26_scalars_are_exact : forall z f b,
  round_trip (Some (VInt z)) = Ok (Some (VInt z)) /\
  (is_nan f = false -> round_trip (Some (VFloat f)) = Ok (Some (VFloat f))) /\
  round_trip (Some (VBytes b)) = Ok (Some (VBytes b)).
Proof.
  intros z f b. split; [reflexivity|]. split.
  - intros N. destruct f; try reflexivity. discriminate.
  - unfold round_trip, encode_opt. cbn [encode_value bind through_engine decode_value decode_text]. now rewrite base64_round.
Qed.
Example c26_ex : exists w,
  round_trip (Some (VStruct [("id", Some (VInt 7)); ("tags", Some (VArray [Some (VStr "a""b"); None])); ("n", Some (VNum (1 # 3)))])) = Ok (Some w) /\
  storable false (VStruct [("id", Some (VInt 7)); ("tags", Some (VArray [Some (VStr "a""b"); None])); ("n", Some (VNum (1 # 3)))]) /\
  w = VStruct [("id", Some (VFloat (float_of_int 7))); ("tags", Some (VArray [Some (VStr "a""b"); None])); ("n", Some (VNum (1 # 3)))].
Proof.
  eexists. split; [vm_compute; reflexivity|]. split; [|reflexivity].
  assert (T : forall s, forallb (fun c => b2z c <? 128) (list_ascii_of_string s) = true -> text_ok s).
  { intros s H. apply ascii_text_ok. apply Forall_forall. intros c I. rewrite forallb_forall in H. specialize (H c I). now apply Z.ltb_lt. }
  apply storable_struct. repeat constructor; try (apply T; reflexivity).
Qed.

(** Refuted for integers inside arrays: an element comes back as the nearest float64, so
    2^53 + 1 comes back as 2^53. *)
Theorem c26_nested_integers_refuted :
  (forall z, round_trip (Some (VArray [Some (VInt z)])) = Ok (Some (VArray [Some (VFloat (float_of_int z))]))) /\
  exists z, in64 z /\ forall w, round_trip (Some (VArray [Some (VInt z)])) = Ok (Some w) -> ~ same (VArray [Some (VInt z)]) w.
Proof.
  assert (R : forall z, round_trip (Some (VArray [Some (VInt z)])) = Ok (Some (VArray [Some (VFloat (float_of_int z))]))) by reflexivity.
  split; [exact R|]. exists (2 ^ 53 + 1). split; [vm_compute; split; congruence|]. intros w H. rewrite R in H.
  assert (E : w = VArray [Some (VFloat (float_of_int (2 ^ 53 + 1)))]) by congruence. subst w. clear.
  change (float_of_int (2 ^ 53 + 1)) with (S754_finite false 4503599627370496 1).
  intros [[a [A B]] _]. cbn in A. subst a. revert B. vm_compute. discriminate.
Qed.
(** Refuted for text that is not UTF-8: it comes back unchanged exactly when it is UTF-8. *)
Theorem c26_text_iff_utf8 : forall s, round_trip (Some (VStr s)) = Ok (Some (VStr s)) <-> well_formed (list_ascii_of_string s).
Proof.
  intros s. unfold round_trip, encode_opt. cbn [encode_value bind through_engine decode_value decode_text]. split.
  - intros H. apply well_formed_iff. assert (E : sanitize s = s) by congruence. unfold sanitize in E.
    rewrite <- E at 2. now rewrite list_ascii_of_string_of_list_ascii.
  - intros H. now rewrite sanitize_ok.
Qed.
(** Refuted for NaN: alone it becomes NULL, and an array or struct holding a NaN or an
    infinity cannot be stored at all. *)
Theorem c26_not_finite_refuted :
  round_trip (Some (VFloat S754_nan)) = Ok None /\
  (forall f l, finite f = false -> In (Some (VFloat f)) l -> forall w, round_trip (Some (VArray l)) <> Ok w).
Proof.
  split; [reflexivity|]. intros f l F I w H. unfold round_trip, encode_opt in H. rewrite encode_array in H.
  assert (N : forall es, encode_elems l <> Ok es).
  { clear H. induction l as [|o l IH]; [contradiction|]. intros es. cbn [encode_elems]. destruct I as [->|I].
    - unfold encode_elem, encode_opt. cbn [encode_value bind marshal]. rewrite F. discriminate.
    - destruct (encode_elem o); cbn [bind]; try discriminate. specialize (IH I). destruct (encode_elems l); cbn [bind]; try discriminate. now destruct (IH a0). }
  destruct (encode_elems l) as [es| |]; try discriminate. now destruct (N es).
Qed.

(** C27: whatever bytes the layout of a value holds, its literal is one double-quoted
    token of SQL, with the base64 text as its content and the rest of the statement
    untouched; the content holds no quote of either kind and no backslash, and decodes to
    the layout. *)
Theorem c27_literal_is_one_token : forall j rest, (forall r, rest <> """"%char :: r) ->
  quoted_token (text_literal j ++ rest)%list = Some (to_base64 j, rest) /\
  from_base64 (to_base64 j) = Ok j /\
  (forall c, In c (to_base64 j) -> c <> """"%char /\ c <> "'"%char /\ c <> "092"%char).
Proof.
  intros j rest R. split; [|split].
  - rewrite text_literal_shape. change (quoted_token (quote_char :: (to_base64 j ++ [quote_char]) ++ rest)%list = Some (to_base64 j, rest)).
    cbn [quoted_token]. change (Ascii.eqb quote_char """") with true. cbn iota. rewrite <- app_assoc. cbn [app].
    apply in_quotes_plain; [|exact R]. intros I. apply base64_chars in I. apply alpha64_ascii in I. tauto.
  - exact (decode_with_encode_with base64 ends64 good_base64 j).
  - intros c I. apply base64_chars in I. apply alpha64_ascii in I. tauto.
Qed.
(** Different layouts have different literals. *)
Theorem c27_literals_are_distinct : forall j k, text_literal j = text_literal k -> j = k.
Proof.
  intros j k E. destruct (c27_literal_is_one_token j [] ltac:(discriminate)) as (A & B & _).
  destruct (c27_literal_is_one_token k [] ltac:(discriminate)) as (C & D & _). rewrite E, C in A.
  assert (X : to_base64 j = to_base64 k) by congruence. rewrite X, D in B. congruence.
Qed.
Example c27_ex : text_literal (ascii_text "{""body"":""x' OR 1=1 --""}") <> [] /\
  quoted_token (text_literal (ascii_text "x"" OR 1") ++ ascii_text " FROM t")%list = Some (to_base64 (ascii_text "x"" OR 1"), ascii_text " FROM t").
Proof. split; [discriminate|reflexivity]. Qed.

Print Assumptions c26_stored_values_come_back_partial.
Print Assumptions c26_scalars_are_exact.
Print Assumptions c26_nested_integers_refuted.
Print Assumptions c26_text_iff_utf8.
Print Assumptions c26_not_finite_refuted.
Print Assumptions c27_literal_is_one_token.
Print Assumptions c27_literals_are_distinct.
