(** Properties C168 to C178: JSON functions. *)
From Coq Require Import Ascii String List ZArith QArith Lia Bool SpecFloat.
From Verif Require Import GoBase GoBaseFacts DecModel DecFacts Utf8Model Utf8Facts EncModel CalendarModel CalendarFacts InstantModel InstantFacts ClockTextModel
  ValueModel CodecModel CodecProofs JsonSpec JsonDocSpec JsonModel JsonProofs.
Import ListNotations.
Open Scope Z_scope.

Lemma word_string s : word (string_of s) = s.
Proof. apply list_ascii_of_string_of_list_ascii. Qed.
Lemma string_word s : string_of (word s) = s.
Proof. apply string_of_list_ascii_of_string. Qed.

Lemma safe_iff z : safe z = true <-> - 2 ^ 53 <= z <= 2 ^ 53.
Proof. unfold safe. rewrite andb_true_iff, !Z.leb_le. change (2 ^ 53) with 9007199254740992. tauto. Qed.
Lemma whole_iff q : whole q = true <-> exists z, - 2 ^ 53 <= z <= 2 ^ 53 /\ q == inject_Z z.
Proof.
  unfold whole. split.
  - destruct (Qred q) as [n d] eqn:E. cbn [Qden Qnum]. destruct d; try discriminate. intros H. exists n. split; [now apply safe_iff|].
    rewrite <- (Qred_correct q), E. reflexivity.
  - intros (z & R & E). apply Qred_complete in E. rewrite E.
    assert (K : Qred (inject_Z z) = inject_Z z).
    { apply Qcanon.Qred_identity. cbn. apply Z.gcd_1_r. }
    rewrite K. cbn. now apply safe_iff.
Qed.

Section Props.
Variable printable : Z -> bool.
Variable float_text : float -> bytes.
Variable interval_text : Z -> Z -> Z -> bytes.
Notation to_json := (to_json printable float_text interval_text).
Notation fn_to_json := (fn_to_json printable float_text interval_text).
Notation fn_to_json_string := (fn_to_json_string printable float_text interval_text).
Notation reading v P := (reads_denotes _ _ (reads_to_json printable float_text interval_text v P)).

(** ** C168: TO_JSON *)
Theorem c168_to_json : forall v, plain printable v ->
  exists s, fn_to_json (Some v) None = Ok (Some (VJson s)) /\ fn_to_json (Some v) (Some (Some false)) = Ok (Some (VJson s)) /\
    denotes (word s) = Some (json_of v).
Proof.
  intros v P. exists (string_of (to_json v)). repeat split. rewrite word_string. exact (reading v P).
Qed.

(** ** C169: TO_JSON_STRING and wide numbers *)
Lemma wide_exact num_text : forall v, plain printable v -> wide_json num_text v = json_of v <-> narrow v.
Proof.
  refine (val_ind2 (fun v => plain printable v -> wide_json num_text v = json_of v <-> narrow v) _ _ _).
  - intros v Nl Ns P. destruct v; cbn [plain] in P; try contradiction; cbn [wide_json json_of narrow]; try (split; [exact (fun _ => I)|reflexivity]).
    + rewrite <- safe_iff. destruct (safe z); split; congruence.
    + rewrite <- whole_iff. destruct (whole q); split; congruence.
    + exfalso. now apply (Nl l).
    + exfalso. now apply (Ns l).
  - intros l F P. cbn [wide_json json_of narrow plain] in *.
    match goal with |- JArr (?g l) = JArr (?h l) <-> ?n l => set (go := g); set (ho := h); set (no := n) end.
    assert (A : go l = ho l <-> no l).
    { revert P. induction F as [|o l Fo F IH]; intros P; [split; [exact (fun _ => I)|reflexivity]|]. destruct o as [x|].
      - destruct P as [Px P]. specialize (IH P). specialize (Fo Px). change (wide_json num_text x :: go l = json_of x :: ho l <-> narrow x /\ no l).
        rewrite <- Fo, <- IH. split; [intros E; split; congruence|intros [-> ->]; reflexivity].
      - specialize (IH P). change (JNull :: go l = JNull :: ho l <-> no l). rewrite <- IH. split; [congruence|now intros ->]. }
    rewrite <- A. split; [congruence|now intros ->].
  - intros l F P. cbn [wide_json json_of narrow plain] in *.
    match goal with |- JObj (?g l) = JObj (?h l) <-> ?n l => set (go := g); set (ho := h); set (no := n) end.
    assert (A : go l = ho l <-> no l).
    { revert P. induction F as [|[k o] l Fo F IH]; intros P; [split; [exact (fun _ => I)|reflexivity]|]. destruct o as [x|].
      - destruct P as (_ & Px & P). specialize (IH P). specialize (Fo Px). change ((word k, wide_json num_text x) :: go l = (word k, json_of x) :: ho l <-> narrow x /\ no l).
        rewrite <- Fo, <- IH. split; [intros E; split; congruence|intros [-> ->]; reflexivity].
      - destruct P as (_ & P). specialize (IH P). change ((word k, JNull) :: go l = (word k, JNull) :: ho l <-> no l). rewrite <- IH. split; [congruence|now intros ->]. }
    rewrite <- A. split; [congruence|now intros ->].
Qed.
(** What is missing: values with a wide number inside; see the refutations. *)
Theorem c169_to_json_string_partial : forall num_text v p, plain printable v -> p <> Some None ->
  exists s, fn_to_json_string (Some v) p = Ok (Some (VStr s)) /\ (denotes (word s) = Some (wide_json num_text v) <-> narrow v).
Proof.
  intros nt v p P Np. exists (string_of (to_json v)). split; [destruct p as [[b|]|]; [reflexivity|congruence|reflexivity]|].
  rewrite word_string, (reading v P), <- (wide_exact nt v P). split; congruence.
Qed.
Theorem c169_wide_refuted : forall z, 2 ^ 53 < Z.abs z ->
  (exists s, fn_to_json_string (Some (VInt z)) None = Ok (Some (VStr s)) /\ denotes (word s) = Some (JNum (inject_Z z))) /\
  (exists s, fn_to_json (Some (VInt z)) (Some (Some true)) = Ok (Some (VJson s)) /\ denotes (word s) = Some (JNum (inject_Z z))) /\
  forall num_text, wide_json num_text (VInt z) = JStr (word (dec z)).
Proof.
  intros z H. split; [|split].
  - exists (string_of (to_json (VInt z))). split; [reflexivity|]. rewrite word_string. exact (reading (VInt z) I).
  - exists (string_of (to_json (VInt z))). split; [reflexivity|]. rewrite word_string. exact (reading (VInt z) I).
  - intros nt. cbn [wide_json]. destruct (safe z) eqn:K; [|reflexivity]. apply safe_iff in K. lia.
Qed.

(** ** C170: PARSE_JSON inverts TO_JSON_STRING *)
Theorem c170_parse : forall v m, plain printable v -> exists s, fn_to_json_string (Some v) None = Ok (Some (VStr s)) /\
  parse_json (Some (word s)) (Some m) = Ok (Some (VJson s)) /\ fn_to_json (Some v) None = Ok (Some (VJson s)).
Proof.
  intros v m P. exists (string_of (to_json v)). split; [reflexivity|]. split; [|reflexivity]. unfold parse_json, unmarshal. rewrite word_string.
  now rewrite (reading v P).
Qed.
(** A second TO_JSON leaves it alone, and equal results mean equal documents. *)
Theorem c170_again : forall v s, plain printable v -> fn_to_json (Some v) None = Ok (Some (VJson s)) ->
  plain printable (VJson s) /\ json_of (VJson s) = json_of v /\ fn_to_json (Some (VJson s)) None = Ok (Some (VJson s)).
Proof.
  intros v s P H. assert (E : s = string_of (to_json v)) by (unfold JsonModel.fn_to_json in H; congruence). subst s. cbn [plain json_of]. rewrite word_string, (reading v P).
  split; [discriminate|]. split; [reflexivity|]. cbn. change (text_of (string_of (to_json v))) with (word (string_of (to_json v))). now rewrite word_string.
Qed.
Theorem c170_distinct : forall v w, plain printable v -> plain printable w -> json_of v <> json_of w -> fn_to_json_string (Some v) None <> fn_to_json_string (Some w) None.
Proof.
  intros v w P Q N E. assert (K : string_of (to_json v) = string_of (to_json w)) by (cbn in E; congruence).
  apply (f_equal word) in K. rewrite !word_string in K. pose proof (reading v P). pose proof (reading w Q). congruence.
Qed.

(** ** C171: strings *)
(** What is missing: the other characters, for which the text is no JSON at all. *)
Theorem c171_string_partial : forall s, well_formed (word s) ->
  (Forall (plain_char printable) (decode (word s)) <-> denotes (to_json (VStr s)) = Some (JStr (word s))).
Proof.
  intros s W. split.
  - intros F. exact (reading (VStr s) (conj W F)).
  - intros D. apply denotes_iff in D. destruct D as (n & r & V & _). apply plain_all. destruct n as [|n]; [discriminate|].
    cbn [JsonModel.to_json] in V. rewrite <- (app_nil_r (quote printable (text_of s))), value_quote in V by exact W. destruct (forallb _ _); [reflexivity|discriminate].
Qed.
Theorem c171_string_refuted : forall s r, well_formed (word s) -> In r (decode (word s)) ->
  (0 <= r <= 7 \/ r = 11 \/ 14 <= r <= 31 \/ r = 127 \/ 65536 <= r /\ printable r = false) -> denotes (to_json (VStr s)) = None.
Proof.
  intros s r W I R. destruct (denotes (to_json (VStr s))) as [j|] eqn:D; [exfalso|reflexivity].
  pose proof D as D0. apply denotes_iff in D. destruct D as (n & t & V & _). destruct n as [|n]; [discriminate|].
  cbn [JsonModel.to_json] in V. rewrite <- (app_nil_r (quote printable (text_of s))), value_quote in V by exact W. destruct (forallb _ _) eqn:K; [|discriminate].
  apply plain_all in K. rewrite Forall_forall in K. specialize (K r I). unfold plain_char in K. cbn [In] in K.
  destruct K as [K|[K|[K|[K1 K2]]]]; try lia. destruct R as [R|[R|[R|[R|[_ R]]]]]; try lia. congruence.
Qed.

(** ** C172: dates, times and numbers that are not finite *)
Lemma year_of_text n t : 0 <= year n -> denotes (text_of (date_text n) ++ t) = None.
Proof.
  intros Y. unfold date_text.
  assert (E : (text_of (pad 4 (year n) ++ "-" ++ pad 2 (month n) ++ "-" ++ pad 2 (day n))%string ++ t)%list =
    (text_of (pad 4 (year n)) ++ "-"%char :: (text_of (pad 2 (month n) ++ "-" ++ pad 2 (day n))%string ++ t))%list).
  { unfold text_of. rewrite list_ascii_app. rewrite <- app_assoc. reflexivity. }
  rewrite E. apply not_json with (v := year n); [now apply pad_positional| |now left].
  unfold pad. intros Z0. assert (L : String.length (zeros (4 - String.length (udec (year n))) (udec (year n))) = 0%nat) by now rewrite Z0.
  rewrite length_zeros in L. lia.
Qed.
Theorem c172_dates_refuted : forall ns, 0 <= year (day_no ns) ->
  denotes (to_json (VDate ns)) = None /\ denotes (to_json (VDatetime ns)) = None /\ denotes (to_json (VTimestamp ns)) = None.
Proof.
  intros ns Y. cbn [JsonModel.to_json]. split; [|split].
  - rewrite <- (app_nil_r (text_of _)). now apply year_of_text.
  - unfold datetime_text, text_of. rewrite list_ascii_app. now apply year_of_text.
  - unfold datetime_text, text_of. rewrite list_ascii_app, <- app_assoc. now apply year_of_text.
Qed.
Theorem c172_time_refuted : forall ns, denotes (to_json (VTime ns)) = None.
Proof.
  intros ns. cbn [JsonModel.to_json]. unfold clock_text, text_of. rewrite list_ascii_app.
  destruct (time_of_fields ns) as ((H & _) & _).
  change (list_ascii_of_string (":" ++ pad 2 (minute ns) ++ ":" ++ pad 2 (second ns) ++ frac_text (nanosecond ns))%string) with
    (":"%char :: list_ascii_of_string (pad 2 (minute ns) ++ ":" ++ pad 2 (second ns) ++ frac_text (nanosecond ns))%string).
  apply not_json with (v := hour ns); [apply pad_positional; lia| |now right].
  unfold pad. intros Z0. assert (L : String.length (zeros (2 - String.length (udec (hour ns))) (udec (hour ns))) = 0%nat) by now rewrite Z0.
  rewrite length_zeros in L. lia.
Qed.
Theorem c172_not_finite_refuted : forall f, f = S754_nan \/ (exists s, f = S754_infinity s) -> denotes (to_json (VFloat f)) = None.
Proof. intros f [-> | ([|] & ->)]; reflexivity. Qed.

(** ** C173: NULL *)
Theorem c173_null_refuted : forall o,
  fn_to_json_string None o = GoPanic /\ fn_to_json None o = Ok None /\ forall v, fn_to_json_string v (Some None) = GoPanic.
Proof. intros o. repeat split. destruct o as [[b|]|]; reflexivity. Qed.

Section Reading.
Variable other_number : Q -> bytes.
Variable composite : json -> bytes.
Variable create : bytes -> res (bool * bool).
Variable located : bytes -> bytes -> res (list json).
Variable extracted : bytes -> bytes -> res (list bytes).
Variable compact : bytes -> res bytes.
Variable raw_elements : bytes -> res (list bytes).
Notation json_value := (json_value other_number composite create located).
Notation json_value_array := (json_value_array other_number composite create located).
Notation json_query := (json_query create extracted compact).
Notation json_query_array := (json_query_array create extracted raw_elements).

(** ** C174: JSON_VALUE *)
(** Strings, booleans, null, arrays, objects and whole numbers of at most six digits. *)
Definition small (j : json) : Prop := match j with JNum q => exists z, q = inject_Z z /\ - 1000000 < z < 1000000 | _ => True end.
Definition text_value (o : option bytes) : option val := option_map (fun t => VStr (string_of t)) o.
Lemma sprint_small j t : small j -> scalar_text j = Some t -> sprint other_number composite j = t.
Proof.
  intros S0 H. destruct j; cbn [scalar_text] in H; try discriminate; cbn [sprint]; try congruence.
  destruct S0 as (z & -> & B). cbn [inject_Z Qden Qnum] in H. unfold number_text. cbn [inject_Z Qden Qnum].
  destruct (Z.ltb_spec (Z.abs z) 9007199254740992); [|lia]. rewrite whole_small by exact B. congruence.
Qed.
(** What is missing: other numbers. *)
Theorem c174_json_value_partial : forall v p u j rest, create p = Ok u -> fst u = false -> located v p = Ok (j :: rest) -> small j ->
  json_value Standard v p = Ok (text_value (scalar_text j)).
Proof.
  intros v p u j rest C U L Sm. unfold JsonModel.json_value, with_path. rewrite C. cbn [bind refused]. rewrite U, L. cbn [bind].
  destruct j; try reflexivity.
  - destruct Sm as (z & -> & B). cbn [scalar_text text_value option_map inject_Z Qden Qnum]. do 3 f_equal.
    rewrite (sprint_small _ (word (dec z))); [reflexivity|now exists z|reflexivity].
Qed.
Theorem c174_large_refuted : forall f v p u z rest, create p = Ok u -> refused f u = false -> located v p = Ok (JNum (inject_Z z) :: rest) ->
  1000000 <= Z.abs z < 2 ^ 53 -> exists t, json_value f v p = Ok (Some (VStr t)) /\ t <> dec z.
Proof.
  intros f v p u z rest C U L B. exists (string_of (whole_text z)). split.
  - unfold JsonModel.json_value, with_path. rewrite C. cbn [bind]. rewrite U, L. cbn [bind sprint]. unfold number_text. cbn [inject_Z Qden Qnum].
    change (2 ^ 53) with 9007199254740992 in B. destruct (Z.ltb_spec (Z.abs z) 9007199254740992); [reflexivity|lia].
  - intros E. apply (f_equal word) in E. rewrite word_string in E. apply (dec_no_e z). rewrite <- E. apply whole_large. lia.
Qed.
(** JSON_EXTRACT_SCALAR of a null. *)
Theorem c174_extract_null_refuted : forall v p u rest, create p = Ok u -> snd u = false -> located v p = Ok (JNull :: rest) -> json_value Legacy v p = GoPanic.
Proof. intros v p u rest C U L. unfold JsonModel.json_value, with_path. rewrite C. cbn [bind refused]. now rewrite U, L. Qed.

(** ** C175: JSON_VALUE_ARRAY *)
Definition scalar_json (j : json) : Prop := match j with JBool _ | JNum _ | JStr _ => True | _ => False end.
Lemma scalars_all l : forall acc, Forall (fun j => scalar_json j /\ small j /\ j <> JStr (word "null")) l ->
  scalars other_number composite l acc = Ok (Some (VArray (rev acc ++ map (fun j => text_value (scalar_text j)) l)%list)).
Proof.
  induction l as [|j l IH]; intros acc F; cbn [scalars map]; [now rewrite app_nil_r|].
  inversion F as [|? ? (Sc & Sm & Nn) F']; subst.
  assert (T : exists t, scalar_text j = Some t /\ sprint other_number composite j = t /\ t <> word "null").
  { destruct j; try contradiction.
    - exists (word (if b then "true" else "false")). repeat split. destruct b; discriminate.
    - destruct Sm as (z & -> & B). exists (word (dec z)). split; [reflexivity|]. split; [now apply sprint_small; [exists z|]|].
      intros E. assert (D : all_digits (dec z) = true \/ exists r, dec z = String "-" r).
      { unfold dec. destruct (Z.ltb_spec z 0); [right; eauto|left; apply udec_all_digits; lia]. }
      assert (E' : dec z = "null"%string).
      { apply (f_equal string_of) in E. rewrite !string_word in E. exact E. }
      rewrite E' in D. destruct D as [D|(r & D)]; discriminate.
    - exists s. repeat split. congruence. }
  destruct T as (t & T1 & T2 & T3).
  assert (St : forall R (P : R) (Q : R) (k : R), (match j with JNull => P | JArr _ | JObj _ => Q | _ => k end) = k).
  { intros R P Q k. destruct j; try contradiction; reflexivity. }
  destruct j; try contradiction; rewrite T2; (destruct (list_eq_dec ascii_dec t (word "null")); [contradiction|]); rewrite IH by exact F'; cbn [rev]; rewrite <- app_assoc; cbn [app]; now rewrite T1.
Qed.
(** What is missing: null elements, the string null and other numbers. *)
Theorem c175_value_array_partial : forall f v p u l rest, create p = Ok u -> refused f u = false -> located v p = Ok (JArr l :: rest) ->
  Forall (fun j => scalar_json j /\ small j /\ j <> JStr (word "null")) l ->
  json_value_array f v p = Ok (Some (VArray (map (fun j => text_value (scalar_text j)) l))).
Proof.
  intros f v p u l rest C U L F. unfold JsonModel.json_value_array, with_path. rewrite C. cbn [bind]. rewrite U, L. now apply (scalars_all l []).
Qed.
Lemma scalars_app a b : Forall scalar_json a -> forall acc, exists x, List.length x = List.length a /\
  scalars other_number composite (a ++ b) acc = scalars other_number composite b (x ++ acc)%list.
Proof.
  induction 1 as [|j a Sc F IH]; intros acc; [exists []; split; reflexivity|]. destruct j; try contradiction; cbn [app scalars];
    (match goal with |- context [scalars _ _ (a ++ b) ?acc'] => destruct (IH acc') as (x & L & E); match acc' with ?y :: _ => exists (x ++ [y])%list end end);
    (split; [rewrite app_length; cbn; lia|]); rewrite E, <- app_assoc; reflexivity.
Qed.
Theorem c175_null_refuted : forall f v p u a b rest, create p = Ok u -> refused f u = false -> located v p = Ok (JArr (a ++ JNull :: b) :: rest) ->
  Forall scalar_json a -> json_value_array f v p = GoPanic.
Proof.
  intros f v p u a b rest C U L F. unfold JsonModel.json_value_array, with_path. rewrite C. cbn [bind]. rewrite U, L.
  destruct (scalars_app a (JNull :: b) F []) as (x & _ & ->). reflexivity.
Qed.
Lemma scalars_done b : Forall scalar_json b -> forall acc, exists x, scalars other_number composite b acc = Ok (Some (VArray (rev acc ++ x)%list)).
Proof.
  intros F acc. destruct (scalars_app b [] F acc) as (x & _ & E). rewrite app_nil_r in E. rewrite E. cbn [scalars]. exists (rev x). now rewrite rev_app_distr.
Qed.
(** The string null comes back as NULL. *)
Theorem c175_word_refuted : forall f v p u a b rest, create p = Ok u -> refused f u = false -> located v p = Ok (JArr (a ++ JStr (word "null") :: b) :: rest) ->
  Forall scalar_json a -> Forall scalar_json b -> exists l, json_value_array f v p = Ok (Some (VArray l)) /\ nth_error l (List.length a) = Some None.
Proof.
  intros f v p u a b rest C U L Fa Fb. unfold JsonModel.json_value_array, with_path. rewrite C. cbn [bind]. rewrite U, L.
  destruct (scalars_app a (JStr (word "null") :: b) Fa []) as (x & Lx & ->). cbn [scalars sprint].
  destruct (list_eq_dec ascii_dec (word "null") (word "null")) as [_|N]; [|congruence].
  destruct (scalars_done b Fb (None :: x ++ [])) as (y & ->). eexists. split; [reflexivity|].
  rewrite app_nil_r. cbn [rev]. rewrite <- app_assoc. rewrite nth_error_app2; rewrite rev_length, Lx; [|lia]. now rewrite Nat.sub_diag.
Qed.
(** An array or an object inside gives NULL. *)
Theorem c175_nested : forall f v p u a j b rest, create p = Ok u -> refused f u = false -> located v p = Ok (JArr (a ++ j :: b) :: rest) ->
  Forall scalar_json a -> (exists l, j = JArr l) \/ (exists l, j = JObj l) -> json_value_array f v p = Ok None.
Proof.
  intros f v p u a j b rest C U L F J. unfold JsonModel.json_value_array, with_path. rewrite C. cbn [bind]. rewrite U, L.
  destruct (scalars_app a (j :: b) F []) as (x & _ & ->). destruct J as [(l & ->)|(l & ->)]; reflexivity.
Qed.

(** ** C176: the JSON_EXTRACT functions and the standard ones *)
Theorem c176_same : forall v p u, create p = Ok u -> fst u = snd u ->
  json_query Legacy v p = json_query Standard v p /\ json_query_array Legacy v p = json_query_array Standard v p /\
  json_value_array Legacy v p = json_value_array Standard v p.
Proof.
  intros v p u C E. unfold JsonModel.json_query, JsonModel.json_query_array, JsonModel.json_value_array, with_path. rewrite C. cbn [bind refused]. rewrite E. repeat split.
Qed.
Theorem c176_scalar_partial : forall v p u, create p = Ok u -> fst u = snd u ->
  (json_value Legacy v p = json_value Standard v p <-> fst u = true \/ forall rest, located v p <> Ok (JNull :: rest)).
Proof.
  intros v p u C E. unfold JsonModel.json_value, with_path. rewrite C. cbn [bind refused]. rewrite <- E. destruct (fst u); [tauto|].
  destruct (located v p) as [[|[| | | | |] r]| |]; cbn [bind]; split; intros H; try reflexivity; try (right; congruence).
  - destruct H as [H|H]; [discriminate|]. now destruct (H r).
Qed.
Theorem c176_scalar_refuted : forall v p u rest, create p = Ok u -> fst u = false -> snd u = false -> located v p = Ok (JNull :: rest) ->
  json_value Legacy v p <> json_value Standard v p.
Proof.
  intros v p u rest C F S0 L H. apply (c176_scalar_partial v p u C ltac:(congruence)) in H. destruct H as [H|H]; [congruence|]. now apply (H rest).
Qed.
End Reading.

(** ** C177: JSON_TYPE *)
(** The names that BigQuery documents *)
Definition type_name (j : json) : string :=
  match j with
  | JObj _ => "object" | JArr _ => "array" | JStr _ => "string" | JNum _ => "number" | JBool _ => "boolean" | JNull => "null"
  end%string.
Theorem c177_type_partial : forall s, json_type (Some (VJson s)) <> GoPanic ->
  (exists j, denotes (word s) = Some j /\ json_type (Some (VJson s)) = Ok (Some (VStr (type_name j)))) /\ json_type (Some (VJson s)) <> Err.
Proof.
  intros s. cbn [json_type]. destruct (String.eqb_spec s "null") as [->|N].
  - intros _. split; [exists JNull; split; reflexivity|discriminate].
  - unfold interface, unmarshal. change (text_of s) with (word s). destruct (denotes (word s)) as [j|]; [|intros H; now elim H].
    destruct j; intros H; try (now elim H); (split; [eexists; split; reflexivity|discriminate]).
Qed.
Theorem c177_panics_exactly : forall s, json_type (Some (VJson s)) = GoPanic <-> s <> "null"%string /\ (denotes (word s) = None \/ denotes (word s) = Some JNull).
Proof.
  intros s. cbn [json_type]. destruct (String.eqb_spec s "null") as [->|N]; [split; [discriminate|intros [H _]; now elim H]|].
  unfold interface, unmarshal. change (text_of s) with (word s). destruct (denotes (word s)) as [[| | | | |]|]; split; intros H; try discriminate; try reflexivity; auto;
    destruct H as [_ [H|H]]; discriminate.
Qed.
(** White space around null, as PARSE_JSON keeps it. *)
Theorem c177_spaced_null_refuted : forall k m, exists s, parse_json (Some (repeat " "%char (S k) ++ word "null")%list) (Some m) = Ok (Some (VJson s)) /\
  json_type (Some (VJson s)) = GoPanic.
Proof.
  intros k m. set (t := (repeat " "%char (S k) ++ word "null")%list). exists (string_of t).
  assert (D : denotes t = Some JNull).
  { apply denotes_iff. exists 1%nat, []. split; [|reflexivity]. cbn [value].
    assert (Sk : skip t = word "null") by (unfold t; induction (S k) as [|i IH]; [reflexivity|exact IH]). rewrite Sk. reflexivity. }
  split; [unfold parse_json, unmarshal; now rewrite D|]. apply c177_panics_exactly. rewrite word_string. split; [|now right].
  intros E. apply (f_equal word) in E. rewrite word_string in E. unfold t in E. cbn in E. discriminate.
Qed.
Theorem c177_null_refuted : json_type None = Err.
Proof. reflexivity. Qed.
Theorem c177_of_to_json : forall v s, plain printable v -> fn_to_json (Some v) None = Ok (Some (VJson s)) -> json_of v <> JNull ->
  json_type (Some (VJson s)) = Ok (Some (VStr (type_name (json_of v)))).
Proof.
  intros v s P H N. assert (E : s = string_of (to_json v)) by (unfold JsonModel.fn_to_json in H; congruence). subst s. pose proof (reading v P) as R.
  destruct (json_type (Some (VJson (string_of (to_json v))))) as [o| |] eqn:J.
  - assert (G : json_type (Some (VJson (string_of (to_json v)))) <> GoPanic) by congruence. apply c177_type_partial in G. destruct G as ((j & D & K) & _).
    rewrite word_string in D. congruence.
  - assert (G : json_type (Some (VJson (string_of (to_json v)))) <> GoPanic) by congruence. apply c177_type_partial in G. destruct G as (_ & G). congruence.
  - apply c177_panics_exactly in J. rewrite word_string in J. destruct J as (_ & [J|J]); congruence.
Qed.

(** ** C178: STRING, BOOL, INT64 and FLOAT64 of JSON *)
Theorem c178_string_partial : forall other_number composite s t, plain_text printable s -> fn_to_json (Some (VStr s)) None = Ok (Some (VJson t)) ->
  string_of_json other_number composite (Some (VJson t)) = Ok (Some (VStr s)).
Proof.
  intros o c s t P H. assert (E : t = string_of (to_json (VStr s))) by (unfold JsonModel.fn_to_json in H; congruence). subst t. cbn [string_of_json]. unfold interface, unmarshal.
  change (text_of (string_of (to_json (VStr s)))) with (word (string_of (to_json (VStr s)))). rewrite word_string, (reading (VStr s) P). cbn [json_of sprint].
  now rewrite string_word.
Qed.
(** STRING accepts what is not a string, null included. *)
Theorem c178_string_refuted : forall o c,
  string_of_json o c (Some (VJson "null")) = Ok (Some (VStr "<nil>")) /\
  (forall z, - 1000000 < z < 1000000 -> string_of_json o c (Some (VJson (dec z))) = Ok (Some (VStr (dec z)))) /\
  forall b, string_of_json o c (Some (VJson (if b : bool then "true" else "false"))) = Ok (Some (VStr (if b then "true" else "false"))).
Proof.
  intros o c. split; [reflexivity|]. split; [|intros []; reflexivity]. intros z B. cbn [string_of_json]. unfold interface, unmarshal.
  rewrite (reads_denotes _ _ (reads_int z)). cbn [sprint]. unfold number_text. cbn [inject_Z Qden Qnum].
  destruct (Z.ltb_spec (Z.abs z) 9007199254740992); [|lia]. rewrite whole_small by exact B. now rewrite string_word.
Qed.
(** BOOL, INT64 and FLOAT64 give back the JSON value: comparing the result fails. *)
Theorem c178_number_refuted : forall s w op, exists r,
  int64_of_json (Some (VJson s)) = Ok (Some r) /\ bool_of_json (Some (VJson s)) = Ok (Some r) /\
  float64_of_json (Some (VJson s)) (Some "round"%string) = Ok (Some r) /\ r = VJson s /\ scalar_op op r w = Err.
Proof. intros s w op. exists (VJson s). repeat split. Qed.
End Props.

(** ** Cases that meet the hypotheses *)
Definition all_printable (r : Z) : bool := true.
Definition doc : val := VStruct [("id"%string, Some (VInt 7)); ("tags"%string, Some (VArray [Some (VStr "a ""b"""); None])); ("n"%string, Some (VNum (5 # 2)))].
Example c168_ex : plain all_printable doc /\
  fn_to_json all_printable (fun _ => []) (fun _ _ _ => []) (Some doc) None = Ok (Some (VJson "{""id"":7,""tags"":[""a \""b\"""",null],""n"":2.5}")).
Proof.
  split; [|reflexivity]. unfold doc. cbn [plain].
  assert (T : forall s, (forallb (jsonable all_printable) (decode (word s)) = true /\ encode (decode (word s)) = word s) -> plain_text all_printable s).
  { intros s [A B]. split; [|now apply plain_all]. exists (decode (word s)). split; [apply decode_scalars|now symmetry]. }
  repeat split; try (apply T; split; reflexivity). now exists 2500000000.
Qed.
Example c169_ex : narrow (VArray [Some (VInt 7); None]) /\ ~ narrow (VNum (5 # 2)).
Proof.
  split; [cbn; lia|]. intros H. apply whole_iff in H. discriminate H.
Qed.
Example c171_ex : well_formed (word "tab	") /\ Forall (plain_char all_printable) (decode (word "tab	")) /\
  denotes (to_json all_printable (fun _ => []) (fun _ _ _ => []) (VStr (String (ascii_of_nat 7) EmptyString))) = None.
Proof.
  split; [exists (decode (word "tab	")); split; [apply decode_scalars|reflexivity]|]. split; [|reflexivity].
  apply plain_all. reflexivity.
Qed.
Example c172_ex : year (day_no 0) = 1970 /\ to_json all_printable (fun _ => []) (fun _ _ _ => []) (VDate 0) = word "1970-01-01".
Proof. split; reflexivity. Qed.
Example c174_ex : whole_text 123456 = word "123456" /\ whole_text 1234567 = word "1.234567e+06" /\ whole_text (-5000000) = word "-5e+06".
Proof. repeat split; reflexivity. Qed.
Example c175_ex : scalars (fun _ => []) (fun _ => []) [JStr (word "x"); JNum 12; JBool true] [] = Ok (Some (VArray [Some (VStr "x"); Some (VStr "12"); Some (VStr "true")])) /\
  scalars (fun _ => []) (fun _ => []) [JStr (word "x"); JNull] [] = GoPanic.
Proof. split; reflexivity. Qed.
Example c177_ex : json_type (Some (VJson "[1, {}]")) = Ok (Some (VStr "array")) /\ json_type (Some (VJson " null")) = GoPanic.
Proof. split; reflexivity. Qed.

Print Assumptions c168_to_json.
Print Assumptions c169_to_json_string_partial.
Print Assumptions c169_wide_refuted.
Print Assumptions c170_parse.
Print Assumptions c170_again.
Print Assumptions c170_distinct.
Print Assumptions c171_string_partial.
Print Assumptions c171_string_refuted.
Print Assumptions c172_dates_refuted.
Print Assumptions c172_time_refuted.
Print Assumptions c172_not_finite_refuted.
Print Assumptions c173_null_refuted.
Print Assumptions c174_json_value_partial.
Print Assumptions c174_large_refuted.
Print Assumptions c174_extract_null_refuted.
Print Assumptions c175_value_array_partial.
Print Assumptions c175_null_refuted.
Print Assumptions c175_word_refuted.
Print Assumptions c175_nested.
Print Assumptions c176_same.
Print Assumptions c176_scalar_partial.
Print Assumptions c176_scalar_refuted.
Print Assumptions c177_type_partial.
Print Assumptions c177_panics_exactly.
Print Assumptions c177_spaced_null_refuted.
Print Assumptions c177_null_refuted.
Print Assumptions c177_of_to_json.
Print Assumptions c178_string_partial.
Print Assumptions c178_string_refuted.
Print Assumptions c178_number_refuted.
