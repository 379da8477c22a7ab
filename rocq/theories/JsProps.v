(** C269-C278: JavaScript functions. *)
From Coq Require Import Ascii String List ZArith QArith Lia Bool SpecFloat Permutation.
From Verif Require Import GoBase GoBaseFacts CalendarModel InstantModel InstantFacts DecModel ValueModel FloatFacts EncModel EncProofs ClockTextModel ClockTextSpec ClockTextProofs ClockTextProps
  CodecModel CodecSpec CodecProofs CodecProps RowsModel RowsSpec RowsProofs ConvertModel ConvertProofs DecFacts UdfModel UdfSpec UdfProofs JsModel JsSpec JsProofs.
Import ListNotations.
Local Open Scope string_scope.
Open Scope Z_scope.

Ltac flat := repeat (progress (cbn [append]; rewrite ?string_app_assoc)); reflexivity.

(** C269: whatever the code, the return type, the names of the parameters and the texts of the
    arguments are, the text of a call has as its first arguments one literal for the code, one for
    the type and, with parameters, one for their names; each decodes to the document it was made of,
    and the document of the code to the code.  A call with an argument per parameter always has a
    text. *)
Theorem c269_code_arrives : forall code ret args names values,
  ((length names <= length values)%nat -> exists text, call_sql names values (js_body (base64_text code) (base64_text ret) (base64_text args) names) = Ok text) /\
  (forall text, call_sql names values (js_body (base64_text code) (base64_text ret) (base64_text args) names) = Ok text ->
   exists r1 r2 r3, text = "( zetasqlite_eval_javascript(" ++ r1 /\
     sql_literal r1 = Some (base64_text code, ", " ++ r2) /\ sql_literal r2 = Some (base64_text ret, r3) /\
     (names = [] -> r3 = ") )") /\
     (names <> [] -> exists r4 r5, r3 = ", " ++ r4 /\ sql_literal r4 = Some (base64_text args, ", " ++ r5))) /\
  base64_read (base64_text code) = Ok code /\ base64_read (base64_text ret) = Ok ret /\ base64_read (base64_text args) = Ok args /\
  (text_ok code -> round_trip (Some (VStr code)) = Ok (Some (VStr code))).
Proof.
  intros code ret args names values.
  assert (RB : forall s, base64_read (base64_text s) = Ok s).
  { intros s. pose proof (base64_round s) as B. rewrite sanitize_ok in B; [exact B|]. unfold base64_text. apply ascii_text_ok. rewrite list_ascii_of_string_of_list_ascii. apply base64_ascii. }
  split; [|split; [|split; [apply RB|split; [apply RB|split; [apply RB|apply c26_text_iff_utf8]]]]].
  - intros L. unfold call_sql. destruct (substitute_enough names values (js_body (base64_text code) (base64_text ret) (base64_text args) names) L) as (t & ->). now eexists.
  - intros text H. destruct (base64_plain code) as [C1 C2]. destruct (base64_plain ret) as [R1 R2]. destruct (base64_plain args) as [A1 A2].
    set (c := base64_text code) in *. set (r := base64_text ret) in *. set (a := base64_text args) in *. unfold call_sql in H.
    destruct names as [|n ns].
    + cbn [substitute js_body bind] in H.
      exists ("'" ++ c ++ "'" ++ ", '" ++ r ++ "'" ++ ") )"), ("'" ++ r ++ "'" ++ ") )"), ") )". split; [|split; [|split; [|split]]].
      * assert (E : text = "( " ++ ("zetasqlite_eval_javascript('" ++ c ++ "', '" ++ r ++ "')") ++ " )") by congruence. rewrite E. clear. flat.
      * apply literal_plain; [exact C2|discriminate].
      * apply literal_plain; [exact R2|discriminate].
      * reflexivity.
      * intros X. now destruct X.
    + set (tail := commas (map (fun n => "@" ++ n) (n :: ns)) ++ ")").
      assert (B : js_body c r a (n :: ns) = ("zetasqlite_eval_javascript('" ++ c ++ "', '" ++ r ++ "', '" ++ a ++ "', ") ++ tail).
      { unfold js_body, tail. cbn [map commas]. flat. }
      rewrite B, substitute_head in H. 2:{ rewrite !has_char_app, C1, R1, A1. reflexivity. }
      destruct (substitute (n :: ns) values tail) as [t| |]; cbn [bind] in H; try discriminate.
      exists ("'" ++ c ++ "'" ++ ", '" ++ r ++ "'" ++ ", '" ++ a ++ "'" ++ ", " ++ t ++ " )"), ("'" ++ r ++ "'" ++ ", '" ++ a ++ "'" ++ ", " ++ t ++ " )"), (", '" ++ a ++ "'" ++ ", " ++ t ++ " )").
      split; [|split; [|split; [|split]]].
      * assert (E : text = "( " ++ (("zetasqlite_eval_javascript('" ++ c ++ "', '" ++ r ++ "', '" ++ a ++ "', ") ++ t) ++ " )") by congruence. rewrite E. clear. flat.
      * apply literal_plain; [exact C2|discriminate].
      * apply literal_plain; [exact R2|discriminate].
      * discriminate.
      * intros _. exists ("'" ++ a ++ "'" ++ ", " ++ t ++ " )"), (t ++ " )"). split; [reflexivity|]. apply literal_plain; [exact A2|discriminate].
Qed.
Example c269_ex : exists text,
  call_sql ["x"] ["'it''s @x'"] (js_body (base64_text "return '@x' + x; // ')") (base64_text "{}") (base64_text "[]") ["x"]) = Ok text /\
  text = "( zetasqlite_eval_javascript('" ++ base64_text "return '@x' + x; // ')" ++ "', 'e30=', 'W10=', 'it''s @x') )".
Proof. eexists. split; reflexivity. Qed.

(** C270: the arguments follow in the order of the parameters, if no name begins another that comes
    later and the texts of the arguments hold no "@". *)
Theorem c270_arguments_arrive_partial : forall code ret args names values, names <> [] ->
  length values = length names -> (forall n, In n names -> identifier n) -> NoDup names -> prefix_free names ->
  (forall v, In v values -> has_char "@" v = false) ->
  call_sql names values (js_body (base64_text code) (base64_text ret) (base64_text args) names) =
    Ok ("( zetasqlite_eval_javascript('" ++ base64_text code ++ "', '" ++ base64_text ret ++ "', '" ++ base64_text args ++ "', " ++ commas values ++ ") )").
Proof.
  intros code ret args names values NE L ID ND PF NA. destruct (base64_plain code) as [C1 _]. destruct (base64_plain ret) as [R1 _]. destruct (base64_plain args) as [A1 _].
  set (c := base64_text code) in *. set (r := base64_text ret) in *. set (a := base64_text args) in *.
  set (refs := fix refs (l : list string) : list piece := match l with [] => [] | [x] => [Ref x; Lit ")"] | x :: t => Ref x :: Lit "," :: refs t end).
  set (head := "zetasqlite_eval_javascript('" ++ c ++ "', '" ++ r ++ "', '" ++ a ++ "', ").
  assert (RR : forall l, l <> [] -> render (refs l) = commas (map (fun n => "@" ++ n) l) ++ ")").
  { induction l as [|x [|y l] IH]; intros X; [congruence|reflexivity|]. change (refs (x :: y :: l)) with (Ref x :: Lit "," :: refs (y :: l)). cbn [render]. rewrite IH by discriminate.
    cbn [map commas]. rewrite !string_app_assoc. reflexivity. }
  assert (B : js_body c r a names = render (Lit head :: refs names)).
  { cbn [render]. rewrite RR by exact NE. unfold head, js_body. destruct names; [congruence|]. flat. }
  rewrite B. unfold call_sql. rewrite substitute_spec; auto.
  - cbn [bind simultaneous]. f_equal.
    assert (S : forall ns vs, ns <> [] -> length vs = length ns -> (forall n v, In (n, v) (combine ns vs) -> value_of names values n = Some v) ->
      simultaneous names values (refs ns) = commas vs ++ ")").
    { induction ns as [|x [|y ns] IH]; intros vs X Lv H; [congruence| |].
      - destruct vs as [|v [|]]; try discriminate. cbn [refs simultaneous]. rewrite (H x v) by now left. reflexivity.
      - destruct vs as [|v [|w vs]]; try discriminate. change (refs (x :: y :: ns)) with (Ref x :: Lit "," :: refs (y :: ns)). cbn [simultaneous]. rewrite (H x v) by now left.
        rewrite (IH (w :: vs)); [|discriminate|cbn in *; lia|intros n' v' I; apply H; now right]. cbn [commas]. rewrite !string_app_assoc. reflexivity. }
    rewrite (S names values NE L).
    + unfold head. clear. flat.
    + clear -ND. revert values. induction names as [|m ms IH]; intros values n v I; [contradiction|]. destruct values as [|w ws]; [contradiction|]. inversion ND as [|? ? NI ND']; subst. cbn [value_of].
      destruct I as [E|I]; [assert (m = n) by congruence; assert (w = v) by congruence; subst; now rewrite String.eqb_refl|].
      destruct (String.eqb_spec m n) as [->|_]; [|now apply IH]. exfalso. apply NI. now apply in_combine_l in I.
  - cbn [formatted]. split. { unfold head. rewrite !has_char_app, C1, R1, A1. reflexivity. }
    clear -ID. induction names as [|x [|y ns] IH]; [exact I| |].
    + cbn. split; [apply ID; now left|]. repeat split.
    + change (refs (x :: y :: ns)) with (Ref x :: Lit "," :: refs (y :: ns)). cbn [formatted]. split; [apply ID; now left|]. split; [|reflexivity]. split; [reflexivity|]. apply IH. intros n H. apply ID. now right.
  - intros n [E|H]; [discriminate|]. clear -H. induction names as [|x [|y ns] IH]; [contradiction| |].
    + destruct H as [E|[E|[]]]; [left; congruence|discriminate].
    + change (refs (x :: y :: ns)) with (Ref x :: Lit "," :: refs (y :: ns)) in H. destruct H as [E|[E|H]]; [left; congruence|discriminate|]. right. now apply IH.
Qed.
Example c270_ex : (forall n, In n ["ab"; "a"] -> identifier n) /\ prefix_free ["ab"; "a"] /\
  call_sql ["ab"; "a"] ["1"; "`c#2`"] (js_body "Q29kZQ==" "e30=" "W10=" ["ab"; "a"]) = Ok "( zetasqlite_eval_javascript('Q29kZQ==', 'e30=', 'W10=', 1,`c#2`) )".
Proof.
  split. { intros n [<-|[<-|[]]]; split; discriminate || reflexivity. }
  split; [|reflexivity]. split; [intros m [<-|[]]; reflexivity|]. split; [intros m []|exact I].
Qed.
(** Refuted: with parameters n and n-with-more, the second argument is lost and the text of the first one
    is written into its place. *)
Theorem c270_arguments_arrive_refuted : forall code ret args n ext v w,
  identifier n -> identifier ext -> has_char "@" v = false ->
  call_sql [n; n ++ ext] [v; w] (js_body (base64_text code) (base64_text ret) (base64_text args) [n; n ++ ext]) =
    Ok ("( zetasqlite_eval_javascript('" ++ base64_text code ++ "', '" ++ base64_text ret ++ "', '" ++ base64_text args ++ "', " ++ v ++ "," ++ v ++ ext ++ ") )").
Proof.
  intros code ret args n ext v w [N0 N] [E0 E] V. destruct (base64_plain code) as [C1 _]. destruct (base64_plain ret) as [R1 _]. destruct (base64_plain args) as [A1 _].
  set (c := base64_text code) in *. set (r := base64_text ret) in *. set (a := base64_text args) in *.
  set (head := "zetasqlite_eval_javascript('" ++ c ++ "', '" ++ r ++ "', '" ++ a ++ "', ").
  assert (B : js_body c r a [n; n ++ ext] = head ++ ("@" ++ n ++ "," ++ "@" ++ n ++ ext ++ ")")).
  { unfold head, js_body. cbn [map commas]. flat. }
  unfold call_sql. rewrite B, substitute_head. 2:{ unfold head. rewrite !has_char_app, C1, R1, A1. reflexivity. }
  assert (S : substitute [n; n ++ ext] [v; w] ("@" ++ n ++ "," ++ "@" ++ n ++ ext ++ ")") = Ok (v ++ "," ++ v ++ ext ++ ")")).
  { cbn [substitute]. assert (X : replace_all ("@" ++ n ++ "," ++ "@" ++ n ++ ext ++ ")") ("@" ++ n) v = v ++ "," ++ v ++ ext ++ ")").
    { unfold replace_all. cbn [append replace_from has_prefix]. rewrite Ascii.eqb_refl, has_prefix_app. cbn [andb].
      replace (String.length (String "@" n) - 1)%nat with (String.length n) by (cbn; lia). rewrite replace_skip. f_equal.
      cbn [replace_from has_prefix]. change (Ascii.eqb "@" ",") with false. cbn [andb]. cbn [append]. f_equal. cbn [replace_from has_prefix]. rewrite Ascii.eqb_refl, has_prefix_app. cbn [andb].
      replace (String.length (String "@" n) - 1)%nat with (String.length n) by (cbn; lia). rewrite replace_skip. f_equal.
      rewrite replace_lit by now apply ident_no_at. reflexivity. }
    rewrite X. f_equal. unfold replace_all. cbn [append].
    pose proof (replace_lit (n ++ ext) w (v ++ "," ++ v ++ ext ++ ")") "") as R. rewrite string_app_nil_r in R. cbn [append] in R. rewrite R; [cbn; now rewrite string_app_nil_r|].
    rewrite !has_char_app, V. cbn [has_char orb]. rewrite has_char_app, V, has_char_app. rewrite (ident_no_at ext E). reflexivity. }
  rewrite S. cbn [bind]. f_equal. unfold head. clear. flat.
Qed.
Example c270_witness : call_sql ["a"; "ab"] ["1"; "2"] (js_body "Q29kZQ==" "e30=" "W10=" ["a"; "ab"]) = Ok "( zetasqlite_eval_javascript('Q29kZQ==', 'e30=', 'W10=', 1,1b) )".
Proof. reflexivity. Qed.

(** C276: code may end in a comment.  Refuted: code without literals or other comments whose braces
    match, followed by a comment that does not end its line, makes a program with one closing brace too
    few: the comment swallows the brace that ends the function. *)
Theorem c276_final_comment_refuted : forall code comment, has_char "/" code = false -> has_char "010" comment = false -> braces code = 0 ->
  braces (uncommented false (program (code ++ "//" ++ comment))) = 1.
Proof.
  intros code comment S N B. unfold program.
  assert (E : newline ++ "function zetasqlite_javascript_func() { " ++ (code ++ "//" ++ comment) ++ " }" ++ newline ++ "zetasqlite_javascript_func();" ++ newline =
    (newline ++ "function zetasqlite_javascript_func() { " ++ code) ++ ("//" ++ (comment ++ " }") ++ newline ++ "zetasqlite_javascript_func();" ++ newline)).
  { flat. }
  rewrite E. rewrite uncommented_plain. 2:{ rewrite !has_char_app, S. reflexivity. }
  rewrite !braces_app, B. cbn [append uncommented]. cbn [Ascii.eqb Bool.eqb andb].
  rewrite uncommented_inside. 2:{ rewrite has_char_app, N. reflexivity. }
  reflexivity.
Qed.
(** Comments that end their line do no harm. *)
Theorem c276_final_comment_partial : forall code comment, has_char "/" code = false -> has_char "010" comment = false -> braces code = 0 ->
  braces (uncommented false (program (code ++ "//" ++ comment ++ newline))) = 0 /\ braces (uncommented false (program code)) = 0.
Proof.
  intros code comment S N B. unfold program. split.
  - assert (E : newline ++ "function zetasqlite_javascript_func() { " ++ (code ++ "//" ++ comment ++ newline) ++ " }" ++ newline ++ "zetasqlite_javascript_func();" ++ newline =
      (newline ++ "function zetasqlite_javascript_func() { " ++ code) ++ ("//" ++ comment ++ newline ++ " }" ++ newline ++ "zetasqlite_javascript_func();" ++ newline)).
    { flat. }
    rewrite E. rewrite uncommented_plain. 2:{ rewrite !has_char_app, S. reflexivity. }
    rewrite !braces_app, B. cbn [append uncommented]. cbn [Ascii.eqb Bool.eqb andb].
    rewrite uncommented_inside by exact N. reflexivity.
  - assert (E : newline ++ "function zetasqlite_javascript_func() { " ++ code ++ " }" ++ newline ++ "zetasqlite_javascript_func();" ++ newline =
      (newline ++ "function zetasqlite_javascript_func() { " ++ code) ++ (" }" ++ newline ++ "zetasqlite_javascript_func();" ++ newline)).
    { flat. }
    rewrite E. rewrite uncommented_plain. 2:{ rewrite !has_char_app, S. reflexivity. }
    rewrite !braces_app, B. reflexivity.
Qed.
Example c276_ex : has_char "/" "if (x) { return 1; } return 2; " = false /\ braces "if (x) { return 1; } return 2; " = 0 /\
  uncommented false (program "return 2; // two") = newline ++ "function zetasqlite_javascript_func() { return 2; " ++ newline ++ "zetasqlite_javascript_func();" ++ newline.
Proof. repeat split. Qed.

Section Js.
Variable offset : Z -> Z.
Variable zone_offset : string -> option Z.
Variable other_rat : string -> Q.
Variable float_text : float -> string.
Variable float_read : string -> option float.
Variable rat_float : Q -> float.
Variable int_read : string -> option Z.
Variable doc_text : val -> string.
Variable json_text : val -> string.
Variable float_time : float -> Z.
Variable stamp_text : Z -> string.
Variable interval_go : Z -> Z -> Z -> go.
Variable E : engine.
Notation js_call := (js_call offset zone_offset other_rat float_text float_read rat_float int_read doc_text json_text float_time stamp_text interval_go E).
Notation cast_js := (cast_js offset zone_offset other_rat float_text float_read rat_float int_read doc_text json_text float_time E).
Notation iface := (iface stamp_text interval_go).

Lemma identity_call n t v j : returns_variable E n -> (forall l, v <> VStruct l) -> seen (iface v) j -> js_call ("return " ++ n) t [n] [Some v] = cast_js t j.
Proof.
  intros R NS SE. unfold JsModel.js_call. cbn [set_args bind]. assert (J : js_arg stamp_text interval_go (Some v) = Plain (iface v)) by (destruct v; try reflexivity; now destruct (NS l)).
  rewrite J. rewrite (R _ _ SE). reflexivity.
Qed.
(** C271: a function that returns its argument gives it back: INT64 below 2^53, BOOL, FLOAT64,
    STRING, DATE and DATETIME. *)
Theorem c271_identity_partial : forall n t v, ecmascript E -> returns_variable E n -> carried t v -> js_call ("return " ++ n) t [n] [Some v] = Ok (Some v).
Proof.
  intros n t v EC R C. destruct C as [z B|b|f|s T|d M Y|d M Y].
  - rewrite (identity_call n TInt (VInt z) (JNumber (float_of_int z)) R); [|discriminate|constructor]. cbn [JsModel.cast_js].
    pose proof (int_of_same z (float_of_int z) B (float_is_of_int z B)) as I. unfold int_of_float in I.
    destruct (trunc_float (float_of_int z)) as [k|] eqn:T.
    + assert (k = z). { destruct (in64b k); [exact I|]. unfold two63 in I. lia. }
      subst k. rewrite (integer_of_number E EC _ z T); [reflexivity|]. unfold in64, two63. lia.
    + unfold two63 in I. lia.
  - rewrite (identity_call n TBool (VBool b) (JBool b) R); [|discriminate|constructor]. cbn [JsModel.cast_js]. now rewrite (boolean_of_boolean E EC).
  - rewrite (identity_call n TFloat (VFloat f) (JNumber f) R); [|discriminate|constructor]. cbn [JsModel.cast_js]. now rewrite (float_of_number E EC).
  - rewrite (identity_call n TStr (VStr s) (JString s) R); [|discriminate|now constructor]. cbn [JsModel.cast_js]. now rewrite (text_of_string E EC).
  - rewrite (identity_call n TDate (VDate d) (JString (date_text (day_no d))) R); [|discriminate|constructor; apply ascii_text_ok; now apply asc_date].
    cbn [JsModel.cast_js]. rewrite (text_of_string E EC). now apply date_round.
  - rewrite (identity_call n TDatetime (VDatetime d) (JString (datetime_text d)) R); [|discriminate|constructor; apply ascii_text_ok].
    + cbn [JsModel.cast_js]. rewrite (text_of_string E EC). now rewrite (proj1 (c100_datetime_text_reads_back d Y M)).
    + unfold datetime_text. apply asc_app; [now apply asc_date|]. apply asc_app; [repeat constructor|apply asc_clock].
Qed.
(** Refuted for INT64: an argument comes back as the nearest FLOAT64; 2^53 + 1 does not come back. *)
Theorem c271_int64_refuted : ecmascript E -> forall n, returns_variable E n ->
  (forall z k, trunc_float (float_of_int z) = Some k -> in64 k -> js_call ("return " ++ n) TInt [n] [Some (VInt z)] = Ok (Some (VInt k))) /\
  js_call ("return " ++ n) TInt [n] [Some (VInt (2 ^ 53 + 1))] = Ok (Some (VInt (2 ^ 53))).
Proof.
  intros EC n R.
  assert (G : forall z k, trunc_float (float_of_int z) = Some k -> in64 k -> js_call ("return " ++ n) TInt [n] [Some (VInt z)] = Ok (Some (VInt k))).
  { intros z k T I. rewrite (identity_call n TInt (VInt z) (JNumber (float_of_int z)) R); [|discriminate|constructor]. cbn [JsModel.cast_js]. now rewrite (integer_of_number E EC _ k T I). }
  split; [exact G|]. apply G; [reflexivity|]. unfold in64, two63. split; reflexivity || discriminate.
Qed.
(** Refuted for NUMERIC: the argument is a text with a slash, even when it is a whole number, which is not a
    number to JavaScript: all arguments come back as the same NUMERIC. *)
Theorem c271_numeric_refuted : ecmascript E -> forall n, returns_variable E n -> exists r, forall q, js_call ("return " ++ n) TNum [n] [Some (VNum q)] = Ok (Some (VNum r)).
Proof.
  intros EC n R. exists (string_rat other_rat "NaN"). intros q.
  rewrite (identity_call n TNum (VNum q) (JString (dec (Qnum (Qred q)) ++ "/" ++ udec (Zpos (Qden (Qred q))))) R); [|discriminate|].
  - cbn [JsModel.cast_js]. rewrite (number_of_string E EC); [reflexivity|]. rewrite has_char_app. cbn [append has_char]. now rewrite orb_true_r.
  - cbn [RowsModel.iface]. constructor. apply ascii_text_ok. apply asc_app; [apply dec_ascii|]. apply asc_app; [repeat constructor|]. apply digits_ascii. apply DecFacts.udec_all_digits. lia.
Qed.
(** Refuted for TIMESTAMP: arguments of the same second give the same result. *)
Theorem c271_timestamp_refuted : forall code t n a b, unix a = unix b -> js_call code t [n] [Some (VTimestamp a)] = js_call code t [n] [Some (VTimestamp b)].
Proof. intros code t n a b U. unfold JsModel.js_call. cbn [set_args js_arg RowsModel.iface]. now rewrite U. Qed.

(** C272: refuted: a function whose type is no STRUCT never returns NULL, whatever it returns; so not
    for null, nor for undefined. *)
Theorem c272_null_refuted : forall code t names args, (forall fs, t <> TStruct fs) -> js_call code t names args <> Ok None.
Proof.
  intros code t names args NS H. unfold JsModel.js_call in H. destruct (set_args stamp_text interval_go names args); cbn [bind] in H; try discriminate.
  destruct (run_program E (program code) a) as [v| |]; cbn [bind] in H; try discriminate. destruct t; cbn [JsModel.cast_js] in H; try discriminate.
  - destruct (parse_date (as_text E v)); discriminate.
  - destruct (parse_datetime (as_text E v)); discriminate.
  - destruct (parse_time (as_text E v)); discriminate.
  - destruct (parse_timestamp zone_offset (as_text E v)); discriminate.
  - destruct (export E v); try discriminate. destruct (js_elems offset zone_offset other_rat float_text float_read rat_float int_read doc_text json_text float_time t l); discriminate.
  - now destruct (NS fs).
Qed.
(** A STRUCT function that returns null or undefined (exported as nil) gives NULL. *)
Theorem c272_null_partial : forall code fs names args env v, set_args stamp_text interval_go names args = Ok env ->
  run_program E (program code) env = Ok v -> export E v = ANil -> js_call code (TStruct fs) names args = Ok None.
Proof. intros code fs names args env v H1 H2 H3. unfold JsModel.js_call. rewrite H1. cbn [bind]. rewrite H2. cbn [bind JsModel.cast_js]. rewrite H3. reflexivity. Qed.

(** C273: arrays and objects are taken element by element and property by property, to any depth. *)
Theorem c273_documents : forall t v o, plain_arg (export E v) -> means t (export E v) o ->
  (exists e, t = TArray e) \/ (exists fs, t = TStruct fs) -> (forall e, t = TArray e -> export E v <> ANil) -> cast_js t v = Ok o.
Proof.
  intros t v o P M [(e & ->)|(fs & ->)] NN.
  - cbn [JsModel.cast_js]. specialize (NN e eq_refl). cbn [means] in M. destruct (export E v) as [| | | | | | | | | | |l0|l1|l2]; try (now destruct NN); destruct M as (l & vs & X & -> & F); try discriminate.
    assert (l0 = l) by congruence. subst l0. clear X NN.
    assert (G : js_elems offset zone_offset other_rat float_text float_read rat_float int_read doc_text json_text float_time e l = Ok vs).
    { induction F as [|x w l vs Mx F IH]; [reflexivity|]. destruct P as [P1 P2]. cbn [js_elems].
      destruct (means_cast (convert offset zone_offset other_rat float_text float_read rat_float int_read doc_text json_text float_time) (fun l => doc_text (VStruct l)) (ty_size e) e x w (le_n _) P1 Mx) as (b & B1 & B2).
      rewrite B1. cbn [bind]. unfold js_cast, cast_to. rewrite B2. cbn [bind]. fold (js_cast offset zone_offset other_rat float_text float_read rat_float int_read doc_text json_text float_time). rewrite (IH P2). reflexivity. }
    rewrite G. reflexivity.
  - cbn [JsModel.cast_js].
    destruct (means_cast (convert offset zone_offset other_rat float_text float_read rat_float int_read doc_text json_text float_time) (fun l => doc_text (VStruct l)) (ty_size (TStruct fs)) (TStruct fs) _ o (le_n _) P M) as (b & B1 & B2).
    rewrite B1. exact B2.
Qed.
(** C274: the order in which Go goes through the properties of a returned object does not matter. *)
Theorem c274_any_order : forall fs v v' l l', export E v = AMap l -> export E v' = AMap l' -> NoDup (map fst l) -> Permutation l l' ->
  cast_js (TStruct fs) v = cast_js (TStruct fs) v'.
Proof. intros fs v v' l l' E1 E2 N P. cbn [JsModel.cast_js]. rewrite E1, E2. unfold js_cast, cast_to. now apply struct_perm. Qed.
(** C275: refuted: an ARRAY function that returns anything but an array, null included, crashes
    the process. *)
Theorem c275_no_crash_refuted : forall code t names args env v, set_args stamp_text interval_go names args = Ok env ->
  run_program E (program code) env = Ok v -> (forall l, export E v <> ASlice l) -> js_call code (TArray t) names args = GoPanic.
Proof.
  intros code t names args env v H1 H2 H3. unfold JsModel.js_call. rewrite H1. cbn [bind]. rewrite H2. cbn [bind JsModel.cast_js].
  destruct (export E v); try reflexivity. now destruct (H3 l).
Qed.
(** A function with another return type than ARRAY or STRUCT that has a name for each argument does not crash
    unless the engine does. *)
Theorem c275_no_crash_partial : forall code t names args, (length args <= length names)%nat -> (forall p env, run_program E p env <> GoPanic) ->
  (forall e, t <> TArray e) -> (forall fs, t <> TStruct fs) -> js_call code t names args <> GoPanic.
Proof.
  intros code t names args L RP NA NS H. unfold JsModel.js_call in H.
  assert (SA : forall args names, (length args <= length names)%nat -> exists env, set_args stamp_text interval_go names args = Ok env).
  { clear. induction args as [|o args IH]; intros names L; [now exists []|]. destruct names as [|n names]; cbn in L; [lia|]. cbn [set_args]. destruct (IH names ltac:(lia)) as (env & ->). now eexists. }
  destruct (SA args names L) as (env & S). rewrite S in H. cbn [bind] in H. destruct (run_program E (program code) env) as [v| |] eqn:RV; cbn [bind] in H; try discriminate; [|exact (RP _ _ RV)].
  destruct t; cbn [JsModel.cast_js] in H; try discriminate.
  - destruct (parse_date (as_text E v)); discriminate.
  - destruct (parse_datetime (as_text E v)); discriminate.
  - destruct (parse_time (as_text E v)); discriminate.
  - destruct (parse_timestamp zone_offset (as_text E v)); discriminate.
  - now destruct (NA t).
  - now destruct (NS fs).
Qed.
(** C277: a DATE, DATETIME or TIME function succeeds exactly when what it returns names one, and gives it. *)
Theorem c277_dates : forall v o,
  (cast_js TDate v = Ok o <-> exists n, names_day (as_text E v) n /\ o = Some (VDate (n * ns_per_day))) /\
  (cast_js TDatetime v = Ok o <-> exists n c ns, names_datetime (as_text E v) n c ns /\ o = Some (VDatetime ((n * 86400 + c) * ns_per_sec + ns))) /\
  (cast_js TTime v = Ok o <-> exists c ns, names_clock (as_text E v) c ns /\ o = Some (VTime ((godate 0 1 1 * 86400 + c) * ns_per_sec + ns))).
Proof.
  intros v o. cbn [JsModel.cast_js]. split; [|split].
  - split.
    + destruct (parse_date (as_text E v)) as [n|] eqn:P; intros H; [|discriminate]. exists n. split; [now apply c101_date_reading|]. unfold lift in H. congruence.
    + intros (n & N & ->). apply c101_date_reading in N. now rewrite N.
  - split.
    + destruct (parse_datetime (as_text E v)) as [t|] eqn:P; intros H; [|discriminate]. apply c101_datetime_reading in P. destruct P as (n & c & ns & N & ->). exists n, c, ns. split; [exact N|]. cbn [lift] in H. congruence.
    + intros (n & c & ns & N & ->). assert (P : parse_datetime (as_text E v) = Some ((n * 86400 + c) * ns_per_sec + ns)) by (apply c101_datetime_reading; eauto). now rewrite P.
  - split.
    + destruct (parse_time (as_text E v)) as [t|] eqn:P; intros H; [|discriminate]. apply c101_time_reading in P. destruct P as (c & ns & N & ->). exists c, ns. split; [exact N|]. unfold lift in H. congruence.
    + intros (c & ns & N & ->). assert (P : parse_time (as_text E v) = Some ((godate 0 1 1 * 86400 + c) * ns_per_sec + ns)) by (apply c101_time_reading; eauto). now rewrite P.
Qed.
(** C278: refuted: a NUMERIC function never fails, whatever it returns; anything that is no number is
    one and the same NUMERIC. *)
Theorem c278_numeric_refuted : ecmascript E -> (forall v, exists q, cast_js TNum v = Ok (Some (VNum q))) /\
  exists r, forall s, has_char "/" s = true -> cast_js TNum (JString s) = Ok (Some (VNum r)).
Proof.
  intros EC. split; [intros v; cbn [JsModel.cast_js]; now eexists|]. exists (string_rat other_rat "NaN"). intros s H. cbn [JsModel.cast_js]. now rewrite (number_of_string E EC).
Qed.
(** C279: refuted: an object without properties gives a STRUCT without fields, whatever the type. *)
Theorem c279_empty_object_refuted : forall fs v, export E v = AMap [] -> cast_js (TStruct fs) v = Ok (Some (VStruct [])).
Proof. intros fs v H. cbn [JsModel.cast_js]. rewrite H. reflexivity. Qed.
End Js.

(** An engine that answers as ECMAScript says for programs that return a variable. *)
Definition small_engine : engine := Engine
  (fun p env => match env with
    | [(n, Plain g)] =>
        if String.eqb p (program ("return " ++ n)) then
          match g with
          | GNil => Ok JNull | GInt z => Ok (JNumber (float_of_int z)) | GBool b => Ok (JBool b) | GFloat f => Ok (JNumber f) | GText s => Ok (JString s)
          | _ => Ok (JOther 0)
          end
        else Err
    | _ => Err
    end)
  (fun v => match v with JNumber f => int_of_float f | _ => 0 end)
  (fun v => match v with JBool b => b | _ => false end)
  (fun v => match v with JNumber f => f | _ => S754_nan end)
  (fun v => match v with JString s => s | JNull => "null" | _ => "" end)
  (fun v => match v with JString s => if has_char "/" s then "NaN" else s | _ => "0" end)
  (fun v => match v with JObject _ => AMap [("b", AStr "x"); ("c", AInt 1); ("a", ASlice [AInt 7; ANil])] | JArray _ => ASlice [AInt 1; ANil] | _ => ANil end).
Example small_engine_ok : ecmascript small_engine /\ (forall n, returns_variable small_engine n).
Proof.
  split.
  - constructor; try reflexivity.
    + intros f n T I. cbn. unfold int_of_float. rewrite T. assert (B : in64b n = true) by (unfold in64b, in64 in *; apply andb_true_intro; split; [apply Z.leb_le|apply Z.ltb_lt]; lia). now rewrite B.
    + intros s H. cbn. now rewrite H.
  - intros n g j SE. cbn [run_program small_engine]. rewrite String.eqb_refl. now destruct SE.
Qed.
Example c271_ex : carried TInt (VInt 42) /\ carried TStr (VStr "x") /\ trunc_float (float_of_int (2 ^ 53 + 1)) = Some (2 ^ 53).
Proof. split; [constructor; reflexivity|]. split; [constructor; apply ascii_text_ok; repeat constructor|reflexivity]. Qed.
Example c273_ex :
  means (TStruct [("a", TArray TInt); ("b", TStr); ("d", TBool)]) (export small_engine (JObject [])) (Some (VStruct [("a", Some (VArray [Some (VInt 7); None])); ("b", Some (VStr "x")); ("d", None)])) /\
  plain_arg (export small_engine (JObject [])) /\ means (TArray TFloat) (export small_engine (JArray [])) (Some (VArray [Some (VFloat (float_of_int 1)); None])) /\
  export small_engine JNull = ANil.
Proof.
  split; [|split; [cbn; tauto|split; [|reflexivity]]].
  - cbn [means export small_engine]. eexists _, _. split; [reflexivity|]. split; [reflexivity|].
    split. { repeat constructor; cbn; intuition discriminate. }
    split. { repeat constructor; cbn; intuition discriminate. }
    split. { exists "b". split; [now left|discriminate]. }
    cbn. split; [reflexivity|]. split.
    { eexists _, _. split; [reflexivity|]. split; [reflexivity|]. apply Forall2_cons; [now exists 7|]. apply Forall2_cons; [reflexivity|constructor]. }
    split; [reflexivity|]. split; [now exists "x"|]. auto.
  - cbn [means export small_engine]. eexists _, _. split; [reflexivity|]. split; [reflexivity|]. apply Forall2_cons; [right; now exists 1|]. apply Forall2_cons; [reflexivity|constructor].
Qed.
Example c274_ex : NoDup (map fst [("b", AStr "x"); ("c", AInt 1)]) /\ Permutation [("b", AStr "x"); ("c", AInt 1)] [("c", AInt 1); ("b", AStr "x")].
Proof. split; [repeat constructor; cbn; intuition discriminate|constructor]. Qed.

Print Assumptions c269_code_arrives.
Print Assumptions c270_arguments_arrive_partial.
Print Assumptions c270_arguments_arrive_refuted.
Print Assumptions c271_identity_partial.
Print Assumptions c271_int64_refuted.
Print Assumptions c271_numeric_refuted.
Print Assumptions c271_timestamp_refuted.
Print Assumptions c272_null_refuted.
Print Assumptions c272_null_partial.
Print Assumptions c273_documents.
Print Assumptions c274_any_order.
Print Assumptions c275_no_crash_refuted.
Print Assumptions c275_no_crash_partial.
Print Assumptions c276_final_comment_refuted.
Print Assumptions c276_final_comment_partial.
Print Assumptions c277_dates.
Print Assumptions c278_numeric_refuted.
Print Assumptions c279_empty_object_refuted.
