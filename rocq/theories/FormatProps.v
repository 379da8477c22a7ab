(** Properties of FORMAT: C81 and C150-C156. *)
From Coq Require Import Ascii String List ZArith Lia Bool.
From Verif Require Import GoBase GoBaseFacts DecModel DecFacts ValueModel FormatModel FormatSpec FormatProofs.
Import ListNotations.
Local Open Scope string_scope.
Open Scope Z_scope.

Section Props.
  (** Numbers that are not integers, JSON and the other types are printed by code outside the
      model; the theorems hold whatever it does. *)
  Variable float_text : ascii -> Z -> val -> res string.
  Variable positive : val -> bool.
  Variable json_text : ascii -> string -> res string.
  Variable printed : ascii -> val -> res string.
  Notation sql_format := (bind_format float_text positive json_text printed).

Definition call (f : string) (args : list val) : list (option val) := Some (VStr f) :: map Some args.
Lemma not_null_some l : not_null (map Some l) = Some l.
Proof. induction l as [|v l IH]; [reflexivity|]. cbn. now rewrite IH. Qed.
Lemma format_call f args : sql_format (call f args) = bind (format_text float_text positive json_text printed f args) (fun s => Ok (Some s)).
Proof. unfold bind_format, call. cbn [not_null]. now rewrite not_null_some. Qed.

(** ** C81 *)
(** Without flag or with 0, the decimal text right-aligned in the width *)
Theorem c81_decimal : forall (zero : bool) w v, fixed_width w ->
  exists s, sql_format (call ("%" ++ (if zero then "0" else "") ++ width_text w ++ "d") [VInt v]) = Ok (Some s) /\ int_text zero (width_value w) "d" v s.
Proof.
  intros z w v F. destruct (fixed_good w F) as (_ & Wv & _).
  exists (sprintf z (width_value w) "d" v). split; [|now apply sprintf_d].
  pose proof (int_step float_text positive json_text printed (if z then FZero else FNone) w v F) as E. rewrite format_call. destruct z; cbn [flag_text] in E; cbn [append] in *; rewrite E; reflexivity.
Qed.
Theorem c81_text_unique : forall zero w v s t, int_text zero w "d" v s -> int_text zero w "d" v t -> s = t.
Proof. intros zero w v s t. apply int_text_unique. Qed.
(** With ' the text without its commas is the decimal text; it is the documented one exactly
    when no comma falls behind the sign. *)
Theorem c81_grouping_partial : forall w v a, fixed_width w -> in_base 10 false a (Z.abs v) ->
  exists s, sql_format (call ("%'" ++ width_text w ++ "d") [VInt v]) = Ok (Some s) /\
    no_commas s = (if v <? 0 then "-" else "") ++ a /\
    (grouped_int v s <-> 0 <= v \/ (String.length a mod 3 <> 0)%nat).
Proof.
  intros w v a F Ia. pose proof (int_step float_text positive json_text printed FQuote w v F) as E. destruct (commas_exact v) as (g & Eg & X & Y).
  exists g. rewrite format_call. cbn [flag_text append] in E. cbn [append]. rewrite E, Eg. split; [reflexivity|].
  assert (Da : udec (Z.abs v) = a) by (eapply in_base_unique; [|apply udec_in; lia | exact Ia]; lia).
  split.
  - rewrite Y. unfold dec. destruct (Z.ltb_spec v 0); [replace (- v) with (Z.abs v) by lia | replace v with (Z.abs v) at 1 by lia]; now rewrite Da.
  - rewrite X. destruct (Z.ltb_spec v 0); [replace (- v) with (Z.abs v) by lia; now rewrite Da | split; intros; left; lia].
Qed.
Theorem c81_grouping_refuted : forall v a, v < 0 -> in_base 10 false a (Z.abs v) -> (String.length a mod 3 = 0)%nat ->
  exists s, sql_format (call "%'d" [VInt v]) = Ok (Some s) /\ ~ grouped_int v s.
Proof.
  intros v a N Ia M. destruct (c81_grouping_partial Plain v a I Ia) as (s & E & _ & X). exists s. split; [exact E|]. intros G. apply X in G. lia.
Qed.
(** With ' the width is not looked at. *)
Theorem c81_grouped_width_refuted : forall w v, 1 <= w <= 10000009 ->
  sql_format (call ("%'" ++ width_text (W w) ++ "d") [VInt v]) = sql_format (call "%'d" [VInt v]).
Proof.
  intros w v F. pose proof (int_step float_text positive json_text printed FQuote (W w) v F) as E1. pose proof (int_step float_text positive json_text printed FQuote Plain v I) as E2.
  rewrite !format_call. cbn [flag_text width_text append] in *. now rewrite E1, E2.
Qed.
(** A width fmt does not take loses the number. *)
Theorem c81_huge_width_refuted : forall w v, 10000009 < w ->
  sql_format (call "%*d" [VInt w; VInt v]) = Ok (Some ("%!(NOVERB)%!(EXTRA int64=" ++ dec v ++ ")")).
Proof.
  intros w v H. rewrite format_call. pose proof (text_step float_text positive json_text printed FNone Star "d" [VInt w; VInt v] eq_refl I) as E. cbn [flag_text width_text append] in E. rewrite E.
  cbv zeta. change (required _) with 2%nat. cbn [List.length Nat.ltb Nat.leb firstn].
  assert (C : validate printed (Param FNone (count_of Star) None "d") [VInt w; VInt v] = Ok tt) by reflexivity. rewrite C. cbn [bind].
  unfold format_one, format_int. cbn [spec count_of wid width_of fl]. replace (w <=? 0) with false by (symmetry; apply Z.leb_gt; lia).
  change (Ascii.eqb "d" "%") with false. change (among ["d"; "i"; "o"; "x"; "X"]%char "d") with true. cbn iota. change (Ascii.eqb "d" "i") with false. cbn iota beta zeta. unfold sprintf.
  assert (L : 1000000 < w / 10) by (assert (1000001 <= w / 10); [apply Z.div_le_lower_bound; lia | lia]). apply Z.ltb_lt in L. rewrite L. reflexivity.
Qed.
Example c81_zero : sql_format (call "%08d" [VInt (-1234)]) = Ok (Some "-0001234").
Proof. reflexivity. Qed.
Example c81_group : sql_format (call "%'d" [VInt 1234567]) = Ok (Some "1,234,567").
Proof. reflexivity. Qed.
Example c81_group_negative : sql_format (call "%'d" [VInt (-123456)]) = Ok (Some "-,123,456").
Proof. reflexivity. Qed.
Example c81_wide : sql_format (call "%'10d" [VInt 1234]) = Ok (Some "1,234").
Proof. reflexivity. Qed.
Example c81_in_base : in_base 10 false "123" 123.
Proof. change 123 with (10 * (10 * 1 + 2) + 3). apply (in_base_more 10 false "12" 12 3); [|lia|lia]. apply (in_base_more 10 false "1" 1 2); [|lia|lia]. apply (in_base_one 10 false 1). lia. Qed.

(** ** C150 *)
Theorem c150_left_to_right : forall ps args s, says ps args s -> Forall proper ps -> sql_format (call (pattern ps) args) = Ok (Some s).
Proof.
  intros ps args s H F. rewrite format_call. unfold format_text. pose proof (says_ok float_text positive json_text printed ps args s H F [] (String.length (pattern ps)) (le_n _)) as E.
  rewrite app_nil_r in E. now rewrite E.
Qed.
Theorem c150_text_unique : forall ps args s t, Forall proper ps -> says ps args s -> says ps args t -> s = t.
Proof.
  intros ps args s t F H1 H2. pose proof (c150_left_to_right ps args s H1 F) as E1. pose proof (c150_left_to_right ps args t H2 F) as E2. congruence.
Qed.
Example c150_case : says [Ch "n"; Ch "="; Int false Star "x"; Ch " "; Str; Pct] [VInt 4; VInt 255; VStr "ok"] "n=  ff ok%".
Proof.
  apply (says_piece (Ch "n") [] "n" _ [VInt 4; VInt 255; VStr "ok"] "=  ff ok%"); [constructor|].
  apply (says_piece (Ch "=") [] "=" _ [VInt 4; VInt 255; VStr "ok"] "  ff ok%"); [constructor|].
  apply (says_piece (Int false Star "x") [VInt 4; VInt 255] "  ff" _ [VStr "ok"] " ok%").
  - apply prints_star; [lia | | right; right; lia]. exists 16, false, "ff". split; [reflexivity|]. split.
    + change (Z.abs 255) with (16 * 15 + 15). apply (in_base_more 16 false "f" 15 15); [|lia|lia]. apply (in_base_one 16 false 15). lia.
    + exists 2%nat. split; reflexivity.
  - apply (says_piece (Ch " ") [] " " _ [VStr "ok"] "ok%"); [constructor|]. apply (says_piece Str [VStr "ok"] "ok" _ [] "%"); [constructor|]. apply (says_piece Pct [] "%" _ [] ""); constructor.
Qed.
Example c150_run : sql_format (call "n=%*x %s%%" [VInt 4; VInt 255; VStr "ok"]) = Ok (Some "n=  ff ok%").
Proof. reflexivity. Qed.

(** ** C151 *)
Theorem c151_arguments_partial : forall ps args, Forall (fun p => proper p /\ p <> Show) ps ->
  ((exists s, sql_format (call (pattern ps) args) = Ok (Some s)) <-> fits ps args).
Proof.
  intros ps args F. rewrite format_call. unfold format_text. rewrite <- (fits_ok float_text positive json_text printed ps F args _ (le_n _)). split.
  - intros [s E]. apply bind_ok in E as (t & E & _). eauto.
  - intros [s E]. rewrite E. cbn [bind]. eauto.
Qed.
(** Arguments left over are not an error. *)
Theorem c151_left_over_refuted : forall ps args s more, says ps args s -> Forall proper ps -> sql_format (call (pattern ps) (args ++ more)) = Ok (Some s).
Proof.
  intros ps args s more H F. rewrite format_call. unfold format_text. now rewrite (says_ok float_text positive json_text printed ps args s H F more (String.length (pattern ps)) (le_n _)).
Qed.
Example c151_left_over : sql_format (call "%d" [VInt 1; VInt 2]) = Ok (Some "1").
Proof. reflexivity. Qed.
Example c151_missing : sql_format (call "%d%d" [VInt 1]) = Err /\ ~ fits [Int false Plain "d"; Int false Plain "d"] [VInt 1].
Proof.
  split; [reflexivity|]. intros H. assert (F : Forall (fun p => proper p /\ p <> Show) [Int false Plain "d"; Int false Plain "d"]).
  { repeat constructor; discriminate. }
  apply (c151_arguments_partial _ [VInt 1] F) in H as [s E]. discriminate E.
Qed.

(** ** C152 *)
Theorem c152_plus_partial : forall w v a, fixed_width w -> in_base 10 false a (Z.abs v) ->
  exists s, sql_format (call ("%+" ++ width_text w ++ "d") [VInt v]) = Ok (Some s) /\
    (signed_text "+" (width_value w) v s <-> v < 0 \/ (0 < v /\ width_value w <= Z.of_nat (String.length a))).
Proof.
  intros w v a F Ia. pose proof (int_step float_text positive json_text printed FPlus w v F) as E. cbn [flag_text append] in E. eexists. split; [rewrite format_call; cbn [append]; rewrite E; reflexivity|].
  apply plus_exact; [now apply fixed_good | exact Ia].
Qed.
Theorem c152_space_partial : forall w v a, fixed_width w -> in_base 10 false a (Z.abs v) ->
  exists s, sql_format (call ("% " ++ width_text w ++ "d") [VInt v]) = Ok (Some s) /\
    (signed_text " " (width_value w) v s <-> 0 <= v /\ width_value w <= Z.of_nat (String.length a)).
Proof.
  intros w v a F Ia. pose proof (int_step float_text positive json_text printed FSpace w v F) as E. cbn [flag_text append] in E. eexists. split; [rewrite format_call; cbn [append]; rewrite E; reflexivity|].
  apply space_exact; [now apply fixed_good | exact Ia].
Qed.
(** The flags - and # are refused for integers. *)
Theorem c152_minus_sharp_refuted : forall w v, fixed_width w ->
  sql_format (call ("%-" ++ width_text w ++ "d") [VInt v]) = Err /\ sql_format (call ("%#" ++ width_text w ++ "d") [VInt v]) = Err.
Proof.
  intros w v F. pose proof (int_step float_text positive json_text printed FMinus w v F) as E1. pose proof (int_step float_text positive json_text printed FSharp w v F) as E2.
  rewrite !format_call. cbn [flag_text append] in *. now rewrite E1, E2.
Qed.
Example c152_zero_unsigned : sql_format (call "%+d" [VInt 0]) = Ok (Some "0").
Proof. reflexivity. Qed.
Example c152_plus_apart : sql_format (call "%+5d" [VInt 42]) = Ok (Some "+   42").
Proof. reflexivity. Qed.
Example c152_space_minus : sql_format (call "% d" [VInt (-42)]) = Ok (Some " -42").
Proof. reflexivity. Qed.
Example c152_plus_good : sql_format (call "%+d" [VInt 42]) = Ok (Some "+42").
Proof. reflexivity. Qed.

(** ** C153 *)
Lemma precision_step ds n v : parse_precision (String "." (ds ++ "f")) = Ok (Some (Num n), "f") -> match v with VFloat _ | VNum _ => True | _ => False end ->
  sql_format (call ("%." ++ ds ++ "f") [v]) = bind (float_text "f" (if n <=? 0 then -1 else n) v) (fun s => Ok (Some s)).
Proof.
  intros E V. rewrite format_call. unfold format_text. change ("%." ++ ds ++ "f") with (String "%" (String "." (ds ++ "f"))). cbn [String.length format_loop].
  change (Ascii.eqb "%" "%") with true. cbn iota. change (parse_flag (String "." (ds ++ "f"))) with (FNone, String "." (ds ++ "f")). cbn iota beta.
  change (parse_width (String "." (ds ++ "f"))) with (Ok (None : option count, String "." (ds ++ "f"))). cbn [bind fst snd].
  rewrite E. cbn [bind fst snd]. change (among specifiers "f") with true. cbn iota zeta. change (required _) with 1%nat. cbn [List.length Nat.ltb Nat.leb firstn skipn].
  assert (C : validate printed (Param FNone None (Some (Num n)) "f") [v] = Ok tt) by (destruct v; try contradiction; reflexivity). rewrite C. cbn [bind].
  unfold format_one. cbn [spec]. change (Ascii.eqb "f" "%") with false. change (among ["d"; "i"; "o"; "x"; "X"]%char "f") with false. change (among ["f"; "F"; "e"; "E"; "g"; "G"]%char "f") with true. cbn iota.
  unfold format_float. cbn [spec wid prec fl width_of precision_of]. cbn iota beta.
  change (Ascii.eqb "f" "F") with false. cbn iota. destruct (float_text "f" _ v) as [s| |]; [|reflexivity|reflexivity]. cbn [bind].
  assert (L : (2 ^ 48 <? 0 - Z.of_nat (String.length s)) = false) by (apply Z.ltb_ge; pose proof (Z.pow_nonneg 2 48); lia). rewrite L.
  change (Z.to_nat 0) with 0%nat. cbn [Nat.sub spaces bind]. destruct (String.length _); cbn [format_loop bind]; now rewrite sapp_empty.
Qed.
Theorem c153_precision_partial : forall n v, 1 <= n -> in64 n -> match v with VFloat _ | VNum _ => True | _ => False end ->
  sql_format (call ("%." ++ dec n ++ "f") [v]) = bind (float_text "f" n v) (fun s => Ok (Some s)).
Proof.
  intros n v Hn I V. rewrite (precision_step (dec n) n v); [|clear V|exact V].
  - now replace (n <=? 0) with false by (symmetry; apply Z.leb_gt; lia).
  - unfold parse_precision. pose proof (in_base_decimal _ _ (udec_in n ltac:(lia))) as A. rewrite <- (number_text n Hn) in A. rewrite (span_all _ "f" "" A eq_refl).
    unfold number_of. rewrite parse_dec by exact I. rewrite (number_text n Hn). destruct (udec n) eqn:U; [exfalso; eapply udec_nonempty; exact U | reflexivity].
Qed.
(** The precision 0 asks for as many digits as the number has. *)
Theorem c153_zero_precision_refuted : forall v, match v with VFloat _ | VNum _ => True | _ => False end ->
  sql_format (call "%.0f" [v]) = bind (float_text "f" (-1) v) (fun s => Ok (Some s)).
Proof. intros v V. exact (precision_step "0" 0 v eq_refl V). Qed.
(** A precision taken from the arguments is never accepted. *)
Theorem c153_star_refuted : forall rest args, sql_format (call ("%.*" ++ rest) args) = Err.
Proof. intros rest args. rewrite format_call. reflexivity. Qed.

(** ** C154 *)
Theorem c154_string_width_refuted : forall w s, 1 <= w -> in64 w -> sql_format (call ("%" ++ dec w ++ "s") [VStr s]) = Ok (Some s).
Proof.
  intros w s Hw I. rewrite format_call. pose proof (text_step float_text positive json_text printed FNone (W w) "s" [VStr s] eq_refl (conj Hw I)) as E. cbn [flag_text width_text append] in *. rewrite E. reflexivity.
Qed.
(** With * the string is not printed at all. *)
Theorem c154_star_width_refuted : forall w s, sql_format (call "%*s" [VInt w; VStr s]) = Ok (Some (dec w)).
Proof.
  intros w s. rewrite format_call. pose proof (text_step float_text positive json_text printed FNone Star "s" [VInt w; VStr s] eq_refl I) as E. cbn [flag_text width_text append] in *. rewrite E. reflexivity.
Qed.
Example c154_short : sql_format (call "[%5s]" [VStr "ab"]) = Ok (Some "[ab]").
Proof. reflexivity. Qed.

(** ** C155 *)
Theorem c155_null_partial : forall args, (In None args -> sql_format args = Ok None) /\ (sql_format args = Ok None -> In None args).
Proof.
  assert (N : forall l, not_null l = None <-> In None l).
  { induction l as [|[v|] l IH]; cbn; [split; [discriminate | contradiction] | | split; auto].
    destruct (not_null l); split; try discriminate; try (intros [H|H]; [discriminate|]; apply IH in H; discriminate); auto. intros _. right. now apply IH. }
  intros args. unfold bind_format. split.
  - intros H. apply N in H. now rewrite H.
  - intros H. apply N. destruct (not_null args) as [[|v r]|]; [discriminate | | reflexivity]. destruct v; try discriminate. apply bind_ok in H as (t & _ & H). discriminate H.
Qed.
Theorem c155_show_null_refuted : forall f, f = "%t" \/ f = "%T" -> sql_format [Some (VStr f); None] <> Ok (Some "NULL").
Proof. intros f [-> | ->]; discriminate. Qed.
Example c155_case : sql_format [Some (VStr "%t"); None] = Ok None.
Proof. reflexivity. Qed.

(** ** C156 *)
Theorem c156_no_crash_partial : (forall c s, json_text c s <> GoPanic) -> (forall c v, printed c v <> GoPanic) -> forall args,
  (forall v, In (Some v) args -> match v with VFloat _ | VNum _ => False | _ => True end) -> sql_format args <> GoPanic.
Proof.
  intros J P args N. unfold bind_format. destruct (not_null args) as [l|] eqn:E; [|discriminate].
  assert (L : forall v, In v l -> In (Some v) args).
  { clear N. revert l E. induction args as [|[v|] args IH]; cbn; intros l E; [injection E as <-; contradiction | | discriminate].
    destruct (not_null args) as [l'|]; [|discriminate]. injection E as <-. intros x [->|I]; [now left | right; now apply (IH l')]. }
  destruct l as [|v r]; [discriminate|]. destruct v; try discriminate. apply bind_no_panic; [|discriminate].
  apply (loop_safe float_text positive json_text printed J P). rewrite Forall_forall. intros x I. apply (N x), L. now right.
Qed.
Theorem c156_wide_float_refuted : forall v w s, match v with VFloat _ | VNum _ => True | _ => False end -> float_text "f" 6 v = Ok s ->
  2 ^ 48 + Z.of_nat (String.length s) < w -> sql_format (call "%*f" [VInt w; v]) = GoPanic.
Proof.
  intros v w s V E H. rewrite format_call. pose proof (text_step float_text positive json_text printed FNone Star "f" [VInt w; v] eq_refl I) as T. cbn [flag_text width_text append] in T. rewrite T.
  cbv zeta. change (required _) with 2%nat. cbn [List.length Nat.ltb Nat.leb firstn].
  assert (C : validate printed (Param FNone (Some FromArg) None "f") [VInt w; v] = Ok tt) by (destruct v; try contradiction; reflexivity). cbn [count_of]. rewrite C. cbn [bind].
  unfold format_one. cbn [spec]. change (Ascii.eqb "f" "%") with false. change (among ["d"; "i"; "o"; "x"; "X"]%char "f") with false. change (among ["f"; "F"; "e"; "E"; "g"; "G"]%char "f") with true. cbn iota.
  unfold format_float. cbn [spec wid prec fl width_of precision_of]. assert (0 <= 2 ^ 48) by (apply Z.pow_nonneg; lia). replace (w <=? 0) with false by (symmetry; apply Z.leb_gt; lia). cbn iota beta.
  change (Ascii.eqb "f" "F") with false. cbn iota. rewrite E. cbn [bind].
  assert (L : (2 ^ 48 <? w - Z.of_nat (String.length s)) = true) by (apply Z.ltb_lt; lia). rewrite L. reflexivity.
Qed.
End Props.
Example c156_case : bind_format (fun _ _ _ => Ok "1.500000") (fun _ => true) (fun _ s => Ok s) (fun _ _ => Err) (call "%*f" [VInt 300000000000000; VNum (QArith_base.Qmake 3 2)]) = GoPanic.
Proof. apply c156_wide_float_refuted with (s := "1.500000"); [exact I | reflexivity | reflexivity]. Qed.
Example c153_case : bind_format (fun _ p _ => Ok (dec p)) (fun _ => true) (fun _ s => Ok s) (fun _ _ => Err) (call "%.2f" [VNum (QArith_base.Qmake 3 2)]) = Ok (Some "2").
Proof. reflexivity. Qed.

Print Assumptions c81_decimal.
Print Assumptions c81_text_unique.
Print Assumptions c81_grouping_partial.
Print Assumptions c81_grouping_refuted.
Print Assumptions c81_grouped_width_refuted.
Print Assumptions c81_huge_width_refuted.
Print Assumptions c150_left_to_right.
Print Assumptions c150_text_unique.
Print Assumptions c151_arguments_partial.
Print Assumptions c151_left_over_refuted.
Print Assumptions c152_plus_partial.
Print Assumptions c152_space_partial.
Print Assumptions c152_minus_sharp_refuted.
Print Assumptions c153_precision_partial.
Print Assumptions c153_zero_precision_refuted.
Print Assumptions c153_star_refuted.
Print Assumptions c154_string_width_refuted.
Print Assumptions c154_star_width_refuted.
Print Assumptions c155_null_partial.
Print Assumptions c155_show_null_refuted.
Print Assumptions c156_no_crash_partial.
Print Assumptions c156_wide_float_refuted.
