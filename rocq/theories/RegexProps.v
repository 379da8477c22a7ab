(** C207 to C215: the REGEXP functions, INITCAP and SOUNDEX. *)
From Coq Require Import Ascii String List ZArith Lia Bool.
From Verif Require Import GoBase GoBaseFacts Utf8Model Utf8Facts StrModel StrProofs EncModel RegexModel RegexSpec RegexProofs.
Import ListNotations.
Open Scope Z_scope.

(** A regular expression that is a text: its first occurrence is the only match that is looked at. *)
Definition lit_find (e s : bytes) : list (list group) :=
  match index_of e s with Some i => [[Some (i, (i + length e)%nat)]] | None => [] end.
Lemma lit_behaved : well_behaved lit_find.
Proof.
  intros e s. unfold lit_find. destruct (index_of e s) as [i|] eqn:E; constructor; [|constructor]. exists i, (i + length e)%nat, []. split; [reflexivity|]. split; [lia|].
  apply index_of_some in E. destruct E as (O & _). destruct O as (a & b & -> & <-). rewrite !app_length. lia.
Qed.
(** One that matches everything, (?s).* *)
Definition all_find (e s : bytes) : list (list group) := [[Some (0%nat, length s)]].
(** a(b) on the text ab. *)
Definition ab_find (e s : bytes) : list (list group) := if prefixb (ascii_text "ab") s then [[Some (0, 2); Some (1, 2)]]%nat else [].

Section Any.
Variable regex : Type.
Variable compile : bytes -> option regex.
Variable find_all : regex -> bytes -> list (list group).
Variable named : regex -> bytes -> bytes -> list group -> bytes.
Variable word : ascii -> bool.
Hypothesis behaved : well_behaved find_all.
Notation contains := (regexp_contains regex compile find_all).
Notation extract_at := (regexp_extract regex compile find_all).
Notation extract_all := (regexp_extract_all regex compile find_all).
Notation instr_at := (regexp_instr regex compile find_all).
Notation replace_re := (regexp_replace regex compile find_all named word).

Lemma last_ok s m : a_match s m -> exists t, last_group s m = Ok t.
Proof. intros (i & j & gs & -> & _). unfold last_group. cbn [rev]. destruct (rev gs); cbn [app]; eexists; reflexivity. Qed.
Lemma last_groups_ok v s ms : Forall (a_match s) ms -> exists l, last_groups v s ms = Ok l /\ length l = length ms /\
  forall n t, nth_error l n = Some t <-> exists m b, nth_error ms n = Some m /\ last_group s m = Ok b /\ t = like v b.
Proof.
  induction 1 as [|m ms M H IH]; cbn [last_groups].
  - exists []. repeat split; [destruct n; discriminate|]. intros (m & b & E & _). destruct n; discriminate.
  - destruct (last_ok s m M) as (b & E). destruct IH as (l & L & Len & N). rewrite E. cbn [bind]. rewrite L. cbn [bind]. eexists. split; [reflexivity|]. split; [cbn; lia|].
    intros [|n] t; cbn [nth_error]; [|apply N]. split; [intros [= <-]; eauto|]. intros (m' & b' & [= <-] & E' & ->). congruence.
Qed.
Lemma nth_firstn {A} (l : list A) : forall n k, (k < n)%nat -> nth_error (firstn n l) k = nth_error l k.
Proof. clear. induction l as [|a l IH]; intros [|n] [|k] H; try lia; cbn; auto. apply IH. lia. Qed.
Lemma skip_skip {A} (l : list A) : forall n k, skipn n (skipn k l) = skipn (k + n) l.
Proof. clear. induction l as [|a l IH]; intros n [|k]; cbn; auto; try now rewrite !skipn_nil. Qed.
Lemma slice_tail {A} (l : list A) p : 0 <= p <= zlen l -> slice l p (zlen l) = Ok (skipn (Z.to_nat p) l).
Proof.
  intros H. rewrite slice_ok by lia. f_equal. apply firstn_all2. rewrite skipn_length. unfold zlen in *. lia.
Qed.
Lemma units_le v : units v <= zlen (arg_bytes v).
Proof. destruct v as [s|b]; cbn; [pose proof (decode_length s); unfold zlen; lia|lia]. Qed.
Lemma extract_eq v e p o re : 0 < p -> 0 < o -> compile (arg_string e) = Some re -> p <= units v ->
  exists l, last_groups v (skipn (Z.to_nat (p - 1)) (arg_bytes v)) (find_all re (skipn (Z.to_nat (p - 1)) (arg_bytes v))) = Ok l /\
    extract_at v e p o = Ok (nth_error l (Z.to_nat (o - 1))).
Proof.
  intros P O C U. set (s := skipn (Z.to_nat (p - 1)) (arg_bytes v)). destruct (last_groups_ok v s (find_all re s) (behaved re s)) as (l & L & Len & N). exists l. split; [exact L|].
  unfold regexp_extract. destruct (Z.leb_spec p 0); [lia|]. destruct (Z.leb_spec o 0); [lia|]. rewrite C. destruct (Z.leb_spec (units v) (p - 1)); [lia|].
  rewrite slice_tail by (pose proof (units_le v); lia). fold s. cbn [bind]. unfold find_n, zlen. rewrite firstn_length.
  destruct (Z.ltb_spec (Z.of_nat (Nat.min (Z.to_nat o) (length (find_all re s)))) o).
  - f_equal. symmetry. apply nth_error_None. lia.
  - assert (B : (Z.to_nat (o - 1) < length (find_all re s))%nat) by lia.
    destruct (nth_error (find_all re s) (Z.to_nat (o - 1))) as [m|] eqn:Em; [|apply nth_error_None in Em; lia].
    assert (M : a_match s m) by (eapply Forall_forall; [apply (behaved re s)|eapply nth_error_In; exact Em]). destruct (last_ok s m M) as (b & Eb).
    assert (Q : nth (Z.to_nat (o - 1)) (firstn (Z.to_nat o) (find_all re s)) [] = m).
    { apply nth_error_nth. rewrite nth_firstn by lia. exact Em. }
    rewrite Q, Eb. cbn [bind]. f_equal. symmetry. apply N. eauto.
Qed.

(** C207 *)
Theorem c207_extract_partial : forall s e p o, 0 < p -> 0 < o -> p <= zlen (decode s) -> well_formed s -> ascii_only s \/ p = 1 ->
  extract_at (Str s) (Str e) p o =
  match extract_all (Str (encode (skipn (Z.to_nat (p - 1)) (decode s)))) (Str e) with Ok l => Ok (nth_error l (Z.to_nat (o - 1))) | Err => Err | GoPanic => GoPanic end.
Proof.
  intros s e p o P O U W A. assert (E : encode (skipn (Z.to_nat (p - 1)) (decode s)) = skipn (Z.to_nat (p - 1)) s).
  { destruct A as [A|A]; [|subst p; now apply well_formed_decode]. rewrite decode_ascii, skipn_map by exact A. apply encode_ascii. now apply Forall_skipn. }
  rewrite E. unfold regexp_extract_all. cbn [arg_string arg_bytes]. destruct (compile e) as [re|] eqn:C.
  - destruct (extract_eq (Str s) (Str e) p o re P O C U) as (l & L & ->). cbn [arg_bytes] in L.
    assert (Q : forall t ms, last_groups (Str s) t ms = last_groups (Str (skipn (Z.to_nat (p - 1)) s)) t ms) by (intros t; induction ms as [|m ms IH]; cbn [last_groups]; [reflexivity|]; now rewrite IH).
    rewrite <- Q, L. reflexivity.
  - unfold regexp_extract. destruct (Z.leb_spec p 0); [lia|]. destruct (Z.leb_spec o 0); [lia|]. cbn [arg_string]. now rewrite C.
Qed.
Theorem c207_past_end_partial : forall v e p o, 0 < o -> units v < p -> extract_at v e p o = match compile (arg_string e) with Some _ => Ok None | None => Err end.
Proof.
  intros v e p o O U. assert (0 <= units v) by (destruct v; cbn; unfold zlen; lia). unfold regexp_extract. destruct (Z.leb_spec p 0); [lia|]. destruct (Z.leb_spec o 0); [lia|].
  destruct (compile (arg_string e)); [|reflexivity]. destruct (Z.leb_spec (units v) (p - 1)); [reflexivity|lia].
Qed.

(** C208 *)
Theorem c208_agree : forall s e b, s <> [] -> contains (Str s) (Str e) = Ok b ->
  (exists l, extract_all (Str s) (Str e) = Ok l /\ (b = true <-> l <> [])) /\
  (exists t, extract_at (Str s) (Str e) 1 1 = Ok t /\ (b = true <-> t <> None)) /\
  (exists n, instr_at (Str s) (Str e) 1 1 0 = Ok n /\ (b = true <-> 0 < n) /\ (b = false -> n = 0)) /\
  (forall r t, b = false -> replace_re (Str s) (Str e) (Str r) = Ok t -> t = Str s).
Proof.
  intros s e b NE H. unfold regexp_contains in H. cbn [arg_string] in H. destruct (compile e) as [re|] eqn:C; [|discriminate].
  assert (B : b = true <-> find_all re s <> []) by (destruct (find_all re s); cbn in H; assert (Q : b = _) by (symmetry; injection H; intros X; exact X); rewrite Q; split; congruence). clear H.
  assert (U : 1 <= zlen (decode s)).
  { destruct s as [|c s]; [contradiction|]. pose proof (decode_scalars (c :: s)). destruct (decode (c :: s)) as [|r rs] eqn:D; [|unfold zlen; cbn; lia].
    exfalso. assert (W : forall x : bytes, x <> [] -> decode x <> []).
    { clear. intros x N. destruct x as [|a x]; [contradiction|]. cbn [decode]. repeat match goal with |- context [match ?y with _ => _ end] => destruct y; try discriminate end; discriminate. }
    now apply (W (c :: s)). }
  destruct (extract_eq (Str s) (Str e) 1 1 re ltac:(lia) ltac:(lia) C U) as (l & L & X). change (Z.to_nat (1 - 1)) with 0%nat in *. cbn [skipn arg_bytes] in L.
  destruct (last_groups_ok (Str s) s (find_all re s) (behaved re s)) as (l' & L' & Len & N). assert (l' = l) by congruence. subst l'.
  split; [|split; [|split]].
  - exists l. split; [unfold regexp_extract_all; cbn [arg_string arg_bytes]; now rewrite C|]. rewrite B. destruct l, (find_all re s); cbn in Len; try lia; split; congruence.
  - exists (nth_error l 0). split; [exact X|]. rewrite B. destruct l, (find_all re s); cbn in *; try lia; split; congruence.
  - unfold regexp_instr. cbn [arg_string arg_bytes units]. change (1 <=? 0) with false. cbv iota zeta. rewrite C. destruct (Z.leb_spec (zlen (decode s)) (1 - 1)); [lia|].
    rewrite slice_tail by (unfold zlen; lia). change (Z.to_nat (1 - 1)) with 0%nat. cbn [skipn bind]. unfold find_n. change (Z.to_nat 1) with 1%nat.
    pose proof (behaved re s) as W. destruct (find_all re s) as [|m ms]; cbn [firstn].
    + change (zlen (@nil (list group)) <? 1) with true. cbv iota. exists 0. split; [reflexivity|]. split; [|auto]. rewrite B. split; [congruence|lia].
    + change (zlen [m] <? 1) with false. cbv iota. cbn [nth]. inversion W as [|? ? (i & j & gs & -> & _) _]; subst. cbn [ends flat_map app].
      destruct (Z.leb_spec (zlen (Z.of_nat i :: Z.of_nat j :: flat_map (fun g : group => match g with Some (i, j) => [Z.of_nat i; Z.of_nat j] | None => [-1; -1] end) gs)) 0) as [Q|Q]; [unfold zlen in Q; cbn in Q; lia|].
      change (0 <? 0) with false. cbv iota. change (Z.to_nat 0) with 0%nat. cbn [nth]. eexists. split; [reflexivity|]. split; [rewrite B; split; [lia|congruence]|].
      intros ->. exfalso. assert (false = true) by (apply B; discriminate). discriminate.
  - intros r t -> R. unfold regexp_replace in R. cbn [arg_string like] in R. rewrite C in R. destruct (normalize_replacement r) as [n| |]; cbn [bind] in R; try discriminate.
    assert (E : find_all re s = []) by (destruct (find_all re s); [reflexivity|]; exfalso; assert (false = true) by (apply B; discriminate); discriminate).
    unfold replace_all_matches in R. rewrite E in R. cbn in R. congruence.
Qed.

(** C209 *)
Lemma instr_eq s e p o q re : 0 < p -> 0 < o -> compile e = Some re -> p <= zlen (decode s) -> 0 <= q <= 1 ->
  let t := skipn (Z.to_nat (p - 1)) s in
  instr_at (Str s) (Str e) p o q = Ok (match nth_error (find_all re t) (Z.to_nat (o - 1)) with
    | Some (Some (i, j) :: _) => p + (if q =? 0 then Z.of_nat i else Z.of_nat j) | _ => 0 end).
Proof.
  intros P O C U Q t. unfold regexp_instr. destruct (Z.leb_spec p 0); [lia|]. destruct (Z.leb_spec o 0); [lia|]. cbn [arg_string arg_bytes units]. rewrite C.
  destruct (Z.leb_spec (zlen (decode s)) (p - 1)); [lia|]. pose proof (decode_length s). rewrite slice_tail by (unfold zlen in *; lia). fold t. cbn [bind].
  unfold find_n. unfold zlen at 1. rewrite firstn_length. destruct (Z.ltb_spec (Z.of_nat (Nat.min (Z.to_nat o) (length (find_all re t)))) o).
  - rewrite (proj2 (nth_error_None (find_all re t) (Z.to_nat (o - 1)))) by lia. reflexivity.
  - destruct (nth_error (find_all re t) (Z.to_nat (o - 1))) as [m|] eqn:Em; [|apply nth_error_None in Em; lia].
    assert (M : a_match t m) by (eapply Forall_forall; [apply (behaved re t)|eapply nth_error_In; exact Em]).
    assert (X : nth (Z.to_nat (o - 1)) (firstn (Z.to_nat o) (find_all re t)) [] = m).
    { apply nth_error_nth. rewrite nth_firstn by lia. exact Em. }
    rewrite X. destruct M as (i & j & gs & -> & _ & _). cbn [ends flat_map app]. fold (ends gs).
    destruct (Z.leb_spec (zlen (Z.of_nat i :: Z.of_nat j :: ends gs)) q) as [B|_]; [unfold zlen in B; cbn in B; lia|]. destruct (Z.ltb_spec q 0); [lia|].
    f_equal. assert (q = 0 \/ q = 1) as [-> | ->] by lia; change (Z.to_nat 0) with 0%nat; change (Z.to_nat 1) with 1%nat; change (1 =? 0) with false; change (0 =? 0) with true; cbn [nth]; cbv iota; lia.
Qed.
Theorem c209_instr_partial : forall s e p o n, ascii_only s -> 0 < p <= zlen s -> 0 < o ->
  (forall re t, Forall (fun m => length m = 1%nat) (find_all re t)) ->
  instr_at (Str s) (Str e) p o 0 = Ok n ->
  (n = 0 /\ extract_at (Str s) (Str e) p o = Ok None /\ instr_at (Str s) (Str e) p o 1 = Ok 0) \/
  (0 < n /\ exists t, extract_at (Str s) (Str e) p o = Ok (Some (Str t)) /\ substr (Str s) n (Some (zlen t)) = Ok (Str t) /\
     instr_at (Str s) (Str e) p o 1 = Ok (n + zlen t)).
Proof.
  intros s e p o n A P O G H. assert (D : zlen (decode s) = zlen s) by (rewrite decode_ascii by exact A; unfold zlen; now rewrite map_length).
  destruct (compile e) as [re|] eqn:C; [|exfalso; unfold regexp_instr in H; destruct (Z.leb_spec p 0); [lia|]; destruct (Z.leb_spec o 0); [lia|]; cbn [arg_string] in H; rewrite C in H; discriminate].
  set (t := skipn (Z.to_nat (p - 1)) s). pose proof (instr_eq s e p o 0 re ltac:(lia) O C ltac:(lia) ltac:(lia)) as I0. pose proof (instr_eq s e p o 1 re ltac:(lia) O C ltac:(lia) ltac:(lia)) as I1.
  cbv zeta in I0, I1. fold t in I0, I1. rewrite I0 in H. rewrite I1. clear I0 I1.
  destruct (extract_eq (Str s) (Str e) p o re ltac:(lia) O C ltac:(cbn [units]; lia)) as (l & L & ->). cbn [arg_bytes] in L. fold t in L.
  destruct (last_groups_ok (Str s) t (find_all re t) (behaved re t)) as (l' & L' & Len & N). assert (l' = l) by congruence. subst l'.
  destruct (nth_error (find_all re t) (Z.to_nat (o - 1))) as [m|] eqn:Em.
  - assert (M : a_match t m) by (eapply Forall_forall; [apply (behaved re t)|eapply nth_error_In; exact Em]).
    assert (M1 : length m = 1%nat) by (specialize (G re t); rewrite Forall_forall in G; apply G; eapply nth_error_In; exact Em).
    destruct M as (i & j & gs & -> & IJ & JL). destruct gs; [|discriminate]. right. assert (E : n = p + Z.of_nat i) by (cbn in H; congruence). split; [lia|].
    exists (between_bytes t i j). assert (LT : length (between_bytes t i j) = (j - i)%nat) by (unfold between_bytes; rewrite firstn_length, skipn_length; lia).
    split; [|split].
    + f_equal. apply N. exists [Some (i, j)], (between_bytes t i j). auto.
    + assert (TL : length t = (length s - Z.to_nat (p - 1))%nat) by apply skipn_length. unfold zlen in P.
      unfold substr. rewrite D. unfold substr_at, substr_pos, substr_len. unfold zlen. rewrite LT.
      destruct (Z.eqb_spec n 0); [lia|]. destruct (Z.ltb_spec n (- Z.of_nat (length s))); [lia|]. cbn [orb].
      destruct (Z.ltb_spec (Z.of_nat (length s)) n) as [Big|_].
      * assert (i = j) by lia. subst j. assert (between_bytes t i i = []) as -> by (unfold between_bytes; now rewrite Nat.sub_diag).
        rewrite Nat.sub_diag. change (Z.of_nat 0 <? 0) with false. cbv iota. destruct (Z.ltb_spec (Z.of_nat (length s)) (Z.of_nat 0)); [lia|]. cbn [bind].
        destruct (Z.ltb_spec (Z.of_nat (length s)) (Z.of_nat (length s) + Z.of_nat 0)); [lia|]. rewrite slice_ok by (unfold zlen; lia). cbn [bind]. do 2 f_equal.
        replace (Z.to_nat (Z.of_nat (length s) + Z.of_nat 0 - Z.of_nat (length s))) with 0%nat by lia. reflexivity.
      * destruct (Z.ltb_spec 0 n); [|lia]. destruct (Z.ltb_spec (Z.of_nat (j - i)) 0); [lia|]. destruct (Z.ltb_spec (Z.of_nat (length s)) (Z.of_nat (j - i))); [lia|]. cbn [bind].
        destruct (Z.ltb_spec (Z.of_nat (length s)) (n - 1 + Z.of_nat (j - i))); [lia|]. rewrite slice_ok by (unfold zlen; lia). cbn [bind]. do 2 f_equal.
        unfold between_bytes, t. rewrite skip_skip. f_equal; [lia|]. f_equal. lia.
    + f_equal. unfold zlen. rewrite LT. change (1 =? 0) with false. cbv iota. lia.
  - left. assert (E : nth_error l (Z.to_nat (o - 1)) = None) by (apply nth_error_None; apply nth_error_None in Em; lia). rewrite E. split; [congruence|auto].
Qed.

(** C210: what becomes of BYTES. *)
Theorem c210_base64_refuted : forall b e p o,
  contains (Byt b) (Byt e) = contains (Str (to_base64 b)) (Str (to_base64 e)) /\
  extract_all (Byt b) (Byt e) = extract_all (Byt b) (Str (to_base64 e)) /\
  extract_at (Byt b) (Byt e) p o = extract_at (Byt b) (Str (to_base64 e)) p o.
Proof. intros. repeat split. Qed.
Theorem c210_instr_partial : forall b e p o q, ascii_only b -> instr_at (Byt b) (Byt e) p o q = instr_at (Str b) (Str e) p o q.
Proof.
  intros b e p o q A. unfold regexp_instr. cbn [arg_string arg_bytes units]. assert (D : zlen (decode b) = zlen b) by (rewrite decode_ascii by exact A; unfold zlen; now rewrite map_length).
  rewrite D. reflexivity.
Qed.
Theorem c210_replace_partial : forall b e r, replace_re (Byt b) (Byt e) (Byt r) =
  match replace_re (Str b) (Str e) (Str r) with Ok (Str t) => Ok (Byt t) | Ok (Byt t) => Ok (Byt t) | Err => Err | GoPanic => GoPanic end.
Proof. intros b e r. unfold regexp_replace. cbn [arg_string arg_bytes]. destruct (compile e); [|reflexivity]. destruct (normalize_replacement r); reflexivity. Qed.

(** C211 *)
Section Replacement.
Hypothesis word_digit : forall c, digit c = true -> word c = true.
Hypothesis word_brace : word "}" = false.
Hypothesis word_open : word "{" = false.
Theorem c211_replace_partial : forall s e re t its, compile e = Some re -> plain [] t its ->
  reads t its /\ replace_re (Str s) (Str e) (Str t) = Ok (Str (replaced its s 0 (find_all re s))).
Proof.
  intros s e re t its C P. split; [now apply plain_reads|].
  pose proof (replace_plain regex named word word_digit word_brace compile find_all s e re t [] its [] [] C P eq_refl (fun m => eq_refl)) as H. now rewrite !app_nil_r in H.
Qed.
(** A reference at the end is not replaced. *)
Theorem c211_end_refuted : forall s e re t its d, compile e = Some re -> 49 <= b2z d <= 57 -> plain ["\"%char; d] t its ->
  reads (t ++ ["\"%char; d]) (its ++ [Ref d]) /\
  replace_re (Str s) (Str e) (Str (t ++ ["\"%char; d])) = Ok (Str (replaced (its ++ [Lit "$"; Lit "{"; Lit d]) s 0 (find_all re s))).
Proof.
  intros s e re t its d C D P. split; [clear -P D; induction P; cbn [app]; constructor; auto; try lia; constructor|].
  apply (replace_plain regex named word word_digit word_brace compile find_all) with (n := ["$"; "{"; d]%char); auto.
  - unfold normalize_replacement. cbn. rewrite (proj2 (digit19_iff d) D). reflexivity.
  - intros m. rewrite expand_dollar by (intros r; discriminate). unfold extract. change (Ascii.eqb "{" "{") with true. cbv iota. cbn [span].
    rewrite word_digit by (apply digit_iff; lia). rewrite !expand_lit; try discriminate; [reflexivity|]. intros ->. change (b2z "$") with 36 in D. lia.
Qed.
(** \0 and \\ stay as they are. *)
Theorem c211_escape_refuted : forall s e re t its d, compile e = Some re -> d = "0"%char \/ d = "\"%char -> plain ["\"%char; d] t its ->
  reads (t ++ ["\"%char; d]) (its ++ [if Ascii.eqb d "0" then Ref d else Lit "\"]) /\
  replace_re (Str s) (Str e) (Str (t ++ ["\"%char; d])) = Ok (Str (replaced (its ++ [Lit "\"; Lit d]) s 0 (find_all re s))).
Proof.
  intros s e re t its d C D P. split.
  - assert (B : reads ["\"%char; d] [if Ascii.eqb d "0" then Ref d else Lit "\"]) by (destruct D as [-> | ->]; repeat constructor; cbv; discriminate).
    clear -P B. induction P; cbn [app]; [exact B|constructor; auto..]. lia.
  - apply (replace_plain regex named word word_digit word_brace compile find_all) with (n := ["\"%char; d]); auto.
    + destruct D as [-> | ->]; reflexivity.
    + intros m. rewrite !expand_lit; [reflexivity| |discriminate]. destruct D as [-> | ->]; discriminate.
Qed.
(** $1 is a reference. *)
Theorem c211_dollar_refuted : forall s e re t its d, compile e = Some re -> 49 <= b2z d <= 57 -> plain ["$"%char; d] t its ->
  reads (t ++ ["$"%char; d]) (its ++ [Lit "$"; Lit d]) /\
  replace_re (Str s) (Str e) (Str (t ++ ["$"%char; d])) = Ok (Str (replaced (its ++ [Ref d]) s 0 (find_all re s))).
Proof.
  intros s e re t its d C D P. assert (N : d <> "\"%char) by (intros ->; change (b2z "\") with 92 in D; lia). split.
  - clear -P N. induction P; cbn [app]; [repeat constructor; auto; discriminate|constructor; auto..]. lia.
  - apply (replace_plain regex named word word_digit word_brace compile find_all) with (n := ["$"%char; d]); auto.
    + unfold normalize_replacement. cbn [length normalize]. change (Ascii.eqb "$" "\") with false. cbv iota. destruct (Ascii.eqb_spec d "\"%char); [contradiction|]. reflexivity.
    + intros m. assert (W : word d = true) by (apply word_digit, digit_iff; lia). rewrite expand_dollar by (intros r [= -> _]; change (b2z "$") with 36 in D; lia). unfold extract.
      destruct (Ascii.eqb_spec d "{"%char) as [-> |_]; [congruence|]. cbn [span]. rewrite W. unfold name_number. cbn [name_num]. rewrite (proj2 (digit_iff d)) by lia.
      change (0 <? 100000000) with true. cbn [andb]. rewrite Z.mul_0_l, Z.add_0_l. cbn. now rewrite !app_nil_r.
Qed.
(** Two dollar signs become one. *)
Theorem c211_dollars_refuted : forall s e re t its, compile e = Some re -> plain ["$"; "$"]%char t its ->
  reads (t ++ ["$"; "$"]%char) (its ++ [Lit "$"; Lit "$"]) /\
  replace_re (Str s) (Str e) (Str (t ++ ["$"; "$"]%char)) = Ok (Str (replaced (its ++ [Lit "$"]) s 0 (find_all re s))).
Proof.
  intros s e re t its C P. split.
  - clear -P. induction P; cbn [app]; [repeat constructor; auto; discriminate|constructor; auto..]. lia.
  - apply (replace_plain regex named word word_digit word_brace compile find_all) with (n := ["$"; "$"]%char); auto.
Qed.
(** A digit after a reference makes it another one. *)
Theorem c211_digit_refuted : forall s e re t its d d', compile e = Some re -> 49 <= b2z d <= 57 -> 48 <= b2z d' <= 57 -> plain ["\"%char; d; d'; "!"%char] t its ->
  (forall m, In m (find_all re s) -> (length m <= 10)%nat) ->
  reads (t ++ ["\"%char; d; d'; "!"%char]) (its ++ [Ref d; Lit d'; Lit "!"]) /\
  replace_re (Str s) (Str e) (Str (t ++ ["\"%char; d; d'; "!"%char])) = Ok (Str (replaced (its ++ [Lit "!"]) s 0 (find_all re s))).
Proof.
  intros s e re t its d d' C D D' P G. assert (N : d' <> "\"%char) by (intros ->; change (b2z "\") with 92 in D'; lia). split.
  - clear -P D N. induction P; cbn [app]; [|constructor; auto; try lia..]. apply reads_ref; [lia|]. apply reads_lit; [exact N|]. apply reads_lit; [discriminate|constructor].
  - unfold regexp_replace. cbn [arg_string]. rewrite C, (normalize_plain _ t its P).
    assert (E : normalize_replacement ["\"%char; d; d'; "!"%char] = Ok ["$"; "{"; d; d'; "}"; "!"]%char).
    { unfold normalize_replacement. cbn [length normalize]. change (Ascii.eqb "\" "\") with true. cbv iota. rewrite (proj2 (digit19_iff d) D). cbn [span]. rewrite (proj2 (digit_iff d') D'). reflexivity. }
    rewrite E. cbn [bind like]. unfold replace_all_matches. do 2 f_equal. revert G.
    enough (K : forall ms, (forall m, In m ms -> (length m <= 10)%nat) -> forall last,
      replace_from regex named word re (normal its ++ ["$"; "{"; d; d'; "}"; "!"]%char) s last ms = replaced (its ++ [Lit "!"]) s last ms) by (intros G; now apply K).
    induction ms as [|m ms IH]; intros G last; [reflexivity|]. cbn [replace_from replaced]. assert (L : (length m <= 10)%nat) by (apply G; now left).
    destruct m as [|[[i j]|] gs]; [apply IH; intros; apply G; now right| |apply IH; intros; apply G; now right]. rewrite IH by (intros; apply G; now right).
    rewrite (expand_normal regex named word word_digit word_brace re s _ its) by exact (plain_items _ _ _ P).
    change ["$"; "{"; d; d'; "}"; "!"]%char with ("$"%char :: "{"%char :: [d; d'] ++ "}"%char :: ["!"%char])%list.
    rewrite (expand_ref regex named word word_digit word_brace); [|discriminate|cbn; lia|repeat constructor; apply digit_iff; lia|intros r [= -> _]; change (b2z "0") with 48 in D; lia].
    rewrite nth_overflow by (cbn [fold_left] in *; lia). cbn [group_text app]. unfold render. now rewrite flat_map_app.
Qed.
End Replacement.

(** C212 *)
Theorem c212_no_panic_partial : forall v e p o q, (0 <= q) ->
  contains v e <> GoPanic /\ extract_all v e <> GoPanic /\ extract_at v e p o <> GoPanic /\ instr_at v e p o q <> GoPanic.
Proof.
  intros v e p o q Q. assert (Sl : forall x, 0 < p -> x <= zlen (arg_bytes v) -> p - 1 < x -> slice (arg_bytes v) (p - 1) (zlen (arg_bytes v)) = Ok (skipn (Z.to_nat (p - 1)) (arg_bytes v))) by (intros; apply slice_tail; lia).
  pose proof (units_le v) as U. split; [|split; [|split]].
  - unfold regexp_contains. destruct (compile _); discriminate.
  - unfold regexp_extract_all. destruct (compile _) as [re|]; [|discriminate]. destruct (last_groups_ok v (arg_bytes v) _ (behaved re (arg_bytes v))) as (l & -> & _). discriminate.
  - unfold regexp_extract. destruct (Z.leb_spec p 0); [discriminate|]. destruct (Z.leb_spec o 0); [discriminate|]. destruct (compile _) as [re|]; [|discriminate].
    destruct (Z.leb_spec (units v) (p - 1)); [discriminate|]. rewrite (Sl (units v)) by lia. cbn [bind]. set (s := skipn _ _).
    destruct (Z.ltb_spec (zlen (find_n regex find_all re s o)) o) as [|B]; [discriminate|]. assert (M : a_match s (nth (Z.to_nat (o - 1)) (find_n regex find_all re s o) [])).
    { eapply Forall_forall; [|apply nth_In; unfold zlen in B; lia]. apply Forall_firstn. apply behaved. }
    destruct (last_ok s _ M) as (b & ->). discriminate.
  - unfold regexp_instr. destruct (Z.leb_spec p 0); [discriminate|]. destruct (Z.leb_spec o 0); [discriminate|]. destruct (compile _) as [re|]; [|discriminate].
    destruct (Z.leb_spec (units v) (p - 1)); [discriminate|]. rewrite (Sl (units v)) by lia. cbn [bind]. set (s := skipn _ _). cbv zeta.
    destruct (zlen (find_n regex find_all re s o) <? o); [discriminate|]. destruct (zlen (ends _) <=? q); [discriminate|]. destruct (Z.ltb_spec q 0); [lia|]. discriminate.
Qed.
Theorem c212_backslash_refuted : forall s e re t its, compile e = Some re -> plain ["\"%char] t its -> replace_re (Str s) (Str e) (Str (t ++ ["\"%char])) = GoPanic.
Proof. intros s e re t its C P. unfold regexp_replace. cbn [arg_string]. rewrite C, (normalize_plain _ t its P). reflexivity. Qed.
Theorem c212_position_refuted : forall s e re q, s <> [] -> compile e = Some re -> find_all re s <> [] -> q < 0 -> instr_at (Str s) (Str e) 1 1 q = GoPanic.
Proof.
  intros s e re q N C F Q. assert (B : contains (Str s) (Str e) = Ok true) by (unfold regexp_contains; cbn [arg_string]; rewrite C; destruct (find_all re s); [contradiction|reflexivity]).
  destruct (c208_agree s e true N B) as (_ & _ & (n & E & H & _) & _). assert (n > 0) by (apply Z.lt_gt, H; reflexivity).
  unfold regexp_instr in *. change (1 <=? 0) with false in *. cbv iota zeta in *. cbn [arg_string arg_bytes units] in *. rewrite C in *.
  destruct (zlen (decode s) <=? 1 - 1); [assert (n = 0) by congruence; lia|]. destruct (slice s (1 - 1) (zlen s)) as [x| |]; try discriminate. cbn [bind] in *.
  destruct (zlen (find_n regex find_all re x 1) <? 1); [assert (n = 0) by congruence; lia|]. destruct (Z.leb_spec (zlen (ends (nth (Z.to_nat (1 - 1)) (find_n regex find_all re x 1) []))) q); [unfold zlen in *; lia|].
  destruct (Z.ltb_spec q 0); [reflexivity|lia].
Qed.
End Any.

Definition lit_compile (e : bytes) : option bytes := Some e.
Definition no_names (re name s : bytes) (m : list group) : bytes := [].
Definition word_ascii (c : ascii) : bool := digit c || letter (b2z c) || Ascii.eqb c "_".
Example c207_example : regexp_extract bytes lit_compile lit_find (Str (ascii_text "abcabd")) (Str (ascii_text "ab")) 2 1 = Ok (Some (Str (ascii_text "ab"))) /\
  ascii_only (ascii_text "abcabd") /\ well_behaved lit_find.
Proof. split; [reflexivity|]. split; [repeat constructor; reflexivity|exact lit_behaved]. Qed.
(** REGEXP_EXTRACT of everything from the second character on: half a character is left. *)
Theorem c207_position_refuted : exists s e p o, well_formed s /\ 0 < p <= zlen (decode s) /\
  exists t, regexp_extract bytes lit_compile all_find (Str s) (Str e) p o = Ok (Some (Str t)) /\ ~ well_formed t /\
  regexp_extract_all bytes lit_compile all_find (Str (encode (skipn (Z.to_nat (p - 1)) (decode s)))) (Str e) = Ok [Str (ascii_text "a")].
Proof.
  exists (encode [233; 97]), [], 2, 1. split; [apply well_formed_encode|]. split; [cbv; split; [reflexivity|discriminate]|].
  eexists. split; [reflexivity|]. split; [|reflexivity]. rewrite well_formed_iff. vm_compute. discriminate.
Qed.
Example c208_example : regexp_contains bytes lit_compile lit_find (Str (ascii_text "xaby")) (Str (ascii_text "ab")) = Ok true /\
  regexp_instr bytes lit_compile lit_find (Str (ascii_text "xaby")) (Str (ascii_text "ab")) 1 1 0 = Ok 2 /\
  regexp_contains bytes lit_compile lit_find (Str (ascii_text "xaby")) (Str (ascii_text "ba")) = Ok false.
Proof. repeat split. Qed.
Example c209_example : (forall re t, Forall (fun m => length m = 1%nat) (lit_find re t)) /\ ascii_only (ascii_text "xaby") /\
  regexp_instr bytes lit_compile lit_find (Str (ascii_text "xaby")) (Str (ascii_text "ab")) 1 1 1 = Ok 4.
Proof. split; [intros re t; unfold lit_find; destruct (index_of re t); repeat constructor|]. split; [repeat constructor; reflexivity|reflexivity]. Qed.
(** With a group the position is that of the whole match; after a character of two bytes it is one too high. *)
Theorem c209_group_refuted : exists s e, well_behaved ab_find /\ ascii_only s /\ regexp_instr bytes lit_compile ab_find (Str s) (Str e) 1 1 0 = Ok 1 /\
  regexp_extract bytes lit_compile ab_find (Str s) (Str e) 1 1 = Ok (Some (Str (ascii_text "b"))) /\
  substr (Str s) 1 (Some 1) = Ok (Str (ascii_text "a")).
Proof.
  exists (ascii_text "ab"), (ascii_text "a(b)"). split; [|split; [repeat constructor; reflexivity|repeat split]].
  intros re s. unfold ab_find. destruct (prefixb (ascii_text "ab") s) eqn:E; constructor; [|constructor]. apply prefixb_iff in E. destruct E as (t & ->).
  exists 0%nat, 2%nat, [Some (1, 2)]%nat. split; [reflexivity|]. cbn. lia.
Qed.
Theorem c209_bytes_refuted : exists s e, well_behaved lit_find /\ decode s = [233; 97] /\ decode e = [97] /\
  regexp_instr bytes lit_compile lit_find (Str s) (Str e) 1 1 0 = Ok 3.
Proof. exists (encode [233; 97]), (encode [97]). split; [exact lit_behaved|repeat split]. Qed.
Theorem c210_bytes_refuted : exists b e, well_behaved lit_find /\ regexp_contains bytes lit_compile lit_find (Str b) (Str e) = Ok true /\
  regexp_contains bytes lit_compile lit_find (Byt b) (Byt e) = Ok false /\
  regexp_extract bytes lit_compile lit_find (Byt b) (Byt e) 1 1 = Ok None /\ regexp_extract_all bytes lit_compile lit_find (Byt b) (Byt e) = Ok [] /\
  regexp_instr bytes lit_compile lit_find (Byt b) (Byt e) 1 1 0 = Ok 2.
Proof. exists (ascii_text "abc"), (ascii_text "b"). split; [exact lit_behaved|]. repeat split; vm_compute; reflexivity. Qed.
Example c211_example : word_ascii "}" = false /\ plain [] (ascii_text "<\1>") [Lit "<"; Ref "1"; Lit ">"] /\ plain (ascii_text "\1") (ascii_text "<") [Lit "<"] /\
  regexp_replace bytes lit_compile ab_find no_names word_ascii (Str (ascii_text "abc")) (Str (ascii_text "a(b)")) (Str (ascii_text "<\1>")) = Ok (Str (ascii_text "<b>c")) /\
  regexp_replace bytes lit_compile ab_find no_names word_ascii (Str (ascii_text "abc")) (Str (ascii_text "a(b)")) (Str (ascii_text "<\1")) = Ok (Str (ascii_text "<${1c")) /\
  replaced [Lit "<"; Ref "1"] (ascii_text "abc") 0 (ab_find (ascii_text "a(b)") (ascii_text "abc")) = ascii_text "<bc".
Proof.
  split; [reflexivity|]. split; [|split; [|repeat split; reflexivity]].
  - apply plain_lit; [discriminate..|]. apply plain_ref; [cbv; split; discriminate| |].
    + exists ">"%char, []. split; [reflexivity|]. cbv. intros [_ H]. now apply H.
    + apply plain_lit; [discriminate..|]. constructor.
  - apply plain_lit; [discriminate..|]. constructor.
Qed.
Example c212_example : regexp_replace bytes lit_compile lit_find no_names word_ascii (Str (ascii_text "x")) (Str (ascii_text "a")) (Str (ascii_text "a\")) = GoPanic /\
  lit_find (ascii_text "a") (ascii_text "a") <> [].
Proof. split; [reflexivity|discriminate]. Qed.

(** C213 *)
Theorem c213_initcap : forall up low v d, (forall r, scalar r -> scalar (up r) /\ scalar (low r)) ->
  let rs := decode v in let out := decode (initcap up low v (Some d)) in
  length out = length rs /\
  forall i r o, nth_error rs i = Some r -> nth_error out i = Some o -> capped up low (fun x => In x (decode d)) (before rs i) r o.
Proof.
  intros up low v d SC rs out. unfold out, initcap. fold rs. assert (F : Forall scalar rs) by apply decode_scalars.
  assert (CS : forall l p, Forall scalar l -> Forall scalar (caps up low (decode d) p l)).
  { induction l as [|x l IH]; intros p H; [constructor|]. inversion H; subst. cbn [caps]. constructor; [|now apply IH]. destruct (is_delim (decode d) x); [assumption|]. destruct (is_delim (decode d) p); now apply SC. }
  destruct rs as [|r0 rest]; [cbn; split; [reflexivity|intros [|i]; discriminate]|]. inversion F; subst. rewrite initcap_true, decode_encode by (constructor; [now apply SC|now apply CS]).
  split; [cbn; now rewrite caps_length|]. intros [|i] r o A B; cbn [nth_error before] in *.
  - cbn. congruence.
  - pose proof (caps_nth up low (decode d) rest r0 i r o A B) as H. destruct i as [|i]; [exact H|]. cbn [nth_error]. destruct (nth_error rest i) as [x|] eqn:E; [|apply nth_error_None in E; assert (Q : (S i < length rest)%nat) by (apply nth_error_Some; congruence); lia].
    now rewrite (nth_error_nth rest i 0 E) in H.
Qed.
Definition up_ascii (r : Z) : Z := if between 97 122 r then r - 32 else r.
Definition low_ascii (r : Z) : Z := if between 65 90 r then r + 32 else r.
Example c213_example : initcap up_ascii low_ascii (ascii_text "hello WORLD-x  y") (Some (ascii_text " -")) = ascii_text "Hello World-X  Y" /\
  forall r, scalar r -> scalar (up_ascii r) /\ scalar (low_ascii r).
Proof.
  split; [reflexivity|]. intros r H. unfold scalar, up_ascii, low_ascii in *. split.
  - destruct (between 97 122 r) eqn:E; [apply between_true in E; lia|lia].
  - destruct (between 65 90 r) eqn:E; [apply between_true in E; lia|lia].
Qed.

(** C214 *)
Theorem c214_default_partial : forall up low v, (forall r, scalar r -> scalar (up r) /\ scalar (low r)) ->
  let rs := decode v in let out := decode (initcap up low v None) in
  (forall r, In r rs -> r = 32 \/ ~ In r white_space) ->
  length out = length rs /\
  forall i r o, nth_error rs i = Some r -> nth_error out i = Some o -> capped up low (fun x => In x (white_space ++ marks)) (before rs i) r o.
Proof.
  intros up low v SC rs out WS.
  destruct (c213_initcap up low v (map z2b default_delimiters) SC) as (L & H). cbv zeta in L, H. fold rs in L, H.  split; [exact L|]. intros i r o A B. specialize (H i r o A B).
  assert (D : forall x, In x rs -> In x (decode (map z2b default_delimiters)) <-> In x (white_space ++ marks)).
  { intros x I. specialize (WS x I). change (decode (map z2b default_delimiters)) with [32; 91; 93; 40; 41; 123; 125; 47; 124; 92; 60; 62; 33; 63; 64; 34; 94; 35; 36; 38; 126; 95; 44; 46; 58; 59; 42; 37; 43; 45].
    change (white_space ++ marks)%list with ([32; 9; 10; 11; 12; 13] ++ marks)%list. change [32; 91; 93; 40; 41; 123; 125; 47; 124; 92; 60; 62; 33; 63; 64; 34; 94; 35; 36; 38; 126; 95; 44; 46; 58; 59; 42; 37; 43; 45] with ([32] ++ marks)%list.
    rewrite !in_app_iff. change (white_space) with [32; 9; 10; 11; 12; 13] in WS. cbn [In] in *. intuition. }
  assert (Ir : In r rs) by (eapply nth_error_In; exact A). destruct (before rs i) as [p|] eqn:Bf; [|exact H].
  assert (Ip : In p rs) by (destruct i; [discriminate|]; eapply nth_error_In; exact Bf). unfold capped in *. rewrite <- !(D r Ir), <- !(D p Ip). exact H.
Qed.
(** A tab or a line feed does not start a word. *)
Theorem c214_white_space_refuted : forall up low w r, In w [9; 10; 11; 12; 13] -> scalar r -> (forall x, scalar x -> scalar (up x) /\ scalar (low x)) -> ~ In r default_delimiters ->
  decode (initcap up low (encode [97; w; r]) None) = [up 97; low w; low r].
Proof.
  intros up low w r W SR SC N. assert (Sw : scalar w) by (unfold scalar; cbn in W; lia). assert (Sa : scalar 97) by (unfold scalar; lia). unfold initcap. rewrite (decode_encode [97; w; r]) by (constructor; [exact Sa|]; constructor; [exact Sw|]; constructor; [exact SR|constructor]).
  assert (D : is_delim default_delimiters w = false) by (cbn in W; decompose [or] W; subst; try reflexivity; contradiction).
  assert (D2 : is_delim default_delimiters r = false) by (destruct (is_delim default_delimiters r) eqn:E; [|reflexivity]; apply is_delim_iff in E; contradiction).
  rewrite initcap_true. cbn [caps]. rewrite D, D2. change (is_delim default_delimiters 97) with false. cbv iota. apply decode_encode. constructor; [now apply SC|]. constructor; [now apply SC|]. constructor; [now apply SC|constructor].
Qed.
Example c214_example : initcap up_ascii low_ascii (encode [97; 9; 98; 32; 99]) None = encode [65; 9; 98; 32; 67] /\ initcap up_ascii low_ascii (ascii_text "a/b cD") None = ascii_text "A/B Cd" /\ (forall r, In r (decode (ascii_text "a/b cD")) -> r = 32 \/ ~ In r white_space) /\ ~ In 98 default_delimiters.
Proof.
  split; [reflexivity|]. split; [reflexivity|]. split; [|rewrite <- is_delim_iff; discriminate].
  intros r I. cbn in I. decompose [or] I; subst; try contradiction; auto; right; cbn; lia.
Qed.

(** C215 *)
Theorem c215_soundex : forall v ls cs, ls = filter letter (decode v) -> Forall2 has_code ls cs ->
  (forall r, In r ls <-> In r (decode v) /\ (65 <= r <= 90 \/ 97 <= r <= 122)) /\
  soundex v = match ls with
    | [] => []
    | l :: _ =>
        let ds := squeeze (filter (fun c => negb (c =? 48)) cs) in
        let ds := firstn 3 (if hd 48 cs =? 48 then ds else tl ds) in
        (z2b l :: map z2b ds ++ repeat "0"%char (3 - length ds))%list
    end.
Proof.
  intros v ls cs -> H. split.
  - intros r. rewrite filter_In. unfold letter. rewrite orb_true_iff, !between_true. tauto.
  - assert (E : cs = map soundex_code (filter letter (decode v))) by (revert H; generalize (filter letter (decode v)); intros l; revert cs; induction l as [|x l IH]; intros cs H; inversion H; subst; cbn; [reflexivity|]; f_equal; [symmetry; now apply code_sound|now apply IH]).
    unfold soundex. rewrite soundex_runes_eq. destruct (filter letter (decode v)) as [|l ls]; [reflexivity|]. subst cs. cbv zeta. cbn [map filter hd]. destruct (Z.eqb_spec (soundex_code l) 48) as [E|E]; cbn [negb].
    + rewrite E. rewrite dig_other by (rewrite filter_In; intros (_ & Q); discriminate). rewrite map_app. f_equal. f_equal. clear. induction (3 - _)%nat as [|k IH]; cbn; [reflexivity|now rewrite IH].
    + rewrite squeeze_dig. cbn [tl]. rewrite map_app. f_equal. f_equal. clear. induction (3 - _)%nat as [|k IH]; cbn; [reflexivity|now rewrite IH].
Qed.
Theorem c215_codes : forall v, exists cs, Forall2 has_code (filter letter (decode v)) cs.
Proof.
  intros v. induction (decode v) as [|r rs (cs & IH)]; [exists []; constructor|]. cbn [filter]. destruct (letter r) eqn:E; [|eauto]. destruct (code_total r E) as (d & D). exists (d :: cs). now constructor.
Qed.
Example c215_example : soundex (ascii_text "Ashcraft") = ascii_text "A261" /\ soundex (ascii_text "  H3##!@llo w00orld!") = ascii_text "H464" /\ soundex (ascii_text "#1") = [].
Proof. repeat split. Qed.

Print Assumptions c207_extract_partial.
Print Assumptions c207_past_end_partial.
Print Assumptions c208_agree.
Print Assumptions c209_instr_partial.
Print Assumptions c210_base64_refuted.
Print Assumptions c210_instr_partial.
Print Assumptions c210_replace_partial.
Print Assumptions c211_replace_partial.
Print Assumptions c211_end_refuted.
Print Assumptions c211_escape_refuted.
Print Assumptions c211_dollar_refuted.
Print Assumptions c211_dollars_refuted.
Print Assumptions c211_digit_refuted.
Print Assumptions c212_no_panic_partial.
Print Assumptions c212_backslash_refuted.
Print Assumptions c212_position_refuted.
Print Assumptions c207_position_refuted.
Print Assumptions c209_group_refuted.
Print Assumptions c209_bytes_refuted.
Print Assumptions c210_bytes_refuted.
Print Assumptions c213_initcap.
Print Assumptions c214_default_partial.
Print Assumptions c214_white_space_refuted.
Print Assumptions c215_soundex.
Print Assumptions c215_codes.
