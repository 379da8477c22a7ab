(** Proofs about the REGEXP functions, INITCAP and SOUNDEX. *)
From Coq Require Import Ascii String List ZArith Lia Bool.
From Verif Require Import GoBase GoBaseFacts Utf8Model Utf8Facts StrModel StrProofs EncModel RegexModel RegexSpec.
Import ListNotations.
Open Scope Z_scope.

Lemma digit_iff c : digit c = true <-> 48 <= b2z c <= 57. Proof. apply between_true. Qed.
Lemma digit19_iff c : digit19 c = true <-> 49 <= b2z c <= 57. Proof. apply between_true. Qed.
Lemma span_app p s : forall a b, span p s = (a, b) -> s = (a ++ b)%list.
Proof.
  induction s as [|c s IH]; intros a b; cbn; [intros [= <- <-]; reflexivity|].
  destruct (p c); [|intros [= <- <-]; reflexivity]. destruct (span p s) as [x y]. intros [= <- <-]. cbn. now rewrite (IH x y eq_refl).
Qed.

(** ** normalize *)
Lemma normalize_fuel f : forall f' t, (length t <= f)%nat -> (length t <= f')%nat -> normalize f t = normalize f' t.
Proof.
  induction f as [|f IH]; intros f' t L L'; [destruct t; [destruct f'; reflexivity|cbn in L; lia]|].
  destruct t as [|c t1]; [destruct f'; reflexivity|]. destruct f' as [|f']; [cbn in L'; lia|]. cbn [length] in *. cbn [normalize].
  destruct (Ascii.eqb c "\").
  - destruct t1 as [|d t2]; [reflexivity|]. cbn [length] in *. destruct (digit19 d); [|rewrite (IH f' t2) by lia; reflexivity].
    destruct (span digit t2) as [ds rest] eqn:E. apply span_app in E.
    assert (length rest <= length t2)%nat by (subst t2; rewrite app_length; lia).
    destruct rest; [rewrite (IH f' t2) by lia; reflexivity|]. rewrite (IH f') by lia. reflexivity.
  - rewrite (IH f' t1) by lia. reflexivity.
Qed.
Definition normal (its : list item) : bytes :=
  flat_map (fun it => match it with Lit c => [c] | Ref d => ["$"; "{"; d; "}"]%char end) its.
Lemma digit_bs c : digit19 c = true -> Ascii.eqb c "\" = false.
Proof. intros H. apply digit19_iff in H. destruct (Ascii.eqb_spec c "\"%char) as [-> |]; [|reflexivity]. exfalso. change (b2z "\") with 92 in H. lia. Qed.
Lemma normalize_ref f d x c r : 49 <= b2z d <= 57 -> x = c :: r -> ~ 48 <= b2z c <= 57 ->
  normalize (S f) ("\"%char :: d :: x) = bind (normalize f x) (fun n => Ok ("$" :: "{" :: d :: "}" :: n)%char).
Proof.
  intros D -> C. cbn [normalize]. change (Ascii.eqb "\" "\") with true. cbv iota. rewrite (proj2 (digit19_iff d) D). cbn [span].
  destruct (digit c) eqn:Q; [apply digit_iff in Q; lia|]. reflexivity.
Qed.
Lemma normalize_plain u t its : plain u t its ->
  normalize_replacement (t ++ u) = bind (normalize_replacement u) (fun n => Ok (normal its ++ n)%list).
Proof.
  unfold normalize_replacement. induction 1 as [|c t its N1 N2 H IH|d t its D F H IH].
  - cbn [app normal flat_map]. destruct (normalize (length u) u); reflexivity.
  - cbn [app length normalize]. destruct (Ascii.eqb_spec c "\"%char); [contradiction|]. rewrite IH. destruct (normalize (length u) u); reflexivity.
  - destruct F as (c & r & E & C). cbn [app length]. rewrite (normalize_ref _ d (t ++ u) c r D E C).
    rewrite (normalize_fuel (S (length (t ++ u))) (length (t ++ u)) (t ++ u)) by lia. rewrite IH. destruct (normalize (length u) u); reflexivity.
Qed.

(** ** expand *)
Section Expand.
Variable regex : Type.
Variable named : regex -> bytes -> bytes -> list group -> bytes.
Variable word : ascii -> bool.
Hypothesis word_digit : forall c, digit c = true -> word c = true.
Hypothesis word_brace : word "}" = false.
Notation expand := (expand regex named word).
Notation extract := (extract word).

Lemma extract_shorter t name rest : extract t = Some (name, rest) -> (length rest < length t)%nat.
Proof.
  unfold RegexModel.extract. destruct t as [|c r]; [discriminate|]. destruct (Ascii.eqb c "{").
  - destruct (span word r) as [n x] eqn:E. apply span_app in E. destruct n as [|n0 n]; [discriminate|]. destruct x as [|e x]; [discriminate|].
    destruct (Ascii.eqb e "}"); [|discriminate]. intros [= _ <-]. subst r. cbn. rewrite app_length. cbn. lia.
  - destruct (span word (c :: r)) as [n x] eqn:E. apply span_app in E. destruct n as [|n0 n]; [discriminate|]. intros [= _ <-]. rewrite E. cbn. rewrite app_length. lia.
Qed.
Lemma expand_fuel f : forall f' re s m t, (length t <= f)%nat -> (length t <= f')%nat -> expand f re s m t = expand f' re s m t.
Proof.
  induction f as [|f IH]; intros f' re s m t L L'; [destruct t; [destruct f'; reflexivity|cbn in L; lia]|].
  destruct t as [|c t1]; [destruct f'; reflexivity|]. destruct f' as [|f']; [cbn in L'; lia|]. cbn [length] in *. cbn [RegexModel.expand].
  destruct (Ascii.eqb c "$"); [|now rewrite (IH f' re s m t1) by lia].
  assert (G : match extract t1 with
    | Some (name, rest) => (match name_number name with Some k => group_text s (nth (Z.to_nat k) m None) | None => named re name s m end ++ expand f re s m rest)%list
    | None => "$"%char :: expand f re s m t1 end = match extract t1 with
    | Some (name, rest) => (match name_number name with Some k => group_text s (nth (Z.to_nat k) m None) | None => named re name s m end ++ expand f' re s m rest)%list
    | None => "$"%char :: expand f' re s m t1 end).
  { destruct (extract t1) as [[name rest]|] eqn:E; [|now rewrite (IH f' re s m t1) by lia]. apply extract_shorter in E. now rewrite (IH f' re s m rest) by lia. }
  destruct t1 as [|d t2]; [exact G|]. destruct (Ascii.eqb_spec d "$"%char) as [-> |N].
  - cbn [length] in *. now rewrite (IH f' re s m t2) by lia.
  - destruct d as [[] [] [] [] [] [] [] []]; try exact G. now elim N.
Qed.
Lemma expand_lit re s m c t : c <> "$"%char -> expand_template regex named word re s m (c :: t) = c :: expand_template regex named word re s m t.
Proof. intros N. unfold expand_template. cbn [length RegexModel.expand]. destruct (Ascii.eqb_spec c "$"%char); [contradiction|]. reflexivity. Qed.
Lemma expand_dollar re s m t : (forall r, t <> "$"%char :: r) -> expand_template regex named word re s m ("$"%char :: t) =
  match extract t with
  | Some (name, rest) => (match name_number name with Some k => group_text s (nth (Z.to_nat k) m None) | None => named re name s m end ++ expand_template regex named word re s m rest)%list
  | None => "$"%char :: expand_template regex named word re s m t end.
Proof.
  intros N. unfold expand_template. cbn [length RegexModel.expand]. change (Ascii.eqb "$" "$") with true. cbv iota.
  assert (G : match extract t with
    | Some (name, rest) => (match name_number name with Some k => group_text s (nth (Z.to_nat k) m None) | None => named re name s m end ++ expand (length t) re s m rest)%list
    | None => "$"%char :: expand (length t) re s m t end = match extract t with
    | Some (name, rest) => (match name_number name with Some k => group_text s (nth (Z.to_nat k) m None) | None => named re name s m end ++ expand (length rest) re s m rest)%list
    | None => "$"%char :: expand (length t) re s m t end).
  { destruct (extract t) as [[name rest]|] eqn:E; [|reflexivity]. apply extract_shorter in E. now rewrite (expand_fuel (length t) (length rest)) by lia. }
  destruct t as [|d t2]; [exact G|]. destruct (Ascii.eqb_spec d "$"%char) as [-> |D]; [now elim (N t2)|].
  destruct d as [[] [] [] [] [] [] [] []]; try exact G. now elim D.
Qed.
Lemma name_number_digits ds : ds <> [] -> (length ds <= 8)%nat -> Forall (fun c => digit c = true) ds -> (forall r, ds <> "0"%char :: r) ->
  exists k, name_number ds = Some k /\ k = fold_left (fun n c => n * 10 + (b2z c - 48)) ds 0.
Proof.
  intros N L D Z0. assert (H : forall l n, Forall (fun c => digit c = true) l -> 0 <= n -> n * 10 ^ Z.of_nat (length l) < 100000000 * 10 -> (length l <= 8)%nat -> n < 10 ^ (8 - Z.of_nat (length l)) ->
    name_num n l = Some (fold_left (fun n c => n * 10 + (b2z c - 48)) l n)).
  { clear. induction l as [|c l IH]; intros n F P _ L B; [reflexivity|]. inversion F as [|? ? D F']; subst. cbn [name_num fold_left]. rewrite D. apply digit_iff in D. cbn [length] in *.
    assert (10 ^ (8 - Z.of_nat (S (length l))) <= 10 ^ 8) by (apply Z.pow_le_mono_r; lia).
    assert (Q : n <? 100000000 = true) by (apply Z.ltb_lt; change 100000000 with (10 ^ 8); lia). rewrite Q. cbn [andb].
    assert (S : 10 ^ (8 - Z.of_nat (length l)) = 10 * 10 ^ (8 - Z.of_nat (S (length l)))) by (rewrite <- Z.pow_succ_r by lia; f_equal; lia).
    apply IH; auto; try lia. assert (n * 10 + (b2z c - 48) < 10 ^ (8 - Z.of_nat (length l))) by lia.
    assert (10 ^ (8 - Z.of_nat (length l)) * 10 ^ Z.of_nat (length l) = 10 ^ 8) by (rewrite <- Z.pow_add_r by lia; f_equal; lia).
    assert (0 < 10 ^ Z.of_nat (length l)) by (apply Z.pow_pos_nonneg; lia). change (100000000 * 10) with (10 ^ 8 * 10). nia. }
  eexists. split; [|reflexivity]. destruct ds as [|c ds]; [contradiction|]. unfold name_number.
  assert (E : name_num 0 (c :: ds) = Some (fold_left (fun n c => n * 10 + (b2z c - 48)) (c :: ds) 0)) by (apply H; auto; [lia|lia|apply Z.pow_pos_nonneg; cbn [length] in *; lia]).
  destruct ds as [|d ds]; [exact E|]. destruct (Ascii.eqb_spec c "0"%char) as [-> |]; [now elim (Z0 (d :: ds))|exact E].
Qed.
Lemma span_all p ds x : Forall (fun c => p c = true) ds -> match x with c :: _ => p c = false | [] => True end -> span p (ds ++ x) = (ds, x).
Proof.
  induction 1 as [|c l Q H IH]; intros N; cbn [app].
  - destruct x as [|c x]; [reflexivity|]. cbn [span]. now rewrite N.
  - cbn [span]. rewrite Q, IH by exact N. reflexivity.
Qed.
Lemma expand_ref re s m ds t : ds <> [] -> (length ds <= 8)%nat -> Forall (fun c => digit c = true) ds -> (forall r, ds <> "0"%char :: r) ->
  expand_template regex named word re s m ("$"%char :: "{"%char :: ds ++ "}"%char :: t) =
  (group_text s (nth (Z.to_nat (fold_left (fun n c => n * 10 + (b2z c - 48)) ds 0)) m None) ++ expand_template regex named word re s m t)%list.
Proof.
  intros N L D Z0. rewrite expand_dollar by (intros r; discriminate). unfold RegexModel.extract. change (Ascii.eqb "{" "{") with true. cbv iota.
  rewrite span_all; [|eapply Forall_impl; [|exact D]; intros c Q; apply word_digit, Q|exact word_brace].
  destruct (name_number_digits ds N L D Z0) as (k & E & K). destruct ds as [|c ds]; [contradiction|]. change (Ascii.eqb "}" "}") with true. cbv iota. rewrite E, <- K. reflexivity.
Qed.
Lemma expand_normal re s m its x : Forall (fun it => match it with Lit c => c <> "$"%char | Ref d => 49 <= b2z d <= 57 end) its ->
  expand_template regex named word re s m (normal its ++ x) = (render s m its ++ expand_template regex named word re s m x)%list.
Proof.
  induction 1 as [|it its I H IH]; [reflexivity|]. destruct it as [c|d]; cbn [normal render flat_map].
  - cbn [app]. rewrite expand_lit by exact I. f_equal. exact IH.
  - change (["$"; "{"; d; "}"]%char ++ flat_map _ its)%list with ("$"%char :: "{"%char :: [d] ++ "}"%char :: normal its)%list.
    cbn [app]. change (expand_template regex named word re s m ("$"%char :: "{"%char :: [d] ++ "}"%char :: (normal its ++ x)) = ((group_text s (nth (Z.to_nat (b2z d - 48)) m None) ++ render s m its) ++ expand_template regex named word re s m x)%list).
    rewrite expand_ref.
    + cbn [fold_left]. rewrite Z.mul_0_l, Z.add_0_l, <- app_assoc. f_equal. exact IH.
    + discriminate.
    + cbn. lia.
    + constructor; [|constructor]. apply digit_iff. lia.
    + intros r [= -> _]. change (b2z "0") with 48 in I. lia.
Qed.
Lemma plain_items u t its : plain u t its -> Forall (fun it => match it with Lit c => c <> "$"%char | Ref d => 49 <= b2z d <= 57 end) its.
Proof. induction 1; constructor; auto. Qed.
Lemma plain_reads t its : plain [] t its -> reads t its.
Proof. induction 1; constructor; auto. lia. Qed.

(** ** REGEXP_REPLACE *)
Variable compile : bytes -> option regex.
Variable find_all : regex -> bytes -> list (list group).
Lemma replace_render re t its s (H : forall m, expand_template regex named word re s m t = render s m its) ms : forall last,
  replace_from regex named word re t s last ms = replaced its s last ms.
Proof.
  induction ms as [|m ms IH]; intros last; [reflexivity|]. cbn [replace_from replaced]. destruct m as [|[[i j]|] gs]; auto.
  rewrite H, IH. reflexivity.
Qed.
Lemma replace_plain s e re t u its n wrong : compile e = Some re -> plain u t its -> normalize_replacement u = Ok n ->
  (forall m, expand_template regex named word re s m n = render s m wrong) ->
  regexp_replace regex compile find_all named word (Str s) (Str e) (Str (t ++ u)) = Ok (Str (replaced (its ++ wrong) s 0 (find_all re s))).
Proof.
  intros C P N W. unfold regexp_replace. cbn [arg_string]. rewrite C, (normalize_plain u t its P), N. cbn [bind like]. unfold replace_all_matches.
  rewrite (replace_render re (normal its ++ n) (its ++ wrong)); [reflexivity|]. intros m. rewrite (expand_normal re s m its n (plain_items u t its P)), W.
  unfold render. now rewrite flat_map_app.
Qed.
End Expand.

(** ** INITCAP *)
Section Cap.
Variable up low : Z -> Z.
Variable delims : list Z.
Fixpoint caps (p : Z) (rs : list Z) : list Z :=
  match rs with [] => [] | r :: rest => (if is_delim delims r then r else if is_delim delims p then up r else low r) :: caps r rest end.
Lemma initcap_false n : forall rs p, (length rs <= n)%nat -> (match rs with r :: _ => is_delim delims r = false -> is_delim delims p = false | [] => True end) ->
  initcap_loop up low delims false rs = caps p rs.
Proof.
  induction n as [|n IH]; intros rs p L H; [destruct rs; [reflexivity|cbn in L; lia]|].
  destruct rs as [|r rest]; [reflexivity|]. cbn [initcap_loop caps]. assert (E : (if is_delim delims r then r else low r) = (if is_delim delims r then r else if is_delim delims p then up r else low r)).
  { destruct (is_delim delims r); [reflexivity|]. now rewrite H. }
  rewrite <- E. destruct rest as [|x rest]; [reflexivity|]. cbn [length] in L.
  destruct (is_delim delims x) eqn:X; [f_equal; apply IH; [cbn; lia|congruence]|].
  destruct (is_delim delims r) eqn:R; [|f_equal; apply IH; [cbn; lia|auto]].
  f_equal. cbn [caps]. rewrite X, R. f_equal. apply IH; [lia|]. destruct rest; auto.
Qed.
Lemma initcap_true r rest : initcap_loop up low delims true (r :: rest) = up r :: caps r rest.
Proof.
  cbn [initcap_loop]. destruct rest as [|x rest]; [reflexivity|].
  destruct (is_delim delims x) eqn:X; [f_equal; apply (initcap_false (length (x :: rest))); [auto|congruence]|].
  destruct (is_delim delims r) eqn:R; [|f_equal; apply (initcap_false (length (x :: rest))); auto].
  f_equal. cbn [caps]. rewrite X, R. f_equal. apply (initcap_false (length rest)); [auto|]. destruct rest; auto.
Qed.
Lemma is_delim_iff r : is_delim delims r = true <-> In r delims.
Proof. unfold is_delim. rewrite existsb_exists. split; [intros (x & I & E); apply Z.eqb_eq in E; now subst|intros I; exists r; split; [exact I|apply Z.eqb_refl]]. Qed.
Lemma caps_length rs : forall p, length (caps p rs) = length rs.
Proof. induction rs as [|r rs IH]; intros p; cbn; auto. Qed.
Lemma caps_nth rs : forall p i r out, nth_error rs i = Some r -> nth_error (caps p rs) i = Some out ->
  capped up low (fun x => In x delims) (Some (match i with O => p | S k => nth k rs 0 end)) r out.
Proof.
  induction rs as [|x rs IH]; intros p i r out A B; [destruct i; discriminate|]. destruct i as [|i]; cbn [nth_error caps] in *.
  - assert (x = r) by congruence. subst x. assert (E : out = (if is_delim delims r then r else if is_delim delims p then up r else low r)) by congruence. subst out. cbn.
    destruct (is_delim delims r) eqn:R; [|assert (~ In r delims) by (rewrite <- is_delim_iff; congruence)].
    + apply is_delim_iff in R. tauto.
    + destruct (is_delim delims p) eqn:Q; [apply is_delim_iff in Q; tauto|]. assert (~ In p delims) by (rewrite <- is_delim_iff; congruence). tauto.
  - specialize (IH x i r out A B). destruct i; exact IH.
Qed.
End Cap.

(** ** SOUNDEX *)
Fixpoint dig (p : Z) (cs : list Z) : list Z :=
  match cs with [] => [] | c :: r => if c =? p then dig p r else c :: dig c r end.
Lemma squeeze_dig cs : forall p, squeeze (p :: cs) = p :: dig p cs.
Proof.
  induction cs as [|c cs IH]; intros p; [reflexivity|]. change (squeeze (p :: c :: cs)) with (if p =? c then squeeze (c :: cs) else p :: squeeze (c :: cs)).
  rewrite IH. cbn [dig]. rewrite (Z.eqb_sym c p). destruct (Z.eqb_spec p c) as [-> |]; reflexivity.
Qed.
Lemma dig_other p cs : ~ In p cs -> dig p cs = squeeze cs.
Proof. destruct cs as [|c cs]; [reflexivity|]. intros N. cbn [dig]. destruct (Z.eqb_spec c p) as [-> |]; [exfalso; apply N; now left|]. now rewrite squeeze_dig. Qed.
Definition coded (rs : list Z) : list Z := filter (fun c => negb (c =? 48)) (map soundex_code (filter letter rs)).
Lemma soundex_loop_dig rs : forall n p, soundex_loop (S n) p rs = firstn (S n) (dig p (coded rs)).
Proof.
  unfold coded. induction rs as [|r rs IH]; intros n p; [reflexivity|]. cbn [soundex_loop filter]. destruct (letter r); [|apply IH]. cbn [map filter].
  destruct (Z.eqb_spec (soundex_code r) 48) as [E|E]; cbn [negb].
  - rewrite orb_true_r. apply IH.
  - rewrite orb_false_r. cbn [dig]. destruct (Z.eqb_spec (soundex_code r) p) as [Q|Q]; [apply IH|]. cbn [firstn]. destruct n as [|n]; [reflexivity|]. f_equal. apply IH.
Qed.
Lemma soundex_runes_eq rs : soundex_runes rs =
  match filter letter rs with
  | [] => []
  | l :: ls => let ds := firstn 3 (dig (soundex_code l) (filter (fun c => negb (c =? 48)) (map soundex_code ls))) in l :: ds ++ repeat 48 (3 - length ds)
  end.
Proof.
  induction rs as [|r rs IH]; [reflexivity|]. cbn [soundex_runes filter]. destruct (letter r); [|exact IH].
  rewrite (soundex_loop_dig rs 2). reflexivity.
Qed.
Lemma code_sound r d : has_code r d -> soundex_code r = d /\ letter r = true.
Proof.
  assert (H : forall r d, has_code r d -> soundex_code r = d /\ (65 <= r <= 90 \/ 97 <= r <= 122)).
  { intros x y. induction 1 as [l e I|l e B H IH].
    - cbn [In] in I. repeat (destruct I as [I|I]; [injection I as <- <-; split; [reflexivity|left; cbv; split; discriminate]|]). destruct I.
    - destruct IH as (E & R). split; [|lia]. rewrite <- E. unfold soundex_code. assert (U : upper_z l = upper_z (l - 32)); [|now rewrite U].
      unfold upper_z. rewrite (proj2 (between_true 97 122 l) B). destruct (between 97 122 (l - 32)) eqn:Q; [apply between_true in Q; lia|reflexivity]. }
  intros C. destruct (H r d C) as (E & R). split; [exact E|]. unfold letter. apply orb_true_iff. rewrite !between_true. lia.
Qed.
Lemma code_total r : letter r = true -> exists d, has_code r d.
Proof.
  assert (H : forall l, In l (list_ascii_of_string "ABCDEFGHIJKLMNOPQRSTUVWXYZ") -> exists d, has_code (b2z l) d).
  { intros l I. cbn [list_ascii_of_string In] in I. repeat (destruct I as [<-|I]; [eexists; apply code_of; cbn [In]; auto 30|]). destruct I. }
  assert (U : forall z, 65 <= z <= 90 -> exists d, has_code z d).
  { intros z B. rewrite <- (b2z_z2b_small z) by lia. apply H. assert (E : exists k, (k < 26)%nat /\ z = 65 + Z.of_nat k) by (exists (Z.to_nat (z - 65)); lia).
    destruct E as (k & K & ->). do 26 (destruct k as [|k]; [cbv; auto 30|]). lia. }
  unfold letter. rewrite orb_true_iff, !between_true. intros [B|B]; [now apply U|]. destruct (U (r - 32)) as (d & D); [lia|]. exists d. now apply code_low.
Qed.
