(** Proofs about StrModel. *)
From Coq Require Import Ascii String List ZArith Lia Bool.
From Verif Require Import GoBase GoBaseFacts Utf8Model Utf8Facts StrModel StrSpec.
Import ListNotations.
Open Scope Z_scope.

Lemma slice_ok {A} (l : list A) i j : 0 <= i <= j -> j <= zlen l ->
  slice l i j = Ok (firstn (Z.to_nat (j - i)) (skipn (Z.to_nat i) l)).
Proof.
  intros H1 H2. unfold slice.
  destruct (0 <=? i) eqn:E1; destruct (i <=? j) eqn:E2; destruct (j <=? zlen l) eqn:E3;
    btw; try lia; reflexivity.
Qed.
Lemma slice_bad {A} (l : list A) i j : (i < 0 \/ j < i \/ zlen l < j) -> slice l i j = GoPanic.
Proof.
  intros H. unfold slice.
  destruct (0 <=? i) eqn:E1; destruct (i <=? j) eqn:E2; destruct (j <=? zlen l) eqn:E3;
    btw; try lia; reflexivity.
Qed.

(** SUBSTR *)
Lemma substr_pos_range pos n : 0 <= n -> 0 <= substr_pos pos n <= n.
Proof.
  intros. unfold substr_pos.
  destruct (pos =? 0) eqn:E1; destruct (pos <? - n) eqn:E2; cbn [orb]; try lia.
  destruct (n <? pos) eqn:E3; try lia. destruct (0 <? pos) eqn:E4; btw; lia.
Qed.
Lemma substr_len_ok len n : 0 <= n -> (forall l, len = Some l -> 0 <= l) ->
  exists l, substr_len len n = Ok l /\ 0 <= l <= n /\
    l = match len with None => n | Some k => Z.min k n end.
Proof.
  intros Hn H. unfold substr_len. destruct len as [k|]; [|exists n; split; [reflexivity|lia]].
  specialize (H k eq_refl). destruct (k <? 0) eqn:E; btw; [lia|].
  destruct (n <? k) eqn:E2; btw; eexists; (split; [reflexivity|lia]).
Qed.
Lemma substr_at_ok v u pos len : 0 <= u <= zlen v -> (forall l, len = Some l -> 0 <= l) ->
  exists l, l = match len with None => u | Some k => Z.min k u end /\
  let p := substr_pos pos u in
  substr_at v u pos len =
    Ok (firstn (Z.to_nat (Z.min u (p + l) - p)) (skipn (Z.to_nat p) v)).
Proof.
  intros Hu H. destruct (substr_len_ok len u ltac:(lia) H) as (l & E & B & L).
  exists l. split; [assumption|]. intros p. unfold substr_at. fold p. rewrite E. cbn [bind].
  pose proof (substr_pos_range pos u ltac:(lia)) as R. fold p in R.
  destruct (u <? p + l) eqn:T; btw; rewrite slice_ok by lia.
  - now replace (Z.min u (p + l)) with u by lia.
  - now replace (Z.min u (p + l)) with (p + l) by lia.
Qed.
Lemma substr_at_exact v pos len : (forall l, len = Some l -> 0 <= l) ->
  substr_at v (zlen v) pos len = Ok (sub_list v pos len).
Proof.
  intros H. destruct (substr_at_ok v (zlen v) pos len ltac:(pose proof (zlen_nonneg v); lia) H)
    as (l & L & E).
  cbn zeta in E. rewrite E. f_equal. unfold sub_list. fold (zlen v).
  pose proof (zlen_nonneg v) as N. set (n := zlen v) in *.
  assert (P : substr_pos pos n = Z.min n (if pos =? 0 then 0 else if 0 <? pos then pos - 1 else Z.max 0 (n + pos))
              \/ (n < pos /\ substr_pos pos n = n)).
  { unfold substr_pos. destruct (pos =? 0) eqn:E1; cbn [orb]; [left; lia|].
    destruct (pos <? - n) eqn:E2; [left; destruct (0 <? pos) eqn:E4; btw; lia|].
    destruct (n <? pos) eqn:E3; [right; btw; lia|].
    left. destruct (0 <? pos) eqn:E4; btw; lia. }
  set (st := if pos =? 0 then 0 else if 0 <? pos then pos - 1 else Z.max 0 (n + pos)) in *.
  assert (S0 : 0 <= st). { unfold st. destruct (pos =? 0); [lia|]. destruct (0 <? pos) eqn:E1; btw; lia. }
  assert (Q : substr_pos pos n = Z.min n st).
  { destruct P as [P|[P1 P2]]; [exact P|]. rewrite P2. unfold st. destruct (pos =? 0) eqn:E1; btw; [lia|].
    destruct (0 <? pos) eqn:E2; btw; lia. }
  rewrite Q.
  assert (SK : skipn (Z.to_nat (Z.min n st)) v = skipn (Z.to_nat st) v).
  { destruct (Z_le_gt_dec n st) as [G|G].
    - rewrite Z.min_l by lia. rewrite !skipn_all2; [reflexivity| |]; unfold n, zlen in *; lia.
    - now rewrite Z.min_r by lia. }
  rewrite SK.
  assert (LE : length (skipn (Z.to_nat st) v) = Z.to_nat (n - Z.min n st)).
  { rewrite skipn_length. unfold n, zlen in *. lia. }
  set (rest := skipn (Z.to_nat st) v) in *.
  destruct len as [k|].
  - specialize (H k eq_refl). subst l.
    destruct (Z_le_gt_dec (n - Z.min n st) k) as [G|G].
    + rewrite !firstn_all2; [reflexivity| |]; rewrite LE; lia.
    + f_equal. lia.
  - subst l. rewrite firstn_all2; [reflexivity|]. rewrite LE. lia.
Qed.
Lemma substr_no_panic v pos len : substr v pos len <> GoPanic.
Proof.
  destruct v as [s|b]; cbn [substr].
  - destruct len as [k|].
    + destruct (Z_lt_ge_dec k 0) as [N|N].
      * unfold substr_at, substr_len. destruct (k <? 0) eqn:E; btw; [discriminate|lia].
      * destruct (substr_at_ok s (zlen (decode s)) pos (Some k)) as (l & _ & E).
        { pose proof (decode_length s). unfold zlen. lia. }
        { intros x X. inversion X. lia. }
        cbn zeta in E. rewrite E. discriminate.
    + destruct (substr_at_ok s (zlen (decode s)) pos None) as (l & _ & E).
      { pose proof (decode_length s). unfold zlen. lia. }
      { discriminate. }
      cbn zeta in E. rewrite E. discriminate.
  - destruct len as [k|].
    + destruct (Z_lt_ge_dec k 0) as [N|N].
      * unfold substr_at, substr_len. destruct (k <? 0) eqn:E; btw; [discriminate|lia].
      * rewrite substr_at_exact; [discriminate|]. intros x X. inversion X. lia.
    + rewrite substr_at_exact; [discriminate|discriminate].
Qed.
Lemma sub_list_map {A B} (f : A -> B) l pos len : sub_list (map f l) pos len = map f (sub_list l pos len).
Proof.
  unfold sub_list. rewrite map_length. destruct len; [rewrite <- firstn_map|]; now rewrite <- skipn_map.
Qed.

(** Repetition *)
Lemma times_length {A} n (l : list A) : length (times n l) = (n * length l)%nat.
Proof. induction n; cbn [times]; [reflexivity|]. rewrite app_length, IHn. lia. Qed.
Lemma times_nth {A} n (l : list A) i : (i < n * length l)%nat ->
  nth_error (times n l) i = nth_error l (i mod length l).
Proof.
  revert i. induction n as [|n IH]; intros i H; [lia|]. cbn [times].
  destruct (Nat.lt_ge_cases i (length l)) as [L|L].
  - rewrite nth_error_app1 by assumption. now rewrite Nat.mod_small.
  - rewrite nth_error_app2 by assumption. rewrite IH by lia. f_equal.
    replace i with (i - length l + 1 * length l)%nat at 2 by lia.
    rewrite Nat.mod_add; [reflexivity|]. lia.
Qed.
Lemma cycled_firstn {A} n (l : list A) k : (k <= n * length l)%nat -> cycled l (firstn k (times n l)).
Proof.
  intros H i L. rewrite firstn_length, times_length in L.
  assert (E : forall (m : list A) j q, (j < q)%nat -> nth_error (firstn q m) j = nth_error m j).
  { clear. induction m as [|x m IH]; intros j q H; destruct q; try lia; [destruct j; reflexivity|].
    destruct j; [reflexivity|]. cbn. apply IH. lia. }
  rewrite E by lia. apply times_nth. lia.
Qed.
Lemma times_map {A B} (f : A -> B) n l : times n (map f l) = map f (times n l).
Proof. induction n; cbn [times]; [reflexivity|]. now rewrite map_app, IHn. Qed.
Lemma encode_times n rs : encode (times n rs) = times n (encode rs).
Proof. induction n; cbn [times]; [reflexivity|]. now rewrite encode_app, IHn. Qed.
Lemma Forall_times {A} (P : A -> Prop) n l : Forall P l -> Forall P (times n l).
Proof. intros H. induction n; cbn [times]; [constructor|]. apply Forall_app. auto. Qed.
Lemma Forall_firstn {A} (P : A -> Prop) n l : Forall P l -> Forall P (firstn n l).
Proof. intros H. rewrite <- (firstn_skipn n l) in H. apply Forall_app in H. tauto. Qed.
Lemma Forall_skipn {A} (P : A -> Prop) n l : Forall P l -> Forall P (skipn n l).
Proof. intros H. rewrite <- (firstn_skipn n l) in H. apply Forall_app in H. tauto. Qed.

(** Enough copies for [remain] elements. *)
Lemma copies_enough remain n : 0 < n -> 0 < remain - n ->
  0 <= (remain - n) ÷ n + 2 /\ remain <= ((remain - n) ÷ n + 2) * n.
Proof.
  intros Hn Hr. rewrite Z.quot_div_nonneg by lia.
  pose proof (Z.div_mod (remain - n) n ltac:(lia)). pose proof (Z.mod_pos_bound (remain - n) n Hn).
  pose proof (Z.div_pos (remain - n) n ltac:(lia) Hn).
  set (q := (remain - n) / n) in *. split; [lia|]. nia.
Qed.
Lemma take_cycle {A} (pat : list A) m remain : 0 <= m -> 0 < remain <= m * zlen pat ->
  let p := firstn (Z.to_nat remain) (times (Z.to_nat m) pat) in
  zlen p = remain /\ cycled pat p.
Proof.
  intros Hm H p. assert (B : (Z.to_nat remain <= Z.to_nat m * length pat)%nat).
  { apply Nat2Z.inj_le. rewrite Nat2Z.inj_mul, !Z2Nat.id by lia. unfold zlen in H. lia. }
  split; [|now apply cycled_firstn].
  unfold zlen, p. rewrite firstn_length, times_length. lia.
Qed.
Lemma cycled_prefix {A} (pat : list A) n : (n <= length pat)%nat -> cycled pat (firstn n pat).
Proof.
  intros H. replace (firstn n pat) with (firstn n (times 1 pat)) by (cbn [times]; now rewrite app_nil_r).
  apply cycled_firstn. lia.
Qed.

Lemma zlen_firstn {A} (l : list A) n : 0 <= n <= zlen l -> zlen (firstn (Z.to_nat n) l) = n.
Proof. intros H. unfold zlen in *. rewrite firstn_length. lia. Qed.
Lemma slice_0 {A} (l : list A) n : 0 <= n <= zlen l -> slice l 0 n = Ok (firstn (Z.to_nat n) l).
Proof. intros. rewrite slice_ok by lia. cbn [Z.to_nat skipn]. now rewrite Z.sub_0_r. Qed.

(** The pad text of the STRING case. *)
Lemma pad_runes_ok remain ps : Forall scalar ps -> ps <> [] -> 0 < remain ->
  exists pat, pad_runes remain (Some (encode ps)) = Ok pat /\ remain <= zlen pat /\
    Forall scalar pat /\ cycled ps (firstn (Z.to_nat remain) pat).
Proof.
  intros S N R. unfold pad_runes. rewrite decode_encode by assumption.
  assert (P : 0 < zlen ps). { destruct ps; [congruence|]. rewrite zlen_cons. pose proof (zlen_nonneg ps). lia. }
  destruct (0 <? remain - zlen ps) eqn:E; btw.
  - destruct (zlen ps =? 0) eqn:E0; btw; [lia|].
    destruct (copies_enough remain (zlen ps) P E) as [C1 C2].
    set (m := (remain - zlen ps) ÷ zlen ps + 2) in *. unfold go_repeat.
    destruct (m <? 0) eqn:E1; btw; [lia|]. cbn [bind].
    rewrite <- encode_times, decode_encode by now apply Forall_times.
    eexists. split; [reflexivity|].
    assert (L : zlen (times (Z.to_nat m) ps) = m * zlen ps).
    { unfold zlen. rewrite times_length. lia. }
    split; [lia|]. split; [now apply Forall_times|].
    now apply take_cycle.
  - eexists. split; [reflexivity|]. split; [lia|]. split; [assumption|].
    apply cycled_prefix. unfold zlen in *. lia.
Qed.
Lemma pad_runes_space remain : 0 < remain ->
  exists pat, pad_runes remain None = Ok pat /\ remain <= zlen pat /\
    Forall scalar pat /\ cycled [32] (firstn (Z.to_nat remain) pat).
Proof.
  intros R. unfold pad_runes, go_repeat. destruct (remain <? 0) eqn:E; btw; [lia|]. cbn [bind].
  assert (A : ascii_only (times (Z.to_nat remain) [" "%char])).
  { apply Forall_times. repeat constructor. }
  rewrite decode_ascii by assumption. rewrite <- times_map. cbn [map].
  change (b2z " ") with 32.
  eexists. split; [reflexivity|]. split.
  - unfold zlen. rewrite times_length. cbn [length]. lia.
  - split; [apply Forall_times; constructor; [unfold scalar; lia|constructor]|].
    apply cycled_firstn. cbn [length]. lia.
Qed.
Definition pad_arg (pat : option (list Z)) : option bytes := option_map encode pat.
Definition pad_chars (pat : option (list Z)) : list Z := match pat with Some p => p | None => [32] end.
Lemma pad_str left rs n pat : Forall scalar rs -> 0 <= n ->
  (forall p, pat = Some p -> Forall scalar p /\ p <> []) ->
  exists out, pad left (Str (encode rs)) n (pad_arg pat) = Ok (Str (encode out)) /\
    padded left rs (pad_chars pat) n out.
Proof.
  intros S N P. cbn [pad]. rewrite decode_encode by assumption.
  destruct (n <=? zlen rs) eqn:E; btw.
  - rewrite slice_0 by lia. cbn [bind]. eexists. split; [reflexivity|]. split; [|split].
    + now apply zlen_firstn.
    + intros _. exists (skipn (Z.to_nat n) rs). symmetry. apply firstn_skipn.
    + unfold zlen in E. lia.
  - set (k := n - zlen rs) in *. assert (K : 0 < k) by lia.
    assert (G : exists q, pad_runes k (pad_arg pat) = Ok q /\ k <= zlen q /\
                Forall scalar q /\ cycled (pad_chars pat) (firstn (Z.to_nat k) q)).
    { destruct pat as [p|]; cbn [pad_arg option_map pad_chars].
      - destruct (P p eq_refl). now apply pad_runes_ok.
      - now apply pad_runes_space. }
    destruct G as (q & G1 & G2 & G3 & G4). rewrite G1. cbn [bind]. rewrite slice_0 by lia. cbn [bind].
    set (w := firstn (Z.to_nat k) q) in *.
    assert (LW : zlen w = k) by (apply zlen_firstn; lia).
    exists (if left then w ++ rs else rs ++ w). split; [|split; [|split]].
    + destruct left; now rewrite encode_app.
    + fold (zlen (if left then w ++ rs else rs ++ w)). destruct left; rewrite zlen_app; lia.
    + unfold zlen in *. lia.
    + intros _. exists w. split; [exact G4|]. now destruct left.
Qed.
Lemma pad_bytes_ok left b n p : 0 <= n -> p <> [] ->
  (zlen b < n -> zlen p < n - zlen b) ->
  exists out, pad left (Byt b) n (Some p) = Ok (Byt out) /\ padded left b p n out.
Proof.
  intros N P H. cbn [pad]. destruct (n <=? zlen b) eqn:E; btw.
  - rewrite slice_0 by lia. cbn [bind]. eexists. split; [reflexivity|]. split; [|split].
    + now apply zlen_firstn.
    + intros _. exists (skipn (Z.to_nat n) b). symmetry. apply firstn_skipn.
    + unfold zlen in E. lia.
  - specialize (H E). set (k := n - zlen b) in *. unfold pad_bytes.
    assert (Q : 0 < zlen p). { destruct p; [congruence|]. rewrite zlen_cons. pose proof (zlen_nonneg p). lia. }
    destruct (0 <? k - zlen p) eqn:E1; btw; [|lia].
    destruct (zlen p =? 0) eqn:E2; btw; [lia|].
    destruct (copies_enough k (zlen p) Q E1) as [C1 C2].
    set (m := (k - zlen p) ÷ zlen p + 2) in *. unfold go_repeat.
    destruct (m <? 0) eqn:E3; btw; [lia|]. cbn [bind].
    assert (L : zlen (times (Z.to_nat m) p) = m * zlen p).
    { unfold zlen. rewrite times_length. lia. }
    rewrite slice_0 by lia. cbn [bind].
    destruct (take_cycle p m k ltac:(lia) ltac:(lia)) as [W1 W2].
    set (w := firstn (Z.to_nat k) (times (Z.to_nat m) p)) in *.
    exists (if left then w ++ b else b ++ w). split; [now destruct left|]. split; [|split].
    + fold (zlen (if left then w ++ b else b ++ w)). destruct left; rewrite zlen_app; lia.
    + unfold zlen in *. lia.
    + intros _. exists w. split; [exact W2|]. now destruct left.
Qed.
Lemma pad_bytes_space left b n : 0 <= n ->
  exists out, pad left (Byt b) n None = Ok (Byt out) /\ padded left b [" "%char] n out.
Proof.
  intros N. cbn [pad]. destruct (n <=? zlen b) eqn:E; btw.
  - rewrite slice_0 by lia. cbn [bind]. eexists. split; [reflexivity|]. split; [|split].
    + now apply zlen_firstn.
    + intros _. exists (skipn (Z.to_nat n) b). symmetry. apply firstn_skipn.
    + unfold zlen in E. lia.
  - set (k := n - zlen b) in *. unfold pad_bytes, go_repeat.
    destruct (k <? 0) eqn:E1; btw; [lia|]. cbn [bind].
    assert (L : zlen (times (Z.to_nat k) [" "%char]) = k * 1).
    { unfold zlen. rewrite times_length. cbn [length]. lia. }
    rewrite slice_0 by lia. cbn [bind].
    destruct (take_cycle [" "%char] k k ltac:(lia) ltac:(cbn; lia)) as [W1 W2].
    set (w := firstn (Z.to_nat k) (times (Z.to_nat k) [" "%char])) in *.
    exists (if left then w ++ b else b ++ w). split; [now destruct left|]. split; [|split].
    + fold (zlen (if left then w ++ b else b ++ w)). destruct left; rewrite zlen_app; lia.
    + unfold zlen in *. lia.
    + intros _. exists w. split; [exact W2|]. now destruct left.
Qed.

(** UTF-8 is self-synchronising. *)
Lemma z2b_cont x : 0 <= x < 64 -> cont (b2z (z2b (128 + x))) = true.
Proof. intros H. rewrite b2z_z2b_small by lia. apply between_true. lia. Qed.
Lemma mod64 x : 0 <= x mod 64 < 64.
Proof. apply Z.mod_pos_bound. lia. Qed.
Lemma encode_scalar_shape r : scalar r -> exists l cs, encode_scalar r = l :: cs /\
  cont (b2z l) = false /\ Forall (fun c => cont (b2z c) = true) cs /\
  (r < 128 -> cs = [] /\ b2z l = r) /\ (128 <= r -> 194 <= b2z l /\ cs <> []).
Proof.
  intros [H1 H2]. unfold encode_scalar.
  destruct (r <=? 127) eqn:E1; [|destruct (r <=? 2047) eqn:E2; [|destruct (r <=? 65535) eqn:E3]]; btw;
    do 2 eexists; (split; [reflexivity|]).
  - rewrite b2z_z2b_small by lia. repeat split; try (apply between_false; lia); try lia. constructor.
  - pose proof (Z.div_mod r 64 ltac:(lia)). pose proof (mod64 r).
    rewrite (b2z_z2b_small (192 + _)) by lia. repeat split; try (apply between_false; lia); try lia.
    + repeat constructor; apply z2b_cont, mod64.
    + discriminate.
  - assert (0 <= r / 4096 <= 15).
    { split; [apply Z.div_pos; lia|]. apply Z.lt_succ_r, Z.div_lt_upper_bound; lia. }
    rewrite (b2z_z2b_small (224 + _)) by lia. repeat split; try (apply between_false; lia); try lia.
    + repeat constructor; apply z2b_cont, mod64.
    + discriminate.
  - assert (0 <= r / 262144 <= 4).
    { split; [apply Z.div_pos; lia|]. apply Z.lt_succ_r, Z.div_lt_upper_bound; lia. }
    rewrite (b2z_z2b_small (240 + _)) by lia. repeat split; try (apply between_false; lia); try lia.
    + repeat constructor; apply z2b_cont, mod64.
    + discriminate.
Qed.
Lemma conts_prefix (cs a E b : bytes) c : Forall (fun x => cont (b2z x) = true) cs ->
  cont (b2z c) = false -> cs ++ E = a ++ c :: b -> exists a', a = cs ++ a' /\ E = a' ++ c :: b.
Proof.
  intros F C. revert a. induction F as [|x cs X _ IH]; intros a H; [now exists a|].
  destruct a as [|y a]; cbn [app] in H; inversion H; subst; [congruence|].
  destruct (IH a ltac:(assumption)) as (a' & -> & ->). now exists a'.
Qed.
Lemma boundary rs a c b : Forall scalar rs -> encode rs = a ++ c :: b -> cont (b2z c) = false ->
  exists r1 r2, rs = r1 ++ r2 /\ a = encode r1 /\ c :: b = encode r2.
Proof.
  intros F. revert a. induction F as [|r rs S _ IH]; intros a E C.
  - destruct a; discriminate.
  - destruct a as [|x a]; [now exists [], (r :: rs)|].
    unfold encode in E. cbn [flat_map] in E. rewrite encode_rune_scalar in E by assumption.
    destruct (encode_scalar_shape r S) as (l & cs & SH & _ & CS & _). rewrite SH in E.
    cbn [app] in E. inversion E; subst. apply conts_prefix in H1; [|assumption|assumption].
    destruct H1 as (a' & -> & E'). destruct (IH a' E' C) as (r1 & r2 & -> & -> & ->).
    exists (r :: r1), r2. split; [reflexivity|]. split; [|reflexivity].
    unfold encode. cbn [flat_map]. rewrite encode_rune_scalar, SH by assumption. reflexivity.
Qed.
Lemma encode_head p ps : scalar p -> exists l cs, encode (p :: ps) = l :: cs /\ cont (b2z l) = false.
Proof.
  intros S. destruct (encode_scalar_shape p S) as (l & cs & SH & C & _).
  unfold encode. cbn [flat_map]. rewrite encode_rune_scalar, SH by assumption. cbn [app]. eauto.
Qed.
Lemma encode_inj_app ps rs b : Forall scalar ps -> Forall scalar rs -> encode rs = encode ps ++ b ->
  exists r2, rs = ps ++ r2 /\ b = encode r2.
Proof.
  intros P R E. exists (decode b).
  assert (D : rs = ps ++ decode b).
  { rewrite <- (decode_encode rs) by assumption. rewrite E. now apply decode_encode_app. }
  split; [exact D|]. rewrite D, encode_app in E. now apply app_inv_head in E.
Qed.
Lemma occurrence_chars rs ps a b : Forall scalar rs -> Forall scalar ps -> ps <> [] ->
  encode rs = a ++ encode ps ++ b -> exists r1 r2, rs = r1 ++ ps ++ r2 /\ a = encode r1 /\ b = encode r2.
Proof.
  intros R P N E. destruct ps as [|p ps]; [congruence|].
  destruct (encode_head p ps (Forall_inv P)) as (l & cs & H & C). rewrite H in E. cbn [app] in E.
  destruct (boundary rs a l (cs ++ b) R E C) as (r1 & r2 & -> & -> & E2).
  apply Forall_app in R. destruct R as [R1 R2].
  destruct (encode_inj_app (p :: ps) r2 b P R2) as (r3 & -> & ->); [rewrite H; now symmetry|].
  now exists r1, r3.
Qed.
Lemma encode_length_ge rs : (length rs <= length (encode rs))%nat.
Proof.
  induction rs as [|r rs IH]; [reflexivity|]. unfold encode in *. cbn [flat_map length].
  rewrite app_length. pose proof (encode_rune_nonempty r). destruct (encode_rune r); [congruence|].
  cbn [length]. lia.
Qed.
Lemma encode_length_eq rs : Forall scalar rs ->
  (length (encode rs) = length rs <-> Forall (fun r => r < 128) rs).
Proof.
  induction 1 as [|r rs S _ IH]; [split; [constructor|reflexivity]|].
  pose proof (encode_length_ge rs). unfold encode in *. cbn [flat_map length]. rewrite app_length.
  rewrite encode_rune_scalar by assumption.
  destruct (encode_scalar_shape r S) as (l & cs & -> & _ & _ & A & B). cbn [length]. split.
  - intros E. assert (cs = []) by (destruct cs; [reflexivity|cbn [length] in E; lia]).
    constructor; [|apply IH; subst cs; cbn [length] in E; lia].
    destruct (Z_lt_ge_dec r 128); [assumption|]. destruct B; [lia|contradiction].
  - intros F. inversion F; subst. destruct A as [-> _]; [assumption|]. cbn [length].
    apply IH in H3. lia.
Qed.
(** Byte occurrences of an encoded text are its character occurrences. *)
Lemma occurs_at_encode rs ps i : Forall scalar rs -> Forall scalar ps -> ps <> [] ->
  (occurs_at (encode ps) (encode rs) i <->
   exists j, occurs ps rs j /\ i = length (encode (firstn j rs))).
Proof.
  intros R P N. split.
  - intros (a & b & E & L). destruct (occurrence_chars rs ps a b R P N E) as (r1 & r2 & -> & -> & ->).
    exists (length r1). split; [exists r1, r2; auto|].
    rewrite firstn_app, Nat.sub_diag, firstn_all, firstn_O, app_nil_r. now symmetry.
  - intros (j & (a & b & -> & <-) & ->).
    rewrite firstn_app, Nat.sub_diag, firstn_all, firstn_O, app_nil_r.
    exists (encode a), (encode b). split; [|reflexivity]. now rewrite !encode_app.
Qed.
Lemma encode_firstn_mono rs j k : (j < k)%nat -> (k <= length rs)%nat ->
  (length (encode (firstn j rs)) < length (encode (firstn k rs)))%nat.
Proof.
  intros H K. replace (firstn k rs) with (firstn j rs ++ firstn (k - j) (skipn j rs)).
  - rewrite encode_app, app_length.
    pose proof (encode_length_ge (firstn (k - j) (skipn j rs))) as G.
    rewrite firstn_length, skipn_length in G. lia.
  - rewrite <- (firstn_skipn j (firstn k rs)) at 1. rewrite firstn_firstn, Nat.min_l by lia. f_equal.
    symmetry. apply skipn_firstn_comm.
Qed.
Lemma occurs_bound {A} (sub l : list A) i : occurs sub l i -> (i + length sub <= length l)%nat.
Proof. intros (a & b & -> & <-). rewrite !app_length. lia. Qed.
Lemma first_occurrence_encode rs ps i : Forall scalar rs -> Forall scalar ps -> ps <> [] ->
  (index_of (encode ps) (encode rs) = Some i <->
   exists j, first_occurrence ps rs j /\ i = length (encode (firstn j rs))).
Proof.
  intros R P N. rewrite index_of_some, occurs_at_encode by assumption. split.
  - intros [(j & O & ->) F]. exists j. split; [|reflexivity]. split; [assumption|].
    intros k L Ok. apply (F (length (encode (firstn k rs)))).
    + apply encode_firstn_mono; [assumption|]. apply occurs_bound in O. lia.
    + apply occurs_at_encode; eauto.
  - intros (j & (O & F) & ->). split; [eauto|]. intros k L Q.
    apply occurs_at_encode in Q; [|assumption..]. destruct Q as (m & Om & ->).
    destruct (Nat.lt_ge_cases m j) as [G|G]; [now apply (F m)|].
    destruct (Nat.eq_dec m j) as [->|G2]; [lia|].
    apply occurs_bound in Om. pose proof (encode_firstn_mono rs j m ltac:(lia) ltac:(lia)). lia.
Qed.
Lemma index_of_none_encode rs ps : Forall scalar rs -> Forall scalar ps -> ps <> [] ->
  (index_of (encode ps) (encode rs) = None <-> forall j, ~ occurs ps rs j).
Proof.
  intros R P N. rewrite index_of_none. split; intros H j O.
  - apply (H (length (encode (firstn j rs)))). apply occurs_at_encode; eauto.
  - apply occurs_at_encode in O; [|assumption..]. destruct O as (k & O & _). now apply (H k).
Qed.

(** SPLIT and REPLACE *)
Lemma split_loop_spec fuel d s : d <> [] -> (length s <= fuel)%nat -> pieces d s (split_loop fuel d s).
Proof.
  intros D. revert s. induction fuel as [|f IH]; intros s L.
  - destruct s; [|cbn in L; lia]. cbn [split_loop]. constructor. intros i O. apply occurs_bound in O.
    destruct d; [congruence|]. cbn in O. lia.
  - cbn [split_loop]. destruct (index_of d s) as [i|] eqn:E.
    + apply index_of_some in E. destruct E as [O F]. destruct (occurs_split _ _ _ O) as [S1 L1].
      rewrite S1 at 1. constructor.
      * rewrite L1, <- S1. split; [exact O|exact F].
      * apply IH. rewrite skipn_length. destruct d; [congruence|]. cbn [length].
        apply occurs_bound in O. cbn [length] in O. lia.
    + constructor. intros i. now apply index_of_none.
Qed.
Lemma pieces_glue {A} (d l : list A) ps : pieces d l ps -> glue d ps = l.
Proof.
  induction 1 as [|a b r _ P IH]; [reflexivity|]. cbn [glue].
  destruct r as [|x r]; [inversion P|]. now rewrite IH.
Qed.
Lemma pieces_clean {A} (d l : list A) ps p : d <> [] -> pieces d l ps -> In p ps -> forall i, ~ occurs d p i.
Proof.
  intros D. induction 1 as [l H|a b r [O F] P IH]; intros I.
  - destruct I as [<-|[]]. assumption.
  - destruct I as [<-|I]; [|auto]. intros i (x & y & E & L). apply (F i).
    + rewrite E, !app_length. destruct d; [congruence|]. cbn [length]. lia.
    + exists x, (y ++ d ++ b). split; [|assumption]. rewrite E. now rewrite <- !app_assoc.
Qed.
Lemma joinb_glue d l : joinb d l = glue d l.
Proof. induction l as [|x l IH]; [reflexivity|]. cbn [joinb glue]. now rewrite IH. Qed.
Lemma pieces_fun {A} (d l : list A) p q : d <> [] -> pieces d l p -> pieces d l q -> p = q.
Proof.
  intros D H. revert q. induction H as [l H|a b r F P IH]; intros q Q.
  - inversion Q; subst; [reflexivity|]. exfalso. eapply H. exact (proj1 H0).
  - inversion Q as [l H|a2 b2 r2 F2 P2 E2]; subst.
    + exfalso. eapply H. exact (proj1 F).
    + assert (L : length a2 = length a).
      { destruct F as [O1 F1], F2 as [O2 F2]. rewrite E2 in O2, F2.
        destruct (Nat.lt_trichotomy (length a2) (length a)) as [G|[G|G]]; [|assumption|].
        - exfalso. apply (F1 _ G O2).
        - exfalso. apply (F2 _ G O1). }
      assert (a2 = a) by (apply (f_equal (firstn (length a))) in E2; rewrite !firstn_app in E2; rewrite L, Nat.sub_diag, !firstn_O, !app_nil_r, firstn_all, <- L, firstn_all in E2; exact E2). subst a2.
      apply app_inv_head in E2. apply app_inv_head in E2. subst b2. f_equal. now apply IH.
Qed.

Lemma pieces_chars ds s q : Forall scalar ds -> ds <> [] -> pieces (encode ds) s q ->
  forall rs, Forall scalar rs -> s = encode rs -> exists ps, q = map encode ps /\ pieces ds rs ps.
Proof.
  intros D N. induction 1 as [l H|a b r F P IH]; intros rs R E.
  - exists [rs]. subst l. split; [reflexivity|]. constructor. intros i (x & y & -> & L).
    apply (H (length (encode x))). exists (encode x), (encode y). split; [|reflexivity].
    now rewrite !encode_app.
  - destruct (occurrence_chars rs ds a b R D N (eq_sym E)) as (r1 & r2 & -> & -> & ->).
    assert (R2 : Forall scalar r2).
    { apply Forall_app in R. destruct R as [_ R]. apply Forall_app in R. tauto. }
    destruct (IH r2 R2 eq_refl) as (ps & -> & Q). exists (r1 :: ps). split; [reflexivity|].
    constructor; [|assumption]. destruct F as [_ F]. split; [now exists r1, r2|].
    intros j L O. apply (F (length (encode (firstn j (r1 ++ ds ++ r2))))).
    + replace (encode r1) with (encode (firstn (length r1) (r1 ++ ds ++ r2)))
        by (now rewrite firstn_app, Nat.sub_diag, firstn_all, firstn_O, app_nil_r).
      apply encode_firstn_mono; [assumption|]. rewrite app_length. lia.
    + rewrite E. apply occurs_at_encode; eauto.
Qed.
Lemma glue_encode ds ps : encode (glue ds ps) = glue (encode ds) (map encode ps).
Proof.
  induction ps as [|p ps IH]; [reflexivity|]. cbn [glue map].
  destruct ps as [|q ps]; [reflexivity|]. cbn [map] in *. now rewrite !encode_app, IH.
Qed.
Lemma split_chars rs ds : Forall scalar rs -> Forall scalar ds -> ds <> [] ->
  exists ps, pieces ds rs ps /\ split (encode ds) (encode rs) = map encode ps.
Proof.
  intros R D N.
  assert (E0 : encode ds <> []).
  { pose proof (encode_length_ge ds) as G. destruct ds; [congruence|]. cbn [length] in G.
    destruct (encode (z :: ds)); [cbn in G; lia|discriminate]. }
  assert (S0 : split (encode ds) (encode rs) = split_loop (length (encode rs)) (encode ds) (encode rs)).
  { unfold split. destruct (encode ds); [congruence|reflexivity]. }
  rewrite S0.
  pose proof (split_loop_spec (length (encode rs)) (encode ds) (encode rs) E0 (le_n _)) as P.
  destruct (pieces_chars ds _ _ D N P rs R eq_refl) as (ps & Q1 & Q2). eauto.
Qed.
Lemma array_to_string_strs l d acc :
  array_to_string (map Str l) d acc = Ok (Str (joinb d (acc ++ l))).
Proof.
  revert acc. induction l as [|x l IH]; intros acc; cbn [map array_to_string].
  - now rewrite app_nil_r.
  - rewrite IH, <- app_assoc. reflexivity.
Qed.
Lemma split_join d s : (d = [] -> well_formed s) -> joinb d (split d s) = s.
Proof.
  intros H. destruct d as [|c d]; cbn [split].
  - rewrite joinb_nil_concat, <- flat_map_concat_map. apply well_formed_decode. now apply H.
  - apply split_loop_join.
Qed.

(** TRANSLATE *)
Lemma replace_byte fuel c new e : (length e <= fuel)%nat ->
  replace_loop fuel [c] new e = flat_map (fun x => if Ascii.eqb c x then new else [x]) e.
Proof.
  revert fuel. induction e as [|x e IH]; intros fuel L.
  - destruct fuel; reflexivity.
  - destruct fuel as [|f]; [cbn in L; lia|]. cbn [length] in L.
    cbn [replace_loop flat_map index_of prefixb]. rewrite andb_true_r.
    destruct (Ascii.eqb c x) eqn:E.
    + cbn [firstn app length Nat.add skipn]. now rewrite IH by lia.
    + specialize (IH (S f) ltac:(lia)). cbn [replace_loop] in IH.
      destruct (index_of [c] e) as [i|]; cbn [option_map].
      * cbn [firstn app length Nat.add skipn] in *. now rewrite IH.
      * cbn [app]. now rewrite <- IH.
Qed.
(** Later sources are not among the earlier targets. *)
Fixpoint apart (src tgt : bytes) : Prop :=
  match src, tgt with
  | _ :: src', t :: tgt' => ~ In t src' /\ apart src' tgt'
  | _, _ => True
  end.
Lemma target_notin {A} (eqb : A -> A -> bool) (H : forall x y, eqb x y = true <-> x = y) src tgt c :
  ~ In c src -> target eqb src tgt c = Some c.
Proof.
  revert tgt. induction src as [|s src IH]; intros tgt N; [reflexivity|]. cbn [target].
  destruct (eqb s c) eqn:E; [apply H in E; subst; exfalso; apply N; now left|].
  apply IH. intros I. apply N. now right.
Qed.
Lemma translate_step c src d tgt e : apart (c :: src) (d :: tgt) ->
  translated Ascii.eqb (c :: src) (d :: tgt) e =
  translated Ascii.eqb src tgt (flat_map (fun x => if Ascii.eqb c x then [d] else [x]) e).
Proof.
  intros [N _]. unfold translated. induction e as [|x e IH]; [reflexivity|].
  cbn [flat_map]. rewrite flat_map_app, <- IH. f_equal. cbn [target tl].
  destruct (Ascii.eqb c x) eqn:E; cbn [flat_map]; rewrite app_nil_r; [|reflexivity].
  now rewrite (target_notin Ascii.eqb Ascii.eqb_eq) by assumption.
Qed.
Lemma translate_step_nil c src e :
  translated Ascii.eqb (c :: src) [] e =
  translated Ascii.eqb src [] (flat_map (fun x => if Ascii.eqb c x then [] else [x]) e).
Proof.
  unfold translated. induction e as [|x e IH]; [reflexivity|].
  cbn [flat_map]. rewrite flat_map_app, <- IH. f_equal. cbn [target tl].
  destruct (Ascii.eqb c x) eqn:E; cbn [flat_map]; [reflexivity|]. now rewrite app_nil_r.
Qed.
Lemma existsb_seen c seen : existsb (Ascii.eqb c) seen = true <-> In c seen.
Proof.
  rewrite existsb_exists. split.
  - intros (x & I & E). apply Ascii.eqb_eq in E. now subst.
  - intros I. exists c. split; [assumption|]. apply Ascii.eqb_refl.
Qed.
Lemma translate_loop_ok u src tgt seen e :
  (forall c, In c src \/ In c tgt -> u c = [c]) ->
  NoDup src -> (forall c, In c src -> ~ In c seen) -> apart src tgt ->
  translate_loop u src tgt seen e = Ok (translated Ascii.eqb src tgt e).
Proof.
  revert tgt seen e. induction src as [|c src IH]; intros tgt seen e U D S A.
  - cbn [translate_loop]. f_equal. unfold translated. cbn [target].
    induction e as [|x e IHe]; [reflexivity|]. cbn [flat_map app]. now rewrite <- IHe.
  - cbn [translate_loop]. destruct (existsb (Ascii.eqb c) seen) eqn:E.
    { apply existsb_seen in E. exfalso. apply (S c); [now left|assumption]. }
    inversion D as [|? ? D1 D2]; subst.
    rewrite (U c) by (left; now left).
    assert (S' : forall x, In x src -> ~ In x (c :: seen)).
    { intros x I [<-|J]; [contradiction|]. apply (S x); [now right|assumption]. }
    unfold replace_all. destruct tgt as [|d tgt].
    + rewrite replace_byte by lia. cbn [tl]. rewrite IH; [now rewrite <- translate_step_nil| |assumption|assumption|].
      * intros x [I|[]]. apply U. left. now right.
      * destruct src; exact I.
    + rewrite replace_byte by lia. rewrite (U d) by (right; now left). cbn [tl].
      rewrite IH; [now rewrite <- translate_step| |assumption|assumption|exact (proj2 A)].
      intros x [I|I]; apply U; [left|right]; now right.
Qed.
Lemma translate_loop_err u src tgt seen e :
  translate_loop u src tgt seen e = Err <-> ~ NoDup src \/ exists c, In c src /\ In c seen.
Proof.
  revert tgt seen e. induction src as [|c src IH]; intros tgt seen e.
  - cbn [translate_loop]. split; [discriminate|]. intros [H|(c & [] & _)]. exfalso. apply H. constructor.
  - cbn [translate_loop]. destruct (existsb (Ascii.eqb c) seen) eqn:E.
    + apply existsb_seen in E. split; [|reflexivity]. intros _. right. exists c. split; [now left|assumption].
    + assert (N : ~ In c seen) by (rewrite <- existsb_seen; congruence).
      rewrite IH. split.
      * intros [H|(x & I & [<-|J])].
        -- left. intros D. inversion D. contradiction.
        -- left. intros D. inversion D. contradiction.
        -- right. exists x. split; [now right|assumption].
      * intros [H|(x & [<-|I] & J)].
        -- destruct (in_dec Ascii.ascii_dec c src) as [I|I].
           ++ right. exists c. split; [assumption|now left].
           ++ left. intros D. apply H. now constructor.
        -- contradiction.
        -- right. exists x. split; [assumption|now right].
Qed.
(** On the encoding of a text, ASCII sources and targets act on characters. *)
Lemma target_map src tgt a : target Z.eqb (map b2z src) (map b2z tgt) (b2z a) =
  option_map b2z (target Ascii.eqb src tgt a).
Proof.
  revert tgt. induction src as [|s src IH]; intros tgt; [reflexivity|]. cbn [map target].
  destruct (Ascii.eqb s a) eqn:E.
  - apply Ascii.eqb_eq in E. subst. rewrite Z.eqb_refl. now destruct tgt.
  - destruct (b2z s =? b2z a) eqn:E2.
    + apply Z.eqb_eq, b2z_inj in E2. subst. rewrite Ascii.eqb_refl in E. discriminate.
    + destruct tgt; [exact (IH [])|exact (IH tgt)].
Qed.
Lemma target_in {A} (eqb : A -> A -> bool) src tgt c d :
  target eqb src tgt c = Some d -> d = c \/ In d tgt.
Proof.
  revert tgt. induction src as [|s src IH]; intros tgt H; cbn [target] in H; [left; congruence|].
  destruct (eqb s c); [destruct tgt; [discriminate|inversion H; right; now left]|].
  destruct tgt as [|t tgt]; cbn [tl] in H; [apply (IH [] H)|]. destruct (IH tgt H); [now left|]. right. now right.
Qed.
Lemma translated_chars src tgt rs : ascii_only src -> ascii_only tgt -> Forall scalar rs ->
  translated Ascii.eqb src tgt (encode rs) =
  encode (translated Z.eqb (map b2z src) (map b2z tgt) rs).
Proof.
  intros S T. induction 1 as [|r rs R _ IH]; [reflexivity|].
  assert (AP : forall x y, translated Ascii.eqb src tgt (x ++ y) =
    translated Ascii.eqb src tgt x ++ translated Ascii.eqb src tgt y)
    by (intros; unfold translated; apply flat_map_app).
  unfold encode. cbn [flat_map]. fold (encode rs). rewrite AP, IH.
  unfold translated at 3. cbn [flat_map]. fold (translated Z.eqb (map b2z src) (map b2z tgt) rs).
  rewrite encode_app. f_equal. clear IH AP.
  destruct (Z_lt_ge_dec r 128) as [L|L].
  - assert (B : b2z (z2b r) = r) by (apply b2z_z2b_small; destruct R; lia).
    rewrite <- B at 1 2. rewrite target_map. rewrite encode_rune_ascii by lia.
    unfold translated. cbn [flat_map]. rewrite app_nil_r.
    destruct (target Ascii.eqb src tgt (z2b r)) as [d|] eqn:E; [|reflexivity].
    cbn [option_map]. unfold encode. cbn [flat_map].
    assert (b2z d < 128).
    { apply target_in in E. destruct E as [->|I]; [lia|]. unfold ascii_only in T.
      rewrite Forall_forall in T. now apply T. }
    now rewrite encode_rune_ascii.
  - rewrite (target_notin Z.eqb Z.eqb_eq).
    2:{ intros I. apply in_map_iff in I. destruct I as (a & E & I).
        unfold ascii_only in S. rewrite Forall_forall in S. specialize (S a I). lia. }
    unfold encode. cbn [flat_map]. rewrite app_nil_r, encode_rune_scalar by assumption.
    destruct (encode_scalar_shape r R) as (l & cs & -> & _ & CS & _ & B).
    assert (H : Forall (fun c => 128 <= b2z c) (l :: cs)).
    { constructor; [destruct B; lia|]. eapply Forall_impl; [|exact CS]. intros c C.
      apply between_true in C. lia. }
    unfold translated. induction H as [|x y X _ IHy]; [reflexivity|].
    cbn [flat_map]. rewrite IHy. rewrite (target_notin Ascii.eqb Ascii.eqb_eq); [reflexivity|].
    intros I. unfold ascii_only in S. rewrite Forall_forall in S. specialize (S x I). lia.
Qed.

(** INSTR *)
Definition occb (sub src : bytes) (i : nat) : bool := prefixb sub (skipn i src).
Lemma occb_iff sub src i : (i <= length src)%nat -> (occb sub src i = true <-> occurs sub src i).
Proof.
  intros L. unfold occb. rewrite prefixb_iff. split.
  - intros (t & E). exists (firstn i src), t. split; [now rewrite <- E, firstn_skipn|].
    rewrite firstn_length. lia.
  - intros (a & b & -> & <-). exists b. rewrite skipn_app, Nat.sub_diag, skipn_all, skipn_O. reflexivity.
Qed.
Lemma occurs_skipn {A} (sub src : list A) i j : occurs sub (skipn i src) j -> (i <= length src)%nat ->
  occurs sub src (i + j).
Proof.
  intros (a & b & E & L) H. exists (firstn i src ++ a), b. split.
  - rewrite <- app_assoc, <- E. symmetry. apply firstn_skipn.
  - rewrite app_length, firstn_length. lia.
Qed.
Lemma occurs_skipn_rev {A} (sub src : list A) i j : occurs sub src (i + j) -> occurs sub (skipn i src) j.
Proof.
  intros (a & b & -> & L). exists (skipn i a), b. split.
  - rewrite skipn_app. replace (i - length a)%nat with O by lia. reflexivity.
  - rewrite skipn_length. lia.
Qed.
Lemma filter_seq_skip f i k n : (forall j, (i <= j < i + k)%nat -> f j = false) -> (k <= n)%nat ->
  filter f (seq i n) = filter f (seq (i + k) (n - k)).
Proof.
  revert i n. induction k as [|k IH]; intros i n H L; [now rewrite Nat.add_0_r, Nat.sub_0_r|].
  destruct n as [|n]; [lia|]. cbn [seq filter]. rewrite (H i) by lia.
  rewrite (IH (S i) n) by (intros; try apply H; lia). f_equal. f_equal; lia.
Qed.
Lemma instr_loop_spec fuel src sub i found occ : 0 <= found < occ -> (length src - i <= fuel)%nat ->
  instr_loop fuel src sub i found occ =
  nth_error (filter (occb sub src) (seq i (length src - i))) (Z.to_nat (occ - found - 1)).
Proof.
  revert i found. induction fuel as [|f IH]; intros i found H L.
  - replace (length src - i)%nat with 0%nat by lia. cbn. now destruct (Z.to_nat _).
  - cbn [instr_loop]. destruct (Nat.leb_spec (length src) i) as [B|B].
    { replace (length src - i)%nat with 0%nat by lia. cbn. now destruct (Z.to_nat _). }
    destruct (index_of sub (skipn i src)) as [k|] eqn:E.
    + apply index_of_some in E. destruct E as [O F].
      apply (occurs_skipn sub src i k) in O; [|lia].
      assert (NO : forall j, (i <= j < i + k)%nat -> occb sub src j = false).
      { intros j J. apply not_true_is_false. intros T. apply (F (j - i)%nat); [lia|].
        apply occurs_skipn_rev. replace (i + (j - i))%nat with j by lia.
        apply occurs_bound in O as O'. apply occb_iff; [lia|assumption]. }
      destruct (Nat.lt_ge_cases (i + k) (length src)) as [M|M].
      * rewrite (filter_seq_skip _ i k) by (assumption || lia).
        replace (length src - i - k)%nat with (S (length src - (i + k + 1))) by lia.
        cbn [seq filter]. rewrite (proj2 (occb_iff sub src (i + k) ltac:(lia)) O).
        destruct (found + 1 =? occ) eqn:Q; btw.
        -- replace (Z.to_nat (occ - found - 1)) with 0%nat by lia. reflexivity.
        -- rewrite IH by lia. replace (S (i + k)) with (i + k + 1)%nat by lia.
           replace (Z.to_nat (occ - found - 1)) with (S (Z.to_nat (occ - (found + 1) - 1))) by lia.
           reflexivity.
      * (* an empty needle matches at once, so an occurrence lies before the end *)
        exfalso. apply occurs_bound in O. destruct sub as [|x sub]; [|cbn [length] in O; lia].
        destruct k; [lia|]. apply (F 0%nat); [lia|]. now exists [], (skipn i src).
    + destruct (found =? occ) eqn:Q; btw; [lia|]. rewrite IH by lia.
      assert (G : occb sub src i = false).
      { apply not_true_is_false. intros T. apply occb_iff in T; [|lia].
        rewrite index_of_none in E. apply (E 0%nat). apply occurs_skipn_rev. now rewrite Nat.add_0_r. }
      rewrite (filter_seq_skip _ i 1) by (try lia; intros j J; replace j with i by lia; assumption).
      now replace (length src - (i + 1))%nat with (length src - i - 1)%nat by lia.
Qed.
Lemma sorted_filter f i n x a b : filter f (seq i n) = a ++ x :: b -> forall y, In y b -> (x < y)%nat.
Proof.
  revert i a. induction n as [|n IH]; intros i a H y I; [destruct a; discriminate|].
  cbn [seq filter] in H. destruct (f i) eqn:E; [|exact (IH _ _ H y I)].
  destruct a as [|z a]; cbn [app] in H; inversion H; subst; [|exact (IH _ _ H2 y I)].
  apply filter_In in I. destruct I as [I _]. apply in_seq in I. lia.
Qed.
Lemma offsets_unique {A} (sub l : list A) from os os' :
  offsets sub l from os -> offsets sub l from os' -> os = os'.
Proof.
  intros [I1 S1] [I2 S2].
  assert (EQ : forall i, In i os <-> In i os') by (intros; now rewrite I1, I2).
  clear I1 I2. revert os' S2 EQ. induction os as [|x os IH]; intros os' S2 EQ.
  - destruct os' as [|y os']; [reflexivity|]. exfalso. apply (EQ y). now left.
  - destruct os' as [|y os']; [exfalso; apply (EQ x); now left|].
    assert (x = y).
    { destruct (proj1 (EQ x) (or_introl eq_refl)) as [E|I]; [now symmetry|].
      destruct (proj2 (EQ y) (or_introl eq_refl)) as [E|J]; [assumption|].
      pose proof (S1 x [] os eq_refl y J). pose proof (S2 y [] os' eq_refl x I). lia. }
    subst y. f_equal. apply IH.
    + intros z a b E. apply (S1 z (x :: a) b). now rewrite E.
    + intros z a b E. apply (S2 z (x :: a) b). now rewrite E.
    + intros i. pose proof (S1 x [] os eq_refl) as L1. pose proof (S2 x [] os' eq_refl) as L2. split; intros I.
      * destruct (proj1 (EQ i) (or_intror I)) as [->|]; [|assumption]. specialize (L1 i I). lia.
      * destruct (proj2 (EQ i) (or_intror I)) as [->|]; [|assumption]. specialize (L2 i I). lia.
Qed.
Lemma instr_forward src sub pos occ os : 1 <= pos < zlen src -> 0 < occ ->
  offsets sub src (Z.to_nat (pos - 1)) os ->
  instr_at src sub pos occ =
  Ok (match nth_error os (Z.to_nat (occ - 1)) with Some i => Z.of_nat i + 1 | None => 0 end).
Proof.
  intros P C OF. unfold instr_at. destruct (pos =? 0) eqn:E1; btw; [lia|].
  destruct (occ <=? 0) eqn:E2; btw; [lia|]. rewrite Z.abs_eq by lia.
  destruct (zlen src <=? pos) eqn:E3; btw; [lia|].
  destruct (pos <? 0) eqn:E4; btw; [lia|].
  set (k := Z.to_nat (pos - 1)) in *. set (s := skipn k src).
  assert (LS : length s = (length src - k)%nat) by apply skipn_length.
  rewrite instr_loop_spec by lia.
  rewrite !Nat.sub_0_r, Z.sub_0_r.
  assert (EOS : os = map (Nat.add k) (filter (occb sub s) (seq 0 (length s)))).
  { apply (offsets_unique sub src k); [assumption|]. split.
    - intros i. rewrite in_map_iff. split.
      + intros (j & <- & I). apply filter_In in I. destruct I as [I O]. apply in_seq in I.
        split; [lia|]. apply occurs_skipn; [|unfold zlen in P; lia]. exact (proj1 (occb_iff sub s j ltac:(lia)) O).
      + intros [R O]. exists (i - k)%nat. split; [lia|]. apply filter_In. split; [apply in_seq; lia|].
        apply (proj2 (occb_iff sub s (i - k) ltac:(lia))). apply occurs_skipn_rev. now replace (k + (i - k))%nat with i by lia.
    - intros x a b E y I.
      destruct (map_eq_app _ _ _ _ E) as (a' & b' & E1' & Ea & Eb).
      destruct b' as [|x' b']; [discriminate|]. cbn [map] in Eb. inversion Eb; subst.
      apply in_map_iff in I. destruct I as (y' & <- & I).
      pose proof (sorted_filter _ _ _ _ _ _ E1' y' I). lia. }
  rewrite EOS, nth_error_map.
  destruct (nth_error _ _) as [i|]; cbn [option_map]; [|reflexivity]. f_equal. lia.
Qed.
