From Coq Require Import Ascii String List ZArith Lia Bool.
From Verif Require Import GoBase GoBaseFacts ValueModel LogicModel CalendarModel CalendarFacts DateModel DateSpec DateProofs ArrayFnModel ArrayFnSpec.
Import ListNotations.
Local Open Scope string_scope.
Open Scope Z_scope.

(** ** Subscripts and array laws *)

Lemma index_spec : forall A (l : list A) i v,
  index l i = Some v <-> 0 <= i < zlen l /\ nth_error l (Z.to_nat i) = Some v.
Proof.
  intros A l i v. unfold index, zlen. destruct (Z.ltb_spec i 0); cbn [orb].
  - split; [discriminate|lia].
  - destruct (Z.leb_spec (Z.of_nat (length l)) i); split; intros K; try discriminate; try lia; auto.
    apply K.
Qed.
Lemma index_none : forall A (l : list A) i, index l i = None <-> ~ 0 <= i < zlen l.
Proof.
  intros A l i. unfold index, zlen. destruct (Z.ltb_spec i 0); cbn [orb].
  - split; auto. lia.
  - destruct (Z.leb_spec (Z.of_nat (length l)) i).
    + split; auto. lia.
    + split; [|lia]. intros E. apply nth_error_None in E. lia.
Qed.

Lemma reverse_loop_rev : forall l i, (i <= length l)%nat -> reverse_loop l i = rev (firstn i l).
Proof.
  intros l i. induction i as [|i IH]; intros H; auto. cbn [reverse_loop].
  destruct (nth_error l i) as [v|] eqn:E.
  - rewrite IH by lia. clear IH.
    assert (K : firstn (S i) l = (firstn i l ++ [v])%list).
    { revert i E H. induction l as [|x l IH]; intros [|i] E H; cbn in *; try discriminate.
      - now injection E as ->.
      - f_equal. apply IH; auto. lia. }
    rewrite K, rev_app_distr. reflexivity.
  - apply nth_error_None in E. lia.
Qed.
Lemma reverse_loop_all : forall l, reverse_loop l (length l) = rev l.
Proof. intros l. rewrite reverse_loop_rev by lia. now rewrite firstn_all. Qed.

Lemma concat_loop_spec : forall ls acc, concat_loop (map (fun l => Some (VArray l)) ls) acc = Ok (acc ++ concat ls)%list.
Proof.
  induction ls as [|l ls IH]; intros acc; cbn [map concat_loop concat to_array bind].
  - now rewrite app_nil_r.
  - rewrite IH. now rewrite app_assoc.
Qed.

(** ** Progressions *)

Definition prog (a s : Z) (n : nat) : list Z := map (fun k => a + Z.of_nat k * s) (seq 0 n).

Lemma prog_cons : forall a s n, prog a s (S n) = a :: prog (a + s) s n.
Proof.
  intros a s n. unfold prog. cbn [seq map]. f_equal; [lia|].
  rewrite <- seq_shift, map_map. apply map_ext. intros k. lia.
Qed.
Lemma prog_length : forall a s n, length (prog a s n) = n.
Proof. intros. unfold prog. now rewrite map_length, seq_length. Qed.
Lemma prog_nth : forall a s n k, (k < n)%nat -> nth_error (prog a s n) k = Some (a + Z.of_nat k * s).
Proof.
  intros a s n k H. unfold prog. rewrite nth_error_map, (nth_error_nth' _ 0%nat) by (rewrite seq_length; lia).
  rewrite seq_nth by assumption. reflexivity.
Qed.

(** The loop when [next] adds s at each step it is asked to. *)
Lemma gen_loop_prog : forall next goes s n a,
  (forall k, (k <= n)%nat -> next (a + Z.of_nat k * s) = a + Z.of_nat (S k) * s) ->
  (forall k, (0 < k <= n)%nat -> goes (a + Z.of_nat k * s) = true) ->
  goes (a + Z.of_nat (S n) * s) = false ->
  gen_loop next goes (S n) a = Some (prog a s (S n)).
Proof.
  intros next goes s n. induction n as [|n IH]; intros a N G E; cbn [gen_loop].
  - specialize (N 0%nat ltac:(lia)). replace (a + Z.of_nat 0 * s) with a in N by lia.
    rewrite N, E. unfold prog. cbn. f_equal. f_equal. lia.
  - pose proof (N 0%nat ltac:(lia)) as N0. replace (a + Z.of_nat 0 * s) with a in N0 by lia.
    replace (a + Z.of_nat 1 * s) with (a + s) in N0 by lia. rewrite N0.
    pose proof (G 1%nat ltac:(lia)) as G0. replace (a + Z.of_nat 1 * s) with (a + s) in G0 by lia. rewrite G0.
    change (match n with 0%nat => _ | S _ => _ end) with (gen_loop next goes (S n) (a + s)) || idtac.
    rewrite prog_cons.
    assert (R : forall k, a + s + Z.of_nat k * s = a + Z.of_nat (S k) * s) by (intros; lia).
    change (option_map (cons a) (gen_loop next goes (S n) (a + s)) = Some (a :: prog (a + s) s (S n))).
    rewrite IH; auto.
    + intros k Hk. rewrite !R. apply N. lia.
    + intros k Hk. rewrite !R. apply G. lia.
    + rewrite R. exact E.
Qed.

Lemma gen_loop_more : forall A next goes n (a : A) r m, gen_loop next goes n a = Some r -> (n <= m)%nat -> gen_loop next goes m a = Some r.
Proof.
  intros A next goes n. induction n as [|n IH]; intros a r m H L; [discriminate|].
  destruct m as [|m]; [lia|]. cbn [gen_loop] in *. destruct (goes (next a)); auto.
  destruct (gen_loop next goes n (next a)) as [x|] eqn:E; [|discriminate].
  rewrite (IH _ _ m E) by lia. exact H.
Qed.
Lemma gen_array_unique : forall A le next pos start stop (r r' : list A),
  returns (fun f => gen_array le next pos f start stop) r -> returns (fun f => gen_array le next pos f start stop) r' -> r = r'.
Proof.
  intros A le next pos start stop r r' [f F] [g G]. unfold gen_array in *.
  destruct (le start stop && negb pos); [congruence|].
  destruct (negb (le start stop) && pos); [congruence|].
  apply (gen_loop_more _ _ _ _ _ _ (Nat.max f g)) in F; [|lia].
  apply (gen_loop_more _ _ _ _ _ _ (Nat.max f g)) in G; [|lia]. congruence.
Qed.

(** A loop in which the next value always qualifies never ends. *)
Lemma gen_loop_diverges : forall A next goes (P : A -> Prop) f a,
  P a -> (forall x, P x -> goes (next x) = true /\ P (next x)) -> gen_loop next goes f a = None.
Proof.
  intros A next goes P f. induction f as [|f IH]; intros a Pa H; auto. cbn [gen_loop].
  destruct (H a Pa) as [-> Pn]. now rewrite IH.
Qed.

Lemma prog_up : forall a b s, 0 < s -> a <= b -> let n := Z.to_nat ((b - a) / s) in
  progression a b s (prog a s (S n)) /\
  (forall k, (k <= n)%nat -> a + Z.of_nat k * s <= b) /\ b < a + Z.of_nat (S n) * s.
Proof.
  intros a b s Hs Hab n.
  assert (Q : Z.of_nat n = (b - a) / s) by (unfold n; rewrite Z2Nat.id; auto; apply Z.div_pos; lia).
  assert (M : s * ((b - a) / s) <= b - a) by (apply Z.mul_div_le; lia).
  assert (U : b - a < s * (Z.succ ((b - a) / s))) by (apply Z.mul_succ_div_gt; lia).
  assert (A1 : forall k, (k <= n)%nat -> a + Z.of_nat k * s <= b).
  { intros k Hk. assert (Z.of_nat k <= (b - a) / s) by lia. nia. }
  assert (A2 : b < a + Z.of_nat (S n) * s) by (rewrite Nat2Z.inj_succ, Q; nia).
  split; [|auto]. split; [|split].
  - intros k Hk. rewrite prog_length in Hk. now apply prog_nth.
  - intros _. rewrite prog_length. split; auto. intros k Hk. apply A1. lia.
  - lia.
Qed.
Lemma prog_down : forall a b s, s < 0 -> b <= a -> let n := Z.to_nat ((a - b) / - s) in
  progression a b s (prog a s (S n)) /\
  (forall k, (k <= n)%nat -> b <= a + Z.of_nat k * s) /\ a + Z.of_nat (S n) * s < b.
Proof.
  intros a b s Hs Hab n.
  assert (Q : Z.of_nat n = (a - b) / - s) by (unfold n; rewrite Z2Nat.id; auto; apply Z.div_pos; lia).
  assert (M : - s * ((a - b) / - s) <= a - b) by (apply Z.mul_div_le; lia).
  assert (U : a - b < - s * (Z.succ ((a - b) / - s))) by (apply Z.mul_succ_div_gt; lia).
  assert (A1 : forall k, (k <= n)%nat -> b <= a + Z.of_nat k * s).
  { intros k Hk. assert (Z.of_nat k <= (a - b) / - s) by lia. nia. }
  assert (A2 : a + Z.of_nat (S n) * s < b) by (rewrite Nat2Z.inj_succ, Q; nia).
  split; [|auto]. split; [|split].
  - intros k Hk. rewrite prog_length in Hk. now apply prog_nth.
  - lia.
  - intros _. rewrite prog_length. split; auto. intros k Hk. apply A1. lia.
Qed.

(** generateArray with an exact [next]. *)
Lemma gen_array_up : forall next a b s, 0 < s -> a <= b ->
  (forall x, a <= x <= b -> next x = x + s) ->
  exists l, returns (fun f => gen_array Z.leb next true f a b) l /\ progression a b s l.
Proof.
  intros next a b s Hs Hab N. destruct (prog_up a b s Hs Hab) as (P & A1 & A2).
  set (n := Z.to_nat ((b - a) / s)) in *.
  exists (prog a s (S n)). split; auto. exists (S n).
  unfold gen_array. assert (a <=? b = true) as -> by (apply Z.leb_le; lia). cbn [andb negb].
  apply gen_loop_prog.
  - intros k Hk. rewrite N; [lia|]. specialize (A1 k Hk). nia.
  - intros k Hk. apply Z.leb_le. apply A1. lia.
  - apply Z.leb_gt. exact A2.
Qed.
Lemma gen_array_down : forall next a b s, s < 0 -> b < a ->
  (forall x, b <= x <= a -> next x = x + s) ->
  exists l, returns (fun f => gen_array Z.leb next false f a b) l /\ progression a b s l.
Proof.
  intros next a b s Hs Hab N. destruct (prog_down a b s Hs ltac:(lia)) as (P & A1 & A2).
  set (n := Z.to_nat ((a - b) / - s)) in *.
  exists (prog a s (S n)). split; auto. exists (S n).
  unfold gen_array. assert (a <=? b = false) as -> by (apply Z.leb_gt; lia). cbn [andb negb].
  apply gen_loop_prog.
  - intros k Hk. rewrite N; [lia|]. specialize (A1 k Hk). nia.
  - intros k Hk. apply Z.leb_le. apply A1. lia.
  - apply Z.leb_gt. exact A2.
Qed.
Lemma progression_empty : forall a b s, (0 < s -> b < a) -> (s < 0 -> a < b) -> progression a b s [].
Proof.
  intros a b s H1 H2. split; [intros k Hk; cbn in Hk; lia|]. split; intros H; (split; [intros k Hk; cbn in Hk; lia|]); cbn [length].
  - specialize (H1 H). lia.
  - specialize (H2 H). lia.
Qed.

(** ** A loop that follows a strictly monotone sequence *)
Lemma gen_loop_seq : forall next goes (g : nat -> Z) n i,
  (forall k, next (g k) = g (S k)) ->
  (forall k, (k < n)%nat -> goes (g (S (i + k))) = true) ->
  goes (g (S (i + n))) = false ->
  gen_loop next goes (S n) (g i) = Some (map g (seq i (S n))).
Proof.
  intros next goes g n. induction n as [|n IH]; intros i N G E.
  - cbn [gen_loop]. rewrite N. rewrite Nat.add_0_r in E. rewrite E. reflexivity.
  - change (gen_loop next goes (S (S n)) (g i)) with
      (if goes (next (g i)) then option_map (cons (g i)) (gen_loop next goes (S n) (next (g i))) else Some [g i]).
    rewrite N. pose proof (G 0%nat ltac:(lia)) as G0. rewrite Nat.add_0_r in G0. rewrite G0.
    rewrite IH; auto.
    + intros k Hk. replace (S i + k)%nat with (i + S k)%nat by lia. apply G. lia.
    + replace (S i + n)%nat with (i + S n)%nat by lia. exact E.
Qed.
Lemma last_below : forall (g : nat -> Z) b, (forall k, g k < g (S k)) -> g 0%nat <= b ->
  exists n, (forall k, (k <= n)%nat -> g k <= b) /\ b < g (S n).
Proof.
  intros g b M H0.
  assert (Grow : forall k, g 0%nat + Z.of_nat k <= g k).
  { induction k as [|k IH]; [lia|]. specialize (M k). lia. }
  assert (Mono : forall j k, (j <= k)%nat -> g j <= g k).
  { intros j k L. induction L; [lia|]. specialize (M m). lia. }
  remember (Z.to_nat (b - g 0%nat)) as m eqn:Em.
  assert (U : b < g (S m)) by (specialize (Grow (S m)); lia). clear Em.
  induction m as [|m IH].
  - exists 0%nat. split; auto. intros k Hk. replace k with 0%nat by lia. auto.
  - destruct (Z.le_gt_cases (g (S m)) b) as [L|L]; auto.
    exists (S m). split; auto. intros k Hk. specialize (Mono _ _ Hk). lia.
Qed.
Lemma gen_array_seq_up : forall next (g : nat -> Z) b,
  (forall k, next (g k) = g (S k)) -> (forall k, g k < g (S k)) -> g 0%nat <= b ->
  exists n, returns (fun f => gen_array Z.leb next true f (g 0%nat) b) (map g (seq 0 (S n))) /\
    (forall k, (k <= n)%nat -> g k <= b) /\ b < g (S n).
Proof.
  intros next g b N M H0. destruct (last_below g b M H0) as (n & A1 & A2).
  exists n. split; auto. exists (S n). unfold gen_array.
  assert (g 0%nat <=? b = true) as -> by (apply Z.leb_le; lia). cbn [andb negb].
  apply gen_loop_seq; auto.
  - intros k Hk. apply Z.leb_le. apply A1. lia.
  - apply Z.leb_gt. exact A2.
Qed.
Lemma gen_array_seq_down : forall next (g : nat -> Z) b,
  (forall k, next (g k) = g (S k)) -> (forall k, g (S k) < g k) -> b < g 0%nat ->
  exists n, returns (fun f => gen_array Z.leb next false f (g 0%nat) b) (map g (seq 0 (S n))) /\
    (forall k, (k <= n)%nat -> b <= g k) /\ g (S n) < b.
Proof.
  intros next g b N M H0.
  destruct (last_below (fun k => - g k) (- b)) as (n & A1 & A2).
  { intros k. specialize (M k). lia. }
  { lia. }
  exists n. split; [|split; [intros k Hk; specialize (A1 k Hk)|]; lia].
  exists (S n). unfold gen_array.
  assert (g 0%nat <=? b = false) as -> by (apply Z.leb_gt; lia). cbn [andb negb].
  apply gen_loop_seq; auto.
  - intros k Hk. apply Z.leb_le. specialize (A1 (S k) ltac:(lia)). cbn in *. lia.
  - apply Z.leb_gt. change (0 + n)%nat with n. cbn beta in A2. lia.
Qed.

(** The specification met by the whole function, given the sequence. *)
Lemma dates_gen : forall part next a b s (g : nat -> Z),
  s <> 0 -> (s < 0 -> a <> b) -> g 0%nat = a ->
  (forall k, next (g k) = g (S k)) ->
  (0 < s -> forall k, g k < g (S k)) -> (s < 0 -> forall k, g (S k) < g k) ->
  (forall k r, later part a (Z.of_nat k * s) r <-> r = g k) ->
  exists l, returns (fun f => gen_array Z.leb next (0 <? s) f a b) l /\ dates part a b s l.
Proof.
  intros part next a b s g S0 Sne G0 N Up Down L.
  assert (Fin : forall n, ((0 < s -> (forall k, (k < n)%nat -> g k <= b) /\ b < g n) /\ (s < 0 -> (forall k, (k < n)%nat -> b <= g k) /\ g n < b)) ->
    dates part a b s (map g (seq 0 n))).
  { intros n Hn. split; [|split].
    - intros k r E. rewrite nth_error_map in E. destruct (nth_error (seq 0 n) k) as [j|] eqn:Ej; [|discriminate].
      apply L. injection E as <-. f_equal.
      assert (k < n)%nat as Hk by (rewrite <- (seq_length n 0); apply nth_error_Some; congruence).
      rewrite (nth_error_nth' _ 0%nat), seq_nth in Ej by (try rewrite seq_length; lia). now injection Ej as <-.
    - intros r I. apply in_map_iff in I. destruct I as (k & <- & I). apply in_seq in I.
      split; intros Hs; apply Hn; auto; lia.
    - intros r Hr. rewrite map_length, seq_length in Hr. apply L in Hr. subst r. split; intros Hs; apply Hn; auto. }
  destruct (Z.ltb_spec 0 s) as [Hs|Hs].
  - destruct (Z.le_gt_cases a b) as [Hab|Hab].
    + rewrite <- G0 in Hab. destruct (gen_array_seq_up next g b N (Up Hs) Hab) as (n & R & A1 & A2).
      rewrite G0 in R. eexists. split; [exact R|]. apply Fin. split; [|lia]. intros _. split; auto. intros k Hk. apply A1. lia.
    + exists []. split.
      * exists 0%nat. unfold gen_array. assert (a <=? b = false) as -> by (apply Z.leb_gt; lia). reflexivity.
      * apply (Fin 0%nat). split; [|lia]. intros _. split; lia.
  - assert (s < 0) as Hs' by lia. destruct (Z.le_gt_cases a b) as [Hab|Hab].
    + exists []. split.
      * exists 0%nat. unfold gen_array. assert (a <=? b = true) as -> by (apply Z.leb_le; lia). reflexivity.
      * apply (Fin 0%nat). split; [lia|]. specialize (Sne Hs'). intros _. split; lia.
    + rewrite <- G0 in Hab. destruct (gen_array_seq_down next g b N (Down Hs') Hab) as (n & R & A1 & A2).
      rewrite G0 in R. eexists. split; [exact R|]. apply Fin. split; [lia|]. intros _. split; auto. intros k Hk. apply A1. lia.
Qed.

(** ** Months *)
Lemma month_step : forall a k, day a <= 28 -> let d := mstart (mix a + k) + (day a - 1) in
  mix d = mix a + k /\ day d = day a.
Proof.
  intros a k H d. pose proof (day_range a) as Hd. pose proof (mlen_range (mix a + k)) as Hl.
  assert (mix d = mix a + k) as E by (apply mix_unique; unfold d; lia). split; auto.
  destruct (mix_spec d) as [_ D]. rewrite E in D. unfold d in D at 1. lia.
Qed.
Lemma mstart_lower : forall i k, 0 <= k -> mstart i + 28 * k <= mstart (i + k).
Proof.
  intros i k H. revert k H. apply (natlike_ind (fun k => mstart i + 28 * k <= mstart (i + k))).
  - rewrite !Z.add_0_r. lia.
  - intros x Hx IH. replace (i + Z.succ x) with (i + x + 1) by lia. rewrite mstart_next. pose proof (mlen_range (i + x)). lia.
Qed.
Lemma later_month28 : forall a k r, day a <= 28 -> months_later a k r <-> r = mstart (mix a + k) + (day a - 1).
Proof.
  intros a k r H. pose proof (add_month_ok a k) as A. rewrite add_month_spec in A.
  pose proof (mlen_range (mix a + k)). rewrite Z.min_l in A by lia. split.
  - intros M. exact (months_later_unique _ _ _ _ M A).
  - intros ->. exact A.
Qed.
