(** Proofs about EncModel. *)
From Coq Require Import Ascii String List ZArith Lia Bool.
From Verif Require Import GoBase GoBaseFacts Utf8Model Utf8Facts StrModel StrProofs EncModel.
Import ListNotations.
Open Scope Z_scope.

Lemma digits_be_length base m v : length (digits_be base m v) = m.
Proof. revert v. induction m; intros v; cbn [digits_be]; [reflexivity|]. rewrite app_length, IHm. cbn. lia. Qed.
Lemma be_val_snoc base ds d : be_val base (ds ++ [d]) = be_val base ds * base + d.
Proof. unfold be_val. now rewrite fold_left_app. Qed.
Lemma be_val_digits base m v : 0 < base -> 0 <= v < base ^ Z.of_nat m -> be_val base (digits_be base m v) = v.
Proof.
  intros B. revert v. induction m as [|m IH]; intros v H; [cbn in *; lia|].
  cbn [digits_be]. rewrite be_val_snoc, IH.
  - pose proof (Z.div_mod v base ltac:(lia)). lia.
  - rewrite Nat2Z.inj_succ, Z.pow_succ_r in H by lia. split; [apply Z.div_pos; lia|].
    apply Z.div_lt_upper_bound; lia.
Qed.
Lemma digits_be_val base ds : 0 < base -> Forall (fun d => 0 <= d < base) ds ->
  digits_be base (length ds) (be_val base ds) = ds.
Proof.
  intros B. induction ds as [|d ds IH] using rev_ind; intros F; [reflexivity|].
  apply Forall_app in F. destruct F as [F D]. inversion D as [|? ? D1 _]; subst.
  rewrite app_length. cbn [length]. rewrite Nat.add_1_r. cbn [digits_be]. rewrite be_val_snoc.
  rewrite Z.div_add_l by lia. rewrite Z.div_small by lia. rewrite Z.add_0_r, IH by assumption.
  rewrite Z.add_comm, Z_mod_plus_full, Z.mod_small by lia. reflexivity.
Qed.
Lemma be_val_range base ds : 0 < base -> Forall (fun d => 0 <= d < base) ds ->
  0 <= be_val base ds < base ^ Z.of_nat (length ds).
Proof.
  intros B. induction ds as [|d ds IH] using rev_ind; intros F; [cbn; lia|].
  apply Forall_app in F. destruct F as [F D]. inversion D as [|? ? D1 _]; subst.
  rewrite app_length. cbn [length]. rewrite Nat.add_1_r, Nat2Z.inj_succ, Z.pow_succ_r by lia.
  rewrite be_val_snoc. specialize (IH F). set (x := be_val base ds) in *.
  set (y := base ^ Z.of_nat (length ds)) in *. nia.
Qed.
Lemma digits_be_range base m v : 0 < base -> Forall (fun d => 0 <= d < base) (digits_be base m v).
Proof.
  intros B. revert v. induction m; intros v; cbn [digits_be]; [constructor|].
  apply Forall_app. split; [apply IHm|]. constructor; [now apply Z.mod_pos_bound|constructor].
Qed.
Lemma be_val_zeros base ds j : 0 < base -> be_val base (ds ++ repeat 0 j) = be_val base ds * base ^ Z.of_nat j.
Proof.
  intros B. induction j as [|j IH]; [rewrite app_nil_r; cbn; lia|].
  replace (repeat 0 (S j)) with (repeat 0 j ++ [0]) by (symmetry; apply repeat_cons).
  rewrite app_assoc, be_val_snoc, IH, Nat2Z.inj_succ, Z.pow_succ_r by lia. lia.
Qed.
(** A multiple of base^j ends in j zero digits. *)
Lemma digits_be_tail base m j x : 0 < base ->
  digits_be base (m + j) (x * base ^ Z.of_nat j) = digits_be base m x ++ repeat 0 j.
Proof.
  intros B. induction j as [|j IH]; [rewrite Nat.add_0_r, app_nil_r; cbn; now rewrite Z.mul_1_r|].
  rewrite <- plus_n_Sm. cbn [digits_be]. rewrite Nat2Z.inj_succ, Z.pow_succ_r by lia.
  replace (x * (base * base ^ Z.of_nat j)) with (x * base ^ Z.of_nat j * base) by lia.
  rewrite Z.div_mul, Z.mod_mul by lia. rewrite IH, <- app_assoc.
  f_equal. symmetry. apply (repeat_cons j 0).
Qed.

(** Alphabets *)
Lemma position_nth alpha i k : (i < length alpha)%nat -> NoDup alpha ->
  position (nth i alpha "="%char) alpha k = Some (k + Z.of_nat i).
Proof.
  revert i k. induction alpha as [|a alpha IH]; intros i k L D; [cbn in L; lia|].
  inversion D as [|? ? D1 D2]; subst. cbn [position]. destruct i as [|i]; cbn [nth].
  - rewrite Ascii.eqb_refl. f_equal. lia.
  - cbn [length] in L. destruct (Ascii.eqb_spec a (nth i alpha "="%char)) as [E|E].
    + exfalso. apply D1. rewrite E. apply nth_In. lia.
    + rewrite IH by (assumption || lia). f_equal. lia.
Qed.
Record good_alpha (alpha : bytes) (n : Z) : Prop := {
  ga_len : Z.of_nat (length alpha) = n;
  ga_nodup : NoDup alpha;
  ga_pad : ~ In "="%char alpha;
  ga_nl : forall c, In c alpha -> newline c = false }.
Lemma position_symbol alpha n d : good_alpha alpha n -> 0 <= d < n -> position (symbol alpha d) alpha 0 = Some d.
Proof.
  intros [L N _ _] D. unfold symbol. rewrite position_nth by (assumption || lia). f_equal. lia.
Qed.
Lemma symbol_in alpha n d : good_alpha alpha n -> 0 <= d < n -> In (symbol alpha d) alpha.
Proof. intros [L N _ _] D. apply nth_In. lia. Qed.
Fixpoint nodupb (l : bytes) : bool :=
  match l with [] => true | a :: r => negb (existsb (Ascii.eqb a) r) && nodupb r end.
Lemma nodupb_ok l : nodupb l = true -> NoDup l.
Proof.
  induction l as [|a l IH]; cbn [nodupb]; [constructor|]. rewrite andb_true_iff, negb_true_iff. intros [H1 H2].
  constructor; [|auto]. intros I. apply existsb_seen in I. congruence.
Qed.
Ltac alpha := constructor; [reflexivity | apply nodupb_ok; reflexivity
  | rewrite <- existsb_seen; discriminate
  | apply Forall_forall; repeat (constructor; [reflexivity|]); constructor].
Lemma good64 : good_alpha alpha64 64. Proof. alpha. Qed.
Lemma good32 : good_alpha alpha32 32. Proof. alpha. Qed.
Lemma good16 : good_alpha alpha16 16. Proof. alpha. Qed.

(** Hexadecimal *)
Lemma lower_symbol16 d : 0 <= d < 16 -> lower_ascii (symbol alpha16 d) = symbol alpha16 d.
Proof.
  intros H. assert (G : forallb (fun i => Ascii.eqb (lower_ascii (symbol alpha16 (Z.of_nat i))) (symbol alpha16 (Z.of_nat i))) (seq 0 16) = true) by reflexivity.
  rewrite forallb_forall in G. specialize (G (Z.to_nat d)). rewrite Z2Nat.id in G by lia.
  apply Ascii.eqb_eq, G, in_seq. lia.
Qed.
Lemma hex_val_symbol d : 0 <= d < 16 -> hex_val (symbol alpha16 d) = Some d.
Proof. intros H. unfold hex_val. rewrite lower_symbol16 by assumption. now apply (position_symbol alpha16 16); [apply good16|]. Qed.
Lemma unhex_to_hex b : unhex (to_hex b) = Ok b.
Proof.
  induction b as [|a b IH]; [reflexivity|]. unfold to_hex in *. cbn [flat_map app unhex].
  pose proof (b2z_range a). pose proof (Z.mod_pos_bound (b2z a) 16 ltac:(lia)).
  assert (0 <= b2z a / 16 < 16) by (split; [apply Z.div_pos; lia|apply Z.div_lt_upper_bound; lia]).
  rewrite !hex_val_symbol by lia. rewrite IH. cbn [bind]. f_equal. f_equal.
  rewrite <- (z2b_b2z a) at 3. f_equal. pose proof (Z.div_mod (b2z a) 16 ltac:(lia)). lia.
Qed.
Lemma to_hex_length b : length (to_hex b) = (2 * length b)%nat.
Proof. induction b; [reflexivity|]. unfold to_hex in *. cbn [flat_map app length]. rewrite IHb. lia. Qed.
Lemma from_to_hex b : from_hex (to_hex b) = Ok b.
Proof.
  unfold from_hex. rewrite to_hex_length. replace (Nat.even (2 * length b)) with true; [apply unhex_to_hex|].
  symmetry. apply Nat.even_spec. now exists (length b).
Qed.

(** Block codes *)
Record good_code (k : code) (ends : nat -> bytes -> bool) : Prop := {
  gc_alpha : good_alpha (c_alpha k) (c_base k);
  gc_n : (0 < c_n k)%nat;
  gc_m : (0 < c_m k)%nat;
  gc_base : 1 < c_base k;
  gc_size : c_base k ^ Z.of_nat (c_m k) = 256 ^ Z.of_nat (c_n k);
  gc_full : need k (c_n k) = c_m k /\ held k (c_m k) = c_n k;
  (* a short block: enough digits, what they hold, and the padding is accepted *)
  gc_short : forall r, (0 < r < c_n k)%nat ->
    (need k r < c_m k)%nat /\ held k (need k r) = r /\
    (exists q, 256 ^ Z.of_nat (c_n k - r) = q * c_base k ^ Z.of_nat (c_m k - need k r)) /\
    ends (need k r) (repeat "="%char (c_m k - need k r)) = true }.
Lemma good_base64 : good_code base64 ends64.
Proof.
  constructor; [exact good64|vm_compute; lia|vm_compute; lia|reflexivity|reflexivity|split; reflexivity|].
  intros r H. change (c_n base64) with 3%nat in H. destruct r as [|[|[|r]]]; try lia.
  - split; [vm_compute; lia|]. split; [reflexivity|]. split; [now exists 16|reflexivity].
  - split; [vm_compute; lia|]. split; [reflexivity|]. split; [now exists 4|reflexivity].
Qed.
Lemma good_base32 : good_code base32 ends32.
Proof.
  constructor; [exact good32|vm_compute; lia|vm_compute; lia|reflexivity|reflexivity|split; reflexivity|].
  intros r H. change (c_n base32) with 5%nat in H. destruct r as [|[|[|[|[|r]]]]]; try lia.
  - split; [vm_compute; lia|]. split; [reflexivity|]. split; [now exists 4|reflexivity].
  - split; [vm_compute; lia|]. split; [reflexivity|]. split; [now exists 16|reflexivity].
  - split; [vm_compute; lia|]. split; [reflexivity|]. split; [now exists 2|reflexivity].
  - split; [vm_compute; lia|]. split; [reflexivity|]. split; [now exists 8|reflexivity].
Qed.

Section Code.
Variable k : code.
Variable ends : nat -> bytes -> bool.
Hypothesis G : good_code k ends.
Notation B := (c_base k).
Notation n := (c_n k).
Notation m := (c_m k).

Definition block_value (bs : bytes) : Z := be_val 256 (map b2z bs ++ repeat 0 (n - length bs)).
Definition block_digits (bs : bytes) : list Z := firstn (need k (length bs)) (digits_be B m (block_value bs)).
Lemma bytes_digits bs : Forall (fun d => 0 <= d < 256) (map b2z bs).
Proof. apply Forall_forall. intros x I. apply in_map_iff in I. destruct I as (a & <- & _). apply b2z_range. Qed.
Lemma filled_digits bs : Forall (fun d => 0 <= d < 256) (map b2z bs ++ repeat 0 (n - length bs)).
Proof.
  apply Forall_app. split; [apply bytes_digits|]. apply Forall_forall. intros x I.
  apply repeat_spec in I. lia.
Qed.
Lemma filled_length bs : (length bs <= n)%nat -> length (map b2z bs ++ repeat 0 (n - length bs)) = n.
Proof. intros H. rewrite app_length, map_length, repeat_length. lia. Qed.
Lemma block_value_range bs : (length bs <= n)%nat -> 0 <= block_value bs < B ^ Z.of_nat m.
Proof.
  intros H. rewrite (gc_size k ends G). rewrite <- (filled_length bs H).
  apply be_val_range; [lia|apply filled_digits].
Qed.
Lemma need_le r : (0 < r <= n)%nat -> (need k r <= m)%nat.
Proof.
  intros H. destruct (Nat.eq_dec r n) as [->|E].
  - rewrite (proj1 (gc_full k ends G)). lia.
  - destruct (gc_short k ends G r ltac:(lia)). lia.
Qed.
Lemma block_digits_length bs : (0 < length bs <= n)%nat -> length (block_digits bs) = need k (length bs).
Proof.
  intros H. unfold block_digits. rewrite firstn_length, digits_be_length.
  pose proof (need_le (length bs) H). lia.
Qed.
Lemma block_digits_fill bs : (0 < length bs <= n)%nat ->
  block_digits bs ++ repeat 0 (m - need k (length bs)) = digits_be B m (block_value bs).
Proof.
  intros H. pose proof (gc_base k ends G). destruct (Nat.eq_dec (length bs) n) as [E|E].
  - unfold block_digits. rewrite E, (proj1 (gc_full k ends G)), Nat.sub_diag, app_nil_r.
    apply firstn_all2. rewrite digits_be_length. lia.
  - destruct (gc_short k ends G (length bs) ltac:(lia)) as (L & _ & (q & Q) & _).
    set (c := need k (length bs)) in *.
    assert (V : block_value bs = be_val 256 (map b2z bs) * q * B ^ Z.of_nat (m - c)).
    { unfold block_value. rewrite be_val_zeros, Q by lia. lia. }
    unfold block_digits. fold c. rewrite V.
    pose proof (digits_be_tail B c (m - c) (be_val 256 (map b2z bs) * q) ltac:(lia)) as T.
    replace (c + (m - c))%nat with m in T by lia. rewrite T. f_equal.
    rewrite firstn_app, digits_be_length, Nat.sub_diag, firstn_O, app_nil_r.
    apply firstn_all2. rewrite digits_be_length. lia.
Qed.
Lemma unblock_block bs : (0 < length bs <= n)%nat -> unblock k (block_digits bs) = bs.
Proof.
  intros H. unfold unblock. rewrite block_digits_length, block_digits_fill by assumption.
  pose proof (gc_base k ends G). rewrite be_val_digits by (try lia; apply block_value_range; lia).
  unfold block_value. rewrite <- (filled_length bs) at 1 by lia.
  rewrite digits_be_val by (try lia; apply filled_digits).
  assert (HD : held k (need k (length bs)) = length bs).
  { destruct (Nat.eq_dec (length bs) n) as [E|E].
    - rewrite E, (proj1 (gc_full k ends G)). apply (gc_full k ends G).
    - now destruct (gc_short k ends G (length bs) ltac:(lia)) as (_ & ? & _). }
  rewrite HD, firstn_app, map_length, Nat.sub_diag, firstn_O, app_nil_r.
  rewrite firstn_all2 by (rewrite map_length; lia).
  rewrite map_map. transitivity (map (fun x : ascii => x) bs); [apply map_ext, z2b_b2z|apply map_id].
Qed.
Lemma block_digits_range bs : Forall (fun d => 0 <= d < B) (block_digits bs).
Proof. apply Forall_firstn, digits_be_range. pose proof (gc_base k ends G). lia. Qed.
Lemma symbol_not_pad d : 0 <= d < B -> Ascii.eqb (symbol (c_alpha k) d) "="%char = false.
Proof.
  intros D. apply Ascii.eqb_neq. intros E. apply (ga_pad _ _ (gc_alpha k ends G)). rewrite <- E.
  apply (symbol_in _ _ d (gc_alpha k ends G) D).
Qed.
Lemma take_digits_full ds rest : Forall (fun d => 0 <= d < B) ds ->
  take_digits (c_alpha k) (length ds) (map (symbol (c_alpha k)) ds ++ rest) = Ok (ds, rest).
Proof.
  induction 1 as [|d ds D _ IH]; [destruct rest; reflexivity|]. cbn [length map app take_digits].
  rewrite symbol_not_pad, (position_symbol _ _ d (gc_alpha k ends G)) by assumption. now rewrite IH.
Qed.
Lemma take_digits_short ds j rest : Forall (fun d => 0 <= d < B) ds -> (length ds <= j)%nat ->
  (forall c r, rest = c :: r -> c = "="%char) ->
  take_digits (c_alpha k) j (map (symbol (c_alpha k)) ds ++ rest) = Ok (ds, rest).
Proof.
  intros F. revert j. induction F as [|d ds D _ IH]; intros j L P.
  - cbn [map app]. destruct j; [destruct rest; reflexivity|]. destruct rest as [|c r]; [reflexivity|].
    rewrite (P c r eq_refl). reflexivity.
  - destruct j as [|j]; [cbn in L; lia|]. cbn [length] in L. cbn [map app take_digits].
    rewrite symbol_not_pad, (position_symbol _ _ d (gc_alpha k ends G)) by assumption.
    rewrite IH by (assumption || lia). reflexivity.
Qed.
Lemma encode_blocks_nonl fuel s : Forall (fun c => newline c = false) (encode_blocks k fuel s).
Proof.
  revert s. induction fuel as [|f IH]; intros s; [constructor|]. cbn [encode_blocks].
  destruct s as [|a s]; [constructor|]. apply Forall_app. split; [|apply IH].
  unfold block. apply Forall_app. split.
  - apply Forall_forall. intros c I. apply in_map_iff in I. destruct I as (d & <- & I).
    apply (ga_nl _ _ (gc_alpha k ends G)). apply (symbol_in _ _ d (gc_alpha k ends G)).
    pose proof (gc_base k ends G).
    pose proof (Forall_firstn (fun d => 0 <= d < B) (need k (length (firstn n (a :: s))))
      (digits_be B m (block_value (firstn n (a :: s)))) (digits_be_range B m _ ltac:(lia))) as F.
    rewrite Forall_forall in F. now apply F.
  - apply Forall_forall. intros c I. apply repeat_spec in I. now subst.
Qed.
Lemma block_shape bs : block k bs = map (symbol (c_alpha k)) (block_digits bs) ++ repeat "="%char (m - need k (length bs)).
Proof. reflexivity. Qed.
Lemma decode_encode_blocks fuel s fuel2 : (length s <= fuel)%nat -> (length (encode_blocks k fuel s) <= fuel2)%nat ->
  decode_blocks k ends fuel2 (encode_blocks k fuel s) = Ok s.
Proof.
  revert s fuel2. induction fuel as [|f IH]; intros s fuel2 L L2.
  { destruct s; [destruct fuel2; reflexivity|cbn in L; lia]. }
  destruct s as [|a s]; [destruct fuel2; reflexivity|].
  set (w := a :: s) in *.
  assert (EW : encode_blocks k (S f) w = block k (firstn n w) ++ encode_blocks k f (skipn n w)) by reflexivity.
  rewrite EW in *. clear EW.
  pose proof (gc_n k ends G) as N. pose proof (gc_m k ends G) as M.
  set (bs := firstn n w) in *.
  assert (LB : (0 < length bs <= n)%nat).
  { unfold bs. rewrite firstn_length. unfold w. cbn [length]. lia. }
  pose proof (block_digits_length bs LB) as LD. rewrite block_shape in *.
  assert (ND : (0 < need k (length bs))%nat).
  { destruct (Nat.eq_dec (length bs) n) as [E|E].
    - rewrite E, (proj1 (gc_full k ends G)). assumption.
    - destruct (gc_short k ends G (length bs) ltac:(lia)) as (_ & H & _).
      destruct (need k (length bs)) eqn:Z; [|lia]. unfold held in H.
      rewrite Z.mul_0_r in H. cbn in H. lia. }
  destruct (block_digits bs) as [|d0 ds0] eqn:ED; [cbn in LD; lia|].
  remember (map (symbol (c_alpha k)) (d0 :: ds0)) as sy eqn:ES.
  assert (LS : length sy = need k (length bs)) by (subst sy; now rewrite map_length).
  destruct (Nat.eq_dec (length bs) n) as [E|E].
  - (* a full block *)
    assert (NM : need k (length bs) = m) by (rewrite E; apply (gc_full k ends G)).
    rewrite NM, Nat.sub_diag in *. cbn [repeat] in *. rewrite app_nil_r in *.
    rewrite app_length in L2.
    destruct fuel2 as [|f2]; [lia|].
    assert (NE : sy ++ encode_blocks k f (skipn n w) <> []) by (destruct sy; [cbn in LS; lia|discriminate]).
    cbn [decode_blocks]. destruct (sy ++ encode_blocks k f (skipn n w)) as [|x y] eqn:EX; [congruence|].
    rewrite <- EX. subst sy.
    rewrite <- LD, take_digits_full by (rewrite <- ED; apply block_digits_range). cbn [bind].
    rewrite Nat.eqb_refl. rewrite IH.
    + cbn [bind]. rewrite <- ED, unblock_block by assumption. f_equal. unfold bs. apply firstn_skipn.
    + rewrite skipn_length. cbn [length w] in L. unfold w. cbn [length]. lia.
    + lia.
  - (* the last block *)
    assert (SK : skipn n w = []).
    { apply skipn_all2. unfold bs in E. rewrite firstn_length in E. lia. }
    assert (BW : bs = w). { unfold bs. apply firstn_all2. unfold bs in E. rewrite firstn_length in E. lia. }
    rewrite SK in *.
    assert (EB : encode_blocks k f [] = []) by (destruct f; reflexivity). rewrite EB, app_nil_r in *.
    destruct (gc_short k ends G (length bs) ltac:(lia)) as (LM & _ & _ & EN).
    rewrite app_length in L2. destruct fuel2 as [|f2]; [lia|].
    cbn [decode_blocks].
    destruct (sy ++ repeat "="%char (m - need k (length bs))) as [|x y] eqn:EX;
      [destruct sy; [cbn in LS; lia|discriminate]|].
    rewrite <- EX. subst sy. rewrite take_digits_short.
    + cbn [bind]. rewrite LD. destruct (Nat.eqb_spec (need k (length bs)) m); [lia|].
      rewrite EN. f_equal. rewrite <- ED, unblock_block by assumption. exact BW.
    + rewrite <- ED. apply block_digits_range.
    + rewrite LD. lia.
    + intros c r Er. destruct (m - need k (length bs))%nat; [discriminate|]. cbn [repeat] in Er. congruence.
Qed.
Lemma decode_with_encode_with s : decode_with k ends (encode_with k s) = Ok s.
Proof.
  unfold decode_with, encode_with.
  assert (F : filter (fun c => negb (newline c)) (encode_blocks k (length s) s) = encode_blocks k (length s) s).
  { generalize (encode_blocks_nonl (length s) s). generalize (encode_blocks k (length s) s) as l.
    induction 1 as [|c l C _ IH]; [reflexivity|]. cbn [filter]. rewrite C. cbn [negb]. now f_equal. }
  rewrite F. apply decode_encode_blocks; lia.
Qed.
(** What the text consists of. *)
Lemma encode_with_chars s c : In c (encode_with k s) -> In c (c_alpha k) \/ c = "="%char.
Proof.
  unfold encode_with. generalize (length s) as fuel. intros fuel. revert s.
  induction fuel as [|f IH]; intros s; [intros []|]. cbn [encode_blocks].
  destruct s as [|a s]; [intros []|]. rewrite in_app_iff. intros [I|I]; [|exact (IH _ I)].
  rewrite block_shape, in_app_iff in I. destruct I as [I|I].
  - left. apply in_map_iff in I. destruct I as (d & <- & I).
    apply (symbol_in _ _ d (gc_alpha k ends G)).
    pose proof (block_digits_range (firstn n (a :: s))) as F. rewrite Forall_forall in F. now apply F.
  - right. now apply repeat_spec in I.
Qed.
End Code.

(** Code points *)
Lemma code_points_loop_some l acc : code_points_loop (map Some l) acc =
  Some (acc ++ map wrap32 (filter (fun i => negb (i =? 0)) l)).
Proof.
  revert acc. induction l as [|i l IH]; intros acc; cbn [map code_points_loop filter].
  - now rewrite app_nil_r.
  - rewrite IH. destruct (i =? 0); cbn [negb]; [reflexivity|]. cbn [map]. now rewrite <- app_assoc.
Qed.
Lemma wrap32_scalars l : Forall scalar l -> map wrap32 l = l.
Proof.
  induction 1 as [|r l [R _] _ IH]; [reflexivity|]. cbn [map]. rewrite IH, wrap32_id; [reflexivity|].
  unfold in32, two31. lia.
Qed.
Lemma Forall_filter {A} (P : A -> Prop) f l : Forall P l -> Forall P (filter f l).
Proof. rewrite !Forall_forall. intros H x I. apply filter_In in I. apply H. tauto. Qed.
Lemma filter_length_le {A} (f : A -> bool) l : (length (filter f l) <= length l)%nat.
Proof. induction l; cbn [filter]; [reflexivity|]. destruct (f a); cbn [length]; lia. Qed.
Lemma filter_id_iff {A} (f : A -> bool) l : filter f l = l <-> Forall (fun x => f x = true) l.
Proof.
  induction l as [|x l IH]; cbn [filter]; [split; [constructor|reflexivity]|].
  destruct (f x) eqn:E; split; intros H.
  - constructor; [assumption|]. apply IH. congruence.
  - inversion H; subst. f_equal. now apply IH.
  - exfalso. assert (L : length (filter f l) = S (length l)) by (rewrite H; reflexivity).
    pose proof (filter_length_le f l). lia.
  - inversion H. congruence.
Qed.
