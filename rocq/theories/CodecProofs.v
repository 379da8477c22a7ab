(** Lemmas on the encoding of values. *)
From Coq Require Import Ascii String List ZArith QArith Lia Bool SpecFloat.
From Verif Require Import GoBase GoBaseFacts CalendarModel CalendarFacts InstantModel InstantFacts DecModel DecFacts TimeTextProofs
  ValueModel FloatFacts Utf8Model Utf8Facts StrModel EncModel EncProofs ClockTextModel ClockTextSpec ClockTextProofs ClockTextProps
  CodecModel CodecSpec.
Import ListNotations.
Local Open Scope string_scope.
Open Scope Z_scope.

(** ** Texts *)
Lemma sanitize_ok : forall s, text_ok s -> sanitize s = s.
Proof. intros s H. unfold sanitize. apply well_formed_iff in H. rewrite H. apply string_of_list_ascii_of_string. Qed.
Lemma ascii_text_ok : forall s, ascii_only (list_ascii_of_string s) -> text_ok s.
Proof. intros s. apply ascii_well_formed. Qed.
Lemma alpha64_ascii : forall c, In c alpha64 \/ c = "="%char -> b2z c < 128 /\ 43 <= b2z c <= 122 /\ c <> quote_char /\ c <> backslash /\ c <> "'"%char.
Proof.
  assert (F : forallb (fun c => (43 <=? b2z c) && (b2z c <=? 122) && negb (Ascii.eqb c quote_char) && negb (Ascii.eqb c backslash) && negb (Ascii.eqb c "'")) ("="%char :: alpha64) = true) by reflexivity.
  rewrite forallb_forall in F. intros c H. assert (I : In c ("="%char :: alpha64)) by (destruct H; [now right|left; now symmetry]). specialize (F c I).
  rewrite !andb_true_iff, !negb_true_iff, !Ascii.eqb_neq, !Z.leb_le in F. destruct F as ((((? & ?) & ?) & ?) & ?). repeat split; auto; lia.
Qed.
Lemma base64_chars : forall b c, In c (to_base64 b) -> In c alpha64 \/ c = "="%char.
Proof. intros b c. exact (encode_with_chars base64 ends64 good_base64 b c). Qed.
Lemma base64_ascii : forall b, ascii_only (to_base64 b).
Proof. intros b. apply Forall_forall. intros c H. apply base64_chars in H. now apply alpha64_ascii in H. Qed.
Lemma base64_round : forall s, base64_read (sanitize (base64_text s)) = Ok s.
Proof.
  intros s. unfold base64_text. rewrite sanitize_ok.
  - unfold base64_read. rewrite list_ascii_of_string_of_list_ascii. unfold from_base64, to_base64.
    rewrite (decode_with_encode_with base64 ends64 good_base64). cbn [bind]. now rewrite string_of_list_ascii_of_string.
  - apply ascii_text_ok. rewrite list_ascii_of_string_of_list_ascii. apply base64_ascii.
Qed.
Lemma digits_ascii : forall s, all_digits s = true -> ascii_only (list_ascii_of_string s).
Proof.
  induction s as [|c s IH]; intros H; [constructor|]. cbn [all_digits] in H. apply andb_true_iff in H. destruct H as [Hc Hs].
  cbn [list_ascii_of_string]. constructor; [|exact (IH Hs)]. unfold is_digit, digit_val in Hc.
  destruct ((48 <=? Z.of_nat (nat_of_ascii c)) && (Z.of_nat (nat_of_ascii c) <=? 57)) eqn:E; [|discriminate].
  apply andb_true_iff in E. rewrite !Z.leb_le in E. unfold b2z, nat_of_ascii in *. lia.
Qed.
Lemma dec_ascii : forall z, ascii_only (list_ascii_of_string (dec z)).
Proof.
  intros z. unfold dec. destruct (Z.ltb_spec z 0).
  - cbn [list_ascii_of_string]. constructor; [reflexivity|]. apply digits_ascii, udec_all_digits. lia.
  - apply digits_ascii, udec_all_digits. lia.
Qed.
Lemma list_ascii_app : forall a b, list_ascii_of_string (a ++ b) = (list_ascii_of_string a ++ list_ascii_of_string b)%list.
Proof. induction a; intros; cbn; congruence. Qed.
Lemma rat_text_ok : forall q, text_ok (rat_text q).
Proof.
  intros q. apply ascii_text_ok. unfold rat_text. destruct (_ =? 1); [apply dec_ascii|].
  rewrite list_ascii_app. cbn [list_ascii_of_string]. apply Forall_app. split; [apply dec_ascii|]. constructor; [reflexivity|].
  apply digits_ascii, udec_all_digits. lia.
Qed.
Lemma read_int_dec : forall z, read_int (dec z) = Some z.
Proof.
  intros z. unfold dec, read_int. destruct (Z.ltb_spec z 0) as [L|L].
  - change (Ascii.eqb "-" "-") with true. cbn iota. rewrite read_udec by lia. cbn. f_equal. lia.
  - pose proof (udec_all_digits z L) as A. pose proof (udec_nonempty z) as N. destruct (udec z) as [|c r] eqn:E; [contradiction|].
    cbn [all_digits] in A. apply andb_true_iff in A. destruct A as [A _]. destruct (digit_not_sign c A) as [-> _].
    rewrite <- E. now apply read_udec.
Qed.
Lemma digits_no_slash : forall s, all_digits s = true -> has_char "/" s = false.
Proof.
  induction s as [|c s IH]; intros H; auto. cbn [all_digits has_char] in *. apply andb_true_iff in H. destruct H as [H1 H2].
  rewrite IH by assumption. rewrite orb_false_r. apply Ascii.eqb_neq. intros ->. discriminate.
Qed.
Lemma dec_no_slash : forall z, has_char "/" (dec z) = false.
Proof.
  intros z. unfold dec. destruct (Z.ltb_spec z 0).
  - cbn [has_char]. change (Ascii.eqb "-" "/") with false. apply digits_no_slash, udec_all_digits. lia.
  - apply digits_no_slash, udec_all_digits. lia.
Qed.
Lemma rat_round : forall q, rat_read (sanitize (rat_text q)) = Qred q.
Proof.
  intros q. rewrite sanitize_ok by apply rat_text_ok. unfold rat_text, rat_read.
  destruct (Z.eqb_spec (Zpos (Qden (Qred q))) 1) as [E|E].
  - rewrite split1_nochar by apply dec_no_slash. rewrite read_int_dec. destruct (Qred q) as [n d]. cbn in *. congruence.
  - rewrite split1_app by apply dec_no_slash. rewrite split1_nochar by (apply digits_no_slash, udec_all_digits; lia).
    rewrite read_int_dec, read_udec by lia. destruct (Qred q) as [n d] eqn:R. cbn [Qnum Qden].
    rewrite <- R. rewrite (Qred_complete (Qred q) q (Qred_correct q)). reflexivity.
Qed.
Lemma timestamp_round : forall t, t mod 1000 = 0 -> - 2 ^ 63 <= t / 1000 < 2 ^ 63 -> read_timestamp (dec (unix_micro t)) = Some t.
Proof.
  intros t M R. unfold read_timestamp. rewrite unix_micro_floor. rewrite parse_dec.
  2:{ unfold in64. exact R. }
  cbn [option_map]. f_equal. unfold from_unix, ns_per_sec. pose proof (Z.div_mod t 1000 ltac:(lia)). lia.
Qed.
Lemma float_is_of_int : forall z, Z.abs z < 2 ^ 53 -> float_is (float_of_int z) z.
Proof.
  intros z B. unfold float_of_int, binary_normalize.
  assert (G : forall s m, Zpos m < 2 ^ 53 -> float_is (binary_round prec64 emax64 s m 0) (if s then Zneg m else Zpos m)).
  { intros s m L. destruct (binary_round_small s m L) as (mz & V & -> & D). cbn [float_is]. exists (Zpos m). split; [destruct s; reflexivity|].
    set (d := Zpos (digits2_pos m)) in *. destruct (Z.leb_spec 0 (d - 53)).
    - replace (53 - d) with 0 in V by lia. replace (d - 53) with 0 by lia. rewrite Z.pow_0_r in *. lia.
    - rewrite V. f_equal. f_equal. lia. }
  destruct z as [|m|m]; [reflexivity|exact (G false m B)|exact (G true m B)].
Qed.

(** ** Induction on values *)
Section ValInd.
Variable P : val -> Prop.
Definition opt_P (o : option val) : Prop := match o with Some v => P v | None => True end.
Hypothesis Hleaf : forall v, (forall l, v <> VArray l) -> (forall l, v <> VStruct l) -> P v.
Hypothesis Harray : forall l, Forall opt_P l -> P (VArray l).
Hypothesis Hstruct : forall l, Forall (fun p => opt_P (snd p)) l -> P (VStruct l).
Fixpoint val_ind2 (v : val) : P v :=
  match v with
  | VArray l => Harray l ((fix go (l : list (option val)) : Forall opt_P l :=
      match l with
      | [] => Forall_nil _
      | o :: r => Forall_cons o (match o return opt_P o with Some x => val_ind2 x | None => I end) (go r)
      end) l)
  | VStruct l => Hstruct l ((fix go (l : list (string * option val)) : Forall (fun p => opt_P (snd p)) l :=
      match l with
      | [] => Forall_nil _
      | p :: r => Forall_cons p (match p return opt_P (snd p) with (k, Some x) => val_ind2 x | (k, None) => I end) (go r)
      end) l)
  | v => Hleaf v ltac:(discriminate) ltac:(discriminate)
  end.
End ValInd.

(** ** The round trip *)
Definition decode_elem (e : enc) : res (option val) :=
  match e with EInt z => Ok (Some (VFloat (float_of_int z))) | _ => decode_value e end.
Fixpoint decode_elems (l : list enc) : res (list (option val)) :=
  match l with
  | [] => Ok []
  | x :: r => bind (decode_elem x) (fun v => bind (decode_elems r) (fun vs => Ok (v :: vs)))
  end.
Definition encode_elem (o : option val) : res enc := bind (encode_opt o) marshal.
Fixpoint encode_elems (l : list (option val)) : res (list enc) :=
  match l with [] => Ok [] | o :: r => bind (encode_elem o) (fun e => bind (encode_elems r) (fun es => Ok (e :: es))) end.
Lemma bind_assoc {A B C} (r : res A) (f : A -> res B) (g : B -> res C) : bind (bind r f) g = bind r (fun x => bind (f x) g).
Proof. destruct r; reflexivity. Qed.
Lemma encode_array : forall l, encode_value (VArray l) = bind (encode_elems l) (fun es => Ok (EArray es)).
Proof.
  intros l. cbn [encode_value]. f_equal. induction l as [|o l IH]; [reflexivity|]. cbn [encode_elems]. rewrite <- IH.
  unfold encode_elem. rewrite bind_assoc. destruct o; reflexivity.
Qed.
Lemma encode_struct : forall l, encode_value (VStruct l) =
  bind (encode_elems (map snd l)) (fun es => Ok (EStruct (map (fun p => sanitize (fst p)) l) es)).
Proof.
  intros l. cbn [encode_value]. generalize (map (fun p => sanitize (fst p)) l) as ks. intros ks. f_equal.
  induction l as [|[k o] l IH]; [reflexivity|]. cbn [map snd encode_elems]. rewrite <- IH.
  unfold encode_elem. rewrite bind_assoc. destruct o; reflexivity.
Qed.
Lemma decode_elems_fix : forall l, (fix elems (l : list enc) : res (list (option val)) :=
    match l with
    | [] => Ok []
    | x :: r =>
        bind (match x with EInt z => Ok (Some (VFloat (float_of_int z))) | _ => decode_value x end) (fun v =>
        bind (elems r) (fun vs => Ok (v :: vs)))
    end) l = decode_elems l.
Proof. induction l as [|x l IH]; [reflexivity|]. cbn [decode_elems]. rewrite <- IH. destruct x; reflexivity. Qed.
Lemma decode_array : forall l, decode_value (EArray l) = bind (decode_elems l) (fun vs => Ok (Some (VArray vs))).
Proof. intros l. cbn [decode_value]. now rewrite decode_elems_fix. Qed.
Lemma decode_struct : forall ks l, decode_value (EStruct ks l) =
  bind (decode_elems l) (fun vs => if (List.length l <=? List.length ks)%nat then Ok (Some (VStruct (combine ks vs))) else GoPanic).
Proof. intros ks l. cbn [decode_value]. now rewrite decode_elems_fix. Qed.
Lemma same_array : forall l l', same (VArray l) (VArray l') <-> Forall2 same_opt l l'.
Proof.
  intros l l'. cbn [same]. revert l'. induction l as [|o l IH]; intros [|o' l']; split; intros H; try (inversion H; fail); try constructor; auto.
  - destruct H as [H _]. destruct o, o'; exact H.
  - apply IH, H.
  - inversion H as [|? ? ? ? S]; subst. destruct o, o'; exact S.
  - apply IH. now inversion H.
Qed.
Lemma same_struct : forall l l', same (VStruct l) (VStruct l') <-> Forall2 (fun p q => fst p = fst q /\ same_opt (snd p) (snd q)) l l'.
Proof.
  intros l l'. cbn [same]. revert l'. induction l as [|[k o] l IH]; intros [|[k' o'] l']; split; intros H; try (inversion H; fail); try constructor; auto.
  - destruct H as (K & H & _). split; [exact K|]. destruct o, o'; exact H.
  - apply IH, H.
  - inversion H as [|? ? ? ? [S _]]; subst. exact S.
  - inversion H as [|? ? ? ? [_ S] R]; subst. split; [destruct o, o'; exact S|]. now apply IH.
Qed.
Definition storable_opt (o : option val) : Prop := match o with Some x => storable true x | None => True end.
Lemma storable_array : forall n l, storable n (VArray l) <-> Forall storable_opt l.
Proof.
  intros n l. cbn [storable]. induction l as [|o l IH]; split; intros H; try constructor; auto.
  - destruct H as [H _]. destruct o; exact H.
  - apply IH, H.
  - inversion H as [|? ? S]; subst. destruct o; exact S.
  - apply IH. now inversion H.
Qed.
Lemma storable_struct : forall n l, storable n (VStruct l) <-> Forall (fun p => text_ok (fst p) /\ storable_opt (snd p)) l.
Proof.
  intros n l. cbn [storable]. induction l as [|[k o] l IH]; split; intros H; try constructor; auto.
  - destruct H as (K & H & _). split; [exact K|]. destruct o; exact H.
  - apply IH, H.
  - inversion H as [|? ? [S _]]; subst. exact S.
  - inversion H as [|? ? [_ S] R]; subst. split; [destruct o; exact S|]. now apply IH.
Qed.

(** A stored value and how it is decoded, at top level and inside. *)
Definition comes_back (nested : bool) (v : val) : Prop :=
  exists e w, encode_value v = Ok e /\ (nested = true -> marshal e = Ok e) /\
    (if nested then decode_elem e else decode_value (through_engine e)) = Ok (Some w) /\ same v w.
Lemma elems_come_back : forall l, Forall (opt_P (fun v => storable true v -> comes_back true v)) l -> Forall storable_opt l ->
  exists es ws, encode_elems l = Ok es /\ decode_elems es = Ok ws /\ Forall2 same_opt l ws /\ List.length es = List.length l.
Proof.
  induction l as [|o l IH]; intros H S.
  - exists [], []. repeat split; auto.
  - inversion H as [|? ? Ho Hl]; subst. inversion S as [|? ? So Sl]; subst. destruct (IH Hl Sl) as (es & ws & E & D & F & L).
    destruct o as [v|].
    + destruct (Ho So) as (e & w & Ev & M & Dv & Sv). exists (e :: es), (Some w :: ws). cbn [encode_elems decode_elems encode_elem encode_opt].
      unfold encode_elem, encode_opt. rewrite Ev. cbn [bind]. rewrite M, E by reflexivity. cbn [bind]. rewrite Dv, D. cbn [bind]. split; [reflexivity|]. split; [reflexivity|]. split; [constructor; [exact Sv|exact F]|cbn; lia].
    + exists (ENull :: es), (None :: ws). cbn [encode_elems decode_elems]. unfold encode_elem, encode_opt. cbn [bind marshal].
      rewrite E. cbn [bind decode_elem decode_value]. rewrite D. cbn [bind]. split; [reflexivity|]. split; [reflexivity|]. split; [constructor; [exact I|exact F]|cbn; lia].
Qed.
Lemma same_combine : forall l ws, Forall (fun p => text_ok (fst p)) l -> Forall2 same_opt (map snd l) ws ->
  Forall2 (fun p q => fst p = fst q /\ same_opt (snd p) (snd q)) l (combine (map (fun p => sanitize (fst p)) l) ws).
Proof.
  induction l as [|[k o] l IH]; intros ws T F; cbn [map snd] in F.
  - constructor.
  - inversion F as [|? w ? ws' S F']; subst. inversion T as [|? ? Tk Tl]; subst. cbn [map fst combine]. constructor.
    + cbn [fst snd] in *. split; [symmetry; now apply sanitize_ok|exact S].
    + now apply IH.
Qed.
Lemma Forall_and_l {A} (P Q : A -> Prop) l : Forall (fun x => P x /\ Q x) l -> Forall P l /\ Forall Q l.
Proof. induction 1 as [|x l [p q] _ [IHp IHq]]; auto. Qed.
Lemma date_round : forall t, t mod ns_per_day = 0 -> 0 <= year (day_no t) <= 9999 ->
  lift (fun n => VDate (n * ns_per_day)) (parse_date (date_text (day_no t))) = Ok (Some (VDate t)).
Proof.
  intros t M Y. rewrite c100_date_text_reads_back by auto. cbn [lift]. do 3 f_equal. unfold day_no.
  pose proof (Z.div_mod t ns_per_day ltac:(unfold ns_per_day, ns_per_sec; lia)). lia.
Qed.
Lemma comes_back_leaf : forall nested v, (forall l, v <> VArray l) -> (forall l, v <> VStruct l) -> storable nested v -> comes_back nested v.
Proof.
  intros nested v NA NS S. unfold comes_back.
  assert (TXT : forall h b w, encode_value v = Ok (EText h b) -> decode_text h b = Ok (Some w) -> same v w ->
    exists e w, encode_value v = Ok e /\ (nested = true -> marshal e = Ok e) /\
      (if nested then decode_elem e else decode_value (through_engine e)) = Ok (Some w) /\ same v w).
  { intros h b w E D Q. exists (EText h b), w. split; [exact E|]. split; [reflexivity|]. split; [|exact Q]. destruct nested; exact D. }
  destruct v as [z|s|s|f|q|b|s|l|l|t|t|t|t|m d n]; cbn [storable] in S; try (now destruct (NA l)); try (now destruct (NS l)); try contradiction.
  - destruct nested.
    + exists (EInt z), (VFloat (float_of_int z)). repeat split; auto. now apply float_is_of_int.
    + exists (EInt z), (VInt z). repeat split; auto; discriminate.
  - eapply TXT; [reflexivity| |]; [cbn [decode_text]; reflexivity|]. cbn [same]. now rewrite sanitize_ok.
  - eapply TXT; [reflexivity| |]; [cbn [decode_text]; rewrite base64_round; reflexivity|]. reflexivity.
  - exists (EFloat f), (VFloat f). split; [reflexivity|]. split.
    + intros ->. cbn [marshal]. destruct f; cbn [finite]; try reflexivity; [discriminate|contradiction].
    + split; [|reflexivity]. destruct nested; [reflexivity|]. destruct f; try reflexivity. contradiction.
  - eapply TXT; [reflexivity| |]; [cbn [decode_text]; reflexivity|]. cbn [same]. rewrite rat_round. symmetry. apply Qred_correct.
  - destruct nested.
    + exists (EBool b), (VBool b). repeat split; auto.
    + exists (EBool b), (VInt (if b then 1 else 0)). repeat split; auto; discriminate.
  - eapply TXT; [reflexivity| |]; [cbn [decode_text]; reflexivity|]. cbn [same]. now rewrite sanitize_ok.
  - destruct S as [M Y]. eapply TXT; [reflexivity| |]; [cbn [decode_text]; apply date_round; auto|]. reflexivity.
  - destruct S as [M Y]. eapply TXT; [reflexivity| |]; [cbn [decode_text]; rewrite (proj1 (c100_datetime_text_reads_back t Y M)); reflexivity|]. reflexivity.
  - destruct (c100_time_text_reads_back t S) as (t' & E & C & N & _).
    eapply TXT; [reflexivity| |]; [cbn [decode_text]; rewrite E; reflexivity|]. cbn [same]. split; congruence.
  - destruct S as [M R]. eapply TXT; [reflexivity| |]; [cbn [decode_text]; rewrite timestamp_round by auto; reflexivity|]. reflexivity.
Qed.
Lemma comes_back_all : forall v nested, storable nested v -> comes_back nested v.
Proof.
  refine (val_ind2 (fun v => forall nested, storable nested v -> comes_back nested v) _ _ _).
  - intros v A B nested. now apply comes_back_leaf.
  - intros l H nested S. apply storable_array in S.
    assert (H' : Forall (opt_P (fun v => storable true v -> comes_back true v)) l).
    { eapply Forall_impl; [|exact H]. intros [v|] Q; [exact (Q true)|exact I]. }
    destruct (elems_come_back l H' S) as (es & ws & E & D & F & _).
    exists (EArray es), (VArray ws). rewrite encode_array, E. cbn [bind]. split; [reflexivity|]. split; [reflexivity|].
    split; [|now apply same_array]. destruct nested; cbn [decode_elem through_engine]; rewrite decode_array, D; reflexivity.
  - intros l H nested S. apply storable_struct in S. apply Forall_and_l in S. destruct S as [T S].
    assert (S' : Forall storable_opt (map snd l)) by (apply Forall_map; exact S).
    assert (H' : Forall (opt_P (fun v => storable true v -> comes_back true v)) (map snd l)).
    { apply Forall_map. eapply Forall_impl; [|exact H]. intros [k [v|]] Q; [exact (Q true)|exact I]. }
    destruct (elems_come_back (map snd l) H' S') as (es & ws & E & D & F & L).
    exists (EStruct (map (fun p => sanitize (fst p)) l) es), (VStruct (combine (map (fun p => sanitize (fst p)) l) ws)).
    rewrite encode_struct, E. cbn [bind]. split; [reflexivity|]. split; [reflexivity|]. split; [|apply same_struct, same_combine; auto].
    assert (LE : (List.length es <=? List.length (map (fun p => sanitize (fst p)) l))%nat = true) by (apply Nat.leb_le; rewrite L, !map_length; lia).
    destruct nested; cbn [decode_elem through_engine]; rewrite decode_struct, D; cbn [bind]; rewrite LE; reflexivity.
Qed.

(** ** Literals *)
Lemma quote_plain : forall s, (forall c, In c s -> In c alpha64 \/ c = "="%char) -> flat_map quote_byte s = s.
Proof.
  induction s as [|c s IH]; intros H; [reflexivity|]. cbn [flat_map]. rewrite IH by (intros; apply H; now right).
  destruct (alpha64_ascii c (H c (or_introl eq_refl))) as (_ & R & Q & B & _). unfold quote_byte.
  destruct (Ascii.eqb_spec c quote_char); [contradiction|]. destruct (Ascii.eqb_spec c backslash); [contradiction|]. cbn [orb].
  replace ((32 <=? b2z c) && (b2z c <=? 126)) with true; [reflexivity|]. symmetry. apply andb_true_iff. rewrite !Z.leb_le. lia.
Qed.
Lemma text_literal_shape : forall j, text_literal j = (quote_char :: to_base64 j ++ [quote_char])%list.
Proof. intros j. unfold text_literal, go_quote. rewrite quote_plain; [reflexivity|]. apply base64_chars. Qed.
Lemma in_quotes_plain : forall s rest, ~ In quote_char s -> (forall r, rest <> quote_char :: r) ->
  in_quotes (s ++ quote_char :: rest)%list = Some (s, rest).
Proof.
  induction s as [|c s IH]; intros rest N R.
  - cbn [app in_quotes]. change (Ascii.eqb quote_char """") with true. cbn iota. destruct rest as [|c r]; [reflexivity|].
    destruct (Ascii.eqb_spec c """"); [|reflexivity]. subst c. now destruct (R r).
  - cbn [app in_quotes]. destruct (Ascii.eqb_spec c """") as [E|E]; [exfalso; apply N; left; exact E|].
    rewrite IH; [reflexivity| |exact R]. intros X. apply N. now right.
Qed.
