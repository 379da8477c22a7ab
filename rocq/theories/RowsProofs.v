From Coq Require Import Ascii String List ZArith QArith Lia Bool SpecFloat.
From Verif Require Import GoBase GoBaseFacts CalendarModel CalendarFacts InstantModel InstantFacts DecModel ValueModel FloatFacts Utf8Model EncModel EncProofs EncProps
  ClockTextModel ClockTextSpec ClockTextProofs ClockTextProps CodecModel CodecSpec CodecProofs TimeTextModel TimeTextSpec TimeTextProps JsonSpec JsonModel JsonDocSpec RowsModel RowsSpec.
From Verif Require JsonProofs.
Import ListNotations.
Local Open Scope string_scope.
Open Scope Z_scope.

(** ** The map of a struct *)
Lemma find_last_app {A} k (m m' : list (string * A)) :
  find_last k (m ++ m')%list = match find_last k m' with Some x => Some x | None => find_last k m end.
Proof. induction m as [|[k' a] m IH]; cbn; [now destruct (find_last k m')|]. rewrite IH. now destruct (find_last k m'). Qed.
Lemma find_last_none {A} k (m : list (string * A)) : find_last k m = None <-> ~ In k (map fst m).
Proof.
  induction m as [|[k' a] m IH]; cbn; [tauto|]. destruct (find_last k m); [split; [discriminate|]|].
  - intros H. exfalso. apply H. right. destruct (in_dec string_dec k (map fst m)) as [I|N]; [exact I|]. apply IH in N. discriminate.
  - destruct (String.eqb_spec k' k); [subst; split; [discriminate|tauto]|]. split; [|reflexivity]. intros _ [E|I]; [congruence|]. now apply IH in I.
Qed.
Lemma find_last_iff {A} k (m : list (string * A)) a : find_last k m = Some a <-> last_named k m a.
Proof.
  split.
  - induction m as [|[k' b] m IH]; cbn; [discriminate|]. destruct (find_last k m) eqn:F.
    + intros E. destruct (IH E) as (l1 & l2 & -> & N). exists ((k', b) :: l1), l2. auto.
    + destruct (String.eqb_spec k' k); [|discriminate]. intros E. assert (b = a) by congruence. subst. exists [], m. split; [reflexivity|]. now apply find_last_none.
  - intros (l1 & l2 & -> & N). rewrite find_last_app. cbn. apply find_last_none in N. now rewrite N, String.eqb_refl.
Qed.
Lemma find_last_nodup {A} k (m : list (string * A)) a : NoDup (map fst m) -> In (k, a) m -> find_last k m = Some a.
Proof.
  intros N I. apply find_last_iff. apply in_split in I. destruct I as (l1 & l2 & ->). exists l1, l2. split; [reflexivity|].
  rewrite map_app in N. cbn in N. apply NoDup_remove_2 in N. intros H. apply N, in_or_app. auto.
Qed.
Lemma anonymous_false {A} (l : list (string * A)) : anonymous l = false <-> Exists (fun p => fst p <> "") l.
Proof.
  induction l as [|[k a] l IH]; cbn; [split; [discriminate|intros H; inversion H]|].
  destruct (String.eqb_spec k ""); cbn.
  - rewrite IH. split; [now right|]. intros H. inversion H; subst; [now cbn in *|assumption].
  - split; [|reflexivity]. intros _. now left.
Qed.

Section Rows.
Variable other : ty -> val -> res (option val).
Variable struct_text : list (string * option val) -> string.
Variable stamp_text : Z -> string.
Variable interval_go : Z -> Z -> Z -> go.
Notation cast_value := (cast_value other struct_text).
Notation cast_opt := (cast_opt other struct_text).
Notation iface := (iface stamp_text interval_go).
Notation assign := (assign stamp_text interval_go).
Notation row_value := (row_value other struct_text stamp_text interval_go).
Notation result := (result other struct_text stamp_text interval_go).
Notation bound := (bound other struct_text).
Notation selected := (selected other struct_text stamp_text interval_go).

Fixpoint cast_elems (e : ty) (l : list (option val)) : res (list (option val)) :=
  match l with [] => Ok [] | o :: r => bind (cast_opt e o) (fun c => bind (cast_elems e r) (fun cs => Ok (c :: cs))) end.
Lemma cast_array e l : cast_value (TArray e) (VArray l) = bind (cast_elems e l) (fun cs => Ok (Some (VArray cs))).
Proof.
  cbn [RowsModel.cast_value]. f_equal. induction l as [|o l IH]; [reflexivity|]. cbn [cast_elems]. rewrite <- IH. reflexivity.
Qed.
Fixpoint cast_fields (fs : list (string * ty)) (m : list (string * option val)) : res (list (string * option val)) :=
  match fs with
  | [] => Ok []
  | (k, t) :: r =>
      match find_last k m with
      | None => bind (cast_fields r m) (fun xs => Ok ((k, None) :: xs))
      | Some o => bind (cast_opt t o) (fun c => bind (cast_fields r (m ++ [(k, c)])%list) (fun xs => Ok ((k, c) :: xs)))
      end
  end.
Lemma cast_struct fs l : cast_value (TStruct fs) (VStruct l) =
  if anonymous l then Ok (Some (VStruct l)) else bind (cast_fields fs l) (fun xs => Ok (Some (VStruct xs))).
Proof. reflexivity. Qed.
(** Fields with names of their own are cast one by one. *)
Lemma cast_fields_each fs : forall m xs, NoDup (map fst fs) ->
  Forall2 (fun f x => fst f = fst x /\ exists o, find_last (fst f) m = Some o /\ cast_opt (snd f) o = Ok (snd x)) fs xs ->
  cast_fields fs m = Ok xs.
Proof.
  induction fs as [|[k t] fs IH]; intros m xs N F; inversion F as [|? [k' c] ? xs' [E (o & L & C)] F' E1 E2]; subst; [reflexivity|].
  cbn [fst snd] in *. subst k'. cbn [cast_fields]. rewrite L, C. cbn [bind]. inversion N as [|? ? NI N']; subst. rewrite (IH (m ++ [(k, c)])%list xs' N'); [reflexivity|].
  assert (G : Forall (fun f : string * ty => fst f <> k) fs).
  { apply Forall_forall. intros [k2 t2] I E. cbn in E. subst k2. apply NI. change k with (fst (k, t2)). now apply in_map. }
  clear -F' G. induction F' as [|f x fs xs [E (o & L & C)] F' IH]; constructor.
  - split; [exact E|]. exists o. split; [|exact C]. rewrite find_last_app. cbn. inversion G as [|? ? D _]; subst. destruct (String.eqb_spec k (fst f)); [congruence|exact L].
  - apply IH. now inversion G.
Qed.

(** ** What comes back becomes a value of the type of the column *)
Lemma int_of_same z f : Z.abs z < 2 ^ 53 -> float_is f z -> int_of_float f = z.
Proof.
  intros B F. unfold int_of_float. assert (T : trunc_float f = Some z).
  { destruct f as [s| | |s m e]; cbn [float_is trunc_float] in *; try contradiction; [now subst|].
    destruct F as (a & E & K). f_equal. destruct (0 <=? e) eqn:P; [subst a; exact E|]. rewrite <- K. apply Z.leb_gt in P.
    rewrite Z.div_mul by (apply Z.pow_nonzero; lia). exact E. }
  rewrite T. assert (I : in64b z = true) by (unfold in64b, two63; apply andb_true_intro; split; [apply Z.leb_le|apply Z.ltb_lt]; lia). now rewrite I.
Qed.
(** The names are usable at every depth. *)
Lemma fine_cast : forall v, forall t w nested b, typed t v -> storable nested v -> (nested = false -> forall z, v <> VInt z) -> fine b v -> same v w ->
  exists c, cast_value t w = Ok (Some c) /\ same v c /\ typed t c.
Proof.
  refine (val_ind2 (fun v => forall t w nested b, typed t v -> storable nested v -> (nested = false -> forall z, v <> VInt z) -> fine b v -> same v w ->
    exists c, cast_value t w = Ok (Some c) /\ same v c /\ typed t c) _ _ _).
  - intros v NA NS t w nested b T S Z0 F Q.
    destruct T; try (now destruct (NA l)); try (now destruct (NS l)); destruct w; cbn [same] in Q; try contradiction; cbn [RowsModel.cast_value];
      try (eexists; split; [reflexivity|]; split; [exact Q|constructor]).
    + destruct nested; cbn [storable] in S.
      * rewrite (int_of_same z f S Q). exists (VInt z). repeat split. constructor.
      * now destruct (Z0 eq_refl z).
    + subst z. destruct b0; eexists; (split; [reflexivity|]); split; try reflexivity; constructor.
  - intros l H t w nested b T S Z0 F Q. inversion T as [| | | | | | | | | | |e ? TL|]; subst. inversion F as [| | | | | | | | | | |? ? FL|]; subst.
    apply storable_array in S. destruct w as [| | | | | | |l'| | | | | |]; cbn [same] in Q; try contradiction. apply same_array in Q.
    assert (G : exists cs, cast_elems e l' = Ok cs /\ Forall2 same_opt l cs /\ Forall (typed_opt e) cs).
    { clear T F Z0. induction Q as [|o o' l l' Qo Q IH]; [exists []; repeat constructor|].
      inversion H as [|? ? Ho H']; subst. inversion TL as [|? ? To TL']; subst. inversion FL as [|? ? Fo FL']; subst. inversion S as [|? ? So S']; subst.
      destruct (IH H' S' TL' FL') as (cs & C & Qs & Ts). cbn [cast_elems]. rewrite C.
      destruct o as [x|], o' as [y|]; cbn [same_opt] in Qo; try contradiction.
      - inversion To as [|? ? Tx]; subst. inversion Fo as [|? ? Fx]; subst. destruct (Ho _ y true b Tx So ltac:(discriminate) Fx Qo) as (c & Cc & Qc & Tc).
        cbn [RowsModel.cast_opt]. rewrite Cc. exists (Some c :: cs). split; [reflexivity|]. split; constructor; auto. now constructor.
      - exists (None :: cs). split; [reflexivity|]. split; constructor; auto; constructor. }
    destruct G as (cs & C & Qs & Ts). exists (VArray cs). rewrite cast_array, C. split; [reflexivity|]. split; [now apply same_array|now constructor].
  - intros l H t w nested b T S Z0 F Q. inversion T as [| | | | | | | | | | | |fs ? TL]; subst. inversion F as [| | | | | | | | | | | |? ? FL ND NE]; subst.
    apply storable_struct in S. destruct w as [| | | | | | | |l'| | | | |]; cbn [same] in Q; try contradiction. apply same_struct in Q.
    assert (K : map fst l' = map fst l) by (clear -Q; induction Q as [|? ? ? ? [E _] _ IH]; cbn; congruence).
    assert (K' : map fst fs = map fst l) by (clear -TL; induction TL as [|? ? ? ? [E _] _ IH]; cbn; congruence).
    destruct NE as [->|NE].
    { inversion Q; subst. inversion TL; subst. exists (VStruct []). repeat split. now constructor. }
    assert (AN : anonymous l' = false).
    { apply anonymous_false. clear -NE K. revert l' K. induction NE as [p l E|p l _ IH]; intros [|q l'] K; try discriminate; cbn in K; injection K as K1 K2.
      - left. congruence.
      - right. now apply IH. }
    assert (G : forall look : string -> option (option val), Forall (fun q => look (fst q) = Some (snd q)) l' -> exists xs, Forall2 (fun f x => fst f = fst x /\ exists o, look (fst f) = Some o /\ cast_opt (snd f) o = Ok (snd x)) fs xs /\
      Forall2 (fun p q => fst p = fst q /\ same_opt (snd p) (snd q)) l xs /\ Forall2 (fun f p => fst f = fst p /\ typed_opt (snd f) (snd p)) fs xs).
    { intros look L. clear T F Z0 ND NE K K' AN. revert fs TL L.
      induction Q as [|[k o] [k' o'] l l' [E Qo] Q IH]; intros fs TL L; inversion TL as [|[k2 t] ? fs' ? [E2 To] TL' E3 E4]; subst; [exists []; repeat constructor|].
      cbn [fst snd] in *. subst k' k2. inversion H as [|? ? Ho H']; subst. inversion FL as [|? ? Fo FL']; subst. inversion S as [|? ? [_ So] S']; subst. inversion L as [|? ? Lo L']; subst.
      cbn [fst snd] in *. destruct (IH H' S' FL' fs' TL' L') as (xs & A & B & C).
      destruct o as [x|], o' as [y|]; cbn [same_opt] in Qo; try contradiction.
      - inversion To as [|? ? Tx]; subst. inversion Fo as [|? ? Fx]; subst. destruct (Ho _ y true true Tx So ltac:(discriminate) Fx Qo) as (c & Cc & Qc & Tc).
        exists ((k, Some c) :: xs). (split; [|split]); (constructor; [|assumption]); cbn [fst snd]; (split; [reflexivity|]); [exists (Some y); split; [exact Lo|exact Cc]|exact Qc|now constructor].
      - exists ((k, None) :: xs). (split; [|split]); (constructor; [|assumption]); cbn [fst snd]; (split; [reflexivity|]); [exists None; split; [exact Lo|reflexivity]|exact I|constructor]. }
    destruct (G (fun k => find_last k l')) as (xs & A & B & C).
    { apply Forall_forall. intros [k o] I. apply find_last_nodup; [now rewrite K|exact I]. }
    exists (VStruct xs). rewrite cast_struct, AN, (cast_fields_each fs l' xs); [|now rewrite K'|exact A].
    split; [reflexivity|]. split; [now apply same_struct|now constructor].
Qed.

(** ** What is shown *)
Lemma names_clock_text t : t mod 1000 = 0 -> names_clock (clock_text t) (clock t) (nanosecond t).
Proof.
  intros M. apply read_hms_iff. destruct (time_of_fields t) as (V & N & K & _). rewrite clock_text_hms, read_hms_of by auto. rewrite K.
  do 2 f_equal. f_equal. assert (Q : nanosecond t mod 1000 = 0).
  { unfold nanosecond, ns_per_sec. change 1000000000 with (1000 * 1000000). rewrite Z.rem_mul_r by lia. rewrite M.
    rewrite Z.add_0_l, Z.mul_comm. apply Z.mod_mul. lia. }
  pose proof (Z.div_mod (nanosecond t) 1000 ltac:(lia)). lia.
Qed.
Lemma names_date_text n : 0 <= year n <= 9999 -> names_day (date_text n) n.
Proof. intros H. apply parse_date_iff. now apply c100_date_text_reads_back. Qed.
Lemma names_datetime_text t : 0 <= year (day_no t) <= 9999 -> t mod 1000 = 0 -> names_datetime (datetime_text t) (day_no t) (clock t) (nanosecond t).
Proof.
  intros Y M. exists (date_text (day_no t)), (clock_text t), "T". split; [now apply names_date_text|]. split; [now apply names_clock_text|]. split; [now left|reflexivity].
Qed.
Lemma clock_text_same a b : clock a = clock b -> nanosecond a = nanosecond b -> clock_text a = clock_text b.
Proof. intros C N. unfold clock_text, hour, minute, second. now rewrite C, N. Qed.
Lemma word_string b : word (string_of_list_ascii b) = b.
Proof. apply list_ascii_of_string_of_list_ascii. Qed.
(** Inside a struct *)
Definition iface_opt (o : option val) : go := match o with None => GNil | Some x => iface x end.
Lemma iface_array l : iface (VArray l) = GList (map iface_opt l).
Proof. cbn [RowsModel.iface]. f_equal. induction l as [|[x|] l IH]; cbn; [reflexivity| |]; now rewrite IH. Qed.
Lemma iface_struct l : iface (VStruct l) = GMaps (map (fun p => (fst p, iface_opt (snd p))) l).
Proof. cbn [RowsModel.iface]. f_equal. induction l as [|[k [x|]] l IH]; cbn; [reflexivity| |]; now rewrite IH. Qed.
Lemma iface_shows : forall v t w nested, typed t v -> typed t w -> storable nested v -> fine true v -> same v w -> shows v (iface w).
Proof.
  refine (val_ind2 (fun v => forall t w nested, typed t v -> typed t w -> storable nested v -> fine true v -> same v w -> shows v (iface w)) _ _ _).
  - intros v NA NS t w nested V T S F Q.
    inversion F; subst; try (now destruct (NA l)); try (now destruct (NS l)); inversion V; subst; inversion T; subst; cbn [same] in Q; try contradiction; subst; cbn [RowsModel.iface storable] in *;
      constructor.
    + destruct S as [M Y]. now apply names_date_text.
    + destruct S as [M Y]. now apply names_datetime_text.
    + destruct Q as [C N]. rewrite <- (clock_text_same _ _ C N). now apply names_clock_text.
  - intros l H t w nested V T S F Q. inversion F as [| | | | | | | | | | |? ? FL|]; subst. apply storable_array in S.
    destruct w as [| | | | | | |l'| | | | | |]; cbn [same] in Q; try contradiction. apply same_array in Q. inversion T as [| | | | | | | | | | |e ? TL|]; subst. inversion V as [| | | | | | | | | | |? ? VL|]; subst. rewrite iface_array. constructor.
    clear T F V. induction Q as [|o o' l l' Qo Q IH]; cbn [map]; constructor.
    + inversion H as [|? ? Ho H']; subst. inversion TL as [|? ? To TL']; subst. inversion VL as [|? ? Vo VL']; subst. inversion FL as [|? ? Fo FL']; subst. inversion S as [|? ? So S']; subst.
      destruct o as [x|], o' as [y|]; cbn [same_opt] in Qo; try contradiction; constructor.
      inversion To as [|? ? Tx]; subst. inversion Vo as [|? ? Vx]; subst. inversion Fo as [|? ? Fx]; subst. exact (Ho _ y true Vx Tx So Fx Qo).
    + inversion H; inversion TL; inversion VL; inversion FL; inversion S; subst; auto.
  - intros l H t w nested V T S F Q. inversion F as [| | | | | | | | | | | |? ? FL _ _]; subst. apply storable_struct in S.
    destruct w as [| | | | | | | |l'| | | | |]; cbn [same] in Q; try contradiction. apply same_struct in Q. inversion T as [| | | | | | | | | | | |fs ? TL]; subst. inversion V as [| | | | | | | | | | | |? ? VL]; subst. rewrite iface_struct. constructor.
    clear T F V. revert fs TL VL. induction Q as [|[k o] [k' o'] l l' [E Qo] Q IH]; intros fs TL VL; cbn [map]; constructor; inversion TL as [|[k2 t2] ? fs' ? [E2 To] TL' E3 E4]; subst; inversion VL as [|? ? ? ? [_ Vo] VL']; subst.
    + cbn [fst snd] in *. split; [exact E|]. inversion H as [|? ? Ho H']; subst. inversion FL as [|? ? Fo FL']; subst. inversion S as [|? ? [_ So] S']; subst. cbn [snd] in *.
      destruct o as [x|], o' as [y|]; cbn [same_opt] in Qo; try contradiction; constructor.
      inversion To as [|? ? Tx]; subst. inversion Vo as [|? ? Vx]; subst. inversion Fo as [|? ? Fx]; subst. exact (Ho _ y true Vx Tx So Fx Qo).
    + inversion H; inversion FL; inversion S; subst. eapply IH; eauto.
Qed.

(** A column *)
Definition assign_opt (t : ty) (o : option val) : res go := match o with None => Ok GNil | Some x => assign t x end.
Fixpoint assign_elems (e : ty) (l : list (option val)) : res (list go) :=
  match l with [] => Ok [] | o :: r => bind (assign_opt e o) (fun g => bind (assign_elems e r) (fun gs => Ok (g :: gs))) end.
Lemma assign_array e l : assign (TArray e) (VArray l) = bind (assign_elems e l) (fun gs => Ok (GList gs)).
Proof. cbn [RowsModel.assign]. f_equal. induction l as [|[x|] l IH]; cbn [assign_elems assign_opt]; [reflexivity| |]; rewrite <- IH; reflexivity. Qed.
Lemma nine_same p q : p == q -> nine p -> nine q.
Proof. intros E (z & H). exists z. now rewrite <- E. Qed.
Lemma assign_shows : forall v t w nested, typed t v -> typed t w -> storable nested v -> fine false v -> same v w -> exists g, assign t w = Ok g /\ shows v g.
Proof.
  refine (val_ind2 (fun v => forall t w nested, typed t v -> typed t w -> storable nested v -> fine false v -> same v w -> exists g, assign t w = Ok g /\ shows v g) _ _ _).
  - intros v NA NS t w nested V T S F Q.
    inversion F; subst; try (now destruct (NA l)); try (now destruct (NS l)); inversion V; subst; inversion T; subst; cbn [same] in Q; try contradiction; subst; cbn [RowsModel.assign storable] in *;
      (eexists; split; [reflexivity|]); constructor.
    + unfold base64_text. rewrite word_string. apply c53_base64_round_trip.
    + rewrite word_string. rewrite (Qred_complete _ _ Q), <- (JsonProofs.billionths_nine q0 (nine_same _ _ Q H)). apply JsonProofs.reads_denotes, JsonProofs.reads_numeric.
    + destruct S as [M Y]. now apply names_date_text.
    + destruct S as [M Y]. now apply names_datetime_text.
    + destruct Q as [C N]. rewrite <- (clock_text_same _ _ C N). now apply names_clock_text.
    + rewrite <- unix_micro_floor in *. now apply c30_decimal_partial.
  - intros l H t w nested V T S F Q. inversion F as [| | | | | | | | | | |? ? FL|]; subst. apply storable_array in S.
    destruct w as [| | | | | | |l'| | | | | |]; cbn [same] in Q; try contradiction. apply same_array in Q. inversion T as [| | | | | | | | | | |e ? TL|]; subst. inversion V as [| | | | | | | | | | |? ? VL|]; subst.
    assert (G : exists gs, assign_elems e l' = Ok gs /\ Forall2 shows_opt l gs).
    { clear T F V. induction Q as [|o o' l l' Qo Q IH]; [exists []; repeat constructor|].
      inversion H as [|? ? Ho H']; subst. inversion TL as [|? ? To TL']; subst. inversion VL as [|? ? Vo VL']; subst. inversion FL as [|? ? Fo FL']; subst. inversion S as [|? ? So S']; subst.
      destruct (IH H' S' FL' TL' VL') as (gs & A & B). cbn [assign_elems]. rewrite A.
      destruct o as [x|], o' as [y|]; cbn [same_opt] in Qo; try contradiction; cbn [assign_opt].
      - inversion To as [|? ? Tx]; subst. inversion Vo as [|? ? Vx]; subst. inversion Fo as [|? ? Fx]; subst. destruct (Ho _ y true Vx Tx So Fx Qo) as (g & Ag & Sg). rewrite Ag.
        exists (g :: gs). split; [reflexivity|]. constructor; [now constructor|exact B].
      - exists (GNil :: gs). split; [reflexivity|]. constructor; [constructor|exact B]. }
    destruct G as (gs & A & B). exists (GList gs). rewrite assign_array, A. split; [reflexivity|now constructor].
  - intros l H t w nested V T S F Q. destruct w as [| | | | | | | |l'| | | | |]; cbn [same] in Q; try contradiction.
    pose proof T as T'. inversion T' as [| | | | | | | | | | | |fs ? TL]; subst. exists (iface (VStruct l')). split; [reflexivity|].
    apply (iface_shows (VStruct l) (TStruct fs) (VStruct l') nested V T S); [|exact Q]. inversion F; subst. now constructor.
Qed.
Lemma result_shows t o : typed_opt t o -> match o with Some v => storable false v /\ fine false v | None => True end ->
  exists g, result t o = Ok g /\ shows_opt o g.
Proof.
  intros T P. destruct o as [v|]; [|exists GNil; split; [reflexivity|constructor]].
  inversion T as [|? ? T']; subst. destruct P as [S F].
  destruct (comes_back_all v false S) as (e & w & E & _ & D & Q). cbn [encode_opt] in *.
  assert (NN : through_engine e <> ENull) by (intros N; rewrite N in D; discriminate).
  assert (C : exists c, cast_value t w = Ok (Some c) /\ same v c /\ typed t c).
  { destruct v as [z| | | | | | | | | | | | |]; try (eapply (fine_cast _ t w false false); eauto; intros; discriminate).
    cbn [encode_value] in E. assert (e = EInt z) by congruence. subst e. cbn in D. assert (w = VInt z) by congruence. subst w.
    inversion T'; subst. exists (VInt z). repeat split. constructor. }
  destruct C as (c & C & Qc & Tc). destruct (assign_shows v t c false T' Tc S F Qc) as (g & A & Sg).
  exists g. split; [|now constructor]. unfold RowsModel.result. cbn [encode_opt]. rewrite E. cbn [bind]. unfold RowsModel.row_value.
  destruct (through_engine e) eqn:TE; try contradiction; rewrite D; cbn [bind RowsModel.cast_opt]; rewrite C; exact A.
Qed.

(** ** Arguments *)
Fixpoint go_elems (l : list arg) : res (list (option val)) :=
  match l with [] => Ok [] | x :: r => bind (from_go x) (fun v => bind (go_elems r) (fun vs => Ok (v :: vs))) end.
Fixpoint go_fields (l : list (string * arg)) : res (list (string * option val)) :=
  match l with [] => Ok [] | (k, x) :: r => bind (from_go x) (fun v => bind (go_fields r) (fun vs => Ok ((k, v) :: vs))) end.
Lemma from_slice l : from_go (ASlice l) = bind (go_elems l) (fun vs => Ok (Some (VArray vs))).
Proof. reflexivity. Qed.
Lemma from_map l : from_go (AMap l) = bind (go_fields l) (fun vs => Ok (Some (VStruct vs))).
Proof. reflexivity. Qed.
Lemma from_struct l : from_go (AGoStruct l) = bind (go_fields l) (fun vs => Ok (Some (VStruct vs))).
Proof. reflexivity. Qed.
Lemma go_fields_keys l : forall vs, go_fields l = Ok vs -> map fst vs = map fst l.
Proof.
  induction l as [|[k x] l IH]; intros vs; cbn [go_fields]; [intros E; assert (vs = []) by congruence; now subst|].
  destruct (from_go x) as [v| |]; cbn [bind]; try discriminate. destruct (go_fields l) as [ws| |]; cbn [bind]; try discriminate.
  intros E. assert (vs = (k, v) :: ws) by congruence. subst. cbn. f_equal. now apply IH.
Qed.
Lemma go_fields_in l : forall vs k a, go_fields l = Ok vs -> In (k, a) l -> exists o, from_go a = Ok o /\ In (k, o) vs.
Proof.
  induction l as [|[k' x] l IH]; intros vs k a; cbn [go_fields]; [intros _ []|].
  destruct (from_go x) as [v| |] eqn:FX; cbn [bind]; try discriminate. destruct (go_fields l) as [ws| |]; cbn [bind]; try discriminate.
  intros E [I|I]; assert (vs = (k', v) :: ws) by congruence; subst vs.
  - assert (k' = k /\ x = a) as [-> ->] by (split; congruence). exists v. split; [exact FX|now left].
  - destruct (IH ws k a eq_refl I) as (o & A & B). exists o. split; [exact A|now right].
Qed.

Scheme stands_ind2 := Induction for stands Sort Prop
  with stands_elems_ind2 := Induction for stands_elems Sort Prop
  with stands_fields_ind2 := Induction for stands_fields Sort Prop
  with readable_ind2 := Induction for readable Sort Prop.
Definition arrives (t : ty) (a : arg) (o : option val) : Prop := exists w, from_go a = Ok w /\ cast_opt t w = Ok o.
Lemma struct_arrives l fs os :
  Forall2 (fun f x => fst f = fst x /\ exists a, In (fst f, a) l /\ arrives (snd f) a (snd x)) fs os -> Exists (fun f => fst f <> "") fs -> NoDup (map fst l) -> NoDup (map fst fs) ->
  (exists vs, go_fields l = Ok vs) -> exists vs, go_fields l = Ok vs /\ cast_value (TStruct fs) (VStruct vs) = Ok (Some (VStruct os)).
Proof.
  intros F NE NL NF (vs & G). exists vs. split; [exact G|]. rewrite cast_struct. pose proof (go_fields_keys _ _ G) as K.
  assert (AN : anonymous vs = false).
  { apply anonymous_false. apply Exists_exists in NE. destruct NE as (f & I & N). apply Exists_exists.
    assert (J : exists a, In (fst f, a) l).
    { clear -F I. induction F as [|g x fs os [_ (a & J & _)] _ IH]; [destruct I|]. destruct I as [->|I]; [eauto|auto]. }
    destruct J as (a & J). destruct (go_fields_in _ _ _ _ G J) as (o & _ & B). exists (fst f, o). auto. }
  rewrite AN. rewrite (cast_fields_each fs vs os NF); [reflexivity|].
  clear NE NF AN. induction F as [|f x fs os [E (a & J & w & W & C)] F IH]; constructor; auto. split; [exact E|].
  destruct (go_fields_in _ _ _ _ G J) as (o & A & B). assert (o = w) by congruence. subst o. exists w. split; [|exact C]. apply find_last_nodup; [now rewrite K|exact B].
Qed.
Lemma stands_arrives t a o : stands t a o -> arrives t a o.
Proof.
  intros H. induction H using stands_ind2 with
    (P0 := fun t l os _ => exists ws, go_elems l = Ok ws /\ cast_elems t ws = Ok os)
    (P1 := fun l fs os _ => Forall2 (fun f x => fst f = fst x /\ exists a, In (fst f, a) l /\ arrives (snd f) a (snd x)) fs os)
    (P2 := fun l _ => exists vs, go_fields l = Ok vs).
  all: try (eexists; split; reflexivity).
  - exists (Some (VInt z)). split; [|reflexivity]. cbn [from_go]. rewrite wrap64_id by (unfold in64, two63; lia). reflexivity.
  - destruct IHstands as (w & A & B). exists w. split; assumption.
  - destruct IHstands as (ws & A & B). exists (Some (VArray ws)). rewrite from_slice, A. split; [reflexivity|]. cbn [RowsModel.cast_opt]. now rewrite cast_array, B.
  - destruct (struct_arrives l fs os) as (vs & A & B); auto. exists (Some (VStruct vs)). rewrite from_map, A. split; [reflexivity|exact B].
  - destruct (struct_arrives l fs os) as (vs & A & B); auto. exists (Some (VStruct vs)). rewrite from_struct, A. split; [reflexivity|exact B].
  - destruct IHstands as (w & A & B). destruct IHstands0 as (ws & C & D). exists (w :: ws). cbn [go_elems cast_elems]. rewrite A, C. split; [reflexivity|]. cbn [cast_elems]. now rewrite B, D.
  - constructor.
  - constructor; [|assumption]. split; [reflexivity|]. exists a. auto.
  - destruct IHstands as (w & A & B). destruct IHstands0 as (ws & C). exists ((k, w) :: ws). cbn [go_fields]. now rewrite A, C.
Qed.
Lemma stands_bound t a o : stands t a o -> bound t a = encode_opt o.
Proof. intros H. destruct (stands_arrives _ _ _ H) as (w & A & B). unfold RowsModel.bound. rewrite A. cbn [bind]. now rewrite B. Qed.
End Rows.
