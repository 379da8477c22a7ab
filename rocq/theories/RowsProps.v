(** Properties C179 to C188: what a row holds and what becomes of arguments. *)
From Coq Require Import Ascii String List ZArith QArith Lia Bool SpecFloat.
From Verif Require Import GoBase GoBaseFacts CalendarModel InstantModel DecModel ValueModel FloatFacts Utf8Model EncModel ClockTextModel ClockTextSpec CodecModel CodecSpec CodecProofs
  TimeTextModel TimeTextSpec JsonSpec JsonModel JsonDocSpec RowsModel RowsSpec RowsProofs.
Import ListNotations.
Local Open Scope string_scope.
Open Scope Z_scope.

Section Rows.
Variable other : ty -> val -> res (option val).
Variable struct_text : list (string * option val) -> string.
Variable stamp_text : Z -> string.
Variable interval_go : Z -> Z -> Z -> go.
Notation result := (result other struct_text stamp_text interval_go).
Notation bound := (bound other struct_text).
Notation selected := (selected other struct_text stamp_text interval_go).

(** C179, C180: a value of a column of any type, however nested. *)
Theorem c179_values_are_shown : forall t o, typed_opt t o -> match o with Some v => storable false v /\ fine false v | None => True end ->
  exists g, result t o = Ok g /\ shows_opt o g.
Proof. exact (result_shows other struct_text stamp_text interval_go). Qed.
(** In particular NULL is nil, for every type, and nothing else is. *)
Theorem c179_null : forall t o, typed_opt t o -> match o with Some v => storable false v /\ fine false v | None => True end ->
  (result t o = Ok GNil <-> o = None).
Proof.
  intros t o T P. split; [|now intros ->]. intros E. destruct (c179_values_are_shown t o T P) as (g & R & H). assert (g = GNil) by congruence. subst.
  inversion H as [|? ? S]; subst; [reflexivity|inversion S].
Qed.
(** Different texts are told apart: the field of a struct is found under its name, at its
    place. *)
Theorem c180_fields : forall fs l, typed (TStruct fs) (VStruct l) -> storable false (VStruct l) -> fine false (VStruct l) ->
  exists gs, result (TStruct fs) (Some (VStruct l)) = Ok (GMaps gs) /\ map fst gs = map fst fs /\
    Forall2 (fun p g => shows_opt (snd p) (snd g)) l gs.
Proof.
  intros fs l T S F. destruct (c179_values_are_shown (TStruct fs) (Some (VStruct l)) (ty_some _ _ T) (conj S F)) as (g & R & H).
  inversion H as [|? ? H']; subst. inversion H' as [| | | | | | | | | | | |? gs Q]; subst. exists gs. split; [exact R|].
  inversion T as [| | | | | | | | | | | |? ? TL]; subst. split.
  - clear -TL Q. revert gs Q. induction TL as [|f p fs l [E _] _ IH]; intros gs Q; inversion Q as [|? g ? gs' [E' _] Q']; subst; [reflexivity|]. cbn. rewrite (IH gs' Q'). congruence.
  - clear -Q. induction Q as [|? ? ? ? [_ ?] _ IH]; constructor; auto.
Qed.

(** C181: with STRING fields whose names are not all empty, every field shows the last value
    that has its name. *)
Lemma strings_cast l : forall m, (forall k, In k (map fst l) -> exists s, find_last k m = Some (Some (VStr s))) ->
  cast_fields other struct_text (map (fun p : string * string => (fst p, TStr)) l) m =
  Ok (map (fun p : string * string => (fst p, match find_last (fst p) m with Some o => o | None => None end)) l).
Proof.
  induction l as [|[k x] l IH]; intros m H; [reflexivity|]. cbn [map fst cast_fields]. destruct (H k ltac:(now left)) as (s & E). rewrite E.
  cbn [RowsModel.cast_opt RowsModel.cast_value bind].
  assert (G : forall k', find_last k' (m ++ [(k, Some (VStr s))])%list = find_last k' m).
  { intros k'. rewrite find_last_app. cbn. destruct (String.eqb_spec k k'); [now subst|reflexivity]. }
  rewrite IH.
  - cbn [bind]. do 2 f_equal. apply map_ext. intros [k' x']. cbn. now rewrite G.
  - intros k' I. rewrite G. apply H. now right.
Qed.
Theorem c181_duplicate_names_refuted : forall l : list (string * string),
  Forall (fun p => text_ok (fst p) /\ text_ok (snd p)) l -> Exists (fun p => fst p <> "") l ->
  exists gs, result (TStruct (map (fun p => (fst p, TStr)) l)) (Some (VStruct (map (fun p => (fst p, Some (VStr (snd p)))) l))) = Ok (GMaps gs) /\
    Forall2 (fun p g => fst g = fst p /\ exists s, last_named (fst p) l s /\ snd g = GText s) l gs.
Proof.
  intros l W N. set (L := map (fun p : string * string => (fst p, Some (VStr (snd p)))) l).
  assert (E : encode_value (VStruct L) = Ok (EStruct (map fst l) (map (fun p => EText HString (snd p)) l))).
  { rewrite encode_struct. assert (G : encode_elems (map snd L) = Ok (map (fun p => EText HString (snd p)) l)).
    { subst L. clear N. induction W as [|[k x] l [_ Wx] W IH]; [reflexivity|]. cbn [map snd fst encode_elems]. cbn [fst snd] in *. rewrite IH.
      unfold encode_elem, encode_opt, encode_value. rewrite (sanitize_ok x Wx). reflexivity. }
    rewrite G. cbn [bind]. f_equal. f_equal. subst L. rewrite map_map. clear N G. induction W as [|[k x] l [Wk _] W IH]; [reflexivity|]. cbn [map]. f_equal; [now apply sanitize_ok|exact IH]. }
  assert (D : decode_value (EStruct (map fst l) (map (fun p => EText HString (snd p)) l)) = Ok (Some (VStruct L))).
  { rewrite decode_struct. assert (G : decode_elems (map (fun p => EText HString (snd p)) l) = Ok (map snd L)).
    { subst L. clear. induction l as [|[k x] l IH]; [reflexivity|]. cbn [map snd decode_elems]. rewrite IH. reflexivity. }
    rewrite G. cbn [bind]. rewrite !map_length, Nat.leb_refl. do 3 f_equal. subst L. clear. induction l as [|[k x] l IH]; [reflexivity|]. cbn. now rewrite IH. }
  assert (F : forall k, find_last k L = option_map (fun s => Some (VStr s)) (find_last k l)).
  { intros k. subst L. clear. induction l as [|[k' x] l IH]; [reflexivity|]. cbn. rewrite IH. destruct (find_last k l); [reflexivity|]. cbn. now destruct (k' =? k)%string. }
  assert (A : anonymous L = false).
  { apply anonymous_false. subst L. clear -N. induction N; cbn; [now left|now right]. }
  assert (P : forall k, In k (map fst l) -> exists s, find_last k l = Some s).
  { intros k I. destruct (find_last k l) eqn:Q; [eauto|]. apply find_last_none in Q. contradiction. }
  eexists. split.
  - unfold RowsModel.result. cbn [encode_opt]. rewrite E. cbn [bind through_engine]. unfold row_value. rewrite D. cbn [bind cast_opt]. rewrite cast_struct, A.
    rewrite strings_cast; [|intros k I; destruct (P k I) as (s & Q); rewrite F, Q; now exists s]. cbn [bind assign]. rewrite iface_struct. reflexivity.
  - clear -F P. rewrite map_map. cbn [fst snd]. assert (G : forall l', incl l' l ->
      Forall2 (fun (p : string * string) g => fst g = fst p /\ exists s, last_named (fst p) l s /\ snd g = GText s) l'
        (map (fun x => (fst x, iface_opt stamp_text interval_go (match find_last (fst x) L with Some o => o | None => None end))) l')).
    { induction l' as [|[k x] l' IH]; intros I; cbn [map]; constructor.
      - cbn [fst snd]. split; [reflexivity|]. destruct (P k) as (s & Q); [change k with (fst (k, x)); apply in_map, I; now left|].
        exists s. split; [now apply find_last_iff|]. now rewrite F, Q.
      - apply IH. intros y Y. apply I. now right. }
    apply G, incl_refl.
Qed.

(** C182: inside a STRUCT a NUMERIC is a fraction with a slash, BYTES are not base64 text, two
    TIMESTAMPs of the same second look alike; JSON is not its text. *)
Theorem c182_inside_struct_refuted : forall k, text_ok k -> k <> "" ->
  (forall q, result (TStruct [(k, TNum)]) (Some (VStruct [(k, Some (VNum q))])) =
     Ok (GMaps [(k, GText (dec (Qnum (Qred q)) ++ "/" ++ udec (Zpos (Qden (Qred q)))))])) /\
  (forall s, result (TStruct [(k, TBytes)]) (Some (VStruct [(k, Some (VBytes s))])) = Ok (GMaps [(k, GBytes s)]) /\
     exists t, result TBytes (Some (VBytes s)) = Ok (GText t)) /\
  (forall a b, storable false (VTimestamp a) -> storable false (VTimestamp b) -> a / 1000000000 = b / 1000000000 ->
     result (TStruct [(k, TTimestamp)]) (Some (VStruct [(k, Some (VTimestamp a))])) =
     result (TStruct [(k, TTimestamp)]) (Some (VStruct [(k, Some (VTimestamp b))])) /\
     (result TTimestamp (Some (VTimestamp a)) = result TTimestamp (Some (VTimestamp b)) -> a = b)).
Proof.
  intros k Wk Nk.
  assert (G : forall t v h b w, encode_value v = Ok (EText h b) -> decode_text h b = Ok (Some w) -> cast_value other struct_text t w = Ok (Some w) ->
    result (TStruct [(k, t)]) (Some (VStruct [(k, Some v)])) = Ok (GMaps [(k, iface stamp_text interval_go w)])).
  { intros t v h b w E D C. unfold RowsModel.result. cbn [encode_opt]. rewrite encode_struct. cbn [map snd encode_elems]. unfold encode_elem, encode_opt. rewrite E. cbn [bind marshal through_engine map fst].
    rewrite (sanitize_ok k Wk). unfold row_value. rewrite decode_struct. cbn [decode_elems decode_elem]. cbn [decode_value]. rewrite D. cbn [bind List.length Nat.leb combine cast_opt].
    rewrite cast_struct. cbn [anonymous]. destruct (String.eqb_spec k ""); [contradiction|]. cbn [andb cast_fields find_last]. rewrite String.eqb_refl. cbn [cast_opt]. rewrite C. reflexivity. }
  split; [|split].
  - intros q. rewrite (G TNum (VNum q) HNumeric (sanitize (rat_text q)) (VNum (Qred q))); [|reflexivity|cbn [decode_text]; now rewrite rat_round|reflexivity].
    cbn [iface]. now rewrite (Qred_complete (Qred q) q (Qred_correct q)).
  - intros s. split.
    + rewrite (G TBytes (VBytes s) HBytes (sanitize (base64_text s)) (VBytes s)); [reflexivity|reflexivity|cbn [decode_text]; now rewrite base64_round|reflexivity].
    + exists (base64_text s). unfold RowsModel.result. cbn [encode_opt encode_value bind through_engine]. unfold row_value. cbn [decode_value decode_text]. rewrite base64_round. reflexivity.
  - intros a b [Ma Ra] [Mb Rb] E. split.
    + rewrite (G TTimestamp (VTimestamp a) HTimestamp (dec (unix_micro a)) (VTimestamp a)); [|reflexivity|cbn [decode_text]; now rewrite timestamp_round|reflexivity].
      rewrite (G TTimestamp (VTimestamp b) HTimestamp (dec (unix_micro b)) (VTimestamp b)); [|reflexivity|cbn [decode_text]; now rewrite timestamp_round|reflexivity].
      cbn [iface]. unfold unix, ns_per_sec. now rewrite E.
    + unfold RowsModel.result. cbn [encode_opt encode_value bind through_engine]. unfold row_value. cbn [decode_value decode_text].
      rewrite !timestamp_round by auto. cbn [lift bind cast_opt cast_value assign]. intros Q. assert (Q' : timestamp_text a = timestamp_text b) by congruence.
      assert (T : forall t, t mod 1000 = 0 -> - 2 ^ 63 <= t / 1000 < 2 ^ 63 -> time_from_text (timestamp_text t) = Ok t).
      { intros t M R. rewrite TimeTextProps.c30_back_partial; [f_equal; lia|]. rewrite InstantFacts.unix_micro_floor. unfold in64, two63. lia. }
      pose proof (T a Ma Ra) as A. rewrite Q', (T b Mb Rb) in A. congruence.
Qed.

(** C183: the INT64 fields of a STRUCT without names come as float64. *)
Theorem c183_unnamed_fields_refuted : forall zs : list Z, zs <> [] ->
  result (TStruct (map (fun _ => ("", TInt)) zs)) (Some (VStruct (map (fun z => ("", Some (VInt z))) zs))) =
  Ok (GMaps (map (fun z => ("", GFloat (float_of_int z))) zs)).
Proof.
  intros zs N. unfold RowsModel.result. cbn [encode_opt]. rewrite encode_struct.
  assert (E : encode_elems (map snd (map (fun z => ("", Some (VInt z))) zs)) = Ok (map EInt zs)).
  { clear N. induction zs as [|z zs IH]; [reflexivity|]. cbn [map snd encode_elems]. rewrite IH. reflexivity. }
  rewrite E. cbn [bind through_engine]. unfold row_value. rewrite decode_struct.
  assert (D : decode_elems (map EInt zs) = Ok (map (fun z => Some (VFloat (float_of_int z))) zs)).
  { clear N E. induction zs as [|z zs IH]; [reflexivity|]. cbn [map decode_elems]. rewrite IH. reflexivity. }
  rewrite D. cbn [bind]. rewrite !map_length, Nat.leb_refl. cbn [bind cast_opt].
  assert (C : combine (map (fun p => sanitize (fst p)) (map (fun z => ("", Some (VInt z))) zs)) (map (fun z => Some (VFloat (float_of_int z))) zs) =
    map (fun z => ("", Some (VFloat (float_of_int z)))) zs).
  { rewrite map_map. clear. induction zs as [|z zs IH]; [reflexivity|]. cbn [map combine]. rewrite IH. reflexivity. }
  rewrite C, cast_struct. assert (A : anonymous (map (fun z => ("", Some (VFloat (float_of_int z)))) zs) = true) by (clear; induction zs; auto).
  rewrite A. cbn [bind assign]. rewrite iface_struct, map_map. reflexivity.
Qed.

(** C184: an argument arrives as the value it stands for, and SELECT of it shows that value. *)
Theorem c184_arguments_arrive : forall t a o, stands t a o -> bound t a = encode_opt o.
Proof. exact (stands_bound other struct_text). Qed.
Theorem c184_arguments_come_back : forall t a o, stands t a o -> typed_opt t o -> match o with Some v => storable false v /\ fine false v | None => True end ->
  exists g, selected t a = Ok g /\ shows_opt o g.
Proof.
  intros t a o S T P. destruct (c179_values_are_shown t o T P) as (g & R & H). exists g. split; [|exact H].
  unfold RowsModel.selected. rewrite (c184_arguments_arrive t a o S). exact R.
Qed.

(** An integer for a BOOL parameter has to be 0 or 1. *)
Theorem c184_integer_as_bool : forall z, in64 z ->
  (forall b : bool, bound TBool (AInt z) = encode_opt (Some (VBool b)) <-> z = if b then 1 else 0) /\
  (z <> 0 -> z <> 1 -> bound TBool (AInt z) = Err).
Proof.
  intros z B. unfold RowsModel.bound. cbn [from_go bind RowsModel.cast_opt RowsModel.cast_value]. rewrite ?wrap64_id by exact B.
  destruct (Z.eqb_spec z 0) as [->|N0]; [|destruct (Z.eqb_spec z 1) as [->|N1]]; (split; [|intros; try congruence]).
  - intros [|]; cbn; split; congruence.
  - intros [|]; cbn; split; congruence.
  - intros [|]; cbn; split; intros; congruence.
  - reflexivity.
Qed.

(** C185: an unsigned integer above the INT64 range becomes a negative number; no error. *)
Theorem c185_unsigned_refuted : forall z, 2 ^ 63 <= z < 2 ^ 64 -> bound TInt (AUint z) = Ok (EInt (z - 2 ^ 64)) /\ selected TInt (AUint z) = Ok (GInt (z - 2 ^ 64)) /\ z - 2 ^ 64 < 0.
Proof.
  intros z B. assert (W : wrap64 z = z - 2 ^ 64).
  { transitivity (wrap64 (z - 2 ^ 64 + 1 * two64)); [f_equal; unfold two64; lia|]. rewrite wrap64_add_two64. apply wrap64_id. unfold in64, two63. lia. }
  unfold RowsModel.selected, RowsModel.bound. cbn [from_go bind]. rewrite W. cbn. repeat split; lia.
Qed.

(** C186: a nil pointer crashes, whatever the type, also inside a slice, a map or a struct. *)
Inductive holds_nil : arg -> Prop :=
| hn_nil : holds_nil (APtr None)
| hn_ptr a : holds_nil a -> holds_nil (APtr (Some a))
| hn_slice l1 a l2 : Forall (fun x => exists o, from_go x = Ok o) l1 -> holds_nil a -> holds_nil (ASlice (l1 ++ a :: l2))
| hn_map l1 k a l2 : Forall (fun x => exists o, from_go (snd x) = Ok o) l1 -> holds_nil a -> holds_nil (AMap (l1 ++ (k, a) :: l2))
| hn_struct l1 k a l2 : Forall (fun x => exists o, from_go (snd x) = Ok o) l1 -> holds_nil a -> holds_nil (AGoStruct (l1 ++ (k, a) :: l2)).
Theorem c186_nil_pointer_refuted : forall t a, holds_nil a -> bound t a = GoPanic.
Proof.
  intros t a H. unfold RowsModel.bound. assert (E : from_go a = GoPanic); [|now rewrite E].
  assert (F : forall l1 k a l2, Forall (fun x : string * arg => exists o, from_go (snd x) = Ok o) l1 -> from_go a = GoPanic -> go_fields (l1 ++ (k, a) :: l2)%list = GoPanic).
  { intros l1 k a' l2 P E. induction P as [|[k' x] l (o & O) P IH]; cbn [app go_fields]; [now rewrite E|]. cbn [snd] in O. now rewrite O, IH. }
  induction H as [|a H IH|l1 a l2 P H IH|l1 k a l2 P H IH|l1 k a l2 P H IH]; auto.
  - rewrite from_slice. assert (G : go_elems (l1 ++ a :: l2)%list = GoPanic); [|now rewrite G].
    induction P as [|x l (o & O) P IHl]; cbn [app go_elems]; [now rewrite IH|]. now rewrite O, IHl.
  - now rewrite from_map, F.
  - now rewrite from_struct, F.
Qed.

(** C187: a sql.NullInt64, NullFloat64 or NullBool is an error whether it is valid or not; a
    sql.NullString is the text of a struct and never NULL. *)
Theorem c187_null_types_refuted : forall k a valid, (exists o, from_go a = Ok o) ->
  (forall t, In t [TInt; TFloat; TBool] -> bound t (AGoStruct [(k, a); ("Valid", ABool valid)]) = Err) /\
  exists s, bound TStr (AGoStruct [(k, a); ("Valid", ABool valid)]) = Ok (EText HString s).
Proof.
  intros k a valid (o & O). unfold RowsModel.bound. rewrite from_struct. cbn [go_fields]. rewrite O. cbn [bind from_go cast_opt]. split.
  - intros t [<-|[<-|[<-|[]]]]; reflexivity.
  - eexists. reflexivity.
Qed.

(** C188: a field that the Go struct or map spells differently is NULL, without an error. *)
Theorem c188_unmatched_fields_refuted : forall k t l vs, go_fields l = Ok vs -> ~ In k (map fst l) -> Exists (fun p => fst p <> "") l ->
  bound (TStruct [(k, t)]) (AGoStruct l) = encode_opt (Some (VStruct [(k, None)])).
Proof.
  intros k t l vs G N E. unfold RowsModel.bound. rewrite from_struct, G. cbn [bind cast_opt]. rewrite cast_struct. pose proof (go_fields_keys _ _ G) as K.
  assert (A : anonymous vs = false).
  { apply anonymous_false. clear -K E. revert vs K. induction E as [p l E|p l _ IH]; intros [|q vs] K; try discriminate; cbn in K; injection K as K1 K2; [left; congruence|right; auto]. }
  rewrite A. cbn [cast_fields]. assert (F : find_last k vs = None) by (apply find_last_none; now rewrite K). rewrite F. reflexivity.
Qed.
End Rows.

(** A row with an array of structs in a struct. *)
Example c179_example :
  let t := TStruct [("id", TInt); ("tags", TArray (TStruct [("on", TBool); ("d", TDate)]))] in
  let v := VStruct [("id", Some (VInt 7)); ("tags", Some (VArray [Some (VStruct [("on", Some (VBool true)); ("d", Some (VDate (19782 * ns_per_day)))]); None]))] in
  typed t v /\ storable false v /\ fine false v /\
  forall other st sp iv, result other st sp iv t (Some v) = Ok (GMaps [("id", GInt 7); ("tags", GList [GMaps [("on", GBool true); ("d", GText "2024-02-29")]; GNil])]).
Proof.
  cbv zeta. split; [repeat constructor|]. split.
  - assert (W : forall s, Forall (fun c => b2z c < 128) (list_ascii_of_string s) -> text_ok s).
    { intros s H. apply ascii_text_ok. exact H. }
    repeat split; try (apply W; repeat constructor); try reflexivity; cbn; try lia; discriminate.
  - split; [|intros; reflexivity].
    repeat first [match goal with |- _ \/ Exists _ _ => right; left; discriminate end|match goal with |- ~ _ => cbn; intuition discriminate end|constructor; cbn [map fst snd]].
Qed.
Example c179_numeric : forall other st sp iv, result other st sp iv (TArray TNum) (Some (VArray [Some (VNum (-5 # 2))])) = Ok (GList [GText "-2.5"]).
Proof. intros. reflexivity. Qed.
Example c181_example : forall other st sp iv, result other st sp iv (TStruct [("a", TStr); ("a", TStr)]) (Some (VStruct [("a", Some (VStr "x")); ("a", Some (VStr "y"))])) =
  Ok (GMaps [("a", GText "y"); ("a", GText "y")]).
Proof. intros. reflexivity. Qed.
Example c182_example : forall other st sp iv, result other st sp iv (TStruct [("n", TNum)]) (Some (VStruct [("n", Some (VNum (5 # 2)))])) = Ok (GMaps [("n", GText "5/2")]).
Proof. intros. reflexivity. Qed.
(** A map in the other order, with a pointer and a slice. *)
Example c184_example :
  let t := TStruct [("id", TInt); ("names", TArray TStr)] in
  let a := AMap [("names", ASlice [AStr "x"; ANil]); ("more", ABool true); ("id", APtr (Some (AUint 7)))] in
  stands t a (Some (VStruct [("id", Some (VInt 7)); ("names", Some (VArray [Some (VStr "x"); None]))])) /\
  forall other st sp iv, selected other st sp iv t a = Ok (GMaps [("id", GInt 7); ("names", GList [GText "x"; GNil])]).
Proof.
  cbv zeta. split; [|intros; reflexivity].
  assert (E : stands TInt (APtr (Some (AUint 7))) (Some (VInt 7))) by (repeat constructor; lia).
  assert (L : stands (TArray TStr) (ASlice [AStr "x"; ANil]) (Some (VArray [Some (VStr "x"); None]))) by repeat constructor.
  apply st_map.
  - eapply st_field; [right; right; left; reflexivity|exact E|]. eapply st_field; [left; reflexivity|exact L|constructor].
  - left. discriminate.
  - repeat constructor; cbn; intuition discriminate.
  - repeat constructor; cbn; intuition discriminate.
  - eapply rd_cons; [exact L|]. eapply rd_cons; [apply st_bool|]. eapply rd_cons; [exact E|constructor].
Qed.
Example c185_example : forall other st sp iv, selected other st sp iv TInt (AUint (2 ^ 64 - 1)) = Ok (GInt (-1)).
Proof. intros. reflexivity. Qed.
Example c186_example : holds_nil (ASlice [AInt 1; APtr None]).
Proof. apply (hn_slice [AInt 1] (APtr None) []); [repeat constructor; eexists; reflexivity|constructor]. Qed.
Example c188_example : forall other st, bound other st (TStruct [("name", TStr)]) (AGoStruct [("Name", AStr "x")]) = encode_opt (Some (VStruct [("name", None)])).
Proof. intros. reflexivity. Qed.

Print Assumptions c179_values_are_shown.
Print Assumptions c179_null.
Print Assumptions c180_fields.
Print Assumptions c181_duplicate_names_refuted.
Print Assumptions c182_inside_struct_refuted.
Print Assumptions c183_unnamed_fields_refuted.
Print Assumptions c184_arguments_arrive.
Print Assumptions c184_arguments_come_back.
Print Assumptions c184_integer_as_bool.
Print Assumptions c185_unsigned_refuted.
Print Assumptions c186_nil_pointer_refuted.
Print Assumptions c187_null_types_refuted.
Print Assumptions c188_unmatched_fields_refuted.
