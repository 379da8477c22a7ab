(** Properties of nested expressions (C355 to C359). *)
From Coq Require Import Ascii String List ZArith QArith Lia Bool SpecFloat.
From Verif Require Import GoBase DecModel DecFacts CalendarModel InstantModel ValueModel Utf8Model CodecModel CodecSpec CodecProofs JsonSpec JsonModel TextModel ArrayFnModel FormatModel.
From Verif Require RowsModel RowsProofs.
From Verif Require Import NestModel NestSpec NestProofs.
Import ListNotations.
Open Scope Z_scope.

(** ** C355: ARRAY and STRUCT expressions of any depth *)
(** The value of the program stands for the value that is meant, as what the function returns and
    after it has passed to the next function. *)
Theorem c355_nested : forall e o, fine e -> mean e = Some o ->
  exists o1 o2, eval e = Ok o1 /\ stands_opt o o1 /\ arrive e = Ok o2 /\ stands_opt o o2.
Proof.
  intros e o F M. destruct (proj1 nested e o F M) as (K & o1 & E & Q). destruct (passes o o1 K Q) as (o2 & R & Q2).
  exists o1, o2. unfold arrive. rewrite E. cbn [bind]. tauto.
Qed.
(** Read as INT64 or FLOAT64, or taken as STRING, it is that value. *)
Theorem c355_read : forall other struct_text e, fine e ->
  (forall z, mean e = Some (Some (VInt z)) -> bind (arrive e) (RowsModel.cast_opt other struct_text RowsModel.TInt) = Ok (Some (VInt z))) /\
  (forall f, mean e = Some (Some (VFloat f)) -> bind (arrive e) (RowsModel.cast_opt other struct_text RowsModel.TFloat) = Ok (Some (VFloat f))) /\
  (forall s, mean e = Some (Some (VStr s)) -> arrive e = Ok (Some (VStr s))) /\
  (mean e = Some None -> arrive e = Ok None).
Proof.
  intros other struct_text e F.
  assert (G : forall v, mean e = Some (Some v) -> exists w, arrive e = Ok (Some w) /\ stands v w /\ storable true v).
  { intros v M. destruct (proj1 nested e (Some v) F M) as (K & _). destruct (c355_nested e (Some v) F M) as (o1 & o2 & _ & _ & A & Q). destruct o2 as [w|]; [|contradiction]. exists w. cbn in *. tauto. }
  split; [|split; [|split]].
  - intros z M. destruct (G _ M) as (w & A & Q & S). rewrite A. cbn [bind RowsModel.cast_opt]. destruct w; cbn [stands same] in Q; try contradiction; cbn [RowsModel.cast_value]; [now subst|].
    rewrite (RowsProofs.int_of_same z f S Q). reflexivity.
  - intros f M. destruct (G _ M) as (w & A & Q & S). rewrite A. cbn [bind RowsModel.cast_opt]. destruct w; cbn [stands same] in Q; try contradiction. now subst.
  - intros s M. destruct (G _ M) as (w & A & Q & S). rewrite A. destruct w; cbn [stands same] in Q; try contradiction. now subst.
  - intros M. destruct (c355_nested e None F M) as (o1 & o2 & _ & _ & A & Q). rewrite A. destruct o2; [contradiction|reflexivity].
Qed.
(** STRUCT([1, 2] AS a, 'x' AS b).a[OFFSET(1)] *)
Definition ex_nest : expr :=
  EAt 0 false (EField (EStruct (XCons "a" (EArray (XCons "" (EValue (Some (VInt 1))) (XCons "" (EValue (Some (VInt 2))) XNil))) (XCons "b" (EValue (Some (VStr "x"))) XNil))) 0) 1.
Example c355_example : fine ex_nest /\ mean ex_nest = Some (Some (VInt 2)) /\ arrive ex_nest <> Ok (Some (VInt 2)).
Proof. split; [|split; [reflexivity|vm_compute; discriminate]]. cbn. repeat split; try reflexivity; try (apply ascii_text_ok; cbn; repeat constructor). Qed.

(** ** C356: large INT64 values in arrays *)
(** A value taken out of an array or struct comes as a FLOAT64, and so it is that of the INT64 exactly
    if the conversion to FLOAT64 and back keeps it. *)
Theorem c356_element_refuted : forall other struct_text,
  (forall z, let a := EAt 0 false (EArray (XCons "" (EValue (Some (VInt z))) XNil)) 0 in
    let f := EField (EStruct (XCons "a" (EValue (Some (VInt z))) XNil)) 0 in
    eval a = Ok (Some (VFloat (float_of_int z))) /\ eval f = Ok (Some (VFloat (float_of_int z))) /\
    (bind (eval a) (RowsModel.cast_opt other struct_text RowsModel.TInt) = Ok (Some (VInt z)) <-> int_of_float (float_of_int z) = z)) /\
  exists z, in64 z /\ exists z', z' <> z /\
    bind (arrive (EAt 0 false (EArray (XCons "" (EValue (Some (VInt z))) XNil)) 0)) (RowsModel.cast_opt other struct_text RowsModel.TInt) = Ok (Some (VInt z')) /\
    bind (arrive (EField (EStruct (XCons "a" (EValue (Some (VInt z))) XNil)) 0)) (RowsModel.cast_opt other struct_text RowsModel.TInt) = Ok (Some (VInt z')).
Proof.
  intros other struct_text. split.
  - intros z. split; [reflexivity|]. split; [reflexivity|].
    change (Ok (Some (VInt (int_of_float (float_of_int z)))) = Ok (Some (VInt z)) <-> int_of_float (float_of_int z) = z). split; congruence.
  - exists (2 ^ 53 + 1). split; [vm_compute; split; congruence|]. exists (2 ^ 53). split; [lia|]. split; vm_compute; reflexivity.
Qed.

(** ** C357: TO_JSON of a BOOL *)
(** A BOOL comes to the function as a number.  So it is written as one, whatever BOOL expression it
    is: a literal, a column, a comparison (EValue), an element or a field. *)
Section Json.
Variable printable : Z -> bool.
Variable float_text : float -> bytes.
Variable interval_text : Z -> Z -> Z -> bytes.
Notation json_of := (to_json_of printable float_text interval_text).
Notation json_string_of := (to_json_string_of printable float_text interval_text).
Theorem c357_scalar_refuted : forall b,
  json_of (EValue (Some (VBool b))) = Ok (Some (VJson (if b then "1" else "0"))) /\
  json_string_of (EValue (Some (VBool b))) = Ok (Some (VStr (if b then "1" else "0"))).
Proof. intros [|]; split; reflexivity. Qed.
(** ARRAY[b] and STRUCT(b AS k) with an expression for b *)
Theorem c357_inside_refuted : forall b k, text_ok k ->
  json_string_of (EArray (XCons "" (EValue (Some (VBool b))) XNil)) =
    Ok (Some (VStr (string_of ("["%char :: sprint_float float_text (float_of_int (if b then 1 else 0)) ++ ["]"%char])%list))) /\
  json_string_of (EStruct (XCons k (EValue (Some (VBool b))) XNil)) =
    Ok (Some (VStr (string_of ("{"%char :: (quote printable (text_of k) ++ ":"%char :: sprint_float float_text (float_of_int (if b then 1 else 0))) ++ ["}"%char])%list))).
Proof.
  intros b k T. split; [destruct b; reflexivity|]. unfold to_json_string_of, arrive. cbn [eval eval_all bind]. rewrite (sanitize_ok k T).
  destruct b; cbn -[float_of_int sprint_float quote sanitize]; rewrite (sanitize_ok k T); reflexivity.
Qed.
(** Every BOOL expression: the text is that of the number 0 or 1. *)
Theorem c357_every_refuted : forall e b, fine e -> mean e = Some (Some (VBool b)) ->
  exists s, json_string_of e = Ok (Some (VStr s)) /\ json_of e = Ok (Some (VJson s)) /\
    (s = dec (if b then 1 else 0) \/ exists f, float_is f (if b then 1 else 0) /\ s = string_of (float_text f)).
Proof.
  intros e b F M. destruct (proj1 nested e (Some (VBool b)) F M) as (_ & o1 & E & Q). destruct o1 as [w|]; [|contradiction]. cbn [stands_opt] in Q.
  unfold to_json_string_of, to_json_of, arrive. rewrite E. cbn [bind].
  destruct w; cbn [stands same] in Q; try contradiction.
  - subst z. exists (dec (if b then 1 else 0)). split; [destruct b; reflexivity|]. split; [destruct b; reflexivity|]. now left.
  - exists (string_of (float_text f)). assert (R : round_trip (Some (VFloat f)) = Ok (Some (VFloat f)) /\ sprint_float float_text f = float_text f) by (destruct f; try contradiction; split; reflexivity).
    destruct R as [R T]. rewrite R. cbn [bind]. unfold fn_to_json_string, fn_to_json. cbn [JsonModel.flag bind to_json]. rewrite T. split; [reflexivity|]. split; [reflexivity|]. right. now exists f.
  - subst b0. exists (dec (if b then 1 else 0)). split; [destruct b; reflexivity|]. split; [destruct b; reflexivity|]. now left.
Qed.
Example c357_example : fine (EAt 1 true (EValue (Some (VArray [Some (VBool true)]))) 1) /\ mean (EAt 1 true (EValue (Some (VArray [Some (VBool true)]))) 1) = Some (Some (VBool true)).
Proof. split; [|reflexivity]. cbn. tauto. Qed.

(** ** C358: FORMAT with %t and a BOOL *)
Theorem c358_refuted : forall format_float positive json_text printed b,
  format_of format_float positive json_text printed "%t" (EValue (Some (VBool b))) = Ok (Some (if b then "1" else "0")%string) /\
  format_of format_float positive json_text printed "%T" (EValue (Some (VBool b))) = Ok (Some (if b then "1" else "0")%string).
Proof. intros format_float positive json_text printed [|]; split; reflexivity. Qed.

(** ** C359: TO_JSON_STRING of an ARRAY<INT64> *)
(** The elements are written as fmt.Sprint writes a FLOAT64; alone each would be written as an INT64. *)
Fixpoint int_exprs (l : list Z) : exprs := match l with [] => XNil | z :: r => XCons "" (EValue (Some (VInt z))) (int_exprs r) end.
Lemma eval_ints l : eval_all (int_exprs l) = Ok (map (fun z => (""%string, Some (VInt z))) l).
Proof.
  induction l as [|z l IH]; [reflexivity|]. cbn [int_exprs eval_all eval bind map]. change (round_trip (Some (VInt z))) with (Ok (Some (VInt z)) : res (option val)).
  cbn [bind]. rewrite IH. reflexivity.
Qed.
Lemma encode_ints l : encode_elems (map (fun z => Some (VInt z)) l) = Ok (map EInt l).
Proof. induction l as [|z l IH]; [reflexivity|]. cbn [map encode_elems encode_elem encode_opt encode_value bind marshal]. rewrite IH. reflexivity. Qed.
Lemma decode_ints l : decode_elems (map EInt l) = Ok (map (fun z => Some (VFloat (float_of_int z))) l).
Proof. induction l as [|z l IH]; [reflexivity|]. cbn [map decode_elems decode_elem bind]. rewrite IH. reflexivity. Qed.
Lemma arrive_ints l : arrive (EArray (int_exprs l)) = Ok (Some (VArray (map (fun z => Some (VFloat (float_of_int z))) l))).
Proof.
  unfold arrive. cbn [eval]. rewrite eval_ints. cbn [bind]. rewrite map_map. cbn [snd]. unfold round_trip, encode_opt.
  rewrite encode_array, encode_ints. cbn [bind through_engine]. rewrite decode_array, decode_ints. reflexivity.
Qed.
Theorem c359_elements_refuted : forall l,
  json_string_of (EArray (int_exprs l)) =
    Ok (Some (VStr (string_of ("["%char :: joinb [","%char] (map (fun z => sprint_float float_text (float_of_int z)) l) ++ ["]"%char])%list))) /\
  (forall z, json_string_of (EValue (Some (VInt z))) = Ok (Some (VStr (string_of (text_of (dec z)))))).
Proof.
  intros l. split; [|reflexivity]. unfold to_json_string_of. rewrite arrive_ints. cbn [bind]. unfold fn_to_json_string. cbn [JsonModel.flag bind to_json].
  assert (G : (fix go (l : list (option val)) : list bytes := match l with [] => [] | None :: r => word "null" :: go r | Some x :: r => to_json printable float_text interval_text x :: go r end)
    (map (fun z => Some (VFloat (float_of_int z))) l) = map (fun z => sprint_float float_text (float_of_int z)) l).
  { induction l as [|z l IH]; [reflexivity|]. cbn [map to_json]. f_equal. exact IH. }
  now rewrite G.
Qed.
(** With 1e+06 for the float 1000000, as fmt.Sprint writes it, the text is another. *)
Theorem c359_million_refuted : sprint_float float_text (float_of_int 1000000) = word "1e+06" ->
  json_string_of (EArray (int_exprs [1000000])) = Ok (Some (VStr "[1e+06]")) /\ json_string_of (EValue (Some (VInt 1000000))) = Ok (Some (VStr "1000000")).
Proof. intros H. rewrite (proj1 (c359_elements_refuted [1000000])). cbn [map joinb]. rewrite H. split; reflexivity. Qed.
(** It is the text that is meant exactly where the numbers look alike. *)
Theorem c359_alike_partial : forall l, Forall (fun z => sprint_float float_text (float_of_int z) = text_of (dec z)) l ->
  json_string_of (EArray (int_exprs l)) = Ok (Some (VStr (string_of ("["%char :: joinb [","%char] (map (fun z => text_of (dec z)) l) ++ ["]"%char])%list))).
Proof.
  intros l H. rewrite (proj1 (c359_elements_refuted l)).
  assert (G : map (fun z => sprint_float float_text (float_of_int z)) l = map (fun z => text_of (dec z)) l) by (induction H as [|z l E H IH]; [reflexivity|]; cbn [map]; now rewrite E, IH).
  now rewrite G.
Qed.
End Json.
Example c359_example : Forall (fun z => sprint_float (fun f => text_of (dec (int_of_float f))) (float_of_int z) = text_of (dec z)) [1; 250; -7].
Proof. repeat constructor. Qed.

Print Assumptions c355_nested.
Print Assumptions c355_read.
Print Assumptions c356_element_refuted.
Print Assumptions c357_scalar_refuted.
Print Assumptions c357_inside_refuted.
Print Assumptions c357_every_refuted.
Print Assumptions c358_refuted.
Print Assumptions c359_elements_refuted.
Print Assumptions c359_million_refuted.
Print Assumptions c359_alike_partial.
