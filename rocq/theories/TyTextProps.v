(** C369: the types of the arguments, as they are written into the definition that a call analyses. *)
From Coq Require Import Ascii String List Arith Bool Lia.
From Verif Require Import GoBase TmplModel TmplSpec TmplProofs TyTextSpec TyTextProofs.
Import ListNotations.
Local Open Scope string_scope.

(** Nested to any depth, the text is the type and no other type. *)
Theorem c369_text_partial : forall t, plain t -> forall t', written t' (format_type t) <-> t' = t.
Proof.
  intros t P t'. split; [|intros ->; now apply format_written]. intros W. exact (written_unique t t' _ (format_written t P) W).
Qed.
(** The types of results are compared by their texts (spec.go:423-430). *)
Theorem c369_compare_partial : forall t t', plain t -> plain t' -> (format_type t = format_type t' <-> t = t').
Proof.
  intros t t' P P'. split; [|now intros ->]. intros E. apply (c369_text_partial t' P'). rewrite <- E. now apply format_written.
Qed.
(** So a call is analysed with the types of its arguments. *)
Theorem c369_call_partial : forall analyze sem c f ts d, reader analyze sem -> create analyze c = Ok f -> Forall plain ts -> signature f ts = Some d ->
  call analyze f ts = match sem (combine (map f_name (c_args c)) ts) (c_code c) with Some a => Ok (d, a) | None => Err end.
Proof.
  intros analyze sem c f ts d R E P S. destruct (create_names analyze c f E) as (En & Ec). unfold call. rewrite S, En, Ec.
  now rewrite (R (map f_name (c_args c)) ts (map format_type ts) (c_code c) (formats_written ts P)).
Qed.

Definition ex_ty : ty := Array (Struct [("a b", Scalar "INT64"); ("c", Struct [("<,>", Array (Scalar "STRING"))])]).
Example c369_example : plain ex_ty /\ format_type ex_ty = "ARRAY<STRUCT<`a b` INT64,`c` STRUCT<`<,>` ARRAY<STRING>>>>".
Proof.
  split; [|reflexivity]. unfold ex_ty, backquote, backslash, newline. repeat constructor; cbn; try discriminate; auto; repeat split; discriminate.
Qed.
(** An analyser that tells arrays from other types: the body has the type BOOL for an array and
    INT64 otherwise. *)
Definition ex_sem (l : list (string * ty)) (code : string) : option ty :=
  match l with [] => None | a :: _ => Some (Scalar (if is_array (snd a) then "BOOL" else "INT64")) end.
Definition ex_analyze (l : list (string * string)) (code : string) : option ty :=
  match l with [] => None | a :: _ => Some (Scalar (if String.prefix "ARRAY<" (snd a) then "BOOL" else "INT64")) end.
Lemma prefix_word : forall p k, word_chars k = true -> word_chars p = false -> String.prefix p k = false.
Proof.
  induction p as [|c p IH]; intros k W N; [discriminate N|]. destruct k as [|c' k]; [reflexivity|]. cbn. destruct (ascii_dec c c') as [<-|]; [|reflexivity].
  cbn in W, N. apply andb_prop in W as (Wc & W). rewrite Wc in N. now apply IH.
Qed.
Lemma ex_reader : reader ex_analyze ex_sem.
Proof.
  intros names types texts code F. destruct names as [|n names]; [reflexivity|]. destruct F as [|t s types texts W F]; [reflexivity|]. cbn [combine ex_analyze ex_sem snd].
  do 3 f_equal. destruct W as [k (_ & W)|u x _|fs x _]; cbn [is_array].
  - now rewrite (prefix_word "ARRAY<" k W eq_refl).
  - assert (T : forall y, String.prefix "" y = true) by now intros []. change (String.prefix "ARRAY<" ("ARRAY<" ++ x ++ ">")) with (String.prefix "" (x ++ ">")). now rewrite T.
  - reflexivity.
Qed.
Definition ex_fn : stmt := {| c_args := [{| f_name := "x"; f_ty := None |}]; c_returns := None; c_code := "body" |}.
Example c369_call_example : exists f, create ex_analyze ex_fn = Ok f /\ signature f [ex_ty] = Some (Scalar "INT64") /\ call ex_analyze f [ex_ty] = Ok (Scalar "INT64", Scalar "BOOL").
Proof. eexists. split; [reflexivity|]. split; reflexivity. Qed.

(** ** Names that need escapes *)
(** A back quote in the name of a field ends the name: another type is written. *)
Theorem c369_backquote_refuted : forall a b u, let t := Struct [(a ++ "` INT64,`" ++ b, u)] in let t' := Struct [(a, Scalar "INT64"); (b, u)] in
  format_type t = format_type t' /\ t <> t' /\ (plain t' -> written t' (format_type t) /\ ~ written t (format_type t)).
Proof.
  intros a b u t t'. assert (E : format_type t = format_type t').
  { unfold t, t'. cbn. rewrite !sapp_assoc. cbn. rewrite ?sapp_assoc. reflexivity. }
  split; [exact E|]. assert (N : t <> t') by discriminate. split; [exact N|]. intros P. rewrite E.
  split; [now apply format_written|]. intros W. apply N. now apply (c369_text_partial t' P).
Qed.
(** So a call is analysed with that type instead of its own. *)
Theorem c369_call_refuted : forall analyze sem f a b u t2, reader analyze sem -> plain (Struct [(a, Scalar "INT64"); (b, u)]) ->
  forall d, signature f [Struct [(a ++ "` INT64,`" ++ b, u)]] = Some d -> sem (combine (map fst (s_args f)) [Struct [(a, Scalar "INT64"); (b, u)]]) (s_code f) = Some t2 ->
  call analyze f [Struct [(a ++ "` INT64,`" ++ b, u)]] = Ok (d, t2).
Proof.
  intros analyze sem f a b u t2 R P d S E. unfold call. rewrite S. cbn [map]. rewrite (proj1 (c369_backquote_refuted a b u)).
  rewrite (R (map fst (s_args f)) [Struct [(a, Scalar "INT64"); (b, u)]] [format_type (Struct [(a, Scalar "INT64"); (b, u)])] (s_code f)); [now rewrite E|].
  constructor; [now apply format_written|constructor].
Qed.
Example c369_backquote_example : plain (Struct [("a", Scalar "INT64"); ("b", Scalar "STRING")]).
Proof. unfold backquote, backslash, newline. repeat constructor; cbn; try discriminate; auto; repeat split; discriminate. Qed.
Example c369_call_refuted_example : exists f, create ex_analyze ex_fn = Ok f /\ signature f [Struct [("a` INT64,`b", Scalar "STRING")]] = Some (Scalar "INT64") /\
  ex_sem (combine (map fst (s_args f)) [Struct [("a", Scalar "INT64"); ("b", Scalar "STRING")]]) (s_code f) = Some (Scalar "INT64").
Proof. eexists. repeat split; reflexivity. Qed.
(** A backslash and an n in the name of a field are read as a new line. *)
Theorem c369_backslash_refuted : forall a u, plain_name a -> plain u ->
  let t := Struct [(a ++ String backslash "n", u)] in
  written (Struct [(a ++ String newline "", u)]) (format_type t) /\ ~ written t (format_type t).
Proof.
  intros a u Pa Pu t.
  assert (W : written (Struct [(a ++ String newline "", u)]) (format_type t)).
  { apply w_struct. apply w_one. apply (w_named (a ++ String newline "") (a ++ String backslash "n") u (format_type u)); [now destruct a| |now apply format_written].
    induction a as [|c a IH]; [apply q_newline, q_nil|]. destruct Pa as (A & B & C & D). cbn. now apply q_char; auto. }
  split; [exact W|]. intros W'. assert (E := written_unique _ _ _ W W'). unfold t in E. injection E as E.
  clear -E. induction a as [|c a IH]; cbn in E; [discriminate E|]. injection E as E. now apply IH.
Qed.
Example c369_backslash_example : plain_name "dir" /\ plain (Scalar "STRING").
Proof. split; [cbn; unfold backquote, backslash, newline; repeat split; discriminate|constructor; split; [discriminate|reflexivity]]. Qed.

Print Assumptions c369_text_partial.
Print Assumptions c369_compare_partial.
Print Assumptions c369_call_partial.
Print Assumptions c369_backquote_refuted.
Print Assumptions c369_call_refuted.
Print Assumptions c369_backslash_refuted.
