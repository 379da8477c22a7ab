(** C360, C361: values in tables made from queries *)
From Coq Require Import Ascii String List ZArith Lia Bool.
From Verif Require Import GoBase DecModel QueryModel EncModel CodecModel DmlModel DmlSpec DmlProofs CtasModel CtasSpec CtasProofs.
Import ListNotations.
Local Open Scope string_scope.

(** ** C360 *)
(** After any history of statements on any tables, every table shows the rows it should hold. *)
Theorem c360_history : forall F whole trunc of_int number_text text_number l n, all_typed F [] l ->
  show F trunc of_int (exec_all F whole of_int number_text text_number [] l) n =
  option_map (fun t => map (map Some) (snd t)) (table_of F (mean_all F [] l) n).
Proof. intros. apply rel_shown. apply steps; [constructor|assumption]. Qed.
(** A statement fails exactly when it should. *)
Theorem c360_fails : forall F whole of_int number_text text_number l s, all_typed F [] (l ++ [s])%list ->
  (exec F whole of_int number_text text_number (exec_all F whole of_int number_text text_number [] l) s = None <-> mean F (mean_all F [] l) s = None).
Proof.
  intros F whole of_int number_text text_number l s T.
  assert (T' : forall l w, all_typed F w (l ++ [s])%list -> all_typed F w l /\ typed F (mean_all F w l) s).
  { clear. induction l as [|x l IH]; intros w T; [split; [exact I|apply T]|]. destruct T as [Tx T]. apply IH in T as [T1 T2]. split; [now split|exact T2]. }
  apply T' in T as [T1 T2].
  pose proof (step F whole of_int number_text text_number _ _ s (steps F whole of_int number_text text_number l [] [] (Forall2_nil _) T1) T2) as H.
  destruct (exec F whole of_int number_text text_number _ s), (mean F (mean_all F [] l) s); try contradiction; split; intros; try discriminate; reflexivity.
Qed.
(** A BOOL column, copied twice; one expression, a condition, a change of the copy *)
Definition ctas_word := base64_text "{""header"":""Date"",""body"":""MjAyMC0wMS0wMQ==""}".
Definition ctas_history : list (stmt Z) :=
  [ SCreate Z "t" [KBool; KInt64; KDouble; KDate];
    SInsert Z "t" [[GBool Z true; GInt Z 3; GFloat Z 4; GText Z ctas_word]; [GBool Z false; GNil Z; GFloat Z 5; GNil Z]];
    SAs Z "u" "t" [ICol Z 3; ICol Z 0; IExpr Z KBool (fun l => match l with _ :: GInt _ z :: _ => Some (GBool Z (z <? 5)%Z) | _ => Some (GNil Z) end); ICol Z 2] (fun _ => Some true);
    SAs Z "v" "U" [ICol Z 1; ICol Z 2; ICol Z 3; ICol Z 0] (fun l => match l with [_; GInt _ z; _; _] => Some (z =? 1)%Z | _ => None end);
    SUpdate Z "v" 0 (fun _ => Some (GBool Z false)) (fun _ => Some true);
    SDelete Z "t" (fun _ => Some true); SFrom Z "v" "u" [ICol Z 1; ICol Z 2; ICol Z 3; ICol Z 0] (fun _ => Some true) ].
Example c360_example : all_typed Z [] ctas_history /\
  table_of Z (mean_all Z [] ctas_history) "v" = Some ([KBool; KBool; KDouble; KDate],
    [[GBool Z false; GBool Z true; GFloat Z 4; GText Z ctas_word]; [GBool Z true; GBool Z true; GFloat Z 4; GText Z ctas_word]; [GBool Z false; GNil Z; GFloat Z 5; GNil Z]]).
Proof.
  assert (W : value_text ctas_word) by (eexists; reflexivity).
  split; [|vm_compute; reflexivity].
  cbn [all_typed ctas_history]. repeat split.
  - cbn. repeat constructor; discriminate.
  - intros ks rows E. vm_compute in E. assert (ks = [KBool; KInt64; KDouble; KDate]) by congruence. subst. repeat constructor; exact W.
  - repeat constructor; try discriminate. intros args g E. destruct args as [|? [|[] ?]]; inversion E; exact I.
  - repeat constructor.
  - intros ks rows E. vm_compute in E. exists KBool. assert (ks = [KBool; KBool; KDouble; KDate]) by congruence. subst. split; [reflexivity|].
    intros args g Eg. assert (g = GBool Z false) by congruence. subst. exact I.
  - repeat constructor.
  - intros ks rows ks' rows' E E'. vm_compute in E, E'. assert (ks = [KBool; KBool; KDouble; KDate]) by congruence. assert (ks' = [KDate; KBool; KBool; KDouble]) by congruence. subst. reflexivity.
Qed.

(** ** C361 *)
Lemma world_without {F} (b : world F) n m : table_of F (filter (fun e => negb (same_name (fst e) n)) b) m = if same_name n m then None else table_of F b m.
Proof.
  unfold table_of. induction b as [|e b IH]; cbn; [now destruct (same_name n m)|]. destruct (same_name (fst e) n) eqn:S; cbn.
  - rewrite IH. destruct (same_name n m) eqn:M; [reflexivity|]. replace (same_name (fst e) m) with false; [reflexivity|].
    symmetry. unfold same_name in *. apply String.eqb_eq in S. now rewrite S.
  - destruct (same_name (fst e) m) eqn:Q; [|exact IH]. replace (same_name n m) with false; [reflexivity|].
    symmetry. unfold same_name in *. apply String.eqb_eq in Q. rewrite <- Q, String.eqb_sym. exact S.
Qed.
(** CREATE OR REPLACE TABLE n AS SELECT ... FROM n always fails, and the table and its rows are
    gone, whatever the query. *)
Theorem c361_refuted : forall F whole of_int number_text text_number b n n' items w, same_name n n' = true ->
  replace_as F whole of_int number_text text_number b n n' items w = (without F b n, false) /\ find_tab F (without F b n) n = None.
Proof.
  intros F whole of_int number_text text_number b n n' items w N.
  assert (G : forall m, same_name n m = true -> find_tab F (without F b n) m = None).
  { intros m M. unfold find_tab, without. induction b as [|e b IH]; [reflexivity|]. cbn. destruct (same_name (fst e) n) eqn:S; cbn; [exact IH|].
    replace (same_name (fst e) m) with false; [exact IH|]. symmetry. unfold same_name in *. apply String.eqb_eq in M. now rewrite <- M. }
  assert (N0 : same_name n n = true) by (unfold same_name; apply String.eqb_refl).
  split; [|now apply G]. unfold replace_as, exec. rewrite (G n N0), (G n' N). reflexivity.
Qed.
(** With another table in the query it makes the table from the rows of the query, after any
    history, and fails exactly when the query fails. *)
Theorem c361_other_partial : forall F whole trunc of_int number_text text_number l n src items w, all_typed F [] l ->
  Forall (item_ok F) items -> same_name n src = false ->
  let after := replace_as F whole of_int number_text text_number (exec_all F whole of_int number_text text_number [] l) n src items w in
  match replaced F (mean_all F [] l) n src items w with
  | Some w2 => snd after = true /\ forall m, show F trunc of_int (fst after) m = option_map (fun t => map (map Some) (snd t)) (table_of F w2 m)
  | None => snd after = false
  end.
Proof.
  intros F whole trunc of_int number_text text_number l n src items w T O N.
  pose proof (steps F whole of_int number_text text_number l [] [] (Forall2_nil _) T) as R.
  apply (rel_without F _ _ n) in R. cbn zeta. unfold replace_as.
  pose proof (step F whole of_int number_text text_number _ _ (SAs F n src items w) R O) as H.
  assert (M : mean F (filter (fun e => negb (same_name (fst e) n)) (mean_all F [] l)) (SAs F n src items w) = replaced F (mean_all F [] l) n src items w).
  { cbn [mean]. unfold replaced. rewrite !world_without, N. replace (same_name n n) with true; [reflexivity|]. symmetry. apply String.eqb_refl. }
  rewrite M in H. destruct (exec F whole of_int number_text text_number _ (SAs F n src items w)) as [b2|], (replaced F _ n src items w) as [w2|]; try contradiction; [|reflexivity].
  split; [reflexivity|]. intros m. now apply rel_shown.
Qed.
Example c361_example : all_typed Z [] (firstn 3 ctas_history) /\
  replaced Z (mean_all Z [] (firstn 3 ctas_history)) "t" "t" [ICol Z 1] (fun _ => Some true) <> None /\
  option_map (fun b => table_of Z b "u") (replaced Z (mean_all Z [] (firstn 3 ctas_history)) "u" "t" [ICol Z 1] (fun _ => Some true)) = Some (Some ([KInt64], [[GInt Z 3]; [GNil Z]])).
Proof.
  split; [|split; [vm_compute; discriminate|vm_compute; reflexivity]]. destruct c360_example as [H _]. cbn [all_typed ctas_history firstn] in *. tauto.
Qed.

Print Assumptions c360_history.
Print Assumptions c360_fails.
Print Assumptions c361_refuted.
Print Assumptions c361_other_partial.
