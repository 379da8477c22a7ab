(** C342 to C346: functions with ANY TYPE arguments. *)
From Coq Require Import Ascii String List ZArith Lia Bool.
From Verif Require Import GoBase TmplModel TmplSpec TmplProofs.
Import ListNotations.
Local Open Scope string_scope.

Section Any.
  Variable analyze : list (string * string) -> string -> option ty.
  Notation create := (create analyze).
  Notation run := (run analyze).
  Notation body := (body analyze).

(** ** C342: which definitions are accepted *)
(** A definition is accepted exactly if its body is for one of thirteen types, or an array of
    one, that all ANY TYPE arguments have together. *)
Theorem c342_accepted_partial : forall c, any_type c ->
  ((exists f, create c = Ok f) <-> exists t r, In t tried /\ (body c (all_any c t) = Some r \/ body c (all_any c (Array t)) = Some r)) /\
  ((forall f, create c <> Ok f) -> create c = Err).
Proof.
  intros c H. rewrite (create_eq analyze c H). split.
  - split.
    + intros (f & E). destruct (scalars analyze c) as [|r l] eqn:S; [destruct (arrays analyze c) as [|r l] eqn:A; [discriminate|]|].
      * assert (I : In r (arrays analyze c)) by (rewrite A; now left). apply arrays_in in I. destruct I as (t & I & B). exists t, r. tauto.
      * assert (I : In r (scalars analyze c)) by (rewrite S; now left). apply scalars_in in I. destruct I as (t & I & B). exists t, r. tauto.
    + intros (t & r & I & [B|B]).
      * assert (J : In r (scalars analyze c)) by (apply scalars_in; exists t; tauto). destruct (scalars analyze c); [destruct J|eexists; reflexivity].
      * assert (J : In r (arrays analyze c)) by (apply arrays_in; exists t; tauto). destruct (scalars analyze c); [|eexists; reflexivity].
        destruct (arrays analyze c); [destruct J|eexists; reflexivity].
  - intros N. destruct (scalars analyze c); [destruct (arrays analyze c); [reflexivity|]|]; exfalso; eapply N; reflexivity.
Qed.
(** So one whose body needs arguments of different types is refused. *)
Theorem c342_different_refuted : forall c, any_type c -> (forall ts r, body c ts = Some r -> differ c ts) -> create c = Err.
Proof.
  intros c H D. destruct (c342_accepted_partial c H) as ((A & _) & E). apply E. intros f F. destruct (A (ex_intro _ f F)) as (t & r & _ & B).
  assert (X : forall u, ~ differ c (all_any c u)).
  { intros u (i & j & f' & g & x & y & Fi & Gj & Ef & Eg & Xi & Yj & Ne). unfold all_any in Xi, Yj.
    rewrite (map_nth_error _ i (c_args c) Fi) in Xi. rewrite (map_nth_error _ j (c_args c) Gj) in Yj. rewrite Ef in Xi. rewrite Eg in Yj. congruence. }
  destruct B as [B|B]; exact (X _ (D _ _ B)).
Qed.

(** ** C343: the type of a call *)
(** If the body has the same type for all tried types, every call is given that type, so it is
    right exactly if the body has it for the types of this call too. *)
Theorem c343_fixed_refuted : forall c R t0, any_type c -> In t0 tried -> body c (all_any c t0) = Some R ->
  (forall t r, In t tried -> body c (all_any c t) = Some r -> r = R) ->
  forall t a, named t -> body c (all_any c t) = Some a -> run c (all_any c t) = Ok (R, a).
Proof.
  intros c R t0 H I0 B0 U t a N B. unfold TmplModel.run. rewrite (create_eq analyze c H).
  assert (J : In R (scalars analyze c)) by (apply scalars_in; exists t0; tauto).
  assert (K : forall x, In x (scalars analyze c) -> x = R) by (intros x X; apply scalars_in in X; destruct X as (t' & I' & B'); now apply (U t')).
  destruct (scalars analyze c) as [|r l]; [destruct J|]. cbn [bind]. rewrite (call_eq analyze c false r l _ (all_named c t H N)).
  rewrite (signature_all c false r l t t H eq_refl), (ret_fixed c false r l R K). now rewrite B.
Qed.
(** If it has different types, of which the first is not an array, a call is given the type of its
    arguments, whatever the type of the body. *)
Theorem c343_argument_refuted : forall c t1 t2 r1 r2, any_type c -> In t1 tried -> In t2 tried ->
  body c (all_any c t1) = Some r1 -> body c (all_any c t2) = Some r2 -> format_type r1 <> format_type r2 ->
  (forall t r, In t tried -> body c (all_any c t) = Some r -> forall e, r <> Array e) ->
  forall t a, named t -> body c (all_any c t) = Some a -> run c (all_any c t) = Ok (t, a).
Proof.
  intros c t1 t2 r1 r2 H I1 I2 B1 B2 D U t a N B. unfold TmplModel.run. rewrite (create_eq analyze c H).
  assert (J1 : In r1 (scalars analyze c)) by (apply scalars_in; exists t1; tauto).
  assert (J2 : In r2 (scalars analyze c)) by (apply scalars_in; exists t2; tauto).
  assert (K : forall x e, In x (scalars analyze c) -> x <> Array e) by (intros x e X; apply scalars_in in X; destruct X as (t' & I' & B'); now apply (U t')).
  destruct (scalars analyze c) as [|r l]; [destruct J1|]. cbn [bind]. rewrite (call_eq analyze c false r l _ (all_named c t H N)).
  rewrite (signature_all c false r l t t H eq_refl), (ret_any c false r l r1 r2 J1 J2 D).
  assert (A : is_array r = false) by (destruct r; try reflexivity; exfalso; now apply (K (Array r) r (or_introl eq_refl))).
  rewrite A. cbn [by_real]. now rewrite B.
Qed.
(** So a call has the right type if the body has always the same type, or that of the arguments. *)
Theorem c343_right_partial : forall c t0 t, any_type c -> In t0 tried -> named t ->
  (exists R, body c (all_any c t0) = Some R /\ body c (all_any c t) = Some R /\ forall t r, In t tried -> body c (all_any c t) = Some r -> r = R) \/
  (exists t1, In t1 tried /\ t0 <> t1 /\ body c (all_any c t1) = Some t1 /\ body c (all_any c t0) = Some t0 /\ body c (all_any c t) = Some t /\
     forall t r, In t tried -> body c (all_any c t) = Some r -> r = t) ->
  exists a, body c (all_any c t) = Some a /\ run c (all_any c t) = Ok (a, a).
Proof.
  intros c t0 t H I N [(R & B0 & B & U)|(t1 & I1 & Ne & B1 & B0 & B & U)].
  - exists R. split; [exact B|]. exact (c343_fixed_refuted c R t0 H I B0 U t R N B).
  - exists t. split; [exact B|]. apply (c343_argument_refuted c t0 t1 t0 t1 H I I1 B0 B1); try assumption.
    + clear -I I1 Ne. intros E. apply Ne. unfold tried in I, I1. cbn [In] in I, I1. 
      repeat (destruct I as [<-|I]; [repeat (destruct I1 as [<-|I1]; [first [reflexivity|discriminate E]|]); destruct I1|]). destruct I.
    + intros x r X Bx e ->. specialize (U x (Array e) X Bx). clear -X U. unfold tried in X. cbn [In] in X. repeat (destruct X as [<-|X]; [discriminate U|]). destruct X.
Qed.
(** Bodies that need arrays: the call has the type of the elements, right if the body has. *)
Theorem c343_element_partial : forall c t1 t2 r1 r2, any_type c -> In t1 tried -> In t2 tried ->
  (forall t, In t tried -> body c (all_any c t) = None) ->
  body c (all_any c (Array t1)) = Some r1 -> body c (all_any c (Array t2)) = Some r2 -> format_type r1 <> format_type r2 ->
  (forall t r, In t tried -> body c (all_any c (Array t)) = Some r -> forall e, r <> Array e) ->
  forall t a, named t -> body c (all_any c (Array t)) = Some a -> run c (all_any c (Array t)) = Ok (t, a).
Proof.
  intros c t1 t2 r1 r2 H I1 I2 S0 B1 B2 D U t a N B. unfold TmplModel.run. rewrite (create_eq analyze c H).
  assert (Sc : scalars analyze c = []). { destruct (scalars analyze c) as [|r l] eqn:E; [reflexivity|]. assert (I : In r (scalars analyze c)) by (rewrite E; now left). apply scalars_in in I. destruct I as (x & X & Bx). rewrite (S0 x X) in Bx. discriminate. }
  rewrite Sc.
  assert (J1 : In r1 (arrays analyze c)) by (apply arrays_in; exists t1; tauto).
  assert (J2 : In r2 (arrays analyze c)) by (apply arrays_in; exists t2; tauto).
  assert (K : forall x e, In x (arrays analyze c) -> x <> Array e) by (intros x e X; apply arrays_in in X; destruct X as (t' & I' & B'); now apply (U t')).
  destruct (arrays analyze c) as [|r l]; [destruct J1|]. cbn [bind]. rewrite (call_eq analyze c true r l _ (all_named c (Array t) H (n_array t N))).
  rewrite (signature_all c true r l (Array t) t H eq_refl), (ret_any c true r l r1 r2 J1 J2 D).
  assert (A : is_array r = false) by (destruct r; try reflexivity; exfalso; now apply (K (Array r) r (or_introl eq_refl))).
  rewrite A. cbn [by_real]. now rewrite B.
Qed.

(** ** C344: arguments of different types *)
(** A call whose ANY TYPE arguments have different types is refused, whatever the body. *)
Theorem c344_different_refuted : forall c ts, any_type c -> differ c ts -> run c ts = Err.
Proof.
  intros c ts H D. unfold TmplModel.run. destruct (c342_accepted_partial c H) as (_ & X). destruct (create c) as [f| |] eqn:E; [|reflexivity|now discriminate X].
  destruct (create_ok analyze c f H E) as (array & r & l & -> & _). cbn [bind]. unfold call. now rewrite (differ_nomatch c array r l ts D).
Qed.
(** With one type for all the call is accepted, if a tried type is. *)
Theorem c344_same_partial : forall c t0 r0 t a, any_type c -> In t0 tried -> body c (all_any c t0) = Some r0 -> named t -> body c (all_any c t) = Some a ->
  exists d, run c (all_any c t) = Ok (d, a).
Proof.
  intros c t0 r0 t a H I0 B0 N B. unfold TmplModel.run. rewrite (create_eq analyze c H).
  assert (J : In r0 (scalars analyze c)) by (apply scalars_in; exists t0; tauto). destruct (scalars analyze c) as [|r l]; [destruct J|]. cbn [bind].
  rewrite (call_eq analyze c false r l _ (all_named c t H N)), (signature_all c false r l t t H eq_refl), B.
  cbn [the_spec s_ret]. destruct (forallb _ (r :: l)); [now eexists|]. unfold by_real. destruct (is_array r); now eexists.
Qed.

(** ** C345: RETURNS *)
(** With RETURNS the call has the declared type and the expression in its place the body's. *)
Theorem c345_returns_refuted : forall c R ts a, c_returns c = Some R -> fits c ts -> Forall named ts -> body c ts = Some a -> run c ts = Ok (R, a).
Proof.
  intros c R ts a Er Ft N B. unfold TmplModel.run, TmplModel.create. rewrite Er. cbn [bind]. unfold call, signature. cbn [plain_spec s_args s_ret s_code].
  rewrite (arbitrary (c_args c) ts None Ft), map_map, (formats ts N). unfold TmplSpec.body in B.
  change (map (fun x => fst (f_name x, _)) (c_args c)) with (map f_name (c_args c)). now rewrite B.
Qed.
(** So both are the same exactly if the body has the declared type by itself. *)
Theorem c345_same_partial : forall c R ts a, c_returns c = Some R -> fits c ts -> Forall named ts -> body c ts = Some a ->
  ((exists x, run c ts = Ok (x, x)) <-> a = R).
Proof.
  intros c R ts a Er Ft N B. rewrite (c345_returns_refuted c R ts a Er Ft N B). split; [intros (x & E); congruence|intros ->; now exists R].
Qed.

(** ** C346: structs *)
(** A call with a struct that has a field without a name is refused, as the type is written with
    an empty name. *)
Theorem c346_anonymous_refuted : forall c ts, (forall ds code, Exists (fun d => contains "``" (snd d) = true) ds -> analyze ds code = None) ->
  fits c ts -> Exists (fun t => ~ named t) ts -> (forall x, run c ts <> Ok x).
Proof.
  intros c ts Q Ft X x. unfold TmplModel.run. destruct (create c) as [f| |] eqn:E; cbn [bind]; try discriminate.
  destruct (create_names analyze c f E) as (En & Ec). unfold call. destruct (signature f ts); [|discriminate]. rewrite En, Ec, Q; [discriminate|].
  clear -Ft X. unfold fits in Ft. induction Ft as [|g t fs ts _ _ IH]; [inversion X|]. cbn [map combine]. inversion X; subst; [left; now apply not_named|right; now apply IH].
Qed.
(** With names the analyser is given the types as SQL writes them. *)
Theorem c346_named_partial : forall c ts d a, Forall named ts -> run c ts = Ok (d, a) -> body c ts = Some a.
Proof.
  intros c ts d a N. unfold TmplModel.run. destruct (create c) as [f| |] eqn:E; cbn [bind]; try discriminate.
  destruct (create_names analyze c f E) as (En & Ec). unfold call. destruct (signature f ts); [|discriminate]. rewrite En, Ec, (formats ts N). unfold TmplSpec.body.
  destruct (analyze _ _); [|discriminate]. intros Eq. congruence.
Qed.
End Any.

(** ** The hypotheses are met *)
(** An analyser for the bodies [x / 2], [STRUCT(x AS a)], [SUBSTR(s, n)], [x] and [x OFFSET 0]. *)
Definition analyze1 (ds : list (string * string)) (code : string) : option ty :=
  match code, ds with
  | "x / 2", [(_, "INT64")] | "x / 2", [(_, "DOUBLE")] => Some (Scalar "DOUBLE")
  | "x / 2", [(_, "NUMERIC")] => Some (Scalar "NUMERIC")
  | "STRUCT(x AS a)", [(_, "INT64")] => Some (Struct [("a", Scalar "INT64")])
  | "STRUCT(x AS a)", [(_, "DOUBLE")] => Some (Struct [("a", Scalar "DOUBLE")])
  | "SUBSTR(s, n)", [(_, "STRING"); (_, "INT64")] => Some (Scalar "STRING")
  | "x", [(_, "INT64")] => Some (Scalar "INT64")
  | "x", [(_, "BOOL")] => Some (Scalar "BOOL")
  | "x[OFFSET(0)]", [(_, "ARRAY<INT64>")] => Some (Scalar "INT64")
  | "x[OFFSET(0)]", [(_, "ARRAY<BOOL>")] => Some (Scalar "BOOL")
  | _, _ => None
  end.
Definition any_x (code : string) : stmt := {| c_args := [{| f_name := "x"; f_ty := None |}]; c_returns := None; c_code := code |}.
Definition substr : stmt := {| c_args := [{| f_name := "s"; f_ty := None |}; {| f_name := "n"; f_ty := None |}]; c_returns := None; c_code := "SUBSTR(s, n)" |}.
Example any_x_any code : any_type (any_x code).
Proof. split; [reflexivity|]. split; [exists {| f_name := "x"; f_ty := None |}; split; [now left|reflexivity]|]. intros f t [<-|[]]; discriminate. Qed.
Example c342_example : any_type substr /\ body analyze1 substr [Scalar "STRING"; Scalar "INT64"] = Some (Scalar "STRING") /\
  differ substr [Scalar "STRING"; Scalar "INT64"] /\ create analyze1 substr = Err /\ exists f, create analyze1 (any_x "x / 2") = Ok f.
Proof.
  split; [|split; [reflexivity|split; [|split; [vm_compute; reflexivity|eexists; vm_compute; reflexivity]]]].
  - split; [reflexivity|]. split; [exists {| f_name := "s"; f_ty := None |}; split; [now left|reflexivity]|]. intros f t [<-|[<-|[]]]; discriminate.
  - exists 0%nat, 1%nat, {| f_name := "s"; f_ty := None |}, {| f_name := "n"; f_ty := None |}, (Scalar "STRING"), (Scalar "INT64"). repeat split; discriminate.
Qed.
Example c343_example : run analyze1 (any_x "x / 2") [Scalar "NUMERIC"] = Ok (Scalar "DOUBLE", Scalar "NUMERIC") /\
  run analyze1 (any_x "STRUCT(x AS a)") [Scalar "INT64"] = Ok (Scalar "INT64", Struct [("a", Scalar "INT64")]) /\
  run analyze1 (any_x "x") [Scalar "BOOL"] = Ok (Scalar "BOOL", Scalar "BOOL") /\
  run analyze1 (any_x "x[OFFSET(0)]") [Array (Scalar "BOOL")] = Ok (Scalar "BOOL", Scalar "BOOL").
Proof. repeat split; vm_compute; reflexivity. Qed.
Example c345_example : run analyze1 {| c_args := c_args (any_x "x"); c_returns := Some (Scalar "DOUBLE"); c_code := "x" |} [Scalar "INT64"] = Ok (Scalar "DOUBLE", Scalar "INT64").
Proof. vm_compute. reflexivity. Qed.
Example c346_example : ~ named (Struct [("", Scalar "INT64")]) /\ format_type (Array (Struct [("", Scalar "INT64")])) = "ARRAY<STRUCT<`` INT64>>" /\
  named (Array (Struct [("a", Scalar "INT64")])).
Proof.
  split; [intros N; inversion N as [| |fs F]; apply Forall_inv in F; now destruct F|]. split; [reflexivity|]. repeat constructor. discriminate.
Qed.

(** An analyser that refuses empty names and takes everything else. *)
Definition analyze2 (ds : list (string * string)) (code : string) : option ty :=
  if existsb (fun d => contains "``" (snd d)) ds then None else Some (Scalar "INT64").
Example c346_example_analyser : (forall ds code, Exists (fun d => contains "``" (snd d) = true) ds -> analyze2 ds code = None) /\
  run analyze2 (any_x "1") [Struct [("a", Scalar "INT64")]] = Ok (Scalar "INT64", Scalar "INT64") /\ run analyze2 (any_x "1") [Struct [("", Scalar "INT64")]] = Err.
Proof.
  split; [|split; vm_compute; reflexivity]. intros ds code X. unfold analyze2. replace (existsb _ ds) with true; [reflexivity|].
  symmetry. apply existsb_exists. apply Exists_exists in X. exact X.
Qed.
Example c344_example : run analyze2 substr [Scalar "STRING"; Scalar "INT64"] = Err /\ run analyze2 substr [Scalar "STRING"; Scalar "STRING"] = Ok (Scalar "INT64", Scalar "INT64").
Proof. split; vm_compute; reflexivity. Qed.

Print Assumptions c342_accepted_partial.
Print Assumptions c342_different_refuted.
Print Assumptions c343_fixed_refuted.
Print Assumptions c343_argument_refuted.
Print Assumptions c343_right_partial.
Print Assumptions c343_element_partial.
Print Assumptions c344_different_refuted.
Print Assumptions c344_same_partial.
Print Assumptions c345_returns_refuted.
Print Assumptions c345_same_partial.
Print Assumptions c346_anonymous_refuted.
Print Assumptions c346_named_partial.
