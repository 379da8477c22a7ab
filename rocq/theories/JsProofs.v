From Coq Require Import Ascii String List ZArith QArith Lia Bool SpecFloat Permutation.
From Verif Require Import GoBase GoBaseFacts CalendarModel InstantModel InstantFacts DecModel ValueModel FloatFacts EncModel EncProofs ClockTextModel ClockTextSpec ClockTextProofs ClockTextProps
  CodecModel CodecSpec CodecProofs RowsModel RowsSpec RowsProofs ConvertModel UdfModel UdfSpec UdfProofs JsModel JsSpec.
Import ListNotations.
Local Open Scope string_scope.
Open Scope Z_scope.

(** ** The text of a call *)
Lemma string_app_assoc : forall a b c : string, (a ++ b) ++ c = a ++ (b ++ c).
Proof. induction a as [|x a IH]; intros; [reflexivity|]. cbn. now rewrite IH. Qed.
Lemma has_char_app c a b : has_char c (a ++ b) = has_char c a || has_char c b.
Proof. induction a as [|x a IH]; [reflexivity|]. cbn. now rewrite IH, orb_assoc. Qed.
Lemma base64_plain j : has_char "@" (base64_text j) = false /\ has_char "'" (base64_text j) = false.
Proof.
  unfold base64_text. set (l := to_base64 (list_ascii_of_string j)).
  assert (H : forall c, In c l -> In c alpha64 \/ c = "="%char) by apply base64_chars. clearbody l.
  assert (G : forall x, (forall c, In c l -> Ascii.eqb c x = false) -> has_char x (string_of_list_ascii l) = false).
  { clear H. intros x. induction l as [|c l IH]; intros H; [reflexivity|]. cbn [string_of_list_ascii has_char]. rewrite (H c) by now left. apply IH. intros d I. apply H. now right. }
  split; apply G; intros c I; apply H in I; destruct I as [I| ->]; try reflexivity.
  - assert (F : forallb (fun c => negb (Ascii.eqb c "@")) alpha64 = true) by reflexivity. rewrite forallb_forall in F. specialize (F c I). now destruct (Ascii.eqb c "@").
  - assert (F : forallb (fun c => negb (Ascii.eqb c "'")) alpha64 = true) by reflexivity. rewrite forallb_forall in F. specialize (F c I). now destruct (Ascii.eqb c "'").
Qed.
Lemma literal_plain : forall s r, has_char "'" s = false -> (forall t, r <> String "'" t) -> sql_literal ("'" ++ s ++ "'" ++ r) = Some (s, r).
Proof.
  intros s r H R. cbn [append sql_literal]. unfold quote. rewrite Ascii.eqb_refl.
  induction s as [|a s IH].
  - cbn [append literal_rest]. unfold quote. rewrite Ascii.eqb_refl. destruct r as [|b r]; [reflexivity|].
    destruct (Ascii.eqb_spec b "'"); [|reflexivity]. subst. now destruct (R r).
  - cbn [has_char] in H. apply orb_false_iff in H. destruct H as [A H]. cbn [append literal_rest]. unfold quote in *. rewrite A, (IH H). reflexivity.
Qed.
(** Substitution leaves a beginning without "@" as it is. *)
Lemma substitute_head : forall names values p r, has_char "@" p = false ->
  substitute names values (p ++ r) = bind (substitute names values r) (fun r' => Ok (p ++ r')).
Proof.
  induction names as [|n ns IH]; intros values p r H; [reflexivity|]. destruct values as [|v vs]; [reflexivity|]. cbn [substitute].
  unfold replace_all at 1. cbn [append]. rewrite replace_lit by exact H. rewrite IH by exact H. reflexivity.
Qed.
Lemma substitute_enough : forall names values body, (length names <= length values)%nat -> exists t, substitute names values body = Ok t.
Proof.
  induction names as [|n ns IH]; intros values body L; [now eexists|]. destruct values as [|v vs]; cbn in L; [lia|]. cbn [substitute]. apply IH. lia.
Qed.

(** ** Fields by name *)
Lemma property_find : forall k l, NoDup (map fst l) -> property k l = find_last k l.
Proof.
  induction l as [|[k' a] l IH]; intros N; [reflexivity|]. cbn [map fst] in N. inversion N as [|? ? NI N']; subst. cbn [property find_last].
  rewrite (String.eqb_sym k k'). destruct (String.eqb_spec k' k).
  - subst. destruct (find_last k l) eqn:F; [|reflexivity]. exfalso. apply NI. destruct (in_dec string_dec k (map fst l)) as [I|O]; [exact I|]. apply find_last_none in O. congruence.
  - rewrite IH by exact N'. now destruct (find_last k l).
Qed.
Lemma find_last_map {A B} (f : A -> B) k (m : list (string * A)) : find_last k (map (fun p => (fst p, f (snd p))) m) = option_map f (find_last k m).
Proof. induction m as [|[k' a] m IH]; [reflexivity|]. cbn. rewrite IH. destruct (find_last k m); [reflexivity|]. cbn. now destruct (String.eqb k' k). Qed.
Lemma find_last_perm {A} k (m m' : list (string * A)) : NoDup (map fst m) -> Permutation m m' -> find_last k m = find_last k m'.
Proof.
  intros N P. assert (N' : NoDup (map fst m')) by (eapply Permutation_NoDup; [|exact N]; now apply Permutation_map).
  destruct (find_last k m) eqn:F; symmetry.
  - apply find_last_iff in F. destruct F as (l1 & l2 & -> & _). apply find_last_nodup; [exact N'|]. eapply Permutation_in; [exact P|]. apply in_or_app. right. now left.
  - apply find_last_none. apply find_last_none in F. intros I. apply F. eapply Permutation_in; [|exact I]. apply Permutation_map. now apply Permutation_sym.
Qed.
Lemma anonymous_perm {A} (m m' : list (string * A)) : Permutation m m' -> anonymous m = anonymous m'.
Proof. induction 1 as [|[k a] l l' _ IH|[k a] [k' a'] l|]; cbn; [reflexivity|now rewrite IH| |congruence]. now destruct (String.eqb k ""), (String.eqb k' ""). Qed.

(** ** What the exported values are *)
Fixpoint go_list (l : list arg) : res (list (option val)) :=
  match l with [] => Ok [] | x :: r => bind (from_go x) (fun v => bind (go_list r) (fun vs => Ok (v :: vs))) end.
Fixpoint go_fields (l : list (string * arg)) : res (list (string * option val)) :=
  match l with [] => Ok [] | (k, x) :: r => bind (from_go x) (fun v => bind (go_fields r) (fun vs => Ok ((k, v) :: vs))) end.
Lemma from_slice l : from_go (ASlice l) = bind (go_list l) (fun vs => Ok (Some (VArray vs))).
Proof. cbn [from_go]. f_equal. Qed.
Lemma from_map l : from_go (AMap l) = bind (go_fields l) (fun vs => Ok (Some (VStruct vs))).
Proof. cbn [from_go]. f_equal. Qed.
Fixpoint arg_size (a : arg) : nat :=
  match a with
  | APtr (Some b) => S (arg_size b)
  | ASlice l => S ((fix go (l : list arg) := match l with [] => O | x :: r => S (arg_size x + go r) end) l)
  | AMap l | AGoStruct l => S ((fix go (l : list (string * arg)) := match l with [] => O | (_, x) :: r => S (arg_size x + go r) end) l)
  | _ => O
  end%nat.
(** Converting never fails; it panics or it succeeds. *)
Lemma from_go_total : forall a, from_go a <> Err.
Proof.
  intros a. remember (arg_size a) as n eqn:En. assert (L : (arg_size a <= n)%nat) by lia. clear En. revert a L.
  induction n as [|n IH]; intros a L; destruct a as [| | | | | | | | | |p|l|l|l]; try discriminate.
  - destruct p; [cbn in L; lia|discriminate].
  - cbn in L; lia.
  - cbn in L; lia.
  - cbn in L; lia.
  - destruct p as [b|]; [|discriminate]. cbn [from_go]. apply IH. cbn in L. lia.
  - rewrite from_slice. assert (G : go_list l <> Err).
    { induction l as [|x l IHl]; [discriminate|]. cbn [arg_size] in L. cbn [go_list]. assert (X : from_go x <> Err) by (apply IH; lia).
      assert (Y : go_list l <> Err). { apply IHl. cbn [arg_size]. lia. }
      destruct (from_go x); cbn; try congruence. now destruct (go_list l). }
    now destruct (go_list l).
  - rewrite from_map. assert (G : go_fields l <> Err).
    { induction l as [|[k x] l IHl]; [discriminate|]. cbn [arg_size] in L. cbn [go_fields]. assert (X : from_go x <> Err) by (apply IH; lia).
      assert (Y : go_fields l <> Err). { apply IHl. cbn [arg_size]. lia. }
      destruct (from_go x); cbn; try congruence. now destruct (go_fields l). }
    now destruct (go_fields l).
  - change (from_go (AGoStruct l)) with (from_go (AMap l)). rewrite from_map. assert (G : go_fields l <> Err).
    { induction l as [|[k x] l IHl]; [discriminate|]. cbn [arg_size] in L. cbn [go_fields]. assert (X : from_go x <> Err) by (apply IH; lia).
      assert (Y : go_fields l <> Err). { apply IHl. cbn [arg_size]. lia. }
      destruct (from_go x); cbn; try congruence. now destruct (go_fields l). }
    now destruct (go_fields l).
Qed.
Lemma go_fields_all : forall l vs, go_fields l = Ok vs <-> Forall2 (fun p q => fst p = fst q /\ from_go (snd p) = Ok (snd q)) l vs.
Proof.
  induction l as [|[k x] l IH]; intros vs; cbn [go_fields].
  - split; intros H; [assert (vs = []) by congruence; subst; constructor|now inversion H].
  - split.
    + intros H. destruct (from_go x) as [v| |] eqn:Fx; cbn [bind] in H; try discriminate. destruct (go_fields l) as [ws| |] eqn:F; cbn [bind] in H; try discriminate.
      assert (vs = (k, v) :: ws) by congruence. subst. apply Forall2_cons; [now split|]. now apply IH.
    + intros H. inversion H as [|? [k' v] ? ws [E F] H' E1 E2]; subst. cbn [fst snd] in *. subst k'. rewrite F. cbn [bind]. apply IH in H'. rewrite H'. reflexivity.
Qed.
Lemma go_fields_fail : forall l, go_fields l = GoPanic <-> Exists (fun p => from_go (snd p) = GoPanic) l.
Proof.
  induction l as [|[k x] l IH]; cbn [go_fields]; [split; [discriminate|intros H; inversion H]|].
  destruct (from_go x) as [v| |] eqn:Fx; cbn [bind].
  - assert (T : go_fields l <> Err). { pose proof (from_go_total (AMap l)) as T. rewrite from_map in T. intros E. rewrite E in T. now apply T. }
    destruct (go_fields l) as [ws| |] eqn:F; cbn [bind]; try congruence.
    + split; [discriminate|]. intros H. inversion H as [? ? H'|? ? H']; subst; [cbn in H'; congruence|]. apply IH in H'. congruence.
    + split; [|reflexivity]. intros _. right. now apply IH.
  - now destruct (from_go_total x).
  - split; [|reflexivity]. intros _. now left.
Qed.
Lemma Forall2_perm {A B} (R : A -> B -> Prop) l l' m : Permutation l l' -> Forall2 R l m -> exists m', Forall2 R l' m' /\ Permutation m m'.
Proof.
  intros P. revert m. induction P as [|x l l' P IH|x y l|l1 l2 l3 P1 IH1 P2 IH2]; intros m F.
  - inversion F; subst. exists []. split; constructor.
  - inversion F as [|? b ? m0 Rb F' E1 E2]; subst. destruct (IH _ F') as (m' & F2 & Pm). exists (b :: m'). split; [now apply Forall2_cons|now constructor].
  - inversion F as [|? b ? m0 Rb F' E1 E2]; subst. inversion F' as [|? c ? m1 Rc F2 E1 E2]; subst. exists (c :: b :: m1). split; [repeat apply Forall2_cons; auto|constructor].
  - destruct (IH1 _ F) as (m2 & F2 & Q1). destruct (IH2 _ F2) as (m3 & F3 & Q2). exists m3. split; [exact F3|]. now transitivity m2.
Qed.

Section Js.
Variable other : ty -> val -> res (option val).
Variable struct_text : list (string * option val) -> string.
Notation cast_value := (cast_value other struct_text).
Notation cast_opt := (cast_opt other struct_text).
Notation cast_fields := (cast_fields other struct_text).

Lemma cast_fields_perm fs : forall m m', (forall k, find_last k m = find_last k m') -> cast_fields fs m = cast_fields fs m'.
Proof.
  induction fs as [|[k t] fs IH]; intros m m' H; [reflexivity|]. cbn [RowsProofs.cast_fields]. rewrite <- (H k). destruct (find_last k m) as [o|].
  - destruct (cast_opt t o) as [c| |]; [|reflexivity|reflexivity]. cbn [bind]. rewrite (IH (m ++ [(k, c)])%list (m' ++ [(k, c)])%list); [reflexivity|].
    intros k2. rewrite !find_last_app. now rewrite H.
  - now rewrite (IH m m' H).
Qed.
Lemma struct_perm fs l l' : NoDup (map fst l) -> Permutation l l' ->
  bind (from_go (AMap l)) (cast_opt (TStruct fs)) = bind (from_go (AMap l')) (cast_opt (TStruct fs)).
Proof.
  intros N P. rewrite !from_map. destruct (go_fields l) as [vs| |] eqn:G.
  - apply go_fields_all in G. destruct (Forall2_perm _ _ _ _ P G) as (vs' & G' & Pv). apply go_fields_all in G'. rewrite G'. cbn [bind RowsModel.cast_opt].
    rewrite !cast_struct. rewrite (anonymous_perm vs vs' Pv). destruct (anonymous vs') eqn:AN.
    + apply go_fields_all in G'. assert (K : map fst vs = map fst l) by (clear -G; induction G as [|? ? ? ? [E _] _ IH]; cbn; congruence).
      assert (N' : NoDup (map fst vs)) by now rewrite K. clear -AN N' Pv. rewrite <- (anonymous_perm vs vs' Pv) in AN.
      destruct vs as [|[k v] vs]; [apply Permutation_nil in Pv; now subst|].
      destruct vs as [|[k2 v2] vs]; [apply Permutation_length_1_inv in Pv; now subst|].
      exfalso. cbn in AN. apply andb_prop in AN. destruct AN as [A1 A2]. apply andb_prop in A2. destruct A2 as [A2 _]. apply String.eqb_eq in A1, A2. subst.
      cbn in N'. inversion N' as [|? ? NI _]. apply NI. now left.
    + rewrite (cast_fields_perm fs vs vs'); [reflexivity|]. intros k. apply find_last_perm; [|exact Pv].
      assert (K : map fst vs = map fst l) by (clear -G; induction G as [|? ? ? ? [E _] _ IH]; cbn; congruence). now rewrite K.
  - pose proof (from_go_total (AMap l)) as T. rewrite from_map, G in T. now destruct T.
  - assert (G' : go_fields l' = GoPanic). { apply go_fields_fail. apply go_fields_fail in G. rewrite Exists_exists in *. destruct G as (x & I & H). exists x. split; [|exact H]. now apply (Permutation_in x P). }
    now rewrite G'.
Qed.

Lemma cast_fields_means fs : forall m xs, NoDup (map fst fs) ->
  Forall2 (fun f x => fst f = fst x /\ match find_last (fst f) m with Some o => cast_opt (snd f) o = Ok (snd x) | None => snd x = None end) fs xs ->
  cast_fields fs m = Ok xs.
Proof.
  induction fs as [|[k t] fs IH]; intros m xs N F; inversion F as [|? [k' c] ? xs' [E C] F' E1 E2]; subst; [reflexivity|].
  cbn [fst snd] in *. subst k'. cbn [RowsProofs.cast_fields]. inversion N as [|? ? NI N']; subst.
  assert (G : forall c', Forall2 (fun f x => fst f = fst x /\ match find_last (fst f) (m ++ [(k, c')])%list with Some o => cast_opt (snd f) o = Ok (snd x) | None => snd x = None end) fs xs').
  { intros c'. assert (G : Forall (fun f : string * ty => fst f <> k) fs).
    { apply Forall_forall. intros [k2 t2] I E. cbn in E. subst k2. apply NI. change k with (fst (k, t2)). now apply in_map. }
    clear -F' G. induction F' as [|f x fs xs [E C] F' IH]; constructor.
    - split; [exact E|]. rewrite find_last_app. cbn. inversion G as [|? ? D _]; subst. destruct (String.eqb_spec k (fst f)); [congruence|exact C].
    - apply IH. now inversion G. }
  destruct (find_last k m) as [o|].
  - rewrite C. cbn [bind]. rewrite (IH _ xs' N' (G c)). reflexivity.
  - subst c. rewrite (IH m xs' N' F'). reflexivity.
Qed.

Definition field_means (l : list (string * arg)) : list (string * ty) -> list (string * option val) -> Prop :=
  fix fields (fs : list (string * ty)) (xs : list (string * option val)) : Prop :=
    match fs, xs with
    | [], [] => True
    | (k, t') :: fs', (k', o') :: xs' =>
        k' = k /\ match property k l with Some a' => means t' a' o' | None => o' = None end /\ fields fs' xs'
    | _, _ => False
    end.
(** Types by the size of what they are made of. *)
Fixpoint ty_size (t : ty) : nat :=
  match t with
  | TArray e => S (ty_size e)
  | TStruct fs => S ((fix go (fs : list (string * ty)) := match fs with [] => O | (_, t') :: r => S (ty_size t' + go r) end) fs)
  | _ => O
  end%nat.
Lemma plain_ok : forall a, plain_arg a -> exists o, from_go a = Ok o.
Proof.
  intros a. remember (arg_size a) as n eqn:En. assert (L : (arg_size a <= n)%nat) by lia. clear En. revert a L.
  induction n as [|n IH]; intros a L P; destruct a as [| | | | | | | | | |p|l|l|l]; cbn [plain_arg] in P; try contradiction; try (cbn in L; lia);
    try (match goal with |- exists o, from_go ?a = Ok o => let r := eval cbn in (from_go a) in match r with Ok ?x => exists x; reflexivity end end).
  - rewrite from_slice. assert (G : exists vs, go_list l = Ok vs).
    { induction l as [|x l IHl]; [now eexists|]. cbn [arg_size] in L. destruct P as [P1 P2]. cbn [go_list]. destruct (IH x ltac:(lia) P1) as (o & ->). cbn [bind].
      destruct IHl as (vs & ->); [cbn [arg_size]; lia|exact P2|]. now eexists. }
    destruct G as (vs & ->). now eexists.
  - rewrite from_map. assert (G : exists vs, go_fields l = Ok vs).
    { induction l as [|[k x] l IHl]; [now eexists|]. cbn [arg_size] in L. destruct P as [P1 P2]. cbn [go_fields]. destruct (IH x ltac:(lia) P1) as (o & ->). cbn [bind].
      destruct IHl as (vs & ->); [cbn [arg_size]; lia|exact P2|]. now eexists. }
    destruct G as (vs & ->). now eexists.
Qed.
Lemma property_in : forall k l a, property k l = Some a -> In (k, a) l.
Proof. induction l as [|[k' b] l IH]; intros a; cbn; [discriminate|]. destruct (String.eqb_spec k k'); intros E; [left; congruence|right; now apply IH]. Qed.
Lemma plain_in : forall l k a, plain_arg (AMap l) -> In (k, a) l -> plain_arg a.
Proof. induction l as [|[k' b] l IH]; intros k a P I; [contradiction|]. destruct P as [P1 P2]. destruct I as [E|I]; [congruence|]. now apply (IH k a). Qed.

Lemma means_cast : forall n t a o, (ty_size t <= n)%nat -> plain_arg a -> means t a o -> exists w, from_go a = Ok w /\ cast_opt t w = Ok o.
Proof.
  induction n as [n IH] using lt_wf_ind. intros t a o L P M.
  assert (Z : (a = ANil /\ o = None) \/ a <> ANil) by (destruct a; [left; destruct t; cbn in M; auto|right..]; discriminate).
  destruct Z as [[-> ->]|NN]; [exists None; now split|].
  destruct t as [| | | | | | | | | | |e|fs]; cbn [means] in M.
  - destruct a; try (now destruct NN); destruct M as (y & E & ->); try discriminate. assert (z = y) by congruence. subst. eexists; split; reflexivity.
  - destruct a; try (now destruct NN); destruct M as (y & E & ->); try discriminate. assert (b = y) by congruence. subst. eexists; split; reflexivity.
  - destruct a; try (now destruct NN); destruct M as [(y & E & ->)|(y & E & ->)]; try discriminate.
    + assert (z = y) by congruence. subst. eexists; split; reflexivity.
    + assert (f = y) by congruence. subst. eexists; split; reflexivity.
  - destruct a; try (now destruct NN); destruct M as (y & E & ->); try discriminate. assert (s = y) by congruence. subst. eexists; split; reflexivity.
  - destruct a; try contradiction; now destruct NN.
  - destruct a; try contradiction; now destruct NN.
  - destruct a; try contradiction; now destruct NN.
  - destruct a; try contradiction; now destruct NN.
  - destruct a; try contradiction; now destruct NN.
  - destruct a; try contradiction; now destruct NN.
  - destruct a; try contradiction; now destruct NN.
  - destruct a as [| | | | | | | | | | |l0|l1|l2]; try (now destruct NN); destruct M as (l & vs & E & -> & F); try discriminate. assert (l0 = l) by congruence. subst l0. clear E NN.
    cbn [ty_size] in L. rewrite from_slice.
    assert (G : exists ws, go_list l = Ok ws /\ cast_elems other struct_text e ws = Ok vs).
    { induction F as [|x v l vs Mx F IHF]; [exists []; now split|]. cbn [plain_arg] in P. destruct P as [P1 P2].
      destruct (IH (ty_size e) ltac:(lia) e x v ltac:(lia) P1 Mx) as (w & W1 & W2). destruct IHF as (ws & G1 & G2); [exact P2|].
      exists (w :: ws). cbn [go_list]. rewrite W1. cbn [bind]. rewrite G1. split; [reflexivity|]. cbn [cast_elems]. rewrite W2. cbn [bind]. rewrite G2. reflexivity. }
    destruct G as (ws & G1 & G2). rewrite G1. cbn [bind]. eexists. split; [reflexivity|]. cbn [RowsModel.cast_opt]. rewrite cast_array, G2. reflexivity.
  - destruct a as [| | | | | | | | | | |l1|l0|l2]; try (now destruct NN); destruct M as (l & xs & E & -> & N & NF & (k0 & I0 & NE) & F); try discriminate. assert (l0 = l) by congruence. subst l0. clear E NN.
    change (field_means l fs xs) in F. destruct (plain_ok _ P) as (w & W). rewrite W. rewrite from_map in W.
    destruct (go_fields l) as [vs| |] eqn:G; cbn [bind] in W; try discriminate. assert (w = Some (VStruct vs)) by congruence. subst w. clear W.
    eexists. split; [reflexivity|]. cbn [RowsModel.cast_opt]. rewrite cast_struct. apply go_fields_all in G.
    assert (K : map fst vs = map fst l) by (clear -G; induction G as [|? ? ? ? [E _] _ IH]; cbn; congruence).
    assert (AN : anonymous vs = false).
    { apply anonymous_false. rewrite <- K in I0. apply in_map_iff in I0. destruct I0 as (q & Eq & Iq). apply Exists_exists. exists q. split; [exact Iq|congruence]. }
    rewrite AN. rewrite (cast_fields_means fs vs xs NF); [reflexivity|].
    assert (LK : forall k, match property k l with Some a' => exists o', from_go a' = Ok o' /\ find_last k vs = Some o' | None => find_last k vs = None end).
    { intros k. clear F NF L IH P. rewrite property_find by exact N. revert N. induction G as [|[k1 a1] [k2 o2] l vs [E1 E2] G IHG]; intros N; [reflexivity|].
      cbn [fst snd] in *. subst k2. cbn [map fst] in N, I0, K. assert (Nl : NoDup (map fst l)) by (inversion N; assumption). cbn [find_last].
      assert (IHG' : match find_last k l with Some a' => exists o', from_go a' = Ok o' /\ find_last k vs = Some o' | None => find_last k vs = None end).
      { clear -G Nl. induction G as [|[k1 a1] [k2 o2] l vs [E1 E2] G IHG]; [reflexivity|]. cbn [fst snd] in *. subst k2. inversion Nl as [|? ? _ Nl']; subst. cbn [find_last].
        specialize (IHG Nl'). destruct (find_last k l) as [a'|]; [destruct IHG as (o' & F1 & F2); rewrite F2; now exists o'|]. rewrite IHG. destruct (String.eqb k1 k); [now exists o2|reflexivity]. }
      destruct (find_last k l) as [a'|]; [destruct IHG' as (o' & F1 & F2); rewrite F2; now exists o'|]. rewrite IHG'. destruct (String.eqb k1 k); [now exists o2|reflexivity]. }
    cbn [ty_size] in L. clear N NF I0 AN K. revert xs F L. induction fs as [|[k t] fs IHfs]; intros [|[k' o'] xs] F L; try contradiction; [constructor|].
    cbn [field_means] in F. destruct F as (-> & Hk & F). apply Forall2_cons.
    + cbn [fst snd]. split; [reflexivity|]. specialize (LK k). destruct (property k l) as [a'|] eqn:Pk.
      * destruct LK as (o2 & F1 & F2). rewrite F2. destruct (IH (ty_size t) ltac:(lia) t a' o' ltac:(lia)) as (w & W1 & W2); [|exact Hk|].
        { apply (plain_in l k); [exact P|]. now apply property_in. }
        rewrite F1 in W1. assert (o2 = w) by congruence. now subst.
      * now rewrite LK.
    + apply IHfs; [exact F|lia].
Qed.
End Js.

(** ** Braces *)
Lemma occurrences_app c a b : occurrences c (a ++ b) = occurrences c a + occurrences c b.
Proof. induction a as [|x a IH]; cbn; [reflexivity|]. rewrite IH. lia. Qed.
Lemma braces_app a b : braces (a ++ b) = braces a + braces b.
Proof. unfold braces. rewrite !occurrences_app. lia. Qed.
Lemma uncommented_plain : forall a b, has_char "/" a = false -> uncommented false (a ++ b) = a ++ uncommented false b.
Proof.
  induction a as [|x a IH]; intros b H; [reflexivity|]. cbn [has_char] in H. apply orb_false_iff in H. destruct H as [Hx H]. cbn [append uncommented].
  destruct (a ++ b)%string as [|y r] eqn:AB.
  - destruct a; [|discriminate]. cbn in AB. subst b. reflexivity.
  - rewrite Hx. cbn [andb]. rewrite <- AB, IH by exact H. reflexivity.
Qed.
Lemma uncommented_inside : forall a b, has_char "010" a = false -> uncommented true (a ++ b) = uncommented true b.
Proof. induction a as [|x a IH]; intros b H; [reflexivity|]. cbn [has_char] in H. apply orb_false_iff in H. destruct H as [Hx H]. cbn [append uncommented]. rewrite Hx. now apply IH. Qed.
