(** Types as they are written: the grammar is unambiguous, and what spec.go writes is in it. *)
From Coq Require Import Ascii String List Arith Bool Lia.
From Verif Require Import GoBase TmplModel TmplSpec TmplProofs TyTextSpec.
Import ListNotations.
Local Open Scope string_scope.

Scheme written_mind := Induction for written Sort Prop
  with fields_mind := Induction for written_fields Sort Prop
  with field_mind := Induction for written_field Sort Prop.
Combined Scheme written_mut from written_mind, fields_mind, field_mind.

Lemma sapp_assoc : forall a b c : string, (a ++ b) ++ c = a ++ (b ++ c).
Proof. induction a as [|x a IH]; intros b c; [reflexivity|]. cbn. now rewrite IH. Qed.
Lemma sapp_nil : forall a : string, a ++ "" = a.
Proof. induction a as [|x a IH]; [reflexivity|]. cbn. now rewrite IH. Qed.

(** Not in the middle of a word. *)
Definition cut (r : string) : Prop := match r with EmptyString => True | String c _ => word_char c = false end.
(** After a type. *)
Definition stop (r : string) : Prop := cut r /\ match r with String "<" _ => False | _ => True end.

Lemma words_cut : forall k k' r r', word_chars k = true -> word_chars k' = true -> cut r -> cut r' -> k ++ r = k' ++ r' -> k = k' /\ r = r'.
Proof.
  induction k as [|c k IH]; intros [|c' k'] r r' W W' C C' E; cbn in *.
  - tauto.
  - subst r. cbn in C. rewrite C in W'. discriminate.
  - subst r'. cbn in C'. rewrite C' in W. discriminate.
  - injection E as -> E. apply andb_prop in W as (_ & W). apply andb_prop in W' as (_ & W').
    destruct (IH k' r r' W W' C C' E) as (-> & ->). tauto.
Qed.

Lemma quoted_inj : forall n q, quoted n q -> forall n' q' r r', quoted n' q' -> q ++ String backquote r = q' ++ String backquote r' -> n = n' /\ r = r'.
Proof.
  induction 1; intros n' q' r r' Q E; inversion Q; subst; cbn [append] in E; try (unfold backquote, backslash, newline in *; congruence);
    injection E; intros; subst; try tauto; try (unfold backquote, backslash, newline in *; congruence);
    match goal with
    | IH : forall n' q' r r', quoted n' q' -> _, A : quoted ?a ?b, B : ?x ++ _ = ?b ++ _ |- _ => destruct (IH _ _ _ _ A B); subst; tauto
    end.
Qed.

(** The first character of a type and of a field. *)
Lemma written_first : forall t s, written t s -> exists c r, s = String c r /\ word_char c = true.
Proof.
  intros t s [k (N & W)|u x _|fs x _].
  - destruct k as [|c k]; [congruence|]. cbn in W. apply andb_prop in W as (W & _). now exists c, k.
  - now eexists _, _.
  - now eexists _, _.
Qed.
Lemma field_first : forall f s, written_field f s -> exists c r, s = String c r /\ (word_char c = true \/ c = backquote).
Proof.
  intros f s [n q t x _ _ _|t x W]; [eexists _, _; split; [reflexivity|now right]|].
  destruct (written_first t x W) as (c & r & -> & H). exists c, r. tauto.
Qed.
Lemma fields_first : forall fs s, written_fields fs s -> fs = [] /\ s = "" \/ fs <> [] /\ exists c r, s = String c r /\ (word_char c = true \/ c = backquote).
Proof.
  intros fs s [|f x F|f x g gs r F _]; [now left| |]; right; (split; [discriminate|]); destruct (field_first _ _ F) as (c & y & -> & H).
  - now exists c, y.
  - exists c, (y ++ "," ++ r). tauto.
Qed.

Lemma array_text : forall s r : string, ("ARRAY<" ++ s ++ ">") ++ r = "ARRAY" ++ String "<" (s ++ String ">" r).
Proof. intros s r. cbn. now rewrite sapp_assoc. Qed.
Lemma struct_text : forall s r : string, ("STRUCT<" ++ s ++ ">") ++ r = "STRUCT" ++ String "<" (s ++ String ">" r).
Proof. intros s r. cbn. now rewrite sapp_assoc. Qed.
Lemma named_text : forall q s r : string, ("`" ++ q ++ "` " ++ s) ++ r = String backquote (q ++ String backquote (String " " (s ++ r))).
Proof. intros q s r. cbn. now rewrite sapp_assoc. Qed.

Lemma scalar_not : forall k w r x, is_word k -> word_chars w = true -> stop r -> k ++ r = w ++ String "<" x -> False.
Proof.
  intros k w r x (_ & W) Ww (C & S) E. destruct (words_cut k w r (String "<" x) W Ww C eq_refl E) as (_ & ->). exact S.
Qed.

Lemma unambiguous :
  (forall t s, written t s -> forall t' s' r r', written t' s' -> stop r -> stop r' -> s ++ r = s' ++ r' -> t = t' /\ r = r') /\
  (forall fs s, written_fields fs s -> forall fs' s' r r', written_fields fs' s' -> s ++ String ">" r = s' ++ String ">" r' -> fs = fs' /\ r = r') /\
  (forall f s, written_field f s -> forall f' s' r r', written_field f' s' -> stop r -> stop r' -> s ++ r = s' ++ r' -> f = f' /\ r = r').
Proof.
  apply written_mut.
  - intros k W t' s' r r' [k' W'|u x _|fs x _] S S' E.
    + destruct (words_cut k k' r r' (proj2 W) (proj2 W') (proj1 S) (proj1 S') E) as (-> & ->). tauto.
    + rewrite array_text in E. destruct (scalar_not k "ARRAY" r _ W eq_refl S E).
    + rewrite struct_text in E. destruct (scalar_not k "STRUCT" r _ W eq_refl S E).
  - intros t s _ IH t' s' r r' [k' W'|u x U|fs x _] S S' E.
    + rewrite array_text in E. symmetry in E. destruct (scalar_not k' "ARRAY" r' _ W' eq_refl S' E).
    + rewrite !array_text in E. cbn in E. injection E as E.
      destruct (IH u x (String ">" r) (String ">" r') U) as (-> & Er); [now split|now split|exact E|]. injection Er as ->. tauto.
    + rewrite array_text, struct_text in E. discriminate.
  - intros fs s _ IH t' s' r r' [k' W'|u x U|gs x G] S S' E.
    + rewrite struct_text in E. symmetry in E. destruct (scalar_not k' "STRUCT" r' _ W' eq_refl S' E).
    + rewrite array_text, struct_text in E. discriminate.
    + rewrite !struct_text in E. cbn in E. injection E as E. destruct (IH gs x r r' G E) as (-> & ->). tauto.
  - intros fs' s' r r' F E. destruct (fields_first fs' s' F) as [(-> & ->)|(_ & c & y & -> & H)]; cbn in E.
    + injection E as ->. tauto.
    + injection E as <- _. destruct H as [H|H]; discriminate H.
  - intros f s F IH fs' s' r r' [|g x G|g x h hs y G _] E.
    + destruct (field_first f s F) as (c & z & -> & H). cbn in E. injection E as -> _. destruct H as [H|H]; discriminate H.
    + destruct (IH g x (String ">" r) (String ">" r') G) as (-> & Er); [now split|now split|exact E|]. injection Er as ->. tauto.
    + rewrite !sapp_assoc in E. destruct (IH g x (String ">" r) _ G ltac:(now split) (ltac:(now split) : stop ("," ++ (y ++ String ">" r'))) E) as (_ & Er). discriminate Er.
  - intros f s g gs y F IHf _ IHs fs' s' r r' [|h x G|h x k ks z G K] E.
    + destruct (field_first f s F) as (c & w & -> & H). cbn in E. injection E as -> _. destruct H as [H|H]; discriminate H.
    + rewrite !sapp_assoc in E. destruct (IHf h x _ (String ">" r') G (ltac:(now split) : stop ("," ++ (y ++ String ">" r))) ltac:(now split) E) as (_ & Er). discriminate Er.
    + rewrite !sapp_assoc in E. destruct (IHf h x _ _ G (ltac:(now split) : stop ("," ++ (y ++ String ">" r))) (ltac:(now split) : stop ("," ++ (z ++ String ">" r'))) E) as (-> & Er).
      cbn in Er. injection Er as Er. destruct (IHs (k :: ks) z r r' K Er) as (-> & ->). tauto.
  - intros n q t s N Q _ IH f' s' r r' [n' q' t' x N' Q' W'|t' x W'] S S' E.
    + rewrite !named_text in E. injection E as E. destruct (quoted_inj n q Q n' q' _ _ Q' E) as (-> & E2). injection E2 as E2.
      destruct (IH t' x r r' W' S S' E2) as (-> & ->). tauto.
    + rewrite named_text in E. destruct (written_first t' x W') as (c & z & -> & H). cbn in E. injection E as <- _. discriminate H.
  - intros t s W IH f' s' r r' [n' q' t' x N' Q' W'|t' x W'] S S' E.
    + rewrite named_text in E. destruct (written_first t s W) as (c & z & -> & H). cbn in E. injection E as -> _. discriminate H.
    + destruct (IH t' x r r' W' S S' E) as (-> & ->). tauto.
Qed.
Lemma written_unique : forall t t' s, written t s -> written t' s -> t' = t.
Proof.
  intros t t' s W W'. destruct (proj1 unambiguous t s W t' s "" "" W') as (-> & _); [now split|now split|reflexivity|reflexivity].
Qed.

Lemma plain_quoted : forall n, plain_name n -> quoted n n.
Proof. induction n as [|c n IH]; cbn; [constructor|]. intros (A & B & C & D). constructor; auto. Qed.

Fixpoint ty_size (t : ty) : nat :=
  match t with Scalar _ => 1 | Array e => S (ty_size e) | Struct fs => S (list_sum (map (fun f => ty_size (snd f)) fs)) end.
Definition field_text (f : string * ty) : string := "`" ++ fst f ++ "` " ++ format_type (snd f).
Lemma format_written : forall t, plain t -> written t (format_type t).
Proof.
  intros t. remember (ty_size t) as m eqn:Em. assert (L : ty_size t <= m) by lia. clear Em. revert t L.
  induction m as [|m IH]; intros t L P; [destruct t; cbn in L; lia|].
  destruct P as [k W|e P|fs P]; cbn [format_type].
  - now constructor.
  - constructor. apply IH; [cbn in L; lia|exact P].
  - constructor. change (written_fields fs (String.concat "," (map field_text fs))).
    cbn [ty_size] in L. apply le_S_n in L.
    assert (One : forall f, ty_size (snd f) <= m -> fst f <> "" /\ plain_name (fst f) /\ plain (snd f) -> written_field f (field_text f)).
    { intros (n, u) Lf (N & Pn & Pu). unfold field_text. cbn [fst snd] in *. constructor; [exact N|now apply plain_quoted|now apply IH]. }
    induction P as [|f fs H P IHf]; [constructor|]. cbn [map list_sum fold_right] in L. change (fold_right plus 0) with list_sum in L.
    destruct fs as [|g gs]; [constructor; apply One; [lia|exact H]|].
    change (written_fields (f :: g :: gs) (field_text f ++ "," ++ String.concat "," (map field_text (g :: gs)))).
    constructor; [apply One; [lia|exact H]|apply IHf; lia].
Qed.
Lemma formats_written : forall ts, Forall plain ts -> Forall2 written ts (map format_type ts).
Proof. induction 1; constructor; auto using format_written. Qed.
