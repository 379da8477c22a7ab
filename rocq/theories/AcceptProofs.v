From Coq Require Import Ascii String List ZArith Lia Bool.
From Verif Require Import GoBase GoBaseFacts DecModel DecFacts QueryModel QuerySpec QueryProofs AcceptSpec.
Import ListNotations.
Local Open Scope string_scope.

(** ** Texts in which every parenthesis is closed *)
Fixpoint no_nl (s : string) : bool := match s with EmptyString => true | String c r => negb (Ascii.eqb c newline) && no_nl r end.
Fixpoint closed (s : string) : bool :=
  match s with
  | EmptyString => true
  | String c r => (if Ascii.eqb c "(" then match r with String _ r' => has_char ")" r' | EmptyString => false end else true) && closed r
  end.
Definition ok (s : string) : Prop := no_nl s = true /\ closed s = true.
Lemma no_nl_app a b : no_nl (a ++ b) = no_nl a && no_nl b.
Proof. induction a as [|c a IH]; [reflexivity|]. cbn. rewrite IH. now rewrite andb_assoc. Qed.
Lemma has_app c a b : has_char c (a ++ b) = has_char c a || has_char c b.
Proof. induction a as [|x a IH]; [reflexivity|]. cbn. rewrite IH. now rewrite orb_assoc. Qed.
Lemma closed_app a b : closed a = true -> closed b = true -> closed (a ++ b) = true.
Proof.
  intros A B. induction a as [|c a IH]; [exact B|]. cbn [closed append] in *. apply andb_prop in A. destruct A as [A1 A2]. rewrite (IH A2), andb_true_r.
  destruct (Ascii.eqb c "("); [|reflexivity]. destruct a as [|d a]; [discriminate|]. cbn [append]. now rewrite has_app, A1.
Qed.
Lemma ok_app a b : ok a -> ok b -> ok (a ++ b).
Proof. intros [A1 A2] [B1 B2]. split; [now rewrite no_nl_app, A1, B1|now apply closed_app]. Qed.
Lemma ok_paren s : s <> "" -> ok s -> ok ("(" ++ s ++ ")").
Proof.
  intros N [A B]. split; [cbn [append no_nl]; now rewrite no_nl_app, A|]. cbn [append closed]. rewrite (closed_app s ")" B eq_refl), andb_true_r.
  destruct s as [|c s]; [congruence|]. cbn [append]. change (Ascii.eqb "(" "(") with true. cbv iota. rewrite has_app. cbn. apply orb_true_r.
Qed.
Lemma tame_ok s : tame s = true -> ok s.
Proof.
  induction s as [|c s IH]; intros H; [split; reflexivity|]. cbn [tame] in H. apply andb_prop in H. destruct H as [H1 H]. apply andb_prop in H1. destruct H1 as [H1 H2].
  destruct (IH H) as [A B]. split; cbn [no_nl closed].
  - unfold newline. now rewrite H2, A.
  - destruct (Ascii.eqb c "("); [discriminate|]. exact B.
Qed.

Lemma app_assoc_s (a b c : string) : (a ++ b) ++ c = a ++ b ++ c.
Proof. symmetry. apply string_app_assoc. Qed.
Lemma length_app (a b : string) : String.length (a ++ b) = (String.length a + String.length b)%nat.
Proof. induction a as [|c a IH]; [reflexivity|]. cbn. now rewrite IH. Qed.
(** ** removeExpressions leaves what follows such a text alone *)
Lemma to_close_app s t : no_nl s = true -> has_char ")" s = true -> exists r, to_close (s ++ t) = Some (r ++ t) /\ (String.length r < String.length s)%nat /\
  exists p, s = p ++ r.
Proof.
  induction s as [|c s IH]; intros N H; [discriminate|]. cbn [append to_close no_nl has_char] in *. apply andb_prop in N. destruct N as [N1 N].
  destruct (Ascii.eqb_spec c ")") as [->|C].
  - exists s. split; [reflexivity|]. split; [cbn; lia|]. now exists ")".
  - destruct (Ascii.eqb c newline); [discriminate|].
    assert (H' : has_char ")" s = true) by (apply orb_prop in H; destruct H as [H|H]; [|exact H]; try discriminate H; apply Ascii.eqb_eq in H; congruence).
    destruct (IH N H') as (r & E & L & p & P). exists r. split; [exact E|]. split; [cbn; lia|]. exists (String c p). cbn. now rewrite <- P.
Qed.
Lemma ok_suffix p r : ok (p ++ r) -> ok r.
Proof.
  induction p as [|c p IH]; intros H; [exact H|]. apply IH. destruct H as [A B]. cbn [append no_nl closed] in *. apply andb_prop in A, B. split; [apply A|apply B].
Qed.
Lemma remove_app : forall n a t, (String.length a < n)%nat -> ok a -> forall f, (String.length (a ++ t) < f)%nat ->
  exists p g, remove_exprs f (a ++ t) = p ++ remove_exprs g t /\ (String.length t < g)%nat.
Proof.
  induction n as [|n IH]; intros a t L O f F; [lia|]. destruct a as [|c a].
  - exists "", f. split; [reflexivity|exact F].
  - destruct f as [|f]; [lia|]. cbn [append remove_exprs].
    pose proof (ok_suffix (String c "") a O) as Oa. destruct O as [On Oc]. cbn [closed no_nl] in Oc, On. apply andb_prop in Oc, On.
    assert (Step : exists p g, String c (remove_exprs f (a ++ t)) = p ++ remove_exprs g t /\ (String.length t < g)%nat).
    { destruct (IH a t ltac:(cbn in L; lia) Oa f ltac:(cbn in F; lia)) as (p & g & E & G). exists (String c p), g. split; [cbn; now rewrite E|exact G]. }
    destruct (Ascii.eqb c "("); [|exact Step]. destruct Oc as [Oc _]. destruct a as [|d a]; [discriminate|]. cbn [append after_group].
    destruct On as [_ On]. cbn [no_nl] in On. apply andb_prop in On. destruct On as [Od On]. destruct (Ascii.eqb d newline); [discriminate|].
    destruct (to_close_app a t On Oc) as (r & E & Lr & p & P). rewrite E.
    assert (Or : ok r). { apply (ok_suffix (String d p)). cbn [append]. now rewrite <- P. }
    apply (IH r t); [cbn in L; lia|exact Or|]. cbn in F. rewrite !length_app in *. lia.
Qed.
Lemma remove_plain s : has_char "(" s = false -> forall r g, (String.length (s ++ r) < g)%nat -> exists g', remove_exprs g (s ++ r) = s ++ remove_exprs g' r.
Proof.
  induction s as [|c s IH]; intros H r g L; [exists g; reflexivity|]. cbn [has_char] in H. apply orb_false_elim in H. destruct H as [C H].
  destruct g as [|g]; [cbn in L; lia|]. cbn [append remove_exprs]. rewrite Ascii.eqb_sym in C. 
  assert (C' : Ascii.eqb c "(" = false) by (rewrite Ascii.eqb_sym; first [exact C | rewrite Ascii.eqb_sym; exact C]). rewrite C'.
  destruct (IH H r g ltac:(cbn in L; lia)) as [g' E]. exists g'. now rewrite E.
Qed.
Lemma prefix_self t r : has_prefix t (t ++ r) = true.
Proof. induction t as [|c t IH]; [reflexivity|]. cbn [append has_prefix]. now rewrite Ascii.eqb_refl, IH. Qed.
Lemma contains_middle p t r : contains (p ++ t ++ r) t = true.
Proof.
  induction p as [|c p IH].
  - change ("" ++ t ++ r) with (t ++ r). pose proof (prefix_self t r) as P. destruct (t ++ r) as [|c x] eqn:E; cbn [contains]; [destruct t; [reflexivity|discriminate]|]. now rewrite P.
  - change (has_prefix t (String c (p ++ t ++ r)) || contains (p ++ t ++ r) t = true). rewrite IH. apply orb_true_r.
Qed.
Lemma wraps_token a t r : In t tokens -> has_char "(" t = false -> t <> "" -> ok a -> wraps (a ++ " " ++ t ++ r) = true.
Proof.
  intros I H N O. unfold wraps. destruct (remove_app (S (String.length a)) a (" " ++ t ++ r) ltac:(lia) O (S (String.length (a ++ " " ++ t ++ r))) ltac:(lia)) as (p & g & E & G).
  rewrite E. rewrite <- app_assoc_s in G |- *. destruct (remove_plain (" " ++ t)) with (r := r) (g := g) as [g' E']; [cbn; exact H|exact G|]. rewrite E'.
  set (w := remove_exprs g' r). assert (Ne : String.eqb (p ++ (" " ++ t) ++ w) "" = false) by (destruct p; reflexivity). rewrite Ne. cbn [negb andb].
  apply existsb_exists. exists t. split; [exact I|]. replace (p ++ (" " ++ t) ++ w) with ((p ++ " ") ++ t ++ w) by (rewrite !app_assoc_s; reflexivity). apply contains_middle.
Qed.

(** Texts that do not end in an opening parenthesis *)
Fixpoint fin (s : string) : bool :=
  match s with EmptyString => true | String c EmptyString => negb (Ascii.eqb c "(") | String _ r => fin r end.
Definition fine (s : string) : Prop := no_nl s = true /\ fin s = true.
Lemma fin_end a b : b <> "" -> fin b = true -> fin (a ++ b) = true.
Proof.
  intros N F. induction a as [|c a IH]; [exact F|]. cbn [append]. destruct (a ++ b) eqn:E; [|exact IH]. destruct a; [cbn in E; congruence|discriminate].
Qed.
Lemma fine_end a b : no_nl a = true -> b <> "" -> fine b -> fine (a ++ b).
Proof. intros A N [B F]. split; [now rewrite no_nl_app, A, B|now apply fin_end]. Qed.
Lemma fine_app a b : fine a -> fine b -> fine (a ++ b).
Proof.
  intros [A F] [B G]. split; [now rewrite no_nl_app, A, B|]. destruct b as [|c b]; [|apply fin_end; [discriminate|exact G]].
  assert (E : a ++ "" = a) by (clear; induction a as [|c a IH]; [reflexivity|cbn; now rewrite IH]). now rewrite E.
Qed.
Lemma closed_end a b : closed b = true -> match b with String _ r => has_char ")" r = true | EmptyString => False end -> closed (a ++ b) = true.
Proof.
  intros C H. destruct b as [|d b]; [contradiction|]. induction a as [|c a IH]; [exact C|]. cbn [append closed]. rewrite IH, andb_true_r.
  destruct (Ascii.eqb c "("); [|reflexivity]. destruct a as [|x a]; cbn [append]; [exact H|]. rewrite has_app. cbn [has_char]. rewrite H. now rewrite !orb_true_r.
Qed.
Lemma closed_body s r : fin s = true -> closed r = true -> closed (s ++ String ")" r) = true.
Proof.
  intros F R. induction s as [|c s IH]; [exact R|]. cbn [append closed].
  assert (F' : fin s = true) by (destruct s; [reflexivity|exact F]). rewrite (IH F'), andb_true_r. destruct (Ascii.eqb c "(") eqn:E; [|reflexivity].
  destruct s as [|d s]; [cbn [fin] in F; rewrite E in F; discriminate|]. cbn [append]. rewrite has_app. cbn. apply orb_true_r.
Qed.
Lemma ok_group s r : s <> "" -> fine s -> ok r -> ok ("(" ++ s ++ ")" ++ r).
Proof.
  intros N [A F] [B C]. split; [cbn [append no_nl]; now rewrite no_nl_app, A; cbn [append no_nl]; rewrite B|].
  change (closed (String "(" (s ++ ")" ++ r)) = true). cbn [closed]. pose proof (closed_body s r F C) as X. cbn [append] in X |- *. rewrite X, andb_true_r. clear X. destruct s as [|d s]; [congruence|].
  cbn [append]. change (Ascii.eqb "(" "(") with true. cbv iota. rewrite has_app. cbn. apply orb_true_r.
Qed.

(** ** Texts of parts made of such names *)
Scheme sexpr_mut := Induction for sexpr Sort Prop
with sexprs_mut := Induction for sexprs Sort Prop
with query_mut := Induction for query Sort Prop
with queries_mut := Induction for queries Sort Prop
with items_mut := Induction for items Sort Prop
with cond_mut := Induction for cond Sort Prop
with from_mut := Induction for from Sort Prop
with jtoks_mut := Induction for jtoks Sort Prop
with arr_mut := Induction for arr Sort Prop
with acond_mut := Induction for acond Sort Prop.
Combined Scheme parts_ind from sexpr_mut, sexprs_mut, query_mut, queries_mut, items_mut, cond_mut, from_mut, jtoks_mut, arr_mut, acond_mut.

Definition xfull (e : sexpr) : Prop := match e with XCall _ XNil | XAgg _ _ => False | _ => True end.
Fixpoint good (e : sexpr) : Prop :=
  match e with
  | XCol n => ok n
  | XLit _ => True
  | XCall f a | XAgg f a => ok f /\ good_list a
  | XExists q | XScalar q => good_query q
  end
with good_list (a : sexprs) : Prop := match a with XNil => True | XCons e r => good e /\ good_list r end
with good_query (q : query) : Prop :=
  match q with
  | Select i f w _ => good_items i /\ good_from f /\ good_cond w
  | Sorted i f w ks => good_items i /\ good_from f /\ good_cond w /\ Forall (fun k => fine (key_text k)) ks
  | Grouped i f w ks => good_items i /\ good_from f /\ good_cond w /\ Forall ok ks
  | Compound _ l => l <> QNil /\ good_queries l
  end
with good_queries (l : queries) : Prop := match l with QNil => True | QCons q r => good_query q /\ good_queries r end
with good_items (i : items) : Prop :=
  match i with INil => True | ICol n r => ok n /\ good_items r | IAs e n r => good e /\ ok n /\ good_items r end
with good_cond (w : cond) : Prop := match w with WNone => True | WSome e => good e end
with good_from (f : from) : Prop := match f with FNone => True | FTable t => ok t | FJoins t => good_toks t end
with good_toks (t : jtoks) : Prop :=
  match t with
  | KNil => True
  | KItem q r => good_query q /\ good_toks r
  | KGroup t r => good_toks t /\ good_toks r
  | KCross r | KJoin _ r => good_toks r
  | KOn e r => good e /\ xfull e /\ good_toks r
  | KArr s r => good_arr s /\ good_toks r
  end
with good_arr (s : arr) : Prop :=
  match s with Arr f a elem off on w => good_from f /\ good a /\ ok elem /\ (forall o, off = Some o -> ok o) /\ good_acond on /\ good_cond w end
with good_acond (on : acond) : Prop := match on with OComma => True | OOn _ e => good e end.
Definition good_frag (r : frag) : Prop :=
  match r with RNone => True | RJoin t => good_toks t | RWhere t e => good_toks t /\ good e | RSelect q => good_query q | RArr s => good_arr s end.

Lemma ok_quoted n : ok n -> ok (quoted n).
Proof. intros H. unfold quoted. apply ok_app; [split; reflexivity|]. apply ok_app; [exact H|split; reflexivity]. Qed.
Lemma quoted_ne n : quoted n <> "". Proof. discriminate. Qed.
Lemma fine_quoted n : ok n -> fine (quoted n).
Proof.
  intros [A _]. unfold quoted. change ("`" ++ n ++ "`") with (("`" ++ n) ++ "`"). apply fine_end; [cbn; now rewrite A|discriminate|split; reflexivity].
Qed.
Lemma tame_digits s : all_digits s = true -> tame s = true.
Proof.
  intros H. induction s as [|c s IH]; [reflexivity|]. cbn [all_digits tame] in *. apply andb_prop in H. destruct H as [D H].
  rewrite (IH H), andb_true_r. destruct (Ascii.eqb_spec c "("); [subst; discriminate|]. destruct (Ascii.eqb_spec c "010"); [subst; discriminate|]. reflexivity.
Qed.
Lemma ok_digits s : all_digits s = true -> ok s.
Proof. intros H. now apply tame_ok, tame_digits. Qed.
Lemma tame_fine s : tame s = true -> fine s.
Proof.
  intros H. split; [now apply tame_ok|]. induction s as [|c s IH]; [reflexivity|]. cbn [tame] in H. apply andb_prop in H. destruct H as [C H]. apply andb_prop in C. destruct C as [C _].
  cbn [fin]. destruct s; [exact C|now apply IH].
Qed.
Lemma ok_dec z : ok (dec z).
Proof.
  unfold dec. destruct (Z.ltb_spec z 0); [|apply ok_digits, udec_all_digits; lia].
  apply (ok_app "-" (udec (- z))); [split; reflexivity|]. apply ok_digits, udec_all_digits. lia.
Qed.
Lemma fine_dec z : fine (dec z).
Proof.
  unfold dec. destruct (Z.ltb_spec z 0); [|apply tame_fine, tame_digits, udec_all_digits; lia].
  apply (fine_app "-" (udec (- z))); [split; reflexivity|]. apply tame_fine, tame_digits, udec_all_digits. lia.
Qed.
Lemma fine_joined sep l : fine sep -> Forall fine l -> fine (joined sep l).
Proof.
  intros S_ F. induction F as [|x l X F IH]; [split; reflexivity|]. cbn [joined]. destruct l as [|y l]; [exact X|]. apply fine_app; [exact X|]. now apply fine_app.
Qed.
Ltac lit := split; reflexivity.
Lemma call_fine f a : no_nl f = true -> no_nl a = true -> fine ("zetasqlite_" ++ f ++ "(" ++ a ++ ")").
Proof.
  intros F A. apply fine_app; [lit|]. apply fine_end; [exact F|discriminate|]. apply fine_end; [reflexivity|destruct a; discriminate|]. apply fine_end; [exact A|discriminate|lit].
Qed.
Lemma group_ok s : fine s -> fine ("(" ++ s ++ ")").
Proof. intros [A F]. apply fine_end; [reflexivity|destruct s; discriminate|]. apply fine_end; [exact A|discriminate|lit]. Qed.
Definition headed (t : jtoks) : Prop := match t with KItem _ _ | KGroup _ _ | KArr _ _ => True | _ => False end.
Lemma texts_ok :
  (forall e, good e -> fine (sexpr_text e) /\ sexpr_text e <> "" /\ (xfull e -> ok (sexpr_text e))) /\
  (forall a, good_list a -> fine (sexprs_text a) /\ (a <> XNil -> sexprs_text a <> "")) /\
  (forall q, good_query q -> fine (query_text q) /\ query_text q <> "") /\
  (forall l, good_queries l -> forall op, fine (queries_text op l) /\ (l <> QNil -> queries_text op l <> "")) /\
  (forall i, good_items i -> fine (items_text i)) /\
  (forall w, good_cond w -> match w with WNone => True | WSome e => fine (sexpr_text e) end) /\
  (forall f, good_from f -> fine (from_text f) /\ ok (from_text f)) /\
  (forall t, good_toks t -> fine (jtoks_text t) /\ ok (jtoks_text t)) /\
  (forall s, good_arr s -> fine (arr_text s) /\ arr_text s <> "") /\
  (forall on, good_acond on -> match on with OComma => True | OOn _ e => fine (sexpr_text e) end).
Proof.
  assert (Wh : forall w, match w with WNone => True | WSome e => fine (sexpr_text e) end -> fine match w with WNone => "" | WSome e => " WHERE " ++ sexpr_text e end).
  { intros [|e] H; [lit|]. apply fine_app; [lit|exact H]. }
  apply parts_ind.
  - intros n H. split; [now apply fine_quoted|]. split; [discriminate|]. intros _. now apply ok_quoted.
  - intros v _. destruct v as [z|]; cbn [sexpr_text lit_text]; [split; [apply fine_dec|]; split; [|intros _; apply ok_dec]|split; [lit|split; [discriminate|intros _; lit]]].
    unfold dec. destruct (z <? 0)%Z; [discriminate|]. intros E. pose proof (udec_nonempty z) as U. now rewrite E in U.
  - intros f a IH (F & G). destruct (IH G) as [A B]. cbn [sexpr_text]. split; [apply call_fine; [apply F|apply A]|]. split; [discriminate|]. intros X.
    apply ok_app; [lit|]. apply ok_app; [exact F|]. change ("(" ++ sexprs_text a ++ ")") with ("(" ++ sexprs_text a ++ ")" ++ ""). apply ok_group; [|exact A|lit]. apply B. intros ->. exact X.
  - intros q IH G. destruct (IH G) as [A B]. cbn [sexpr_text]. change ("EXISTS (" ++ query_text q ++ ")") with ("EXISTS " ++ ("(" ++ query_text q ++ ")" ++ "")).
    split; [apply fine_app; [lit|now apply group_ok]|]. split; [discriminate|]. intros _. apply ok_app; [lit|]. apply ok_group; [assumption|assumption|lit].
  - intros q IH G. destruct (IH G) as [A B]. cbn [sexpr_text]. split; [now apply group_ok|]. split; [discriminate|]. intros _.
    change ("(" ++ query_text q ++ ")") with ("(" ++ query_text q ++ ")" ++ ""). apply ok_group; [assumption|assumption|lit].
  - intros f a IH (F & G). destruct (IH G) as [A B]. cbn [sexpr_text]. split; [apply call_fine; [apply F|apply A]|]. split; [discriminate|]. intros [].
  - intros _. split; [lit|congruence].
  - intros e IHe a IHa (Ge & Ga). destruct (IHe Ge) as (A & B & _). destruct (IHa Ga) as [C _]. cbn [sexprs_text]. destruct a as [|e' a].
    + split; [exact A|intros _; exact B].
    + split; [apply fine_app; [exact A|]; apply fine_app; [lit|exact C]|]. intros _ E. destruct (sexpr_text e); [congruence|discriminate].
  - intros i IHi f IHf w IHw lim (Gi & Gf & Gw). cbn [query_text]. split; [|discriminate].
    apply fine_app; [lit|]. apply fine_app; [auto|]. apply fine_app; [lit|]. apply fine_app; [now apply IHf|]. apply fine_app; [now apply Wh, IHw|].
    destruct lim as [[n off]|]; [|lit]. apply fine_app; [lit|]. apply fine_app; [apply fine_dec|]. apply fine_app; [lit|]. destruct off; [|lit]. apply fine_app; [lit|apply fine_dec].
  - intros i IHi f IHf w IHw ks (Gi & Gf & Gw & Gk). cbn [query_text]. split; [|discriminate].
    apply fine_app; [lit|]. apply fine_app; [auto|]. apply fine_app; [lit|]. apply fine_app; [now apply IHf|]. apply fine_app; [now apply Wh, IHw|].
    apply fine_app; [lit|]. apply fine_joined; [lit|]. apply Forall_map. exact Gk.
  - intros i IHi f IHf w IHw ks (Gi & Gf & Gw & Gk). cbn [query_text]. split; [|discriminate].
    apply fine_app; [lit|]. apply fine_app; [auto|]. apply fine_app; [lit|]. apply fine_app; [now apply IHf|]. apply fine_app; [now apply Wh, IHw|].
    apply fine_app; [lit|]. destruct ks as [|k ks]; [lit|]. apply fine_app; [lit|]. apply fine_joined; [lit|]. apply Forall_map. eapply Forall_impl; [|exact Gk].
    intros n N. apply fine_end; [reflexivity|discriminate|]. apply fine_end; [now apply fine_quoted|discriminate|lit].
  - intros op l IH (N & G). destruct (IH G op) as [A B]. cbn [query_text]. auto.
  - intros _ op. split; [lit|congruence].
  - intros q IHq r IHr (Gq & Gr) op. destruct (IHq Gq) as [A B]. destruct (IHr Gr op) as [C _]. cbn [queries_text]. destruct r as [|q' r].
    + split; [exact A|intros _; exact B].
    + split; [apply fine_app; [exact A|]; apply fine_app; [lit|]; apply fine_app; [destruct op; lit|]; apply fine_app; [lit|exact C]|]. intros _ E. destruct (query_text q); [congruence|discriminate].
  - intros _. lit.
  - intros n i IH (N & G). cbn [items_text]. destruct i; [now apply fine_quoted| |]; (apply fine_app; [now apply fine_quoted|]; apply fine_app; [lit|now apply IH]).
  - intros e IHe n i IH (Ge & N & G). destruct (IHe Ge) as [A _]. cbn [items_text].
    destruct i; (apply fine_app; [exact A|]; apply fine_app; [lit|]); [now apply fine_quoted| |]; (apply fine_app; [now apply fine_quoted|]; apply fine_app; [lit|now apply IH]).
  - auto.
  - intros e IH G. apply IH, G.
  - intros _. split; lit.
  - intros t G. cbn [from_text]. split; [apply fine_app; [lit|now apply fine_quoted]|apply ok_app; [lit|now apply ok_quoted]].
  - intros t IH G. destruct (IH G) as [A B]. cbn [from_text]. split; [apply fine_app; [lit|exact A]|apply ok_app; [lit|exact B]].
  - intros _. split; lit.
  - intros q IHq r IHr (Gq & Gr). destruct (IHq Gq) as [A B]. destruct (IHr Gr) as [C E]. cbn [jtoks_text]. split; [|now apply ok_group].
    replace ("(" ++ query_text q ++ ")" ++ jtoks_text r) with (("(" ++ query_text q ++ ")") ++ jtoks_text r).
    + apply fine_app; [now apply group_ok|exact C].
    + cbn [append]. f_equal. now rewrite app_assoc_s.
  - intros t IHt r IHr (Gt & Gr). destruct (IHt Gt) as [A _]. destruct (IHr Gr) as [C E]. cbn [jtoks_text].
    assert (F : fine (" " ++ jtoks_text t ++ " ")) by (apply fine_app; [lit|]; apply fine_app; [exact A|lit]).
    replace ("( " ++ jtoks_text t ++ " )" ++ jtoks_text r) with ("(" ++ (" " ++ jtoks_text t ++ " ") ++ ")" ++ jtoks_text r).
    + split; [|apply ok_group; [discriminate|exact F|exact E]].
      replace ("(" ++ (" " ++ jtoks_text t ++ " ") ++ ")" ++ jtoks_text r) with (("(" ++ (" " ++ jtoks_text t ++ " ") ++ ")") ++ jtoks_text r) by (rewrite !app_assoc_s; reflexivity).
      apply fine_app; [now apply group_ok|exact C].
    + cbn [append]. do 2 f_equal. rewrite !app_assoc_s. reflexivity.
  - intros r IH G. destruct (IH G) as [A B]. cbn [jtoks_text]. split; [apply fine_app; [lit|exact A]|apply ok_app; [lit|exact B]].
  - intros k r IH G. destruct (IH G) as [A B]. cbn [jtoks_text]. destruct k; (split; [apply fine_app; [lit|exact A]|apply ok_app; [lit|exact B]]).
  - intros e IHe r IHr (Ge & Xe & Gr). destruct (IHe Ge) as (A & _ & B). destruct (IHr Gr) as [C E]. cbn [jtoks_text].
    split; [apply fine_app; [lit|]; apply fine_app; [exact A|exact C]|apply ok_app; [lit|]; apply ok_app; [now apply B|exact E]].
  - intros s IHs r IHr (Gq & Gr). destruct (IHs Gq) as [A B]. destruct (IHr Gr) as [C E]. cbn [jtoks_text]. split; [|now apply ok_group].
    replace ("(" ++ arr_text s ++ ")" ++ jtoks_text r) with (("(" ++ arr_text s ++ ")") ++ jtoks_text r).
    + apply fine_app; [now apply group_ok|exact C].
    + cbn [append]. f_equal. now rewrite app_assoc_s.
  - intros f IHf a IHa elem off on IHo w IHw (Gf & Ga & Ge & Go & Gn & Gw). destruct (IHa Ga) as (A & _ & _). destruct (IHf Gf) as [Ff _]. specialize (IHo Gn). specialize (IHw Gw).
    cbn [arr_text]. split; [|discriminate]. apply fine_app; [lit|]. apply fine_app; [destruct f; lit|]. apply fine_app; [lit|]. apply fine_app; [now apply fine_quoted|].
    apply fine_app; [destruct off; [apply fine_app; [lit|apply fine_quoted; now apply Go]|lit]|]. apply fine_app; [lit|].
    apply fine_app; [destruct f; [lit|apply fine_app; [exact Ff|]; apply fine_app; [lit|]; destruct on as [|[]]; lit..]|].
    apply fine_end; [reflexivity|destruct (sexpr_text a); discriminate|]. apply fine_end; [apply A|discriminate|].
    apply fine_app; [lit|]. apply fine_app; [destruct on; [lit|apply fine_app; [lit|exact IHo]]|]. now apply Wh.
  - auto.
  - intros outer e IH G. apply IH, G.
Qed.
(** A SELECT up to the end of its FROM, when that has a subquery *)
Lemma head_ok i t : good_items i -> good_toks t -> headed t -> ok ("SELECT " ++ items_text i ++ " " ++ from_text (FJoins t)).
Proof.
  intros Gi Gt H. destruct texts_ok as (_ & _ & _ & _ & Ti & _ & _ & Tt & _). destruct (Ti i Gi) as [Ni _]. destruct (Tt t Gt) as [_ [Nt Ct]]. cbn [from_text].
  assert (A : no_nl ("SELECT " ++ items_text i ++ " " ++ "FROM ") = true) by (cbn [append no_nl]; rewrite no_nl_app, Ni; reflexivity).
  replace ("SELECT " ++ items_text i ++ " " ++ "FROM " ++ jtoks_text t) with (("SELECT " ++ items_text i ++ " " ++ "FROM ") ++ jtoks_text t) by (rewrite !app_assoc_s; reflexivity).
  split; [now rewrite no_nl_app, A, Nt|]. apply closed_end; [exact Ct|]. destruct t as [|q r|t r| | | |s r]; try contradiction; cbn [jtoks_text append].
  - rewrite has_app. cbn. apply orb_true_r.
  - cbn [has_char]. rewrite has_app. cbn. apply orb_true_r.
  - rewrite has_app. cbn. apply orb_true_r.
Qed.
Lemma wraps_stacked i t e : good_items i -> good_toks t -> headed t -> wraps (query_text (Select i (FJoins t) (WSome e) None)) = true.
Proof.
  intros Gi Gt H. cbn [query_text].
  replace ("SELECT " ++ items_text i ++ " " ++ from_text (FJoins t) ++ (" WHERE " ++ sexpr_text e) ++ "") with
    (("SELECT " ++ items_text i ++ " " ++ from_text (FJoins t)) ++ " " ++ "WHERE" ++ (" " ++ sexpr_text e ++ "")) by (rewrite !app_assoc_s; reflexivity).
  apply wraps_token; [now left|reflexivity|discriminate|now apply head_ok].
Qed.
Lemma wraps_sorted i t w ks : good_items i -> good_toks t -> headed t -> wraps (query_text (Sorted i (FJoins t) w ks)) = true.
Proof.
  intros Gi Gt H. cbn [query_text]. destruct w as [|e].
  - replace ("SELECT " ++ items_text i ++ " " ++ from_text (FJoins t) ++ "" ++ " ORDER BY " ++ joined "," (map key_text ks)) with
      (("SELECT " ++ items_text i ++ " " ++ from_text (FJoins t)) ++ " " ++ "ORDER BY" ++ (" " ++ joined "," (map key_text ks))) by (rewrite !app_assoc_s; reflexivity).
    apply wraps_token; [cbn; tauto|reflexivity|discriminate|now apply head_ok].
  - replace ("SELECT " ++ items_text i ++ " " ++ from_text (FJoins t) ++ (" WHERE " ++ sexpr_text e) ++ " ORDER BY " ++ joined "," (map key_text ks)) with
      (("SELECT " ++ items_text i ++ " " ++ from_text (FJoins t)) ++ " " ++ "WHERE" ++ (" " ++ sexpr_text e ++ " ORDER BY " ++ joined "," (map key_text ks))) by (rewrite !app_assoc_s; reflexivity).
    apply wraps_token; [now left|reflexivity|discriminate|now apply head_ok].
Qed.
Lemma wraps_grouped i t w k ks : good_items i -> good_toks t -> headed t -> wraps (query_text (Grouped i (FJoins t) w (k :: ks))) = true.
Proof.
  intros Gi Gt H. cbn [query_text]. set (g := joined "," (map (fun n => "zetasqlite_group_by(" ++ quoted n ++ ")") (k :: ks))). destruct w as [|e].
  - replace ("SELECT " ++ items_text i ++ " " ++ from_text (FJoins t) ++ "" ++ " " ++ "GROUP BY " ++ g) with
      (("SELECT " ++ items_text i ++ " " ++ from_text (FJoins t)) ++ " " ++ "GROUP BY" ++ (" " ++ g)) by (rewrite !app_assoc_s; reflexivity).
    apply wraps_token; [cbn; tauto|reflexivity|discriminate|now apply head_ok].
  - replace ("SELECT " ++ items_text i ++ " " ++ from_text (FJoins t) ++ (" WHERE " ++ sexpr_text e) ++ " " ++ "GROUP BY " ++ g) with
      (("SELECT " ++ items_text i ++ " " ++ from_text (FJoins t)) ++ " " ++ "WHERE" ++ (" " ++ sexpr_text e ++ " " ++ "GROUP BY " ++ g)) by (rewrite !app_assoc_s; reflexivity).
    apply wraps_token; [now left|reflexivity|discriminate|now apply head_ok].
Qed.

(** ** A formatted query of the described shapes is accepted *)
Lemma kapp_good a b : good_toks a -> good_toks b -> good_toks (kapp a b).
Proof. induction a; cbn [kapp good_toks]; tauto. Qed.
Definition good_map (m : cmap) : Prop := forall k x, In (k, x) m -> good x.
Lemma good_map_del m n : good_map m -> good_map (del m n).
Proof. intros G k x I. unfold del in I. apply filter_In in I. now apply (G k). Qed.
Lemma take_good u cols : forall m, (forall c, ok (u c)) -> good_map m -> good_items (fst (take_items u cols m)).
Proof.
  induction cols as [|c cols IH]; intros m U G; [exact I|]. cbn [take_items]. destruct (get m (u c)) as [e|] eqn:E.
  - pose proof (IH (del m (u c)) U (good_map_del _ _ G)) as H. destruct (take_items u cols (del m (u c))) as [i m']. cbn [fst good_items] in *.
    split; [|split; [apply U|exact H]]. unfold get in E. destruct (find _ m) as [[k y]|] eqn:F; [|discriminate]. apply find_some in F.
    apply (G k). cbn in E. assert (y = e) by congruence. subst y. apply F.
  - pose proof (IH m U G) as H. destruct (take_items u cols m) as [i m']. cbn [fst good_items] in *. split; [apply U|exact H].
Qed.
Lemma input_good r : good_frag r -> good_from (fst (input_from r)) /\ good_cond (snd (input_from r)).
Proof. destruct r; cbn; tauto. Qed.
Lemma table_good u names cols : (forall c, ok (u c)) -> (forall c, ok (names c)) -> good_items (table_items u names cols).
Proof. intros U N. induction cols as [|c cols IH]; [exact I|]. cbn. auto. Qed.

Lemma plain_good u cols : (forall c, ok (u c)) -> good_items (plain_items u cols).
Proof. intros U. induction cols as [|c cols IH]; [exact I|]. cbn. auto. Qed.
Lemma set_good u a : forall b, (forall c, ok (u c)) -> good_items (set_items u a b).
Proof. induction a as [|c a IH]; intros [|d b] U; try exact I. cbn. auto. Qed.
Lemma keys_good u keys : (forall c, ok (u c)) -> Forall (fun k => fine (key_text k)) (flat_map (sort_keys u) keys).
Proof.
  intros U. apply Forall_forall. intros k I. apply in_flat_map in I. destruct I as ([[c d] n] & _ & I).
  assert (K : k = IsNotNull (u c) \/ k = IsNull (u c) \/ k = ByValue (u c) d) by (destruct n; cbn in I; intuition congruence).
  pose proof (fine_quoted (u c) (U c)) as Q. destruct K as [->|[->| ->]]; cbn [key_text].
  - apply fine_end; [reflexivity|discriminate|]. apply fine_app; [exact Q|split; reflexivity].
  - apply fine_end; [reflexivity|discriminate|]. apply fine_app; [exact Q|split; reflexivity].
  - apply fine_app; [exact Q|]. apply fine_app; [split; reflexivity|]. destruct d; split; reflexivity.
Qed.

Section Accept.
  Variable stacked : bool.
  Variable names u : Z -> string.
  Variable D : Z -> Prop.
  Variable UN : Prop.
  Hypothesis u_inj : forall a b, D a -> D b -> same_name (u a) (u b) = true -> a = b.
  Hypothesis no_json : UN -> forall c n, D c -> In n json_names -> same_name n (u c) = false.
  Hypothesis Hu : stacked = true -> forall c, ok (u c).
  Hypothesis Hn : stacked = true -> forall c, ok (names c).
  Definition is_filter (s : scan) : bool := match s with SFilter _ _ => true | _ => false end.
  Definition headed_from (f : from) : Prop := match f with FJoins t => headed t | _ => False end.
  Definition headed_frag (r : frag) : Prop := match r with RJoin t | RWhere t _ => headed t | _ => True end.
  (** What comes out of each scan *)
  Definition kind (s : scan) (r : frag) : Prop :=
    match s with
    | SSingle => r = RNone
    | STable _ _ | SCross _ _ | SJoin _ _ _ _ => exists t, r = RJoin t /\ headed t
    | SFilter _ _ => r <> RNone /\ headed_frag r
    | SProject s' _ _ => exists i f w, r = RSelect (Select i f w None) /\ (is_filter s' = false -> w = WNone) /\ (s' <> SSingle -> headed_from f)
    | SLimit _ _ _ _ => exists q, r = RSelect q
    | SOrder s' _ _ => exists i f w ks, r = RSelect (Sorted i f w ks) /\ (s' <> SSingle -> headed_from f)
    | SSet _ _ _ => exists i f, r = RSelect (Select i f WNone None)
    | SAgg s' g _ _ => exists i f w, r = RSelect (Grouped i f w (map u (group_ids g))) /\ (s' <> SSingle -> headed_from f)
    | SArray _ _ _ _ _ => exists f a elem off on, r = RArr (Arr f a elem off on WNone)
    end.
  Lemma kind_input s r : kind s r -> (is_filter s = false -> snd (input_from r) = WNone) /\ (s <> SSingle -> headed_from (fst (input_from r))).
  Proof.
    destruct s; cbn [kind is_filter]; intros K.
    - rewrite K. split; [reflexivity|congruence].
    - destruct K as (x & -> & H). now split.
    - destruct K as (x & -> & H). now split.
    - destruct K as (x & -> & H). now split.
    - split; [discriminate|]. intros _. destruct K as [N H]. destruct r; try exact H; congruence.
    - destruct K as (i & f & w & -> & _). split; [reflexivity|intros _; exact I].
    - destruct K as [q ->]. split; [reflexivity|intros _; exact I].
    - destruct K as (i & f & w & ks & -> & _). split; [reflexivity|intros _; exact I].
    - destruct K as (i & f & ->). split; [reflexivity|intros _; exact I].
    - destruct K as (i & f & w & -> & _). split; [reflexivity|intros _; exact I].
    - destruct K as (f & ea & el & eo & on & ->). split; [reflexivity|intros _; exact I].
  Qed.
  Lemma kind_side s r : kind s r -> side s = true -> exists a, join_side r = Some a /\ (good_frag r -> good_toks a) /\ headed a.
  Proof.
    assert (Q : forall q, r = RSelect q -> exists a, join_side r = Some a /\ (good_frag r -> good_toks a) /\ headed a).
    { intros q ->. eexists. split; [reflexivity|]. cbn. tauto. }
    assert (J : (exists t, r = RJoin t /\ headed t) -> exists a, join_side r = Some a /\ (good_frag r -> good_toks a) /\ headed a).
    { intros (t & -> & H). eexists. split; [reflexivity|]. cbn. tauto. }
    destruct s; cbn [kind side]; intros K F; try discriminate; try exact (J K).
    - destruct K as (i & f & w & -> & _). eapply Q. reflexivity.
    - destruct K as [q E]. eapply Q. exact E.
    - destruct K as (i & f & w & ks & -> & _). eapply Q. reflexivity.
    - destruct K as (i & f & ->). eapply Q. reflexivity.
    - destruct K as (i & f & w & -> & _). eapply Q. reflexivity.
    - destruct K as (f & ea & el & eo & on & ->). eexists. split; [reflexivity|]. cbn. tauto.
  Qed.
  Lemma kind_select s r : kind s r -> selects s = true -> exists q, r = RSelect q.
  Proof.
    destruct s; cbn [kind selects]; intros K F; try discriminate.
    - destruct K as (i & f & w & -> & _). eauto.
    - exact K.
    - destruct K as (i & f & w & ks & -> & _). eauto.
    - destruct K as (i & f & ->). eauto.
    - destruct K as (i & f & w & -> & _). eauto.
  Qed.
  Lemma headed_kapp a b : headed a -> headed (kapp a b).
  Proof. destruct a; cbn; tauto. Qed.
  Definition A_expr (e : expr) : Prop := forall vis busy m,
    wf D UN vis busy e -> (forall c, In c (vis ++ busy) -> D c) -> apart vis busy -> keys_in u m busy ->
    shape_expr stacked e = true -> (stacked = true -> clean_expr e = true) -> (stacked = true -> good_map m) ->
    exists x, format_expr u names e m = Some (x, m) /\ (stacked = true -> good x) /\ (full e = true -> xfull x).
  Definition A_exprs (a : exprs) : Prop := forall vis busy m,
    wf_list D UN vis busy a -> (forall c, In c (vis ++ busy) -> D c) -> apart vis busy -> keys_in u m busy ->
    shape_exprs stacked a = true -> (stacked = true -> clean_exprs a = true) -> (stacked = true -> good_map m) ->
    exists x, format_exprs u names a m = Some (x, m) /\ (stacked = true -> good_list x) /\ (a <> ENil -> x <> XNil).
  Definition A_scan (s : scan) : Prop := forall vis busy m,
    wf_scan D UN vis busy s -> (forall c, In c (vis ++ busy) -> D c) -> apart vis busy -> keys_in u m busy ->
    shape stacked s = true -> (stacked = true -> clean s = true) -> (stacked = true -> good_map m) ->
    exists r, format_scan u names s m = Some (r, m) /\ (stacked = true -> good_frag r) /\ kind s r.
  Definition A_inputs (l : inputs) : Prop := forall vis busy n m,
    wf_inputs D UN vis busy n l -> (forall c, In c (vis ++ busy) -> D c) -> apart vis busy -> keys_in u m busy ->
    shape_inputs stacked l = true -> (stacked = true -> clean_inputs l = true) -> (stacked = true -> good_map m) ->
    exists qs, format_inputs u names l m = Some (qs, m) /\ (stacked = true -> good_queries qs) /\ (l <> NNil -> qs <> QNil).
  Definition A_aggs (l : acomps) : Prop := forall vis busy K m,
    wf_aggs D UN vis busy l -> (forall c, In c (vis ++ busy) -> D c) -> apart vis busy ->
    keys_in u m K -> (forall c, In c K -> In c busy) -> (forall c, In c (agg_ids l) -> In c busy) ->
    apart (agg_ids l) K -> NoDup (agg_ids l) ->
    shape_aggs stacked l = true -> (stacked = true -> clean_aggs l = true) -> (stacked = true -> good_map m) ->
    exists m', format_aggs u names l m = Some m' /\ (stacked = true -> good_map m').
  Definition A_comps (cs : comps) : Prop := forall vis busy K m,
    wf_comps D UN vis busy cs -> (forall c, In c (vis ++ busy) -> D c) -> apart vis busy ->
    keys_in u m K -> (forall c, In c K -> In c busy) -> (forall c, In c (comp_ids cs) -> In c busy) ->
    apart (comp_ids cs) K -> NoDup (comp_ids cs) ->
    shape_comps stacked cs = true -> (stacked = true -> clean_comps cs = true) -> (stacked = true -> good_map m) ->
    exists m', format_comps u names cs m = Some m' /\ (stacked = true -> good_map m').
  Definition A_join (j : ajoin) : Prop := match j with JComma _ => True | JOn _ e => A_expr e end.
  Definition fn0 (f : string) (l : list val) : val := None.
  Definition db0 (t : string) : list frame := [].
  (** Formatting restores the map (the first part of [refine]). *)
  Lemma same_map s : forall vis busy m r m', wf_scan D UN vis busy s -> (forall c, In c (vis ++ busy) -> D c) -> apart vis busy -> keys_in u m busy ->
    format_scan u names s m = Some (r, m') -> m' = m.
  Proof. intros. destruct (refine fn0 db0 names u D UN u_inj no_json) as (_ & _ & H' & _). eapply (H' s); eassumption. Qed.
  Ltac split_and :=
    repeat match goal with H : _ && _ = true |- _ => apply andb_prop in H; destruct H end.
  Lemma both b (P Q : bool) : (b = true -> P && Q = true) -> (b = true -> P = true) /\ (b = true -> Q = true).
  Proof. intros H. split; intros E; destruct (andb_prop _ _ (H E)); assumption. Qed.
  Theorem accept : (forall e, A_expr e) /\ (forall a, A_exprs a) /\ (forall s, A_scan s) /\ (forall l, A_inputs l) /\ (forall l, A_aggs l) /\ (forall cs, A_comps cs) /\ (forall j, A_join j).
  Proof.
    apply tree_ind.
    - intros c vis busy m W Dv Ap Ki Sh Cl Gm. cbn [wf] in W. exists (XCol (u c)). split.
      + rewrite fm_col. rewrite (get_fresh u D u_inj m busy c); [reflexivity|assumption|intros; apply Dv; apply in_or_app; auto|apply Dv; apply in_or_app; auto|now apply Ap].
      + split; [intros St; now apply Hu|intros _; exact I].
    - intros v vis busy m W Dv Ap Ki Sh Cl Gm. exists (XLit v). split; [reflexivity|]. split; intros _; exact I.
    - intros f a IH vis busy m W Dv Ap Ki Sh Cl Gm. cbn [wf shape_expr clean_expr] in *.
      apply both in Cl. destruct Cl as [Cf Ca].
      destruct (IH vis busy m W Dv Ap Ki Sh Ca Gm) as (xs & E & G & Ne). exists (XCall f xs). rewrite fm_call, E. split; [reflexivity|].
      split; [intros St; cbn [good]; split; [now apply tame_ok, Cf|now apply G]|]. intros Fu. cbn [xfull full] in *. destruct xs; [|exact I]. destruct a; [discriminate|]. exfalso. now apply Ne.
    - intros s IH vis busy m W Dv Ap Ki Sh Cl Gm. cbn [wf shape_expr clean_expr] in *. apply andb_prop in Sh. destruct Sh as [Sel Sh].
      destruct (IH vis busy m W Dv Ap Ki Sh Cl Gm) as (r & E & G & K). rewrite fm_exists, E. cbn [obind fst snd].
      pose proof (kind_select s r K Sel) as Q.
      destruct Q as [q ->]. exists (XExists q). split; [reflexivity|]. split; [exact G|intros _; exact I].
    - intros s IH vis busy m W Dv Ap Ki Sh Cl Gm. cbn [wf shape_expr clean_expr] in *. apply andb_prop in Sh. destruct Sh as [Sel Sh].
      destruct (IH vis busy m W Dv Ap Ki Sh Cl Gm) as (r & E & G & K). rewrite fm_scalar, E. cbn [obind fst snd].
      pose proof (kind_select s r K Sel) as Q.
      destruct Q as [q ->]. exists (XScalar q). split; [reflexivity|]. split; [exact G|intros _; exact I].
    - intros vis busy m W Dv Ap Ki Sh Cl Gm. exists XNil. split; [reflexivity|]. split; [intros _; exact I|congruence].
    - intros e IHe a IHa vis busy m [We Wa] Dv Ap Ki Sh Cl Gm. cbn [shape_exprs clean_exprs] in *. apply andb_prop in Sh. destruct Sh as [S1 S2].
      apply both in Cl. destruct Cl as [C1 C2].
      destruct (IHe vis busy m We Dv Ap Ki S1 C1 Gm) as (x & E & G & _). destruct (IHa vis busy m Wa Dv Ap Ki S2 C2 Gm) as (xs & E' & G' & _).
      exists (XCons x xs). rewrite fm_cons, E. cbn [obind fst snd]. rewrite E'. split; [reflexivity|]. split; [|discriminate]. intros St. cbn [good_list]. auto.
    - intros vis busy m W Dv Ap Ki Sh Cl Gm. exists RNone. split; [reflexivity|]. split; [intros _; exact I|reflexivity].
    - intros t cols vis busy m W Dv Ap Ki Sh Cl Gm. eexists. rewrite fm_table. split; [reflexivity|]. split; [|eexists; split; [reflexivity|exact I]].
      intros St. cbn. repeat split; auto. { apply table_good; auto. } apply tame_ok. now apply Cl. apply tame_ok; now apply Cl.
    - intros l IHl r IHr vis busy m W Dv Ap Ki Sh Cl Gm. destruct W as (Wl & Wr & Alr & NJ). cbn [shape clean] in *. apply both in Cl. destruct Cl as [Cl Cr].
      split_and. destruct (IHl vis busy m Wl Dv Ap Ki) as (rl & El & Gl & Kl); auto. destruct (IHr vis busy m Wr Dv Ap Ki) as (rr & Er & Gr & Kr); auto.
      destruct (kind_side l rl Kl) as (ta & Ja & Ga & Ha); auto. destruct (kind_side r rr Kr) as (tb & Jb & Gb & Hb); auto.
      eexists. rewrite fm_cross, El. cbn [obind fst snd]. rewrite Er. cbn [obind fst snd]. rewrite Ja, Jb. cbn [obind]. split; [reflexivity|].
      split; [|eexists; split; [reflexivity|now apply headed_kapp]]. intros St. cbn [good_frag]. apply kapp_good; cbn [good_toks]; auto.
    - intros k l IHl r IHr on IHo vis busy m W Dv Ap Ki Sh Cl Gm. destruct W as (Wl & Wr & Alr & NJ & Wo). cbn [shape clean] in *.
      apply both in Cl. destruct Cl as [Cl Co]. apply both in Cl. destruct Cl as [Cl Cr]. apply both in Co. destruct Co as [Cu Co].
      split_and. destruct (IHl vis busy m Wl Dv Ap Ki) as (rl & El & Gl & Kl); auto. destruct (IHr vis busy m Wr Dv Ap Ki) as (rr & Er & Gr & Kr); auto.
      destruct (kind_side l rl Kl) as (ta & Ja & Ga & Ha); auto. destruct (kind_side r rr Kr) as (tb & Jb & Gb & Hb); auto.
      pose proof (fresh_out D UN l vis busy Wl) as FOl. pose proof (fresh_out D UN r vis busy Wr) as FOr.
      destruct (IHo (out l ++ out r ++ vis)%list busy m Wo) as (xo & Eo & Go & Fo); auto.
      { intros c I. rewrite !in_app_iff in I. destruct I as [[I|[I|I]]|I]; [now apply FOl|now apply FOr| |]; apply Dv; rewrite in_app_iff; auto. }
      { intros c I. rewrite !in_app_iff in I. destruct I as [I|[I|I]]; [now apply FOl|now apply FOr|now apply Ap]. }
      eexists. rewrite fm_join, El. cbn [obind fst snd]. rewrite Er. cbn [obind fst snd]. rewrite Ja, Jb. cbn [obind]. rewrite Eo. cbn [obind fst snd].
      split; [reflexivity|]. split; [|eexists; split; [reflexivity|now apply headed_kapp]]. intros St. cbn [good_frag]. apply kapp_good; [auto|]. cbn [good_toks]. apply kapp_good; [auto|]. cbn [good_toks]. auto.
    - intros s IHs e IHe vis busy m W Dv Ap Ki Sh Cl Gm. destruct W as (Ws & We & _). cbn [shape clean] in *. apply both in Cl. destruct Cl as [Cs Ce].
      split_and. destruct (IHs vis busy m Ws Dv Ap Ki) as (rs & Es & Gs & Ks); auto.
      pose proof (fresh_out D UN s vis busy Ws) as FO.
      destruct (IHe (out s ++ vis)%list busy m We) as (xe & Ee & Ge & _); auto.
      { intros c I. rewrite !in_app_iff in I. destruct I as [[I|I]|I]; [now apply FO| |]; apply Dv; rewrite in_app_iff; auto. }
      { intros c I. rewrite !in_app_iff in I. destruct I as [I|I]; [now apply FO|now apply Ap]. }
      assert (Ad : exists r0, add_filter rs xe = Some r0 /\ (stacked = true -> good_frag r0) /\ r0 <> RNone /\ headed_frag r0).
      { assert (J : (exists t, rs = RJoin t /\ headed t) -> exists r0, add_filter rs xe = Some r0 /\ (stacked = true -> good_frag r0) /\ r0 <> RNone /\ headed_frag r0).
        { intros (t & -> & Ht). unfold add_filter. eexists. split; [reflexivity|]. split; [|split; [discriminate|destruct (wraps _); [exact I|exact Ht]]].
          intros St. specialize (Gs St). specialize (Ge St). destruct (wraps _); cbn [good_frag good_toks] in *; auto. }
        assert (Wq : forall q, rs = RSelect q -> wraps (query_text q) = true -> exists r0, add_filter rs xe = Some r0 /\ (stacked = true -> good_frag r0) /\ r0 <> RNone /\ headed_frag r0).
        { intros q -> Wr. unfold add_filter. cbn [frag_text]. rewrite Wr. eexists. split; [reflexivity|]. split; [|split; [discriminate|exact I]].
          intros St. specialize (Gs St). cbn [good_frag good_toks] in *. auto. }
        assert (Wn : forall i f, rs = RSelect (Select i f WNone None) -> exists r0, add_filter rs xe = Some r0 /\ (stacked = true -> good_frag r0) /\ r0 <> RNone /\ headed_frag r0).
        { intros i f Er. destruct (wraps (query_text (Select i f WNone None))) eqn:Wr; [now apply (Wq _ Er)|]. subst rs. unfold add_filter. cbn [frag_text]. rewrite Wr.
          eexists. split; [reflexivity|]. split; [|split; [discriminate|exact I]]. intros St. specialize (Gs St). specialize (Ge St). cbn [good_frag good_query good_cond] in *. tauto. }
        destruct s as [|t cols|l r|k l r on|s' e'|s' cs cols|s' n off cols|s' ks cols|op l cols|s' g ag cols|s' ea el eo j]; cbn [filterable kind] in *; try discriminate; try exact (J Ks).
        - destruct Ks as (i & f & w & Er & Hw & Hf). destruct w as [|w]; [now apply (Wn i f)|].
          destruct (is_filter s') eqn:If; [|now specialize (Hw eq_refl)]. destruct s'; try discriminate If.
          assert (St : stacked = true) by assumption. specialize (Gs St). rewrite Er in Gs. cbn [good_frag good_query] in Gs. specialize (Hf ltac:(discriminate)).
          destruct f as [| |t]; try contradiction. apply (Wq _ Er). now apply wraps_stacked.
        - destruct Ks as (i & f & w & ks' & Er & Hf). assert (St : stacked = true) by assumption. specialize (Gs St). rewrite Er in Gs. cbn [good_frag good_query] in Gs.
          assert (Ns : s' <> SSingle). { intros ->. destruct Ws as (_ & Sub & Nc & _). destruct cols as [|c cols]; [congruence|]. exact (Sub c (or_introl eq_refl)). }
          specialize (Hf Ns). destruct f as [| |t]; try contradiction. apply (Wq _ Er). apply wraps_sorted; tauto.
        - destruct Ks as (i & f & Er). now apply (Wn i f).
        - destruct Ks as (i & f & w & Er & Hf). assert (Ns : s' <> SSingle) by (intros ->; discriminate). destruct g as [|gc ge gr]; [destruct s'; discriminate|].
          assert (St : stacked = true) by (destruct s'; try discriminate; assumption). specialize (Gs St). rewrite Er in Gs. cbn [good_frag good_query] in Gs.
          specialize (Hf Ns). destruct f as [| |t]; try contradiction. apply (Wq _ Er). cbn [group_ids map]. apply wraps_grouped; tauto.
        - destruct Ks as (f & xa & xl & xo & on & ->). unfold add_filter. destruct (wraps _); (eexists; split; [reflexivity|]; split; [|split; [discriminate|exact I]]);
            intros St; specialize (Gs St); specialize (Ge St); cbn [good_frag good_toks good_arr good_cond] in *; tauto. }
      destruct Ad as (r0 & Ad & G0 & N0 & Hd0). exists r0. rewrite fm_filter, Es. cbn [obind fst snd]. rewrite Ee. cbn [obind fst snd]. rewrite Ad. cbn [obind].
      split; [reflexivity|]. split; [exact G0|]. split; [exact N0|exact Hd0].
    - intros s IHs cs IHc cols vis busy m W Dv Ap Ki Sh Cl Gm. pose proof W as W0. destruct W as (Ws & Wc & Fc & Nd & Acs & Cnt & Sub & Ne).
      cbn [shape clean] in *. apply both in Cl. destruct Cl as [Cs Cc]. split_and.
      pose proof (fresh_out D UN s vis _ Ws) as FOs.
      assert (Dc : forall c, In c (comp_ids cs) -> D c) by (intros c I; now apply Fc).
      assert (Dv1 : forall c, In c ((out s ++ vis) ++ comp_ids cs ++ busy) -> D c).
      { intros c I. rewrite !in_app_iff in I. destruct I as [[I|I]|[I|I]]; [now apply FOs| |now apply Dc|]; apply Dv; rewrite in_app_iff; auto. }
      assert (Ap1 : apart (out s ++ vis) (comp_ids cs ++ busy)).
      { intros c I. rewrite in_app_iff in I. destruct I as [I|I]; [now apply FOs|]. rewrite in_app_iff. intros [J|J]; [exact (proj1 (proj2 (Fc c J)) I)|exact (Ap c I J)]. }
      assert (Kb : forall c, In c busy -> In c (comp_ids cs ++ busy)) by (intros c I; apply in_or_app; now right).
      assert (Kc : forall c, In c (comp_ids cs) -> In c (comp_ids cs ++ busy)) by (intros c I; apply in_or_app; now left).
      assert (Ac : apart (comp_ids cs) busy) by (intros c I; now apply Fc).
      destruct (IHc (out s ++ vis)%list (comp_ids cs ++ busy)%list busy m Wc) as (m1 & Ec & G1); auto.
      destruct (refine fn0 db0 names u D UN u_inj no_json) as (_ & _ & _ & _ & _ & Rc & _).
      destruct (Rc cs (out s ++ vis)%list (comp_ids cs ++ busy)%list busy m m1 Wc Dv1 Ap1 Ki Kb Kc Ac Nd Ec) as (l & El & Kl & _).
      assert (Ki1 : keys_in u m1 (comp_ids cs ++ busy)).
      { rewrite El. intros k x I. apply in_app_or in I. destruct I as [I|I].
        - unfold entries in I. apply in_map_iff in I. destruct I as ([d y] & Ed & I). apply in_rev in I. exists d. split; [|cbn in Ed; congruence].
          apply in_or_app. left. rewrite <- Kl. change d with (fst (d, y)). now apply in_map.
        - destruct (Ki k x I) as (c & I' & ->). exists c. split; [apply in_or_app; now right|reflexivity]. }
      destruct (IHs vis (comp_ids cs ++ busy)%list m1 Ws) as (rs & Es & Gs & Ks); auto.
      { intros c I. apply Dv1. rewrite !in_app_iff in *. tauto. }
      { intros c I. apply Ap1. apply in_or_app. now right. }
      assert (F : exists m2, format_scan u names (SProject s cs cols) m = Some (RSelect (Select (fst (take_items u cols m1)) (fst (input_from rs)) (snd (input_from rs)) None), m2)).
      { rewrite fm_project, Ec. cbn [obind]. rewrite Es. cbn [obind fst snd]. destruct (take_items u cols m1). destruct (input_from rs). eexists. reflexivity. }
      destruct F as [m2 F]. pose proof (same_map (SProject s cs cols) vis busy m _ m2 W0 Dv Ap Ki F). subst m2. eexists. split; [exact F|]. split.
      + intros St. destruct (input_good rs (Gs St)). cbn [good_frag good_query]. split; [apply take_good; auto|auto].
      + cbn [kind]. eexists _, _, _. split; [reflexivity|]. now apply kind_input.
    - intros s IHs n off cols vis busy m W Dv Ap Ki Sh Cl Gm. pose proof W as W0. destruct W as (Ws & Sub & Ne). cbn [shape clean] in *.
      destruct (IHs vis busy m Ws Dv Ap Ki Sh Cl Gm) as (rs & Es & Gs & Ks).
      assert (F : exists m2, format_scan u names (SLimit s n off cols) m = Some (RSelect (Select (fst (take_items u cols m)) (fst (input_from rs)) (snd (input_from rs)) (Some (n, off))), m2)).
      { rewrite fm_limit, Es. cbn [obind fst snd]. destruct (take_items u cols m). destruct (input_from rs). eexists. reflexivity. }
      destruct F as [m2 F]. pose proof (same_map (SLimit s n off cols) vis busy m _ m2 W0 Dv Ap Ki F). subst m2. eexists. split; [exact F|]. split.
      + intros St. destruct (input_good rs (Gs St)). cbn [good_frag good_query]. split; [apply take_good; auto|auto].
      + eexists. reflexivity.
    - intros s IHs keys cols vis busy m W Dv Ap Ki Sh Cl Gm. pose proof W as W0. destruct W as (Ws & Sub & Ne & Kin). cbn [shape clean] in *.
      destruct (IHs vis busy m Ws Dv Ap Ki Sh Cl Gm) as (rs & Es & Gs & Ks).
      assert (F : exists m2, format_scan u names (SOrder s keys cols) m = Some (RSelect (Sorted (fst (take_items u cols m)) (fst (input_from rs)) (snd (input_from rs)) (flat_map (sort_keys u) keys)), m2)).
      { rewrite fm_order, Es. cbn [obind fst snd]. destruct (take_items u cols m). destruct (input_from rs). eexists. reflexivity. }
      destruct F as [m2 F]. pose proof (same_map (SOrder s keys cols) vis busy m _ m2 W0 Dv Ap Ki F). subst m2. eexists. split; [exact F|]. split.
      + intros St. destruct (input_good rs (Gs St)). cbn [good_frag good_query]. split; [apply take_good; auto|]. split; [assumption|]. split; [assumption|]. apply keys_good. auto.
      + cbn [kind]. eexists _, _, _, _. split; [reflexivity|]. now apply kind_input.
    - intros op l IHl cols vis busy m W Dv Ap Ki Sh Cl Gm. destruct W as (Wl & Fr & Nd & Ne & Fst & Op). cbn [shape clean] in *.
      destruct (IHl vis busy (length cols) m Wl Dv Ap Ki Sh Cl Gm) as (qs & El & Gl & Nq).
      eexists. rewrite fm_set, El. cbn [obind fst snd]. split; [reflexivity|]. split; [|eexists _, _; reflexivity].
      intros St. cbn [good_frag good_query good_from good_toks good_cond]. split; [apply set_good; auto|]. split; [|exact I]. split; [|exact I]. split; [|auto].
      apply Nq. destruct l; [contradiction|discriminate].
    - intros s IHs groups IHg aggs IHa cols vis busy m W Dv Ap Ki Sh Cl Gm. pose proof W as W0. destruct W as (Ws & Wg & Wa & Fi & Nd & Ais & Cnt & Sub & Ne). set (ids := (comp_ids groups ++ agg_ids aggs)%list) in Ws, Wg, Wa, Fi, Nd, Ais, Cnt, Sub. cbn [shape clean] in *. apply both in Cl. destruct Cl as [Cl Ca]. apply both in Cl. destruct Cl as [Cs Cg]. split_and.
      pose proof (fresh_out D UN s vis _ Ws) as FOs.
      assert (Ig : forall c, In c (comp_ids groups) -> In c ids) by (intros; apply in_or_app; now left).
      assert (Ia : forall c, In c (agg_ids aggs) -> In c ids) by (intros; apply in_or_app; now right).
      destruct (nodup_parts fn0 db0 u _ _ Nd) as (NdG & NdA & NdX & _).
      assert (Dv1 : forall c, In c ((out s ++ vis) ++ ids ++ busy) -> D c).
      { intros c I. rewrite !in_app_iff in I. destruct I as [[I|I]|[I|I]]; [now apply FOs| |now apply Fi|]; apply Dv; rewrite in_app_iff; auto. }
      assert (Ap1 : apart (out s ++ vis) (ids ++ busy)).
      { intros c I. rewrite in_app_iff in I. destruct I as [I|I]; [now apply FOs|]. rewrite in_app_iff. intros [J|J]; [exact (proj1 (proj2 (Fi c J)) I)|exact (Ap c I J)]. }
      assert (Kb : forall c, In c busy -> In c (ids ++ busy)) by (intros c I; apply in_or_app; now right).
      assert (Ka : forall c, In c (agg_ids aggs) -> In c (ids ++ busy)) by (intros c I; apply in_or_app; left; auto).
      assert (Kg : forall c, In c (comp_ids groups) -> In c (ids ++ busy)) by (intros c I; apply in_or_app; left; auto).
      assert (Aa : apart (agg_ids aggs) busy) by (intros c I; apply Fi; auto).
      destruct (IHa (out s ++ vis)%list (ids ++ busy)%list busy m Wa) as (m1 & Ea & G1); auto.
      destruct (refine fn0 db0 names u D UN u_inj no_json) as (_ & _ & _ & _ & Ra & Rc & _).
      destruct (Ra aggs (out s ++ vis)%list (ids ++ busy)%list busy m m1 Wa Dv1 Ap1 Ki Kb Ka Aa NdA Ea) as (la & Ela & Kla & _).
      assert (Ki1 : keys_in u m1 (agg_ids aggs ++ busy)).
      { rewrite Ela. intros k x I. apply in_app_or in I. destruct I as [I|I].
        - unfold entries in I. apply in_map_iff in I. destruct I as ([d y] & Ed & I). apply in_rev in I. exists d. split; [|cbn in Ed; congruence].
          apply in_or_app. left. rewrite <- Kla. change d with (fst (d, y)). now apply in_map.
        - destruct (Ki k x I) as (c & I' & ->). exists c. split; [apply in_or_app; now right|reflexivity]. }
      destruct (IHs vis (ids ++ busy)%list m1 Ws) as (rs & Es & Gs & Ks); auto.
      { intros c I. apply Dv1. rewrite !in_app_iff in *. tauto. }
      { intros c I. apply Ap1. apply in_or_app. now right. }
      { intros k x I. destruct (Ki1 k x I) as (c & J & ->). exists c. split; [|reflexivity]. apply in_app_or in J. destruct J; auto. }
      destruct (IHg (out s ++ vis)%list (ids ++ busy)%list (agg_ids aggs ++ busy)%list m1 Wg) as (m3 & Eg & G3); auto.
      { intros c I. apply in_app_or in I. destruct I; auto. }
      { intros c I J. apply in_app_or in J. destruct J as [J|J]; [exact (NdX c I J)|]. exact (proj2 (proj2 (Fi c (Ig c I))) J). }
      assert (F : exists m4, format_scan u names (SAgg s groups aggs cols) m =
                Some (RSelect (Grouped (fst (take_items u cols m3)) (fst (input_from rs)) (snd (input_from rs)) (map u (group_ids groups))), m4)).
      { rewrite fm_agg, Ea. cbn [obind]. rewrite Es. cbn [obind fst snd]. rewrite Eg. cbn [obind]. destruct (take_items u cols m3). destruct (input_from rs). eexists. reflexivity. }
      destruct F as [m4 F]. pose proof (same_map (SAgg s groups aggs cols) vis busy m _ m4 W0 Dv Ap Ki F). subst m4. eexists. split; [exact F|]. split.
      + intros St. destruct (input_good rs (Gs St)). cbn [good_frag good_query]. split; [apply take_good; auto|]. split; [assumption|]. split; [assumption|].
        apply Forall_map. apply Forall_forall. intros c _. auto.
      + cbn [kind]. eexists _, _, _. split; [reflexivity|]. now apply kind_input.
    - intros s IHs a IHa elem off j IHj vis busy m W Dv Ap Ki Sh Cl Gm. destruct W as (Un & Ws & Wa & Fi & Nd & As & Wj). cbn [shape clean] in *.
      apply both in Cl. destruct Cl as [Cl Cj]. apply both in Cl. destruct Cl as [Cs Ca]. split_and.
      pose proof (fresh_out D UN s vis busy Ws) as FO.
      destruct (IHa (out s ++ vis)%list busy m Wa) as (xa & Ea & Ga & _); auto.
      { intros c I. rewrite !in_app_iff in I. destruct I as [[I|I]|I]; [now apply FO| |]; apply Dv; rewrite in_app_iff; auto. }
      { intros c I. rewrite !in_app_iff in I. destruct I as [I|I]; [now apply FO|now apply Ap]. }
      destruct (IHs vis busy m Ws Dv Ap Ki) as (rs & Es & Gs & Ks); auto.
      assert (Af : exists f, array_from rs = Some f /\ (stacked = true -> good_from f)).
      { assert (Sd : s = SSingle \/ side s = true) by (destruct s; auto). destruct Sd as [->|Sd].
        - cbn [kind] in Ks. subst rs. exists FNone. split; [reflexivity|intros _; exact I].
        - destruct (kind_side s rs Ks Sd) as (t & Jt & Gt & _). exists (FJoins t). split; [|intros St; cbn [good_from]; auto]. destruct rs; try discriminate Jt; unfold array_from; now rewrite Jt. }
      destruct Af as (f & Ef & Gf). rewrite fm_array, Ea. cbn [obind fst snd]. rewrite Es. cbn [obind fst snd]. rewrite Ef. cbn [obind].
      destruct j as [outer|outer e].
      + eexists. split; [reflexivity|]. split; [|cbn [kind]; eauto 10]. intros St. cbn [good_frag good_arr good_acond good_cond]. split; [auto|]. split; [auto|]. split; [now apply Hu|]. split; [|auto].
        intros o Eo. destruct off; [|discriminate]. cbn in Eo. assert (o = u z) by congruence. subst. now apply Hu.
      + destruct Wj as [_ We]. destruct (IHj ((out s ++ array_ids elem off) ++ vis)%list busy m We) as (xe & Ee & Ge & _); auto.
        { intros c I. rewrite !in_app_iff in I. destruct I as [[[I|I]|I]|I]; [now apply FO|now apply Fi| |]; apply Dv; rewrite in_app_iff; auto. }
        { intros c I. rewrite !in_app_iff in I. destruct I as [[I|I]|I]; [now apply FO|now apply Fi|now apply Ap]. }
        rewrite Ee. cbn [obind fst snd]. eexists. split; [reflexivity|]. split; [|cbn [kind]; eauto 10]. intros St. cbn [good_frag good_arr good_acond good_cond]. split; [auto|]. split; [auto|]. split; [now apply Hu|]. split; [|auto].
        intros o Eo. destruct off; [|discriminate]. cbn in Eo. assert (o = u z) by congruence. subst. now apply Hu.
    - intros vis busy n m W Dv Ap Ki Sh Cl Gm. exists QNil. split; [reflexivity|]. split; [intros _; exact I|congruence].
    - intros s IHs cols r IHr vis busy n m W Dv Ap Ki Sh Cl Gm. cbn [wf_inputs] in W. destruct W as (Ws & Sub & Len & Wr). cbn [shape_inputs clean_inputs] in *.
      apply both in Cl. destruct Cl as [C1 C2]. split_and.
      destruct (IHs vis busy m Ws Dv Ap Ki) as (rs & Es & Gs & Ks); auto. destruct (IHr vis busy n m Wr Dv Ap Ki) as (qr & Er & Gr & _); auto.
      exists (QCons (Select (plain_items u cols) (fst (input_from rs)) (snd (input_from rs)) None) qr). split; [|split; [|discriminate]].
      + rewrite fm_ncons, Es. cbn [obind fst snd]. rewrite Er. cbn [obind fst snd]. now destruct (input_from rs).
      + intros St. destruct (input_good rs (Gs St)). cbn [good_queries good_query]. split; [|auto]. split; [apply plain_good; auto|auto].
    - intros vis busy K m W Dv Ap Ki Kb Cb Ac Nd Sh Cl Gm. exists m. split; [reflexivity|exact Gm].
    - intros c f a IHa r IHr vis busy K m [We Wr] Dv Ap Ki Kb Cb Ac Nd Sh Cl Gm. cbn [shape_aggs clean_aggs agg_ids] in *. apply both in Cl. destruct Cl as [C1 C2]. apply both in C1. destruct C1 as [C0 C1].
      split_and. assert (Kbusy : keys_in u m busy) by (intros k y I; destruct (Ki k y I) as (d & Id & ->); eauto).
      destruct (IHa vis busy m We Dv Ap Kbusy) as (x & E & G & _); auto. inversion Nd; subst.
      destruct (IHr vis busy (c :: K) (set m (u c) (XAgg f x)) Wr Dv Ap) as (m' & E' & G'); auto.
      { intros k y [Ek|I]; [exists c; split; [now left|congruence]|]. unfold del in I. apply filter_In in I. destruct (Ki k y (proj1 I)) as (d & Id & ->). exists d. split; [now right|reflexivity]. }
      { intros d [<-|I]; [apply Cb; now left|now apply Kb]. }
      { intros d I. apply Cb. now right. }
      { intros d I [<-|J]; [contradiction|]. apply (Ac d); [now right|assumption]. }
      { intros St k y [Ek|I]; [assert (y = XAgg f x) by congruence; subst; cbn [good]; split; [now apply tame_ok, C0|auto]|]. now apply (good_map_del m (u c) (Gm St) k). }
      exists m'. rewrite fm_acons, E. cbn [obind fst snd]. auto.
    - intros vis busy K m W Dv Ap Ki Kb Cb Ac Nd Sh Cl Gm. exists m. split; [reflexivity|exact Gm].
    - intros c e IHe r IHr vis busy K m [We Wr] Dv Ap Ki Kb Cb Ac Nd Sh Cl Gm. cbn [shape_comps clean_comps comp_ids] in *. apply both in Cl. destruct Cl as [C1 C2].
      split_and. assert (Kbusy : keys_in u m busy) by (intros k y I; destruct (Ki k y I) as (d & Id & ->); eauto).
      destruct (IHe vis busy m We Dv Ap Kbusy) as (x & E & G & _); auto. inversion Nd; subst.
      destruct (IHr vis busy (c :: K) (set m (u c) x) Wr Dv Ap) as (m' & E' & G'); auto.
      { intros k y [Ek|I]; [exists c; split; [now left|congruence]|]. unfold del in I. apply filter_In in I. destruct (Ki k y (proj1 I)) as (d & Id & ->). exists d. split; [now right|reflexivity]. }
      { intros d [<-|I]; [apply Cb; now left|now apply Kb]. }
      { intros d I. apply Cb. now right. }
      { intros d I [<-|J]; [contradiction|]. apply (Ac d); [now right|assumption]. }
      { intros St k y [Ek|I]; [assert (y = x) by congruence; subst; auto|]. now apply (good_map_del m (u c) (Gm St) k). }
      exists m'. rewrite fm_ccons, E. cbn [obind fst snd]. auto.
    - intros outer. exact I.
    - intros outer e IH. exact IH.
  Qed.
End Accept.
