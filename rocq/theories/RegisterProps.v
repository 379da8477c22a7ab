(** C40: what a SQL function name stands for. *)
From Coq Require Import Ascii String List ZArith Lia Bool SpecFloat.
From Verif Require Import GoBase GoBaseFacts ValueModel IntModel RegisterModel.
Import ListNotations.
Local Open Scope string_scope.

(** An order in which a map with these keys may be visited. *)
Definition order_of (keys o : list string) : Prop := NoDup o /\ forall n, In n o <-> In n keys.

Definition agrees (s : string) (m : meaning) (n : string) : Prop := forall p, In p (registrations n) -> fst p = s -> snd p = m.
Lemma step_get : forall n table s,
  aget (fold_left (fun t p => aset t (fst p) (snd p)) (registrations n) table) s =
  if String.eqb ("zetasqlite_safe_" ++ n) s then Some (Safe n)
  else if String.eqb ("zetasqlite_" ++ n) s then Some (Plain n) else aget table s.
Proof. intros n table s. unfold registrations. cbn [fold_left fst snd]. now rewrite !aget_aset. Qed.
Lemma step_agrees : forall n table s m, agrees s m n -> aget table s = Some m \/ (exists p, In p (registrations n) /\ fst p = s) ->
  aget (fold_left (fun t p => aset t (fst p) (snd p)) (registrations n) table) s = Some m.
Proof.
  intros n table s m A H. rewrite step_get.
  pose proof (A ("zetasqlite_" ++ n, Plain n) (or_introl eq_refl)) as P1.
  pose proof (A ("zetasqlite_safe_" ++ n, Safe n) (or_intror (or_introl eq_refl))) as P2. cbn [fst snd] in P1, P2.
  destruct (String.eqb_spec ("zetasqlite_safe_" ++ n) s); [now rewrite P2|].
  destruct (String.eqb_spec ("zetasqlite_" ++ n) s); [now rewrite P1|].
  destruct H as [H|(p & [<-|[<-|[]]] & E)]; [exact H| |]; contradiction.
Qed.
Lemma register_agrees : forall o table s m, (forall n, In n o -> agrees s m n) ->
  aget table s = Some m \/ (exists n p, In n o /\ In p (registrations n) /\ fst p = s) ->
  aget (register_all o table) s = Some m.
Proof.
  induction o as [|n o IH]; intros table s m A H; cbn [register_all].
  - destruct H as [H|(n & p & [] & _)]. exact H.
  - apply IH; [intros; apply A; now right|]. destruct H as [H|(n' & p & [->|I] & R & E)].
    + left. apply step_agrees; [apply A; now left|now left].
    + left. apply step_agrees; [apply A; now left|]. right. eauto.
    + right. eauto.
Qed.
Lemma app_prefix_inj : forall a b c : string, a ++ b = a ++ c -> b = c.
Proof. induction a as [|x a IH]; intros b c E; cbn in E; [exact E|]. injection E as E. now apply IH. Qed.
Lemma safe_name : forall n m, "zetasqlite_safe_" ++ n = "zetasqlite_" ++ m -> m = "safe_" ++ n.
Proof. intros n m E. symmetry. apply (app_prefix_inj "zetasqlite_"). exact E. Qed.

(** C40 where it holds: for any table of functions and any two orders of visiting it, a
    name X and its SAFE form mean the same, namely X and X with errors as NULL, provided
    there is no other function safe_X (or Y with X = safe_Y).  Missing from the full claim:
    the names that are refuted below. *)
Theorem c40_one_meaning_partial : forall keys o n, order_of keys o -> In n keys ->
  (~ In ("safe_" ++ n) keys -> sql_function o ("zetasqlite_safe_" ++ n) = Some (Safe n)) /\
  ((forall m, In m keys -> n <> "safe_" ++ m) -> sql_function o ("zetasqlite_" ++ n) = Some (Plain n)).
Proof.
  intros keys o n [_ V] I. unfold sql_function. split; intros H; apply register_agrees.
  - intros x X p [<-|[<-|[]]] E; cbn [fst snd] in *.
    + symmetry in E. apply safe_name in E. subst x. exfalso. apply H. now apply V.
    + f_equal. now apply (app_prefix_inj "zetasqlite_safe_").
  - right. exists n, ("zetasqlite_safe_" ++ n, Safe n). split; [now apply V|]. split; [right; now left|reflexivity].
  - intros x X p [<-|[<-|[]]] E; cbn [fst snd] in *.
    + f_equal. now apply (app_prefix_inj "zetasqlite_").
    + apply safe_name in E. exfalso. apply (H x); [now apply V|exact E].
  - right. exists n, ("zetasqlite_" ++ n, Plain n). split; [now apply V|]. split; [now left|reflexivity].
Qed.
Example c40_ex : In "concat" normal_funcs /\ ~ In ("safe_" ++ "concat") normal_funcs /\
  (forall m, In m normal_funcs -> "concat" <> "safe_" ++ m).
Proof.
  split; [|split].
  - unfold normal_funcs. repeat (try (left; reflexivity); right).
  - destruct (in_dec string_dec ("safe_" ++ "concat") normal_funcs) as [i|i]; [|exact i]. exfalso. revert i. clear.
    cbn [append]. intros H. unfold normal_funcs in H. repeat (destruct H as [H|H]; [discriminate|]). exact H.
  - intros m _ E. discriminate.
Qed.

(** Refuted for the rest: whenever a table has both X and safe_X, the one name
    zetasqlite_safe_X means X with errors as NULL in one order and safe_X in another. *)
Lemma last_wins_safe : forall o n, sql_function (o ++ [n]) ("zetasqlite_safe_" ++ n) = Some (Safe n).
Proof.
  intros o n. unfold sql_function. generalize (@nil (string * meaning)) as t. induction o as [|x o IH]; intros t; [|exact (IH _)].
  cbn [app register_all]. rewrite step_get. now rewrite String.eqb_refl.
Qed.
Lemma last_wins_plain : forall o n, (forall x, "zetasqlite_safe_" ++ x = "zetasqlite_" ++ n -> x <> n) ->
  sql_function (o ++ [n]) ("zetasqlite_" ++ n) = Some (Plain n).
Proof.
  intros o n H. unfold sql_function. generalize (@nil (string * meaning)) as t. induction o as [|x o IH]; intros t; [|exact (IH _)].
  cbn [app register_all]. rewrite step_get, String.eqb_refl.
  destruct (String.eqb_spec ("zetasqlite_safe_" ++ n) ("zetasqlite_" ++ n)) as [E|]; [|reflexivity]. now destruct (H n E).
Qed.
Lemma order_ending : forall keys n, In n keys -> exists o, order_of keys (o ++ [n]).
Proof.
  intros keys n I. exists (remove string_dec n (nodup string_dec keys)).
  assert (R : forall x, In x (remove string_dec n (nodup string_dec keys)) <-> In x keys /\ x <> n).
  { intros x. split.
    - intros H. apply in_remove in H. now rewrite nodup_In in H.
    - intros [H N]. apply in_in_remove; [exact N|]. now apply nodup_In. }
  assert (ND : forall l, NoDup l -> NoDup (remove string_dec n l)).
  { induction l as [|y l IH]; intros D; [constructor|]. inversion D as [|? ? Y D']; subst. cbn [remove].
    destruct (string_dec n y); [now apply IH|]. constructor; [|now apply IH]. intros H. apply in_remove in H. tauto. }
  split.
  - pose proof (NoDup_rev (ND _ (NoDup_nodup string_dec keys))) as ND'. rewrite <- (rev_involutive (_ ++ _)). apply NoDup_rev. rewrite rev_app_distr. cbn [rev app].
    constructor; [|exact ND']. rewrite <- in_rev, R. tauto.
  - intros x. rewrite in_app_iff, R. cbn [In]. destruct (string_dec x n) as [->|N]; [tauto|].
    split; [intros [H|[H|[]]]; [tauto|now destruct N]|tauto].
Qed.
Lemma safe_differs : forall n, "safe_" ++ n <> n.
Proof. intros n E. apply (f_equal String.length) in E. cbn in E. lia. Qed.
Theorem c40_two_meanings_refuted : forall keys n, In n keys -> In ("safe_" ++ n) keys ->
  exists o o', order_of keys o /\ order_of keys o' /\
    sql_function o ("zetasqlite_safe_" ++ n) = Some (Safe n) /\
    sql_function o' ("zetasqlite_safe_" ++ n) = Some (Plain ("safe_" ++ n)).
Proof.
  intros keys n I J. destruct (order_ending keys n I) as [o O]. destruct (order_ending keys ("safe_" ++ n) J) as [o' O'].
  exists (o ++ [n])%list, (o' ++ [("safe_" ++ n)%string])%list. split; [exact O|]. split; [exact O'|]. split; [apply last_wins_safe|].
  apply (last_wins_plain o' ("safe_" ++ n)). intros x E E'. subst x. apply safe_name in E.
  apply (safe_differs ("safe_" ++ n)). symmetry. exact E.
Qed.
(** In this program: six names; SAFE_ADD(2^53, 1) is 2^53 + 1 at one start and 2^53 at
    another. *)
Theorem c40_safe_add_refuted :
  (forall n, In n ["add"; "subtract"; "multiply"; "divide"; "array_at_offset"; "array_at_ordinal"] ->
     In n normal_funcs /\ In ("safe_" ++ n) normal_funcs) /\
  exists o o' m m', order_of normal_funcs o /\ order_of normal_funcs o' /\
    sql_function o "zetasqlite_safe_add" = Some m /\ sql_function o' "zetasqlite_safe_add" = Some m' /\
    run m (2 ^ 53) 1 = Ok (Some (2 ^ 53 + 1)%Z) /\ run m' (2 ^ 53) 1 = Ok (Some (2 ^ 53)%Z).
Proof.
  assert (X : forall n, In n ["add"; "subtract"; "multiply"; "divide"; "array_at_offset"; "array_at_ordinal"] ->
     In n normal_funcs /\ In ("safe_" ++ n) normal_funcs).
  { intros n H. unfold normal_funcs. repeat (destruct H as [<-|H]; [split; repeat (try (left; reflexivity); right)|]). destruct H. }
  split; [exact X|]. destruct (X "add" (or_introl eq_refl)) as [I J].
  destruct (c40_two_meanings_refuted normal_funcs "add" I J) as (o & o' & O & O' & E & E').
  exists o, o', (Safe "add"), (Plain "safe_add"). repeat split; try apply O; try apply O'; try exact E; try exact E'; vm_compute; reflexivity.
Qed.

Print Assumptions c40_one_meaning_partial.
Print Assumptions c40_two_meanings_refuted.
Print Assumptions c40_safe_add_refuted.
