(** C41: LIKE. *)
From Coq Require Import List ZArith Lia Bool.
From Verif Require Import GoBase LikeModel LikeSpec.
Import ListNotations.
Open Scope Z_scope.

Lemma any_run : forall p s, matches (AnyRun :: p) s = true <->
  exists run rest, s = run ++ rest /\ ~ In newline run /\ matches p rest = true.
Proof.
  intros p s. cbn [matches]. induction s as [|x s IH].
  - rewrite orb_false_r. split.
    + intros H. exists [], []. repeat split; auto.
    + intros (run & rest & E & _ & M). symmetry in E. apply app_eq_nil in E. destruct E as [_ ->]. exact M.
  - rewrite orb_true_iff, andb_true_iff, negb_true_iff, Z.eqb_neq, IH. split.
    + intros [H|(N & run & rest & -> & I & M)].
      * exists [], (x :: s). repeat split; auto.
      * exists (x :: run), rest. repeat split; auto. intros [E|H]; [now subst|contradiction].
    + intros ([|y run] & rest & E & I & M).
      * left. cbn [app] in E. now rewrite E.
      * right. cbn [app] in E. injection E as -> ->. split; [intros ->; apply I; now left|].
        exists run, rest. repeat split; auto. intros H. apply I. now right.
Qed.
(** What LIKE computes, for all patterns and strings: % stands for any string without a
    newline, and every other character, _ included, for itself. *)
Inductive computed : list Z -> list Z -> Prop :=
| co_nil : computed [] []
| co_percent : forall p run s, ~ In newline run -> computed p s -> computed (percent :: p) (run ++ s)
| co_self : forall p c s, c <> percent -> computed p s -> computed (c :: p) (c :: s).
Lemma like_computed : forall p s, like s p = true <-> computed p s.
Proof.
  unfold like. induction p as [|c p IH]; intros s.
  - cbn. destruct s; split; intros H; try discriminate; try constructor. inversion H.
  - cbn [compile map]. destruct (Z.eqb_spec c percent) as [->|N].
    + change (matches (AnyRun :: compile p) s = true <-> computed (percent :: p) s). rewrite any_run. split.
      * intros (run & rest & -> & I & M). apply co_percent; [exact I|]. now apply IH.
      * intros H. inversion H as [|? run rest I C|? ? ? X]; subst; [|contradiction]. exists run, rest. repeat split; auto. now apply IH.
    + change (matches (Lit c :: compile p) s = true <-> computed (c :: p) s). cbn [matches]. destruct s as [|x s].
      * split; intros H; [discriminate|]. inversion H; subst. contradiction.
      * rewrite andb_true_iff, Z.eqb_eq, IH. split.
        -- intros [-> H]. now constructor.
        -- intros H. inversion H; subst; [contradiction|]. auto.
Qed.
(** C41 where it holds: on text without newlines, for patterns without _.  Missing from the
    full claim: _ and newlines, refuted below. *)
Theorem c41_like_partial : forall s p, ~ In underscore p -> ~ In newline s -> (like s p = true <-> in_language p s).
Proof.
  intros s p U N. rewrite like_computed. split.
  - intros C. induction C as [|p run s I C IH|p c s X C IH].
    + constructor.
    + apply (il_percent p run s). apply IH; [intros H; apply U; now right|]. intros H. apply N. apply in_or_app. now right.
    + apply il_self; [exact X|intros ->; apply U; now left|]. apply IH; intros H; [apply U|apply N]; now right.
  - intros L. induction L as [|p run s L IH|p c s L IH|p c s X Y L IH].
    + constructor.
    + apply (co_percent p run s).
      * intros H. apply N. apply in_or_app. now left.
      * apply IH; [intros H; apply U; now right|]. intros H. apply N. apply in_or_app. now right.
    + exfalso. apply U. now left.
    + apply co_self; [exact X|]. apply IH; intros H; [apply U|apply N]; now right.
Qed.
(** Newlines only matter to %. *)
Theorem c41_like_without_percent : forall s p, ~ In percent p -> (like s p = true <-> s = p).
Proof.
  intros s p. rewrite like_computed. revert s. induction p as [|c p IH]; intros s N.
  - split; intros H; [inversion H|subst]; auto. constructor.
  - split.
    + intros H. inversion H as [|? ? ? ? ? E|? ? s' X C]; subst; [exfalso; apply N; now left|].
      f_equal. apply IH; [|exact C]. intros I. apply N. now right.
    + intros ->. apply co_self; [intros ->; apply N; now left|]. apply IH; [|reflexivity]. intros I. apply N. now right.
Qed.
Example c41_ex : like [97; 98; 99] [97; percent] = true /\ like [98; 97] [97; percent] = false /\
  ~ In underscore [97; percent] /\ ~ In newline [97; 98; 99] /\ like [97; 46; 98] [percent; 46; 98] = true /\ like [97; 120; 98] [percent; 46; 98] = false.
Proof. repeat split; try reflexivity; intros H; cbn in H; unfold percent, underscore, newline in H; intuition discriminate. Qed.
(** Refuted for _: a character other than _ never matches it. *)
Theorem c41_underscore_refuted : forall c, c <> underscore -> like [c] [underscore] = false /\ in_language [underscore] [c].
Proof.
  intros c N. split.
  - cbn. destruct (Z.eqb_spec c underscore); [contradiction|reflexivity].
  - exact (il_underscore [] c [] il_nil).
Qed.
(** Refuted for text with a newline: it never matches the pattern %. *)
Theorem c41_newline_refuted : forall s, In newline s -> like s [percent] = false /\ in_language [percent] s.
Proof.
  intros s I. split.
  - destruct (like s [percent]) eqn:E; [|reflexivity]. apply like_computed in E.
    inversion E as [|? run rest H C|? ? ? X]; subst; [|contradiction]. inversion C; subst. rewrite app_nil_r in I. contradiction.
  - rewrite <- (app_nil_r s). exact (il_percent [] s [] il_nil).
Qed.
(** Refuted for NULL: the answer is FALSE, so that NOT (NULL LIKE p) is TRUE. *)
Theorem c41_null_refuted : forall s, bind_like None s = Some false /\ bind_like s None = Some false.
Proof. intros [s|]; auto. Qed.

Print Assumptions c41_like_partial.
Print Assumptions c41_like_without_percent.
Print Assumptions c41_underscore_refuted.
Print Assumptions c41_newline_refuted.
Print Assumptions c41_null_refuted.
