From Coq Require Import Ascii String List ZArith Lia Bool.
From Verif Require Import GoBase DecModel DecFacts QueryModel QuerySpec QueryProofs AcceptSpec AcceptProofs QueryProps AcceptProps WithModel WithSpec WithProofs.
From Verif Require ScanModel.
Import ListNotations.
Local Open Scope list_scope.

Lemma map_forall2 {A B C} (f : A -> C) (g : B -> C) (P : A -> B -> Prop) a b : Forall2 (fun x y => g y = f x /\ P x y) a b -> map g b = map f a.
Proof. induction 1 as [|x y a b [E _] F IH]; cbn; congruence. Qed.
Section Accepted.
  Variable stacked : bool.
  Variable names : Z -> string.
  Variable refs : list (string * list Z).
  Variable l : list wentry.
  Hypothesis tame_all : stacked = true -> forall c, tame (names c) = true.
  Lemma select_text s : scan_ok stacked s -> exists q, with_scan names l refs s [] = Some (RSelect q, []).
  Proof.
    intros (W & Sel & Sh & Cl). unfold with_scan.
    destruct (accept stacked (read_name names (ref_pairs l refs)) (with_id names) in64 True (in64_inj names) (no_json_id names)) as (_ & _ & A & _).
    { intros St c. apply ok_with_id, tame_ok. now apply tame_all. }
    { intros St c. unfold read_name. destruct (source _ c); [apply ok_with_id|]; apply tame_ok; now apply tame_all. }
    destruct (A s [] [] [] W) as (r & E & _ & K); try assumption.
    { intros c []. }
    { intros c []. }
    { intros k x []. }
    { intros St k x []. }
    destruct (kind_select _ _ _ K Sel) as (q & ->). now exists q.
  Qed.
  Lemma entries_text es : forall before, entries_ok stacked refs l before es -> exists texts, format_entries names l refs es [] = Some (texts, []) /\
    Forall2 (fun e t => fst t = ename e /\ with_scan names l refs (esub e) [] = Some (RSelect (snd t), [])) es texts.
  Proof.
    induction es as [|e es IH]; intros before Ok.
    - exists []. split; [reflexivity|constructor].
    - destruct Ok as (Se & _ & _ & Ok). destruct (select_text (esub e) Se) as (q & Q). destruct (IH _ Ok) as (texts & F & T). exists ((ename e, q) :: texts). split.
      + cbn [format_entries]. rewrite Q. cbn [obind fst snd]. rewrite F. reflexivity.
      + constructor; [split; [reflexivity|exact Q]|assumption].
  Qed.
End Accepted.

(** C284.  A query with WITH is accepted by SQLite and returns what it means, however often its
    entries are used and whatever is in them. *)
Theorem c284_with : forall stacked fn db names refs l main cols rows,
  with_ok stacked names refs l main ->
  (forall n s, In (n, s) (unfold_all refs [] l) -> mean_scan fn db names [] s <> None) ->
  (forall c, In c cols -> In c (out main)) -> cols <> [] ->
  mean_query fn db names (meant refs l main) cols = Some rows ->
  exists w, with_sql names l refs main cols = Some w /\ eval_with fn db w = Some rows.
Proof.
  intros stacked fn db names refs l main cols rows [Pl Ap Own All Ge Gm Gs Tm] Me Sub Ne M.
  destruct (entries_text stacked names refs l Tm l [] Ge) as (texts & F & T).
  destruct (select_text stacked names refs l Tm main Gm) as (q & Q).
  exists (WText texts (Select (out_items (with_id names) names cols) (FJoins (KItem q KNil)) WNone None)). split.
  { unfold with_sql. replace (counts_ok l refs) with true.
    - rewrite F. cbn [obind fst snd]. rewrite Q. reflexivity.
    - symmetry. apply forallb_forall. intros r I. destruct (All r I) as (e & Ie & En & Le). rewrite <- En, (named_entry l e Ap Ie), Le. apply Nat.eqb_refl. }
  pose proof (entries_done stacked fn db names refs l texts Ap Own All T Me l [] eq_refl ltac:(intros e []) Ge) as Done.
  pose proof (map_forall2 _ _ _ _ _ T) as R2. assert (Len : length texts = length l) by now rewrite <- (map_length fst texts), R2, map_length.
  destruct Gm as (W & Sel & _). unfold mean_query, meant in M.
  assert (Mm : mean_scan fn db names [] (unfold refs (unfold_all refs [] l) main) <> None) by (intros E; rewrite E in M; discriminate).
  destruct (scan_done fn db names refs l texts Ap Own All T l main (length l) q Done ltac:(auto) (Nat.le_refl _) Gs W Q Mm) as (ls & Ms & _ & Ks & Ds & Nq & Eq).
  rewrite Ms in M. destruct (every (pick cols) ls) as [ls'|] eqn:E; [|discriminate]. assert (rows = map (map snd) ls') by congruence. subst rows.
  unfold eval_with, run_with. cbn [ctes inner]. rewrite Len.
  assert (R1 : forallb (fun e => ScanModel.plain_name (fst e)) texts = true).
  { apply forallb_forall. intros t I. destruct (forall2_in_r _ _ _ _ T I) as (e & Ie & N & _). rewrite N. now apply Pl. }
  rewrite R1, R2, Ap. cbn [andb].
  assert (Ri : forall ns, reads_items (out_items (with_id names) names ns) = []) by (intros ns; induction ns; [reflexivity|assumption]).
  cbn [reads reads_from reads_toks reads_cond]. rewrite Ri, !app_nil_r. cbn [app].
  rewrite (forallb_known fn db names refs l texts T l main (length l) q [] Done (Nat.le_refl _) Gs Q).
  change (fun t => rows_or_none (cte fn db texts (length l) t)) with (cdb fn db texts (length l)).
  destruct (item_ok fn (cdb fn db texts (length l)) (with_id names) in64 (in64_inj names) (out main) ls q [] (proj2 (Forall_forall _ _) Ks) Ds Nq Eq) as [Eg Rg].
  rewrite ev_select, ev_from_joins, Eg by (destruct cols; [congruence|discriminate]). cbn [obind].
  match goal with |- context [ofilter ?G ?X] => replace (ofilter G X) with (Some X) by (symmetry; apply ofilter_always) end. cbn [obind].
  match type of Rg with Forall2 _ _ ?X => assert (Mo : omap (fun r => eval_items fn (cdb fn db texts (length l)) [(r, [])] (out_items (with_id names) names cols)) X = Some (map (map snd) ls')) end.
  { apply omap_forall2. pose proof (proj1 (every_forall2 _ _ _) E) as E2. pose proof (forall2_compose _ _ _ _ _ Rg E2) as C.
    clear -C Sub Ds. induction C as [|zs z' srows ls' (z & _ & [Kz Rz] & Pz) C IH]; cbn [map]; constructor; [|assumption].
    apply (out_eval fn _ names (with_id names) _ cols z); [assumption|]. intros c v Ic Cv. cbn [lookup].
    rewrite (Rz c) by (rewrite Forall_forall in Ds; apply Ds, Sub, Ic). now rewrite Cv. }
  match goal with |- context [omap ?G ?X] => replace (omap G X) with (Some (map (map (@snd Z val)) ls')) by (symmetry; exact Mo) end. reflexivity.
Qed.
(** WITH a AS (SELECT k FROM t WHERE k > 1), b AS (SELECT k FROM a)
    SELECT a.k, b.k FROM a JOIN b ON a.k = b.k WHERE EXISTS (SELECT k FROM a AS c WHERE c.k > a.k) *)
Local Open Scope string_scope.
Definition gt2 (a : Z) (e : expr) : expr := ECall "greater" (ECons (ECol a) (ECons e ENil)).
Definition ex_entries : list wentry :=
  [WEntry "a" (SProject (SFilter (STable "t" [1%Z]) (gt2 1 (ELit (Some 1%Z)))) CNil [1%Z]) [1%Z];
   WEntry "b" (SProject (STable "a" [2%Z]) CNil [2%Z]) [2%Z]].
Definition ex_refs : list (string * list Z) := [("a", [2%Z]); ("a", [3%Z]); ("b", [4%Z]); ("a", [5%Z])].
Definition ex_main : scan :=
  SProject (SFilter (SJoin JInner (STable "a" [3%Z]) (STable "b" [4%Z]) (eq2 3 4)) (EExists (SProject (SFilter (STable "a" [5%Z]) (gt2 5 (ECol 3))) CNil [5%Z]))) CNil [3; 4]%Z.
Definition ex_with_names (c : Z) : string := "k".
Example c284_example :
  with_ok false ex_with_names ex_refs ex_entries ex_main /\
  (forall n s, In (n, s) (unfold_all ex_refs [] ex_entries) -> mean_scan ex_fn ex_db ex_with_names [] s <> None) /\
  mean_query ex_fn ex_db ex_with_names (meant ex_refs ex_entries ex_main) [3; 4]%Z = Some [[Some 2%Z; Some 2%Z]] /\
  obind (with_sql ex_with_names ex_entries ex_refs ex_main [3; 4]%Z) (eval_with ex_fn ex_db) = Some [[Some 2%Z; Some 2%Z]].
Proof.
  split; [|split; [|split; [reflexivity|vm_compute; reflexivity]]].
  - split.
    + intros e [<-|[<-|[]]]; reflexivity.
    + reflexivity.
    + cbn; unfold ex_refs. cbn. repeat constructor; cbn; intuition discriminate.
    + intros r [<-|[<-|[<-|[<-|[]]]]]; [exists (nth 0 ex_entries (WEntry "" SSingle []))|exists (nth 0 ex_entries (WEntry "" SSingle []))|exists (nth 1 ex_entries (WEntry "" SSingle []))|exists (nth 0 ex_entries (WEntry "" SSingle []))]; cbn; auto.
    + cbn [entries_ok ex_entries]. split; [|split; [reflexivity|split; [|split; [|split; [reflexivity|split; [|exact I]]]]]].
      * split; [wf_tac|]. split; [reflexivity|]. split; [reflexivity|discriminate].
      * intros t cols [E|[]]. assert (t = "t" /\ cols = [1%Z]) as [-> ->] by (split; congruence). cbn. split.
        -- intros e [<-|[<-|[]]]; reflexivity.
        -- intros c r [<-|[]] [<-|[<-|[<-|[<-|[]]]]]; cbn; intuition discriminate.
      * split; [wf_tac|]. split; [reflexivity|]. split; [reflexivity|discriminate].
      * intros t cols [E|[]]. assert (t = "a" /\ cols = [2%Z]) as [-> ->] by (split; congruence). cbn. eexists. split; [try (now left); right; now left|split; reflexivity].
    + split; [wf_tac|]. split; [reflexivity|]. split; [reflexivity|discriminate].
    + intros t cols [E|[E|[E|[]]]].
      * assert (t = "a" /\ cols = [3%Z]) as [-> ->] by (split; congruence). cbn. eexists. split; [try (now left); right; now left|split; reflexivity].
      * assert (t = "b" /\ cols = [4%Z]) as [-> ->] by (split; congruence). cbn. eexists. split; [right; now left|split; reflexivity].
      * assert (t = "a" /\ cols = [5%Z]) as [-> ->] by (split; congruence). cbn. eexists. split; [try (now left); right; now left|split; reflexivity].
    + discriminate.
  - intros n s [E|[E|[]]]; (assert (s = snd (n, s)) as -> by reflexivity); rewrite <- E; discriminate.
Qed.
Print Assumptions c284_with.
