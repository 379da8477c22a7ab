From Coq Require Import Ascii String List ZArith Lia Bool.
From Verif Require Import GoBase GoBaseFacts UdfModel UdfSpec.
Import ListNotations.
Local Open Scope string_scope.

Definition subst1 (m v : string) (ps : list piece) : list piece :=
  map (fun p => match p with Ref n => if String.eqb m n then Lit v else Ref n | Lit s => Lit s end) ps.

Lemma replace_skip old new p s : replace_from old new (p ++ s) (String.length p) = replace_from old new s 0.
Proof. induction p as [|a p IH]; [reflexivity|]. cbn. exact IH. Qed.

Lemma replace_lit old new s r :
  has_char "@" s = false ->
  replace_from (String "@" old) new (s ++ r) 0 = s ++ replace_from (String "@" old) new r 0.
Proof.
  induction s as [|a s IH]; intros H; [reflexivity|].
  cbn [has_char] in H. apply orb_false_iff in H. destruct H as [Ha Hs].
  cbn [append replace_from has_prefix]. rewrite Ascii.eqb_sym in Ha. rewrite Ha. cbn [andb].
  now rewrite IH.
Qed.

Lemma has_prefix_app p s : has_prefix p (p ++ s) = true.
Proof. induction p as [|a p IH]; [reflexivity|]. cbn. now rewrite Ascii.eqb_refl. Qed.

(** A name is found at a reference only if it is that reference's name. *)
Lemma prefix_at m n rest :
  all_ident m = true -> m <> "" -> proper_prefix m n = false ->
  (rest = "" \/ exists a t, rest = String a t /\ ident_char a = false) ->
  has_prefix m (n ++ rest) = true -> m = n.
Proof.
  intros Hm Hne Hp Hr H. clear Hne.
  revert n Hp H. induction m as [|a m IH]; intros n Hp H.
  - destruct n as [|b n]; [reflexivity|]. cbn in Hp. discriminate.
  - cbn in Hm. apply andb_true_iff in Hm. destruct Hm as [Ha Hm].
    destruct n as [|b n].
    + cbn [append] in H. destruct Hr as [->|[c [t [-> Hc]]]]; [discriminate|].
      cbn in H. apply andb_true_iff in H. destruct H as [H _]. apply Ascii.eqb_eq in H. congruence.
    + cbn in H, Hp. apply andb_true_iff in H. destruct H as [E H]. rewrite E in Hp. cbn in Hp.
      apply Ascii.eqb_eq in E. subst b. f_equal. now apply IH.
Qed.

Lemma ident_no_at n : all_ident n = true -> has_char "@" n = false.
Proof.
  induction n as [|a n IH]; [reflexivity|]. cbn. intros H. apply andb_true_iff in H. destruct H as [Ha H].
  rewrite IH by assumption. rewrite orb_false_r.
  destruct (Ascii.eqb_spec a "@") as [->|]; [discriminate|reflexivity].
Qed.

Lemma replace_render m v ps :
  identifier m -> formatted ps ->
  (forall n, In (Ref n) ps -> proper_prefix m n = false) ->
  replace_all (render ps) ("@" ++ m) v = render (subst1 m v ps).
Proof.
  intros [Hm0 Hm]. unfold replace_all. induction ps as [|[s|n] r IH]; intros Hf Hp; [reflexivity| |].
  - cbn [render subst1 map]. destruct Hf as [Hs Hf]. cbn [append].
    rewrite replace_lit by assumption. f_equal. apply IH; [assumption|]. intros n Hn. apply Hp. now right.
  - destruct Hf as [[Hn0 Hn] [Hf Hnext]]. cbn [render subst1 map]. cbn [append].
    assert (IH' : replace_from (String "@" m) v (render r) 0 = render (subst1 m v r)).
    { apply IH; [assumption|]. intros n' Hn'. apply Hp. now right. }
    destruct (String.eqb_spec m n) as [->|Hne].
    + cbn [render replace_from]. cbn [has_prefix]. rewrite Ascii.eqb_refl, has_prefix_app. cbn [andb].
      f_equal. replace (String.length (String "@" n) - 1)%nat with (String.length n) by (cbn; lia).
      rewrite replace_skip. exact IH'.
    + cbn [render replace_from has_prefix append]. rewrite Ascii.eqb_refl. cbn [andb].
      destruct (has_prefix m (n ++ render r)) eqn:X.
      { exfalso. apply Hne. apply (prefix_at m n (render r)); auto.
        - apply Hp. now left.
        - destruct r as [|[[|a s]|n'] r]; [now left|contradiction| |contradiction].
          right. exists a, (s ++ render r). split; [reflexivity|assumption]. }
      f_equal. rewrite replace_lit by now apply ident_no_at. f_equal. exact IH'.
Qed.

Lemma subst1_formatted m v ps :
  formatted ps -> has_char "@" v = false -> formatted (subst1 m v ps).
Proof.
  intros Hf Hv. induction ps as [|[s|n] r IH]; [exact I| |].
  - destruct Hf as [Hs Hf]. split; [assumption|]. now apply IH.
  - destruct Hf as [Hn [Hf Hnext]]. cbn [subst1 map]. destruct (String.eqb m n).
    + split; [assumption|]. now apply IH.
    + split; [assumption|]. split; [now apply IH|].
      destruct r as [|[[|a s]|n1] r]; try contradiction; cbn; auto.
Qed.

Lemma subst1_refs m v ps n : In (Ref n) (subst1 m v ps) -> In (Ref n) ps /\ n <> m.
Proof.
  unfold subst1. intros H. apply in_map_iff in H. destruct H as [p [E Hp]].
  destruct p as [s|n']; [discriminate|]. destruct (String.eqb_spec m n') as [->|Hne]; [discriminate|].
  injection E as ->. split; [assumption|congruence].
Qed.

Lemma simultaneous_subst1 m v ms vs ps :
  simultaneous ms vs (subst1 m v ps) = simultaneous (m :: ms) (v :: vs) ps.
Proof.
  induction ps as [|[s|n] r IH]; [reflexivity| |].
  - cbn [subst1 map simultaneous]. f_equal. exact IH.
  - cbn [subst1 map simultaneous value_of]. destruct (String.eqb m n).
    + cbn [simultaneous]. f_equal. exact IH.
    + cbn [simultaneous]. destruct (value_of ms vs n); [f_equal; exact IH|]. cbn. do 2 f_equal. exact IH.
Qed.

Lemma render_no_args ps : simultaneous [] [] ps = render ps.
Proof. induction ps as [|[s|n] r IH]; cbn; [reflexivity| |]; rewrite IH; reflexivity. Qed.

Lemma substitute_spec names : forall values ps,
  length values = length names ->
  (forall n, In n names -> identifier n) -> NoDup names -> prefix_free names ->
  formatted ps -> (forall n, In (Ref n) ps -> In n names) ->
  (forall v, In v values -> has_char "@" v = false) ->
  substitute names values (render ps) = Ok (simultaneous names values ps).
Proof.
  induction names as [|m ms IH]; intros values ps Hl Hid Hnd Hpf Hf Href Hv.
  - destruct values; [|discriminate]. cbn. now rewrite render_no_args.
  - destruct values as [|v vs]; [discriminate|]. cbn [substitute].
    rewrite replace_render.
    + rewrite IH.
      * now rewrite simultaneous_subst1.
      * now injection Hl.
      * intros n Hn. apply Hid. now right.
      * now inversion Hnd.
      * apply Hpf.
      * apply subst1_formatted; [assumption|]. apply Hv. now left.
      * intros n Hn. apply subst1_refs in Hn. destruct Hn as [Hn Hne]. apply Href in Hn.
        destruct Hn as [->|Hn]; [contradiction|assumption].
      * intros w Hw. apply Hv. now right.
    + apply Hid. now left.
    + assumption.
    + intros n Hn. apply Href in Hn. destruct Hn as [<-|Hn]; [|now apply Hpf].
      clear. induction m as [|a m IH]; cbn; [reflexivity|]. rewrite Ascii.eqb_refl. exact IH.
Qed.

(** More arguments than parameters are ignored, fewer panic. *)
Lemma substitute_short names values body :
  (length values < length names)%nat -> substitute names values body = GoPanic.
Proof.
  revert values body. induction names as [|n ns IH]; intros [|v vs] body H; cbn in *; try lia; auto.
  apply IH. lia.
Qed.

(** A parameter whose name continues an earlier one is destroyed. *)
Lemma prefix_destroys n ext v w :
  identifier n -> all_ident ext = true -> has_char "@" v = false ->
  substitute [n; n ++ ext] [v; w] (render [Ref (n ++ ext)]) = Ok (v ++ ext).
Proof.
  intros [Hn0 Hn] He Hv. cbn [substitute render]. rewrite string_app_nil_r.
  assert (E : replace_all ("@" ++ n ++ ext) ("@" ++ n) v = v ++ ext).
  { unfold replace_all. cbn [append replace_from has_prefix]. rewrite Ascii.eqb_refl, has_prefix_app. cbn [andb].
    replace (String.length (String "@" n) - 1)%nat with (String.length n) by (cbn; lia).
    rewrite replace_skip. f_equal.
    pose proof (replace_lit n v ext "") as R. rewrite string_app_nil_r in R.
    rewrite R by now apply ident_no_at. cbn. now rewrite string_app_nil_r. }
  rewrite E. do 1 f_equal. unfold replace_all.
  pose proof (replace_lit (n ++ ext) w (v ++ ext) "") as R. rewrite string_app_nil_r in R. cbn [append].
  rewrite R; [cbn; now rewrite string_app_nil_r|].
  assert (has_char "@" ext = false) by now apply ident_no_at.
  clear -Hv H. induction v as [|a v IH]; [exact H|]. cbn in *. apply orb_false_iff in Hv. destruct Hv as [-> Hv].
  cbn. now apply IH.
Qed.

(** Swapped arguments inside another function with the same parameter names. *)
Lemma swap_collapses x y sep :
  identifier x -> identifier y -> x <> y -> proper_prefix x y = false -> proper_prefix y x = false ->
  has_char "@" sep = false -> (exists a t, sep = String a t /\ ident_char a = false) ->
  substitute [x; y] ["@" ++ y; "@" ++ x] (render [Ref x; Lit sep; Ref y]) = Ok ("@" ++ x ++ sep ++ "@" ++ x).
Proof.
  intros Hx Hy Hne Pxy Pyx Hs [a [t [-> Ha]]]. cbn [substitute].
  assert (Pxx : proper_prefix x x = false).
  { clear. induction x as [|c x IH]; cbn; [reflexivity|]. now rewrite Ascii.eqb_refl. }
  assert (Pyy : proper_prefix y y = false).
  { clear. induction y as [|c y IH]; cbn; [reflexivity|]. now rewrite Ascii.eqb_refl. }
  rewrite replace_render.
  2: assumption.
  2:{ cbn. repeat split; auto; apply Hx || apply Hy. }
  2:{ intros n [E|[E|[E|[]]]]; injection E as <- || discriminate; assumption. }
  cbn [subst1 map]. rewrite String.eqb_refl. apply String.eqb_neq in Hne. rewrite Hne.
  change (render [Lit ("@" ++ y); Lit (String a t); Ref y]) with (render [Ref y; Lit (String a t); Ref y]).
  rewrite replace_render.
  2: assumption.
  2:{ cbn. repeat split; auto; apply Hy. }
  2:{ intros n [E|[E|[E|[]]]]; injection E as <- || discriminate; assumption. }
  cbn [subst1 map]. rewrite String.eqb_refl. cbn [render]. rewrite string_app_nil_r.
  reflexivity.
Qed.
