(** Proofs about Prepare, Exec and Query. *)
From Coq Require Import Ascii String List ZArith Lia Bool.
From Verif Require Import GoBase ParamModel PrepModel PrepSpec.
Import ListNotations.
Local Open Scope string_scope.

(** ** Strings *)
Lemma sapp_assoc a b c : ((a ++ b) ++ c)%string = (a ++ (b ++ c))%string.
Proof. induction a; [reflexivity|]. cbn. now rewrite IHa. Qed.
Lemma sapp_nil a : (a ++ "")%string = a.
Proof. induction a; [reflexivity|]. cbn. now rewrite IHa. Qed.
Lemma every_app f a b : every f (a ++ b) = every f a && every f b.
Proof. induction a; [reflexivity|]. cbn. now rewrite IHa, andb_assoc. Qed.
(** The first occurrence of a character *)
Lemma first_char c a b a' b' : every (fun x => negb (Ascii.eqb x c)) a = true -> every (fun x => negb (Ascii.eqb x c)) a' = true ->
  (a ++ String c b = a' ++ String c b')%string -> a = a' /\ b = b'.
Proof.
  revert a'. induction a as [|x a IH]; intros [|y a'] Ha Ha' E; cbn in *.
  - split; congruence.
  - assert (y = c) by congruence. subst. rewrite Ascii.eqb_refl in Ha'. discriminate.
  - assert (x = c) by congruence. subst. rewrite Ascii.eqb_refl in Ha. discriminate.
  - apply andb_true_iff in Ha, Ha'. assert (E1 : x = y) by congruence. assert (E2 : (a ++ String c b = a' ++ String c b')%string) by congruence.
    destruct (IH a' (proj2 Ha) (proj2 Ha') E2) as [-> ->]. now subst.
Qed.
Lemma sapp_inj_r a b c : (a ++ c = b ++ c)%string -> a = b.
Proof.
  intros E. assert (L : String.length (a ++ c) = String.length (b ++ c)) by (now rewrite E).
  assert (LA : forall x y, String.length (x ++ y) = (String.length x + String.length y)%nat) by (intros x y; induction x; [reflexivity|cbn; now rewrite IHx]).
  rewrite !LA in L. assert (L' : String.length a = String.length b) by lia. clear L LA. revert b L' E. induction a as [|x a IH]; intros [|y b] L E; try discriminate; [reflexivity|].
  cbn in *. assert (x = y) by congruence. subst. f_equal. apply IH; congruence.
Qed.
Lemma join_parts sep l x : In x l -> part_of x (join sep l).
Proof.
  induction l as [|y l IH]; [intros []|]. intros I. destruct l as [|z l].
  - destruct I as [->|[]]. exists "", "". cbn. now rewrite sapp_nil.
  - change (join sep (y :: z :: l)) with (y ++ sep ++ join sep (z :: l)). destruct I as [->|I].
    + exists "", (sep ++ join sep (z :: l)). reflexivity.
    + destruct (IH I) as (a & b & E). exists (y ++ sep ++ a), b. rewrite E, !sapp_assoc. reflexivity.
Qed.

(** ** Arguments *)
Lemma aget_aset_other {A} (m : amap A) k k' v : k <> k' -> aget (aset m k v) k' = aget m k'.
Proof.
  intros N. induction m as [|[x y] m IH]; cbn; [destruct (String.eqb_spec k k'); congruence|].
  destruct (String.eqb_spec x k) as [->|Nx]; cbn.
  - destruct (String.eqb_spec k k'); congruence.
  - destruct (String.eqb x k'); [reflexivity|exact IH].
Qed.
Section Args.
  Context {V T W : Type} (enc : T -> V -> option W).
  Lemma named_map_other (vs : list (arg V)) : positional vs -> forall m n, n <> "" -> aget (named_map m vs) n = aget m n.
  Proof.
    induction vs as [|v r IH]; intros P m n N; [reflexivity|]. cbn [named_map]. rewrite IH; [|intros x I; apply P; now right|assumption].
    rewrite (P v (or_introl eq_refl)). apply aget_aset_other. cbn. congruence.
  Qed.
  Lemma pick_positional vs all m idx (ps : list (param T)) : positional all -> (forall n, n <> "" -> aget m n = None) ->
    skipn idx all = vs -> length vs = length ps ->
    pick_all enc m all idx ps = match encode_all enc (map (@a_val V) vs) ps with Some ws => Ok (unnamed ws) | None => Err end.
  Proof.
    intros P M. revert vs idx. induction ps as [|p r IH]; intros vs idx E L.
    - destruct vs; [reflexivity|discriminate].
    - destruct vs as [|v vs]; [discriminate|]. cbn in L. cbn [map encode_all pick_all].
      assert (Nv : nth_error all idx = Some v) by (rewrite <- (firstn_skipn idx all), E; rewrite nth_error_app2; rewrite firstn_length_le; try lia;
        [rewrite Nat.sub_diag; reflexivity| |]; (destruct (Nat.le_gt_cases idx (length all)); [assumption|]; rewrite skipn_all2 in E by lia; discriminate)).
      assert (Pk : pick m all idx p = Ok v).
      { unfold pick. rewrite Nv. destruct (String.eqb_spec (p_name p) ""); [reflexivity|]. now rewrite M. }
      rewrite Pk. cbn [bind]. unfold encode_named. rewrite (P v (nth_error_In _ _ Nv)). destruct (enc (p_ty p) (a_val v)) as [w|]; [|reflexivity]. cbn [bind].
      assert (Es : skipn (S idx) all = vs).
      { clear -E. revert all E. induction idx as [|i IH]; intros [|x all] E; cbn in *; try discriminate; [congruence|]. apply (IH all E). }
      rewrite (IH vs (S idx) Es ltac:(lia)). destruct (encode_all enc (map (@a_val V) vs) r); reflexivity.
  Qed.
  Lemma get_args_positional (vs : list (arg V)) (ps : list (param T)) : positional vs -> length vs = length ps ->
    get_args enc (Some vs) ps = match encode_all enc (map (@a_val V) vs) ps with Some ws => Ok (unnamed ws) | None => Err end.
  Proof.
    intros P L. unfold get_args. replace (length vs <? length ps)%nat with false by (symmetry; apply Nat.ltb_ge; lia).
    apply pick_positional; auto. intros n N. rewrite named_map_other by assumption. reflexivity.
  Qed.
  Lemma positional_check (vs : list (arg V)) : positional vs -> existsb (fun v => negb (String.eqb (a_name v) "")) vs = false.
  Proof.
    intros P. destruct (existsb _ vs) eqn:E; [|reflexivity]. apply existsb_exists in E. destruct E as (v & I & N). rewrite (P v I) in N. discriminate.
  Qed.
End Args.

(** ** A script that succeeds has made all calls *)
Section Trace.
  Context {V T W : Type} (enc : T -> V -> option W).
  Variable fails : history (W := W) -> call (W := W) -> option error.
  Variable query_fails : history (W := W) -> string -> list (string * W) -> option error.
  Variable count : history (W := W) -> call (W := W) -> Z.
  Notation made := (made fails count).
  Notation exec := (exec (T := T) fails count).
  Notation cleanup := (cleanup (T := T) fails count).
  Lemma made_done h c h' n : made h c = (h', Done n) -> h' = (h ++ [c])%list /\ n = count h c.
  Proof. unfold PrepModel.made. destruct (fails h c); intros E; [discriminate|]. split; congruence. Qed.
  Lemma wrapped_done {A} m (x : history (W := W) * outcome A) h n : wrapped m x = (h, Done n) -> x = (h, Done n).
  Proof. destruct x as [h1 [a|e|]]; unfold wrapped; cbn; congruence. Qed.
  Lemma then_done {A B} (x : history (W := W) * outcome A) (f : history (W := W) -> A -> history (W := W) * outcome B) h r : then_ x f = (h, Done r) ->
    exists h1 a, x = (h1, Done a) /\ f h1 a = (h, Done r).
  Proof. destruct x as [h1 [a|e|]]; unfold then_; cbn; intros E; try discriminate. eauto. Qed.
  Lemma each_done m l : forall h h' n, each fails count h m l = (h', Done n) -> h' = (h ++ map (fun t => CExec t []) l)%list /\ n = 0%Z.
  Proof.
    induction l as [|t r IH]; intros h h' n E; cbn [each] in E.
    - cbn. rewrite app_nil_r. split; congruence.
    - apply then_done in E. destruct E as (h1 & a & E1 & E2). apply wrapped_done, made_done in E1. destruct E1 as [-> _]. apply IH in E2. destruct E2 as [-> ->].
      cbn. now rewrite <- app_assoc.
  Qed.
  Ltac peel E := repeat match type of E with
    | then_ _ _ = (_, Done _) => let h1 := fresh "h" in let a := fresh "a" in let E1 := fresh "E" in apply then_done in E; destruct E as (h1 & a & E1 & E);
        try (apply wrapped_done in E1); try (apply made_done in E1; destruct E1 as [? ?]; subst); try (apply each_done in E1; destruct E1 as [? ?]; subst)
    end.
  Ltac fin E := apply (f_equal fst) in E; cbn [fst] in E; rewrite <- E; rewrite <- ?app_assoc; reflexivity.
  Lemma exec_done h a args h' n : exec h a args = (h', Done n) -> h' = (h ++ statement_calls a args)%list.
  Proof.
    destruct a as [nm sch ps rep tmp idx|nm sch rep tmp|nm tmp|fn nm t ps|t ps|t ps ex| | |t|ts]; cbn [PrepModel.exec statement_calls]; intros E.
    - destruct rep; peel E; [fin E|]. assert (h0 = h) by congruence. subst h0. fin E.
    - destruct rep; peel E; [fin E|]. assert (h0 = h) by congruence. subst h0. fin E.
    - peel E. fin E.
    - destruct fn; peel E; fin E.
    - apply wrapped_done, made_done in E. now destruct E.
    - peel E. fin E.
    - rewrite app_nil_r. congruence.
    - rewrite app_nil_r. congruence.
    - peel E. fin E.
    - now apply each_done in E.
  Qed.
  Lemma cleanup_done h a h' n : cleanup h a = (h', Done n) -> h' = (h ++ cleanup_calls a)%list.
  Proof.
    destruct a as [nm sch ps rep [|] idx|nm sch rep [|]|nm [|]|fn nm t ps|t ps|t ps ex| | |t|ts]; cbn [PrepModel.cleanup cleanup_calls]; unfold drop_text; intros E; try (rewrite app_nil_r; congruence).
    - peel E. apply wrapped_done, made_done in E. destruct E as [-> _]. now rewrite <- app_assoc.
    - peel E. apply wrapped_done, made_done in E. destruct E as [-> _]. now rewrite <- app_assoc.
    - apply wrapped_done, made_done in E. now destruct E.
  Qed.
  Lemma made_no_panic h c : snd (made h c) <> Panic.
  Proof. unfold PrepModel.made. destruct (fails h c); discriminate. Qed.
  Lemma wrapped_no_panic {A} m (x : history (W := W) * outcome A) : snd x <> Panic -> snd (wrapped m x) <> Panic.
  Proof. destruct x as [h [a|e|]]; cbn; congruence. Qed.
  Lemma then_no_panic {A B} (x : history (W := W) * outcome A) (f : history (W := W) -> A -> history (W := W) * outcome B) : snd x <> Panic -> (forall h a, snd (f h a) <> Panic) -> snd (then_ x f) <> Panic.
  Proof. destruct x as [h [a|e|]]; unfold then_; cbn; intros X F; [apply F|discriminate|congruence]. Qed.
  Lemma each_no_panic m l : forall h, snd (each fails count h m l) <> Panic.
  Proof. induction l as [|t r IH]; intros h; [discriminate|]. cbn [each]. apply then_no_panic; [apply wrapped_no_panic, made_no_panic|]. intros. apply IH. Qed.
  Lemma exec_no_panic h a args : snd (exec h a args) <> Panic.
  Proof.
    destruct a as [nm sch ps rep tmp idx|nm sch rep tmp|nm tmp|fn nm t ps|t ps|t ps ex| | |t|ts]; cbn [PrepModel.exec]; try (destruct rep); try (destruct fn);
      repeat first [apply each_no_panic | apply then_no_panic; intros | apply wrapped_no_panic | apply made_no_panic | discriminate].
  Qed.
  Lemma cleanup_no_panic h a : snd (cleanup h a) <> Panic.
  Proof.
    destruct a as [nm sch ps rep [|] idx|nm sch rep [|]|nm [|]|fn nm t ps|t ps|t ps ex| | |t|ts]; cbn [PrepModel.cleanup];
      repeat first [apply then_no_panic; intros | apply wrapped_no_panic | apply made_no_panic | discriminate].
  Qed.
  Lemma cleanups_done (l : list (action (T := T))) : forall h h', cleanups fails count h l = (h', []) -> h' = (h ++ flat_map cleanup_calls l)%list.
  Proof.
    induction l as [|a r IH]; intros h h' E; cbn [cleanups flat_map] in *; [rewrite app_nil_r; congruence|].
    destruct (cleanup h a) as [h1 o] eqn:C. destruct (cleanups fails count h1 r) as [h2 es] eqn:D. destruct o as [n|e|].
    - assert (es = []) by congruence. subst. apply IH in D. apply cleanup_done in C. subst. rewrite app_assoc. congruence.
    - discriminate.
    - exfalso. apply (cleanup_no_panic h a). now rewrite C.
  Qed.

  Lemma exec_loop_done values l : forall h last sofar h' s r, exec_loop enc fails count h values last sofar l = (h', s, Done r) ->
    s = (sofar ++ l)%list /\ exists argss, Forall2 (fun a args => args_of enc (Some values) a = Done args) l argss /\
      h' = (h ++ concat (map (fun p => statement_calls (fst p) (snd p)) (combine l argss)))%list.
  Proof.
    induction l as [|a l IH]; intros h last sofar h' s r E; cbn [exec_loop] in E.
    - split; [rewrite app_nil_r; congruence|]. exists []. split; [constructor|]. cbn. rewrite app_nil_r. congruence.
    - destruct (args_of enc (Some values) a) as [args| |] eqn:A; try discriminate. destruct (exec h a args) as [h1 [n| |]] eqn:X; try discriminate.
      apply IH in E. destruct E as (-> & argss & F & ->). split; [now rewrite <- app_assoc|]. exists (args :: argss). split; [now constructor|].
      apply exec_done in X. subst. cbn. now rewrite <- app_assoc.
  Qed.
End Trace.
