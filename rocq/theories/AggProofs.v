From Coq Require Import Ascii String List ZArith QArith Lia Bool Permutation Sorting.Sorted SpecFloat.
From Verif Require Import GoBase GoBaseFacts ValueModel ValueFacts FloatFacts CastModel CodecModel DecModel DecFacts CompareSpec CompareProofs AggModel AggSpec.
Import ListNotations.
Local Open Scope string_scope.
Open Scope Z_scope.

(** ** One argument, no option *)
Fixpoint fold_res {S A} (f : S -> A -> res S) (s : S) (l : list A) : res S :=
  match l with [] => Ok s | x :: r => bind (f s x) (fun s' => fold_res f s' r) end.
Definition finish (a : agg) (s : res (St a)) (r : res (option val)) : Prop :=
  match s with Ok s => done a s r | Err => r = Err | GoPanic => r = GoPanic end.

Lemma bind_assoc : forall A B C (x : res A) (f : A -> res B) (g : B -> res C), bind (bind x f) g = bind x (fun a => bind (f a) g).
Proof. intros A B C [a| |] f g; reflexivity. Qed.

Section Calls.
  Variable text : val -> res string.
  Variable loose : string -> option item.

  Lemma parse_one : forall v is, (forall x, v = Some x -> ordinary text x) ->
    parse_args text loose (AVal v :: map AOpt is) [] no_opt = ([v], fold_left set_item (map reread is) no_opt).
  Proof.
    intros v is H.
    assert (P : forall is vs o, parse_args text loose (map AOpt is) vs o = (vs, fold_left set_item (map reread is) o)).
    { induction is0 as [|i is0 IH]; intros vs o; [reflexivity|]. cbn [map parse_args fold_left]. apply IH. }
    cbn [parse_args]. destruct v as [x|]; [|apply P].
    destruct (text x) as [t| |] eqn:T; [|apply P|apply P].
    unfold option_of. rewrite (H x eq_refl t T). apply P.
  Qed.
  Lemma outer_plain : forall a vs d s, (forall x, In (Some x) vs -> ordinary text x) ->
    outer_steps text loose a (d, s) (rows1 vs) =
    bind (fold_res (fun s v => step a s [v] no_opt) s vs) (fun s' => Ok (d, s')).
  Proof.
    intros a. induction vs as [|v vs IH]; intros d s H; [reflexivity|].
    cbn [rows1 map outer_steps fold_res]. unfold outer_step. pose proof (parse_one v [] ltac:(intros x ->; apply H; now left)) as P.
    cbn [map fold_left] in P. rewrite P. cbn [admit_row a_ignore a_distinct no_opt andb bind fst snd].
    change (a_ignore no_opt && _) with false. cbn iota. cbn [bind].
    destruct (step a s [v] no_opt) as [s'| |]; cbn [bind]; try reflexivity. apply IH. intros x I. apply H. now right.
  Qed.
  Lemma fold_unary : forall S (f : S -> val -> res S) vs s,
    fold_res (fun s v => unary f s [v] no_opt) s vs = fold_res f s (nonnull vs).
  Proof.
    induction vs as [|[v|] vs IH]; intros s; [reflexivity| |]; cbn [fold_res nonnull unary arg0 bind].
    - destruct (f s v); cbn; auto.
    - apply IH.
  Qed.
  Lemma call_unary : forall S (i : S) f dn vs r, (forall x, In x (nonnull vs) -> ordinary text x) ->
    let a := {| St := S; init := i; step := unary f; done := dn |} in
    (call text loose a (rows1 vs) r <-> finish a (fold_res f i (nonnull vs)) r).
  Proof.
    intros S i f dn vs r H a. unfold call.
    assert (N : forall x, In (Some x) vs -> In x (nonnull vs)).
    { clear. induction vs as [|[v|] vs IH]; intros x I; [destruct I| |]; cbn [nonnull]; destruct I as [E|I]; try discriminate; auto.
      - left. congruence.
      - right. auto. }
    rewrite (outer_plain a vs d_empty (init a)) by (intros x I; apply H; auto). subst a. cbn [step init].
    rewrite fold_unary. destruct (fold_res f i (nonnull vs)); cbn [bind finish]; reflexivity.
  Qed.
End Calls.

Lemma dec_ordinary : forall z, starts_brace (dec z) = false.
Proof.
  intros z. unfold dec. destruct (Z.ltb_spec z 0); [reflexivity|].
  pose proof (udec_all_digits z ltac:(lia)) as A. destruct (udec z) as [|c r]; [reflexivity|].
  cbn [all_digits] in A. apply andb_true_iff in A. destruct A as [A _]. cbn [starts_brace].
  destruct (json_space c) eqn:J.
  - exfalso. unfold json_space in J. rewrite !orb_true_iff, !Ascii.eqb_eq in J. destruct J as [[[-> | ->] | ->] | ->]; discriminate.
  - apply Ascii.eqb_neq. intros ->. discriminate.
Qed.
Lemma ordinary_int : forall other z, ordinary (val_text other) (VInt z).
Proof. intros other z t E. cbn [val_text] in E. assert (dec z = t) by congruence. subst t. apply dec_ordinary. Qed.

(** ** Counting and adding *)
Lemma wrap64_plus : forall a b, wrap64 (wrap64 a + b) = wrap64 (a + b).
Proof.
  intros a b. unfold wrap64. f_equal. replace ((a + two63) mod two64 - two63 + b + two63) with ((a + two63) mod two64 + b) by lia.
  rewrite Z.add_mod_idemp_l by discriminate. f_equal. lia.
Qed.
Lemma count_fold : forall (l : list val) n, 0 <= n -> n + zlen l < two63 ->
  fold_res (fun (s : option Z) (_ : val) => Ok (match s with None => Some 1 | Some n => Some (wrap64 (n + 1)) end)) (Some n) l = Ok (Some (n + zlen l)).
Proof.
  induction l as [|x l IH]; intros n N B; cbn [fold_res].
  - cbn. do 2 f_equal. lia.
  - unfold zlen in *. cbn [List.length] in *. cbn [bind]. rewrite wrap64_id by (unfold in64, two63 in *; lia). rewrite IH by lia. do 2 f_equal. lia.
Qed.
Lemma count_fold0 : forall (l : list val), zlen l < two63 ->
  bind (fold_res (fun (s : option Z) (_ : val) => Ok (match s with None => Some 1 | Some n => Some (wrap64 (n + 1)) end)) None l)
    (fun s => Ok (Some (VInt (match s with None => 0 | Some n => n end)))) = Ok (Some (VInt (zlen l))).
Proof.
  intros [|x l] B; [reflexivity|]. cbn [fold_res bind]. rewrite count_fold; unfold zlen in *; cbn [List.length] in *; try lia.
  cbn [bind]. do 3 f_equal. lia.
Qed.
Lemma sum_int_fold : forall l a,
  fold_res (fun s v => match s with None => Ok (Some v) | Some t => bind (add t v) (fun u => Ok (Some u)) end) (Some (VInt (wrap64 a))) (map VInt l)
  = Ok (Some (VInt (wrap64 (a + sum_z l)))).
Proof.
  induction l as [|z l IH]; intros a; cbn [map fold_res sum_z fold_right].
  - do 4 f_equal. lia.
  - cbn [add bind]. rewrite wrap64_plus, IH. do 4 f_equal. fold (sum_z l). lia.
Qed.
Lemma sum_num_fold : forall l a, Qred a = a ->
  exists q, fold_res (fun s v => match s with None => Ok (Some v) | Some t => bind (add t v) (fun u => Ok (Some u)) end) (Some (VNum a)) (map VNum l)
  = Ok (Some (VNum q)) /\ q = Qred (a + sum_q l).
Proof.
  induction l as [|z l IH]; intros a A; cbn [map fold_res sum_q fold_right].
  - exists a. split; [reflexivity|]. rewrite <- A at 1. apply Qred_complete. fold (sum_q []). cbn. ring.
  - cbn [add bind]. destruct (IH (num_add a z)) as (q & E & F).
    + unfold num_add, norm. apply Qred_complete. apply Qred_correct.
    + exists q. split; [exact E|]. rewrite F. apply Qred_complete. unfold num_add, norm. rewrite Qred_correct. fold (sum_q l). ring.
Qed.
Lemma sum_z_perm : forall l l', Permutation l l' -> sum_z l = sum_z l'.
Proof. induction 1; cbn [sum_z fold_right] in *; unfold sum_z in *; lia. Qed.
Lemma sum_q_perm : forall l l', Permutation l l' -> (sum_q l == sum_q l')%Q.
Proof.
  induction 1; cbn [sum_q fold_right]; fold sum_q; try reflexivity.
  - unfold sum_q in *. now rewrite IHPermutation.
  - unfold sum_q in *. ring.
  - etransitivity; eauto.
Qed.
Lemma nonnull_map : forall A B (f : A -> B) l, nonnull (map (option_map f) l) = map f (nonnull l).
Proof. induction l as [|[x|] l IH]; cbn; [reflexivity|now rewrite IH|exact IH]. Qed.
Lemma nonnull_perm : forall A (l l' : list (option A)), Permutation l l' -> Permutation (nonnull l) (nonnull l').
Proof.
  induction 1 as [|o l l' P IH|o p l|l1 l2 l3 P1 IH1 P2 IH2].
  - constructor.
  - destruct o; cbn; auto.
  - destruct o, p; cbn; auto. apply perm_swap.
  - etransitivity; eauto.
Qed.

(** ** MIN and MAX *)
Definition after (op : cmpop) (a b : val) : Prop := match op with GT => before b a | _ => before a b end.
Lemma extreme_fold : forall op, op = GT \/ op = LT -> forall l m,
  (forall x y, In x (m :: l) -> In y (m :: l) -> comparable x y) ->
  exists b, fold_res (fun s v => match s with None => Ok (Some v) | Some m => bind (cmp op v m) (fun b => Ok (Some (if b then v else m))) end) (Some m) l = Ok (Some b) /\
    In b (m :: l) /\ forall x, In x (m :: l) -> ~ after op x b.
Proof.
  intros op O. induction l as [|v l IH]; intros m C.
  - exists m. split; [reflexivity|]. split; [now left|]. intros x [<-|[]]. destruct O as [-> | ->]; cbn; apply before_irrefl.
  - cbn [fold_res]. assert (Cv : comparable v m) by (apply C; cbn; auto).
    destruct (cmp_scalar op v m Cv) as (b & E & M). rewrite E. cbn [bind].
    destruct b.
    + destruct (IH v) as (w & F & I & B).
      { intros x y X Y. apply C; cbn in *; tauto. }
      exists w. split; [exact F|]. split; [cbn in *; tauto|]. intros x [<-|X]; [|apply B; exact X].
      intros A. apply (B v ltac:(now left)).
      destruct M as [M _]. specialize (M eq_refl). destruct O as [-> | ->]; cbn [means after] in *; eapply before_trans; eauto.
    + destruct (IH m) as (w & F & I & B).
      { intros x y X Y. apply C; cbn in *; tauto. }
      exists w. split; [exact F|]. split; [cbn in *; tauto|]. intros x X.
      assert (N : ~ after op v m).
      { intros A. destruct M as [_ M]. enough (false = true) by discriminate. apply M. destruct O as [-> | ->]; exact A. }
      destruct X as [<-|[<-|X]]; [apply B; now left| |apply B; now right].
      intros A. apply N. assert (Bm := B m ltac:(now left)).
      assert (Cw : comparable m w) by (apply C; cbn in *; tauto).
      destruct O as [-> | ->]; cbn [after] in *.
      * destruct (trichotomy m w Cw) as [T|[T|T]]; [| |now destruct Bm].
        -- eapply before_trans; eauto.
        -- eapply alike_before; eauto.
      * destruct (trichotomy m w Cw) as [T|[T|T]]; [now destruct Bm| |].
        -- eapply before_alike; [exact A|]. now apply alike_sym.
        -- eapply before_trans; eauto.
Qed.

(** ** sort.Slice *)
Section SortFacts.
  Context {A : Type}.
  Variable lt : A -> A -> bool.
  Lemma ins_perm : forall x p, Permutation (x :: p) (ins lt x p).
  Proof.
    induction p as [|y q IH]; [reflexivity|]. cbn [ins]. destruct (lt x y); [|reflexivity].
    rewrite perm_swap. now constructor.
  Qed.
  Lemma insertion_perm_acc : forall l p, Permutation (l ++ p) (fold_left (fun p x => ins lt x p) l p).
  Proof.
    induction l as [|x l IH]; intros p; [reflexivity|]. cbn [fold_left]. rewrite <- IH.
    cbn [app]. rewrite <- (ins_perm x p). apply Permutation_middle.
  Qed.
  Lemma insertion_perm : forall l, Permutation l (insertion lt l).
  Proof.
    intros l. unfold insertion. rewrite <- Permutation_rev, <- insertion_perm_acc. now rewrite app_nil_r.
  Qed.
  Lemma ins_sorted : forall U x p, weak_order lt U -> In x U -> (forall y, In y p -> In y U) ->
    StronglySorted (fun a b => lt a b = false) p -> StronglySorted (fun a b => lt a b = false) (ins lt x p).
  Proof.
    intros U x p (I & T & N) X. induction p as [|y q IH]; intros P S.
    - constructor; constructor.
    - cbn [ins]. inversion S as [|? ? Sq Fy]; subst. destruct (lt x y) eqn:L.
      + constructor; [apply IH; auto; intros z Z; apply P; now right|].
        rewrite Forall_forall in *. intros z Z. apply (Permutation_in z (Permutation_sym (ins_perm x q))) in Z.
        destruct Z as [<-|Z]; [|now apply Fy].
        destruct (lt y x) eqn:L2; [|reflexivity]. assert (lt x x = true) by (apply (T x y x); auto; apply P; now left). now rewrite I in * by auto.
      + constructor; [exact S|]. rewrite Forall_forall in *. intros z [<-|Z]; [exact L|].
        apply (N x y z); auto; [apply P; now left|apply P; now right].
  Qed.
  Lemma insertion_sorted : forall l, weak_order lt l -> sorted_by lt (insertion lt l).
  Proof.
    intros l W.
    assert (G : forall k p, (forall y, In y k \/ In y p -> In y l) -> StronglySorted (fun a b => lt a b = false) p ->
      StronglySorted (fun a b => lt a b = false) (fold_left (fun p x => ins lt x p) k p)).
    { induction k as [|x k IH]; intros p P S; [exact S|]. cbn [fold_left]. apply IH.
      - intros y [Y|Y]; [apply P; left; now right|]. apply (Permutation_in y (Permutation_sym (ins_perm x p))) in Y.
        destruct Y as [<-|Y]; apply P; [left; now left|now right].
      - apply (ins_sorted l); auto. apply P. left. now left. }
    specialize (G l [] ltac:(intros y [Y|[]]; exact Y) ltac:(constructor)).
    unfold sorted_by, insertion. induction G as [|x p G IH F]; [constructor|]. cbn [rev].
    assert (App : forall (R : A -> A -> Prop) u v, StronglySorted R u -> (forall y, In y u -> R y v) -> StronglySorted R (u ++ [v])).
    { intros R u v Su H. induction Su as [|w u Su IHu Fu]; cbn [app]; [repeat constructor|].
      constructor; [apply IHu; intros y Y; apply H; now right|]. rewrite Forall_forall in *. intros z Z. apply in_app_or in Z.
      destruct Z as [Z|[<-|[]]]; [now apply Fu|apply H; now left]. }
    apply App; [exact IH|]. intros y Y. apply in_rev in Y. rewrite Forall_forall in F. now apply F.
  Qed.
  (** The library's contract can be met. *)
  Lemma go_sort_possible : forall l, go_sort lt l (insertion lt l).
  Proof. intros l. split; [apply insertion_perm|]. split; [apply insertion_sorted|reflexivity]. Qed.
  Lemma insertion_id : forall l, (forall x y, In x l -> In y l -> lt x y = false) -> insertion lt l = l.
  Proof.
    intros l H. unfold insertion.
    assert (G : forall k p, (forall y, In y k \/ In y p -> In y l) -> fold_left (fun p x => ins lt x p) k p = (rev k ++ p)%list).
    { induction k as [|x k IH]; intros p P; [reflexivity|]. cbn [fold_left rev].
      assert (E : ins lt x p = x :: p).
      { destruct p as [|y q]; [reflexivity|]. cbn [ins]. rewrite H; [reflexivity|apply P; left; now left|apply P; right; now left]. }
      rewrite E, IH, <- app_assoc; [reflexivity|]. intros y [Y|[<-|Y]]; apply P; [left; now right|left; now left|now right]. }
    rewrite G by (intros y [Y|[]]; exact Y). now rewrite app_nil_r, rev_involutive.
  Qed.
End SortFacts.

(** ** Options *)
Lemma opts_of : forall is o, let o' := fold_left set_item (map reread is) o in
  a_distinct o' = a_distinct o || asks_distinct is /\ a_ignore o' = a_ignore o || asks_ignore is.
Proof.
  induction is as [|i is IH]; intros o; cbn [map fold_left].
  - now rewrite !orb_false_r.
  - destruct (IH (set_item o (reread i))) as [D I]. cbn zeta. rewrite D, I.
    destruct i; cbn; rewrite ?orb_true_r, ?orb_true_l; auto; split; try reflexivity; now rewrite orb_true_r.
Qed.

Section Feed.
  Variable text : val -> res string.
  Variable loose : string -> option item.
  Variable U : val -> Prop.
  Hypothesis total : forall x, U x -> exists t, text x = Ok t /\ starts_brace t = false.
  Hypothesis inj : forall x y, U x -> U y -> text x = text y -> x = y.

  Definition tracks (d : dst) (seen : list (option val)) : Prop :=
    (d_nil d = true <-> In None seen) /\
    forall x t, U x -> text x = Ok t -> (existsb (String.eqb t) (d_map d) = true <-> In (Some x) seen).

  Lemma feed_rows : forall a dist ign rs d s seen,
    (forall v is, In (v, is) rs -> asks_distinct is = dist /\ asks_ignore is = ign /\ forall x, v = Some x -> U x) ->
    (dist = true -> tracks d seen) ->
    exists out, feeds dist ign seen rs out /\
      bind (outer_steps text loose a (d, s) (rows_with rs)) (fun st => Ok (snd st)) = steps_with a s out.
  Proof.
    intros a dist ign. induction rs as [|[v is] rs IH]; intros d s seen H T.
    - exists []. split; [constructor|reflexivity].
    - destruct (H v is (or_introl eq_refl)) as (D & I & Uv).
      assert (H' : forall v is, In (v, is) rs -> asks_distinct is = dist /\ asks_ignore is = ign /\ forall x, v = Some x -> U x) by (intros; apply H; now right).
      cbn [rows_with map outer_steps]. fold (rows_with rs). unfold outer_step.
      assert (P : parse_args text loose (AVal v :: map AOpt is) [] no_opt = ([v], fold_left set_item (map reread is) no_opt)).
      { apply parse_one. intros x X t E. destruct (total x (Uv x X)) as (t' & E' & B). congruence. }
      cbn [fst snd]. rewrite P. destruct (opts_of is no_opt) as [OD OI]. cbn zeta in OD, OI. set (o := fold_left set_item (map reread is) no_opt) in *.
      cbn [no_opt a_distinct a_ignore orb] in OD, OI. rewrite D in OD. rewrite I in OI.
      unfold admit_row. rewrite OD, OI.
      assert (Take : forall d', (dist = true -> tracks d' (v :: seen)) -> (ign = true -> v <> None) -> (dist = true -> ~ In v seen) ->
        exists out, feeds dist ign seen ((v, is) :: rs) out /\
          bind (bind (bind (step a s [v] o) (fun s0 => Ok (d', s0))) (fun st' => outer_steps text loose a st' (rows_with rs))) (fun st => Ok (snd st)) = steps_with a s out).
      { intros d' T' Ni Nd. destruct (step a s [v] o) as [s'| |] eqn:St.
        - destruct (IH d' s' (v :: seen) H' T') as (out & F & E). exists ((v, is) :: out). split; [now constructor|].
          cbn [steps_with bind]. fold o. rewrite St. cbn [bind]. exact E.
        - destruct (IH d' s (v :: seen) H' T') as (out & F & E). exists ((v, is) :: out). split; [now constructor|].
          cbn [steps_with bind]. fold o. now rewrite St.
        - destruct (IH d' s (v :: seen) H' T') as (out & F & E). exists ((v, is) :: out). split; [now constructor|].
          cbn [steps_with bind]. fold o. now rewrite St. }
      destruct v as [x|].
      + assert (V1 : (if ign then filter is_some [Some x] else [Some x]) = [Some x]) by now destruct ign.
        rewrite V1. cbn [List.length Nat.eqb]. rewrite andb_false_r. destruct dist.
        * destruct (total x (Uv x eq_refl)) as (t & Et & _). rewrite Et. cbn [bind]. destruct (T eq_refl) as [Tn Tx].
          destruct (existsb (String.eqb t) (d_map d)) eqn:Ex.
          -- cbn [bind]. destruct (IH d s seen H' T) as (out & F & E). exists out. split; [|exact E]. apply f_dup; auto. now apply (Tx x t (Uv x eq_refl) Et).
          -- cbn [bind]. apply Take; [|discriminate|].
             ++ intros _. split; [cbn [d_nil]; rewrite Tn; split; [now right|intros [E|E]; [discriminate|exact E]]|].
                intros y ty Uy Ey. cbn [d_map existsb]. rewrite orb_true_iff, String.eqb_eq, (Tx y ty Uy Ey). cbn [In].
                split; (intros [E|E]; [left|now right]).
                ** subst t. f_equal. apply inj; auto. congruence.
                ** assert (x = y) by congruence. subst y. congruence.
             ++ intros _ N. apply (Tx x t (Uv x eq_refl) Et) in N. congruence.
        * cbn [bind]. apply Take; [discriminate|discriminate|discriminate].
      + destruct ign.
        * cbn [filter is_some List.length Nat.eqb andb bind]. destruct (IH d s seen H' T) as (out & F & E). exists out. split; [|exact E]. now constructor.
        * cbn [andb]. destruct dist.
          -- destruct (T eq_refl) as [Tn Tx]. destruct (d_nil d) eqn:Dn.
             ++ cbn [bind]. destruct (IH d s seen H' T) as (out & F & E). exists out. split; [|exact E]. apply f_dup; auto. now apply Tn.
             ++ cbn [bind]. apply Take; [|discriminate|].
                ** intros _. split; [cbn [d_nil]; split; [now left|reflexivity]|]. intros y ty Uy Ey. cbn [d_map]. rewrite (Tx y ty Uy Ey). cbn [In].
                   split; [now right|intros [E|E]; [discriminate|exact E]].
                ** intros _ N. apply Tn in N. discriminate.
          -- cbn [bind]. apply Take; discriminate.
  Qed.
  Lemma call_feeds : forall a dist ign rs r,
    (forall v is, In (v, is) rs -> asks_distinct is = dist /\ asks_ignore is = ign /\ forall x, v = Some x -> U x) ->
    exists out, feeds dist ign [] rs out /\ (call text loose a (rows_with rs) r <-> result_with a out r).
  Proof.
    intros a dist ign rs r H. destruct (feed_rows a dist ign rs d_empty (init a) [] H) as (out & F & E).
    { intros _. split; [split; [discriminate|intros []]|]. intros x t _ _. cbn. split; [discriminate|intros []]. }
    exists out. split; [exact F|]. unfold call, result_with. rewrite <- E.
    destruct (outer_steps text loose a (d_empty, init a) (rows_with rs)); cbn [bind]; reflexivity.
  Qed.
End Feed.

Lemma feeds_spec : forall B dist ign seen (rs : list (option val * B)) out, feeds dist ign seen rs out ->
  (dist = true -> NoDup (map fst out) /\ forall v, In v (map fst out) -> ~ In v seen) /\
  (ign = true -> ~ In None (map fst out)) /\
  (forall r, In r out -> In r rs) /\
  (forall v, In v (map fst rs) -> (ign = true -> v <> None) -> In v (map fst out) \/ (dist = true /\ In v seen)) /\
  (dist = false -> ign = false -> out = rs).
Proof.
  intros B dist ign seen rs out F. induction F as [seen|seen i rs out I F IH|seen v i rs out D S F IH|seen v i rs out N D F IH].
  - repeat split; try (intros; contradiction); try constructor; auto.
  - destruct IH as (A1 & A2 & A3 & A4 & A5). split; [exact A1|]. split; [exact A2|]. split; [intros r R; right; auto|]. split; [|congruence].
    cbn [map fst]. intros v [<-|V] Nv; [now destruct (Nv I)|auto].
  - destruct IH as (A1 & A2 & A3 & A4 & A5). split; [exact A1|]. split; [exact A2|]. split; [intros r R; right; auto|]. split; [|congruence].
    cbn [map fst]. intros w [<-|W] Nw; [right; auto|auto].
  - destruct IH as (A1 & A2 & A3 & A4 & A5). cbn [map fst]. split; [|split; [|split; [|split]]].
    + intros E. destruct (A1 E) as [Nd Ns]. split.
      * constructor; [|exact Nd]. intros I. apply (Ns v I). now left.
      * intros w [<-|W]; [now apply D|]. intros I. apply (Ns w W). now right.
    + intros E [X|X]; [now apply (N E)|now apply (A2 E)].
    + intros r [<-|R]; [now left|right; auto].
    + intros w [<-|W] Nw; [left; now left|]. destruct (A4 w W Nw) as [I|[E [<-|I]]]; [left; now right|left; now left|right; auto].
    + intros E1 E2. f_equal. auto.
Qed.

(** ** ORDER BY *)
Definition keys_alike (k l : keys) : Prop := Forall2 (fun a b => alike (fst a) (fst b)) k l.
Lemma of_kt_comparable : forall t a b, of_kt t a -> of_kt t b -> comparable a b.
Proof. intros [] a b A B; destruct a, b; cbn in *; auto; contradiction. Qed.
Definition col_before (asc : bool) (a b : val) : Prop := if asc then before a b else before b a.

Lemma keys_trichotomy : forall sh k l, shaped sh k -> shaped sh l -> keys_before k l \/ keys_alike k l \/ keys_before l k.
Proof.
  induction sh as [|[t asc] sh IH]; intros k l K L; inversion K as [|? [a x] ? k' [Ka Kb] Kr]; inversion L as [|? [b y] ? l' [La Lb] Lr]; subst.
  - right. left. constructor.
  - cbn in *. subst x y. destruct (trichotomy a b (of_kt_comparable t a b Ka La)) as [T|[T|T]].
    + destruct asc; [left|right; right]; now constructor.
    + destruct (IH k' l' Kr Lr) as [S|[S|S]]; [left; now constructor|right; left; now constructor|right; right; constructor; [now apply alike_sym|exact S]].
    + destruct asc; [right; right|left]; now constructor.
Qed.
Lemma keys_before_trans : forall sh k l m, shaped sh k -> shaped sh l -> shaped sh m -> keys_before k l -> keys_before l m -> keys_before k m.
Proof.
  induction sh as [|[t asc] sh IH]; intros k l m K L M A B;
    inversion K as [|? [a x] ? k' [Ka Kb] Kr]; inversion L as [|? [b y] ? l' [La Lb] Lr]; inversion M as [|? [c z] ? m' [Ma Mb] Mr]; subst.
  - inversion A.
  - cbn in *. subst x y z. inversion A as [? ? ? ? ? ? A'|? ? ? ? ? ? A1 A2]; inversion B as [? ? ? ? ? ? B'|? ? ? ? ? ? B1 B2]; subst.
    + apply kb_here. destruct asc; eapply before_trans; eauto.
    + apply kb_here. destruct asc; [eapply before_alike; eauto|]. eapply alike_before; [|exact A']. now apply alike_sym.
    + apply kb_here. destruct asc; [eapply alike_before; eauto|]. eapply before_alike; [exact B'|]. now apply alike_sym.
    + apply kb_next; [eapply alike_trans; eauto|]. apply (IH k' l' m'); auto.
Qed.
Lemma keys_before_alike : forall sh k l m, shaped sh k -> shaped sh l -> shaped sh m -> keys_before k l -> keys_alike l m -> keys_before k m.
Proof.
  induction sh as [|[t asc] sh IH]; intros k l m K L M A B;
    inversion K as [|? [a x] ? k' [Ka Kb] Kr]; inversion L as [|? [b y] ? l' [La Lb] Lr]; inversion M as [|? [c z] ? m' [Ma Mb] Mr]; subst.
  - inversion A.
  - cbn in *. subst x y z. inversion B as [|? ? ? ? B1 B2]; subst. cbn in B1. inversion A as [? ? ? ? ? ? A'|? ? ? ? ? ? A1 A2]; subst.
    + apply kb_here. destruct asc; [eapply before_alike; eauto|]. eapply alike_before; [|exact A']. now apply alike_sym.
    + apply kb_next; [eapply alike_trans; eauto|]. apply (IH k' l' m'); auto.
Qed.
Lemma keys_alike_before : forall sh k l m, shaped sh k -> shaped sh l -> shaped sh m -> keys_alike k l -> keys_before l m -> keys_before k m.
Proof.
  induction sh as [|[t asc] sh IH]; intros k l m K L M A B;
    inversion K as [|? [a x] ? k' [Ka Kb] Kr]; inversion L as [|? [b y] ? l' [La Lb] Lr]; inversion M as [|? [c z] ? m' [Ma Mb] Mr]; subst.
  - inversion B.
  - cbn in *. subst x y z. inversion A as [|? ? ? ? A1 A2]; subst. cbn in A1. inversion B as [? ? ? ? ? ? B'|? ? ? ? ? ? B1 B2]; subst.
    + apply kb_here. destruct asc; [eapply alike_before; eauto|]. eapply before_alike; [exact B'|]. now apply alike_sym.
    + apply kb_next; [eapply alike_trans; eauto|]. apply (IH k' l' m'); auto.
Qed.
Lemma keys_alike_sym : forall k l, keys_alike k l -> keys_alike l k.
Proof. intros k l H. induction H; constructor; auto. now apply alike_sym. Qed.
Lemma keys_before_irrefl : forall k, ~ keys_before k k.
Proof.
  induction k as [|[a asc] k IH]; intros H; inversion H as [? ? ? ? ? ? A'|? ? ? ? ? ? A1 A2]; subst; [|auto].
  destruct asc; now apply before_irrefl in A'.
Qed.

(** What arrives of a key *)
Definition sent (k : val * bool) : option val * bool := (json_key (Some (fst k)), snd k).
Lemma sent_key : forall t a b asc, of_kt t a -> of_kt t b ->
  exists a' b', json_key (Some a) = Some a' /\ json_key (Some b) = Some b' /\ (holds (cmp EQ a' b') = true <-> alike a b) /\ (holds (cmp (if asc : bool then LT else GT) a' b') = true <-> col_before asc a b).
Proof.
  assert (G : forall a b a' b' (asc : bool), comparable a' b' -> (alike a' b' <-> alike a b) -> (before a' b' <-> before a b) -> (before b' a' <-> before b a) ->
    (holds (cmp EQ a' b') = true <-> alike a b) /\ (holds (cmp (if asc then LT else GT) a' b') = true <-> col_before asc a b)).
  { intros a b a' b' asc C E L R. destruct (cmp_scalar EQ a' b' C) as (e & -> & Me). cbn [holds]. split; [rewrite Me; exact E|].
    destruct asc; [destruct (cmp_scalar LT a' b' C) as (e' & -> & Me')|destruct (cmp_scalar GT a' b' C) as (e' & -> & Me')]; cbn [holds]; rewrite Me'; cbn [means col_before]; auto. }
  intros t a b asc A B. destruct t; destruct a as [x|x|x|x|x|x|x|x|x|x|x|x|x|x y z]; cbn in A; try contradiction;
    destruct b as [x'|x'|x'|x'|x'|x'|x'|x'|x'|x'|x'|x'|x'|x' y' z']; cbn in B; try contradiction.
  - destruct (float_of_int_scaled x A) as [Ra Sa]. destruct (float_of_int_scaled x' B) as [Rb Sb].
    assert (P : 0 < 2 ^ 1074) by (apply Z.pow_pos_nonneg; lia). generalize dependent (2 ^ 1074). intros p Sa Sb P.
    do 2 eexists. split; [reflexivity|]. split; [reflexivity|]. apply G; [split; auto| | |]; unfold alike, before; rewrite Sa, Sb.
    + split; [apply Z.mul_cancel_r; lia|congruence].
    + symmetry. apply Z.mul_lt_mono_pos_r. exact P.
    + symmetry. apply Z.mul_lt_mono_pos_r. exact P.
  - do 2 eexists. split; [reflexivity|]. split; [reflexivity|]. apply G; try reflexivity; exact I.
  - do 2 eexists. split; [reflexivity|]. split; [reflexivity|]. apply G; try reflexivity; split; auto.
Qed.
Lemma less_sent : forall sh k l, shaped sh k -> shaped sh l -> (less_keys (map sent k) (map sent l) = true <-> keys_before k l).
Proof.
  induction sh as [|[t asc] sh IH]; intros k l K L; inversion K as [|? [a x] ? k' [Ka Kb] Kr]; inversion L as [|? [b y] ? l' [La Lb] Lr]; subst.
  - split; [discriminate|]. intros H. inversion H.
  - cbn [fst snd] in *. subst x y. cbn [map]. change (sent (a, asc)) with (json_key (Some a), asc). change (sent (b, asc)) with (json_key (Some b), asc). cbn [less_keys].
    destruct (sent_key t a b asc Ka La) as (a' & b' & -> & -> & E & C).
    destruct (holds (cmp EQ a' b')) eqn:H.
    + assert (Al : alike a b) by now apply E. rewrite (IH k' l' Kr Lr). split; intros S; [now constructor|].
      inversion S as [? ? ? ? ? ? A'|? ? ? ? ? ? A1 A2]; subst; [|exact A2]. exfalso. destruct asc.
      * now apply (before_not_alike a b).
      * apply (before_not_alike b a); auto. now apply alike_sym.
    + rewrite C. split; intros S; [now constructor|]. inversion S as [? ? ? ? ? ? A'|? ? ? ? ? ? A1 A2]; subst; [exact A'|].
      apply E in A1. discriminate.
Qed.
Lemma less_weak_order : forall sh (l : list ordered), (forall x, In x l -> exists k, o_keys x = map sent k /\ shaped sh k) -> weak_order less l.
Proof.
  intros sh l H. unfold less.
  assert (F : forall k m, shaped sh k -> shaped sh m -> (less_keys (map sent k) (map sent m) = false <-> ~ keys_before k m)).
  { intros k m K M. rewrite <- (less_sent sh k m K M). now rewrite not_true_iff_false. }
  split; [|split].
  - intros x X. destruct (H x X) as (k & -> & K). apply F; auto. apply keys_before_irrefl.
  - intros x y z X Y Z. destruct (H x X) as (k & -> & K). destruct (H y Y) as (m & -> & M). destruct (H z Z) as (n & -> & N).
    rewrite !(less_sent sh) by auto. now apply (keys_before_trans sh).
  - intros x y z X Y Z. destruct (H x X) as (k & -> & K). destruct (H y Y) as (m & -> & M). destruct (H z Z) as (n & -> & N).
    rewrite !F by auto. intros A B C. destruct (keys_trichotomy sh k m K M) as [T|[T|T]]; [now apply A| |].
    + apply B. eapply (keys_alike_before sh m k n); eauto. now apply keys_alike_sym.
    + apply B. eapply (keys_before_trans sh m k n); eauto.
Qed.

Lemma order_opts : forall ks lim o, fold_left set_item (map reread (order_items ks ++ limit_item lim)) o =
  {| a_distinct := a_distinct o; a_ignore := a_ignore o; a_limit := match lim with Some n => Some n | None => a_limit o end; a_order := (a_order o ++ map sent ks)%list |}.
Proof.
  induction ks as [|[a asc] ks IH]; intros lim o.
  - destruct o, lim; cbn; rewrite ?app_nil_r; reflexivity.
  - cbn [order_items map app fold_left]. fold (order_items ks). rewrite IH. cbn [set_item reread a_distinct a_ignore a_limit a_order fst snd].
    rewrite <- app_assoc. reflexivity.
Qed.
Definition mk (r : val * keys) : ordered := {| o_keys := map sent (snd r); o_val := fst r |}.
Lemma array_steps : forall lim rs s, steps_with agg_array_agg s (order_rows lim rs) =
  Ok {| c_vals := c_vals s ++ map mk rs;
        c_opt := match c_opt s, rs with
                 | Some p, _ => Some p
                 | None, [] => None
                 | None, r :: _ => Some {| a_distinct := false; a_ignore := false; a_limit := lim; a_order := map sent (snd r) |}
                 end |}.
Proof.
  intros lim. induction rs as [|[v ks] rs IH]; intros s.
  - destruct s as [vs [p|]]; cbn; now rewrite app_nil_r.
  - cbn [order_rows map steps_with fst snd]. fold (order_rows lim rs). rewrite order_opts. cbn [step agg_array_agg array_agg_step arg0 bind].
    rewrite IH. unfold collect. cbn [c_vals c_opt no_opt a_distinct a_ignore a_limit a_order app]. rewrite <- app_assoc. cbn [app]. f_equal.
    assert (L : match lim with Some n => Some n | None => None end = lim) by now destruct lim. rewrite L.
    destruct (c_opt s); reflexivity.
Qed.
