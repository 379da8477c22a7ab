From Coq Require Import Ascii String List ZArith QArith Lia Bool Permutation Sorting.Sorted SpecFloat.
From Verif Require Import GoBase GoBaseFacts ValueModel ValueFacts FloatFacts CastModel CodecModel CodecSpec CodecProofs DecModel DecFacts CompareSpec CompareProofs AggModel AggSpec AggProofs WindowModel WindowSpec.
Import ListNotations.
Local Open Scope string_scope.
Open Scope Z_scope.

Lemma Forall2_length : forall A B (R : A -> B -> Prop) l m, Forall2 R l m -> List.length l = List.length m.
Proof. intros A B R l m H. induction H; cbn; congruence. Qed.

(** ** Keys *)
(** The key that arrives *)
Definition recv (v : val) : val := match win_key (Some v) with Ok (Some w) => w | _ => v end.
Lemma of_kty_storable : forall t v, of_kty t v -> storable true v.
Proof.
  intros [] v H; destruct v; cbn [of_kty] in H; try contradiction; auto; cbn [storable]; auto.
  destruct H as [[_ N] I]. destruct f; auto; [now destruct (I s)|discriminate].
Qed.
Lemma win_key_elem : forall v, storable true v -> exists w, win_key (Some v) = Ok (Some w) /\ CodecSpec.same v w.
Proof.
  intros v S. destruct (comes_back_all v true S) as (e & w & E & M & D & Q). exists w. split; [|exact Q].
  unfold win_key. rewrite E. cbn [bind]. rewrite (M eq_refl). exact D.
Qed.
Lemma recv_ok : forall t v, of_kty t v -> win_key (Some v) = Ok (Some (recv v)).
Proof.
  intros t v H. destruct (win_key_elem v (of_kty_storable t v H)) as (w & E & _). unfold recv. now rewrite E.
Qed.
Lemma recv_int : forall z, recv (VInt z) = VFloat (float_of_int z).
Proof. reflexivity. Qed.
Lemma recv_alike : forall t v, of_kty t v -> t <> YInt -> alike (recv v) v /\ (t = YFloat -> recv v = v).
Proof.
  intros t v H N. destruct (win_key_elem v (of_kty_storable t v H)) as (w & E & Q). unfold recv. rewrite E.
  destruct t; try (now destruct N); destruct v; cbn [of_kty] in H; try contradiction; destruct w; cbn [CodecSpec.same] in Q; try contradiction; subst; cbn [alike]; split; try reflexivity; try discriminate; auto.
  now symmetry.
Qed.
Lemma of_kty_comparable : forall t a b, of_kty t a -> of_kty t b -> comparable a b.
Proof. intros [] a b A B; destruct a, b; cbn in *; auto; try contradiction. destruct A, B. auto. Qed.
Lemma recv_rel : forall t a b, of_kty t a -> of_kty t b ->
  comparable (recv a) (recv b) /\ (alike (recv a) (recv b) <-> alike a b) /\ (before (recv a) (recv b) <-> before a b).
Proof.
  intros t a b A B. destruct (match t with YInt => true | _ => false end) eqn:T.
  - destruct t; try discriminate. destruct a as [x| | | | | | | | | | | | |]; cbn [of_kty] in A; try contradiction. destruct b as [x'| | | | | | | | | | | | |]; cbn [of_kty] in B; try contradiction.
    rewrite !recv_int. destruct (float_of_int_scaled x A) as [Ra Sa]. destruct (float_of_int_scaled x' B) as [Rb Sb].
    assert (P : 0 < 2 ^ 1074) by (apply Z.pow_pos_nonneg; lia). generalize dependent (2 ^ 1074). intros p Sa Sb P.
    split; [split; auto|]. unfold alike, before. rewrite Sa, Sb. split.
    + split; [apply Z.mul_cancel_r; lia|congruence].
    + symmetry. apply Z.mul_lt_mono_pos_r. exact P.
  - assert (N : t <> YInt) by (intros ->; discriminate).
    destruct (recv_alike t a A N) as [La Fa]. destruct (recv_alike t b B N) as [Lb Fb].
    split; [|split].
    + pose proof (of_kty_comparable t a b A B) as C.
      destruct t; try (now destruct N); destruct a; cbn [of_kty] in A; try contradiction; destruct b; cbn [of_kty] in B; try contradiction; try (rewrite (Fa eq_refl), (Fb eq_refl); exact C);
      destruct (recv _); cbn [alike] in La; try contradiction; destruct (recv _); cbn [alike] in Lb; try contradiction; exact I.
    + split; intros H.
      * apply alike_trans with (recv a); [now apply alike_sym|]. now apply alike_trans with (recv b).
      * apply alike_trans with a; [exact La|]. apply alike_trans with b; [exact H|now apply alike_sym].
    + split; intros H.
      * apply alike_before with (recv a); [now apply alike_sym|]. now apply before_alike with (recv b).
      * apply alike_before with a; [exact La|]. apply before_alike with b; [exact H|now apply alike_sym].
Qed.
Lemma kty_alike_refl : forall t a, of_kty t a -> alike a a.
Proof. intros [] [] H; cbn [of_kty] in H; try contradiction; cbn [alike]; reflexivity. Qed.

Definition wo := well_ordered.
Lemma wkeys_trichotomy : forall sh k l, wo sh k -> wo sh l -> keys_before k l \/ keys_alike k l \/ keys_before l k.
Proof.
  induction sh as [|[t asc] sh IH]; intros k l K L; inversion K as [|? [a x] ? k' [Ka Kb] Kr]; inversion L as [|? [b y] ? l' [La Lb] Lr]; subst.
  - right. left. constructor.
  - cbn in *. subst x y. destruct (trichotomy a b (of_kty_comparable t a b Ka La)) as [T|[T|T]].
    + destruct asc; [left|right; right]; constructor; exact T.
    + destruct (IH k' l' Kr Lr) as [R|[R|R]]; [left; now constructor 2|right; left; now constructor|right; right; constructor 2; auto using alike_sym].
    + destruct asc; [right; right|left]; constructor; exact T.
Qed.
Lemma wkeys_before_trans : forall sh k l m, wo sh k -> wo sh l -> wo sh m -> keys_before k l -> keys_before l m -> keys_before k m.
Proof.
  induction sh as [|[t asc] sh IH]; intros k l m K L M A B;
    inversion K as [|? [a x] ? k' [Ka Kb] Kr]; inversion L as [|? [b y] ? l' [La Lb] Lr]; inversion M as [|? [c z] ? m' [Ma Mb] Mr]; subst; [inversion A|].
  cbn in *. subst x y z.
  inversion A as [? ? ? ? ? ? A'|? ? ? ? ? ? A1 A2]; inversion B as [? ? ? ? ? ? B'|? ? ? ? ? ? B1 B2]; subst.
  - apply kb_here. destruct asc; eapply before_trans; eauto.
  - apply kb_here. destruct asc; [eapply before_alike; eauto|eapply alike_before; [apply alike_sym; eauto|eauto]].
  - apply kb_here. destruct asc; [eapply alike_before; eauto|eapply before_alike; [eauto|apply alike_sym; eauto]].
  - apply kb_next; [eapply alike_trans; eauto|apply (IH k' l' m'); auto].
Qed.
Lemma wkeys_alike_before : forall sh k l m, wo sh k -> wo sh l -> wo sh m -> keys_alike k l -> keys_before l m -> keys_before k m.
Proof.
  induction sh as [|[t asc] sh IH]; intros k l m K L M A B;
    inversion K as [|? [a x] ? k' [Ka Kb] Kr]; inversion L as [|? [b y] ? l' [La Lb] Lr]; inversion M as [|? [c z] ? m' [Ma Mb] Mr]; subst; [inversion B|].
  cbn in *. subst x y z. inversion A as [|? ? ? ? A1 A2]; subst. cbn in A1.
  inversion B as [? ? ? ? ? ? B'|? ? ? ? ? ? B1 B2]; subst.
  - apply kb_here. destruct asc; [eapply alike_before; eauto|eapply before_alike; [eauto|apply alike_sym; eauto]].
  - apply kb_next; [eapply alike_trans; eauto|apply (IH k' l' m'); auto].
Qed.
Definition sentk (k : val * bool) : option val * bool := (Some (recv (fst k)), snd k).
Lemma wless_sent : forall sh k l, wo sh k -> wo sh l -> (wless_keys (map sentk k) (map sentk l) = true <-> keys_before k l).
Proof.
  induction sh as [|[t asc] sh IH]; intros k l K L; inversion K as [|? [a x] ? k' [Ka Kb] Kr]; inversion L as [|? [b y] ? l' [La Lb] Lr]; subst.
  - split; [discriminate|]. intros H. inversion H.
  - cbn [fst snd] in *. subst x y. cbn [map]. change (sentk (a, asc)) with (Some (recv a), asc). change (sentk (b, asc)) with (Some (recv b), asc). cbn [wless_keys].
    destruct (recv_rel t a b Ka La) as (C & E & Lt). destruct (recv_rel t b a La Ka) as (C' & E' & Gt).
    destruct (cmp_scalar EQ _ _ C) as (e & -> & Me). cbn [holds means] in *.
    assert (R : holds (cmp (if asc then LT else GT) (recv a) (recv b)) = true <-> (if asc then before a b else before b a)).
    { destruct asc; [destruct (cmp_scalar LT _ _ C) as (e2 & -> & M2)|destruct (cmp_scalar GT _ _ C) as (e2 & -> & M2)]; cbn [holds means] in *; rewrite M2; auto. }
    destruct e.
    + assert (Al : alike a b) by (now apply E, Me). rewrite (IH k' l' Kr Lr). split; intros S; [now constructor|].
      inversion S as [? ? ? ? ? ? A'|? ? ? ? ? ? A1 A2]; subst; [|exact A2]. exfalso. destruct asc.
      * now apply (before_not_alike a b).
      * apply (before_not_alike b a); auto. now apply alike_sym.
    + rewrite R. split; intros S; [now constructor|]. inversion S as [? ? ? ? ? ? A'|? ? ? ? ? ? A1 A2]; subst; [exact A'|].
      apply E in A1. apply Me in A1. discriminate.
Qed.
Lemma wless_weak_order : forall sh (l : list ent), (forall x, In x l -> exists k, e_keys x = map sentk k /\ wo sh k) -> weak_order wless l.
Proof.
  intros sh l H. unfold wless.
  assert (F : forall k m, wo sh k -> wo sh m -> (wless_keys (map sentk k) (map sentk m) = false <-> ~ keys_before k m)).
  { intros k m K M. rewrite <- (wless_sent sh k m K M). now rewrite not_true_iff_false. }
  split; [|split].
  - intros x X. destruct (H x X) as (k & -> & K). apply F; auto. apply keys_before_irrefl.
  - intros x y z X Y Z. destruct (H x X) as (k & -> & K). destruct (H y Y) as (m & -> & M). destruct (H z Z) as (n & -> & N).
    rewrite !(wless_sent sh) by auto. now apply (wkeys_before_trans sh).
  - intros x y z X Y Z. destruct (H x X) as (k & -> & K). destruct (H y Y) as (m & -> & M). destruct (H z Z) as (n & -> & N).
    rewrite !F by auto. intros A B C. destruct (wkeys_trichotomy sh k m K M) as [T|[T|T]]; [now apply A| |].
    + apply B. eapply (wkeys_alike_before sh m k n); eauto. now apply keys_alike_sym.
    + apply B. eapply (wkeys_before_trans sh m k n); eauto.
Qed.
Lemma keys_before_same_prefix : forall ps k l, (forall p, In p ps -> alike (fst p) (fst p)) -> (keys_before (ps ++ k)%list (ps ++ l)%list <-> keys_before k l).
Proof.
  induction ps as [|[a asc] ps IH]; intros k l H; [reflexivity|]. cbn [app]. split; intros S.
  - inversion S as [? ? ? ? ? ? A|? ? ? ? ? ? A B]; subst.
    + exfalso. destruct asc; now apply before_irrefl in A.
    + apply IH; auto. intros p P. apply H. now right.
  - apply kb_next; [exact (H (a, asc) (or_introl eq_refl))|]. apply IH; auto. intros p P. apply H. now right.
Qed.

(** ** Calls *)
Section Over.
  Variable text : val -> res string.
  Variable loose : string -> option item.
  Variable wloose : string -> option witem.
  Variable sort : (ent -> ent -> bool) -> list ent -> list ent.
  Notation wparse := (wparse text loose wloose).

  Lemma parse_vals : forall args rest vs a w, (forall v, In (Some v) args -> ordinary text v) ->
    wparse (map PVal args ++ rest) vs a w = wparse rest (vs ++ args)%list a w.
  Proof.
    induction args as [|[v|] args IH]; intros rest vs a w H; cbn [map app].
    - now rewrite app_nil_r.
    - cbn [WindowModel.wparse]. assert (N : wparse (map PVal args ++ rest) (vs ++ [Some v]) a w = wparse rest (vs ++ Some v :: args) a w).
      { rewrite IH by (intros u U; apply H; now right). now rewrite <- app_assoc. }
      destruct (text v) as [t| |] eqn:E; [|exact N|exact N].
      unfold option_of. rewrite (H v (or_introl eq_refl) t E). exact N.
    - cbn [WindowModel.wparse]. rewrite IH by (intros u U; apply H; now right). now rewrite <- app_assoc.
  Qed.
  Definition add_parts (w : wopt) (ps : list val) : wopt :=
    {| w_unit := w_unit w; w_start := w_start w; w_end := w_end w; w_parts := (w_parts w ++ ps)%list; w_row := w_row w; w_order := w_order w |}.
  Definition add_order (w : wopt) (ks : list (option val * bool)) : wopt :=
    {| w_unit := w_unit w; w_start := w_start w; w_end := w_end w; w_parts := w_parts w; w_row := w_row w; w_order := (w_order w ++ ks)%list |}.
  Lemma parse_parts : forall ps rest vs a w, (forall v, In v ps -> win_key (Some v) = Ok (Some (recv v))) ->
    wparse (map (fun k => PWin (WPart k)) (map Some ps) ++ rest) vs a w = wparse rest vs a (add_parts w (map recv ps)).
  Proof.
    induction ps as [|v ps IH]; intros rest vs a w H; cbn [map app].
    - unfold add_parts. rewrite app_nil_r. now destruct w.
    - cbn [WindowModel.wparse sent_item]. rewrite (H v (or_introl eq_refl)). cbn [bind set_witem]. rewrite IH by (intros u U; apply H; now right).
      unfold add_parts. cbn [w_parts w_unit w_start w_end w_row w_order]. now rewrite <- app_assoc.
  Qed.
  Lemma parse_order : forall ks rest vs a w, (forall k, In k ks -> win_key (Some (fst k)) = Ok (Some (recv (fst k)))) ->
    wparse (map (fun k => PWin (WOrder (fst k) (snd k))) (map (fun k : val * bool => (Some (fst k), snd k)) ks) ++ rest) vs a w = wparse rest vs a (add_order w (map sentk ks)).
  Proof.
    induction ks as [|[v asc] ks IH]; intros rest vs a w H; cbn [map app].
    - unfold add_order. rewrite app_nil_r. now destruct w.
    - cbn [WindowModel.wparse sent_item fst snd]. pose proof (H (v, asc) (or_introl eq_refl)) as E. cbn [fst] in E. rewrite E. cbn [bind set_witem]. rewrite IH by (intros u U; apply H; now right).
      unfold add_order, sentk. cbn [w_parts w_unit w_start w_end w_row w_order fst snd]. now rewrite <- app_assoc.
  Qed.

  (** The keys of a row in the order they are compared *)
  Definition all_keys (r : srow) : keys := (map (fun v => (v, true)) (r_part r) ++ r_order r)%list.
  Definition opts (p : spec) : aopt := {| a_distinct := p_distinct p; a_ignore := negb (p_respect p); a_limit := None; a_order := [] |}.
  Definition frame_of (p : spec) : frame_unit * option bound * option bound :=
    match p_frame p with Some (u, s, e) => (u, Some s, Some e) | None => (UNone, None, None) end.
  Definition wopt_of (p : spec) (rid : Z) (r : srow) : wopt :=
    {| w_unit := fst (fst (frame_of p)); w_start := snd (fst (frame_of p)); w_end := snd (frame_of p); w_parts := map recv (r_part r); w_row := rid; w_order := map sentk (all_keys r) |}.
  Lemma parse_row : forall p rid r, ordinary_args text r ->
    (forall v, In v (r_part r) -> win_key (Some v) = Ok (Some (recv v))) ->
    (forall k, In k (r_order r) -> win_key (Some (fst k)) = Ok (Some (recv (fst k)))) ->
    wparse (call_args p rid (row_of r)) [] no_opt no_wopt = Ok (r_args r, opts p, wopt_of p rid r).
  Proof.
    intros p rid r A P O. unfold call_args. cbn [row_of t_args t_part t_order]. rewrite parse_vals by exact A. cbn [app].
    assert (F : forall vs a w, wparse (map (fun k => PWin (WPart k)) (map Some (r_part r)) ++ map (fun k => PWin (WOrder k true)) (map Some (r_part r)) ++
        map (fun k => PWin (WOrder (fst k) (snd k))) (map (fun k => (Some (fst k), snd k)) (r_order r)) ++
        match p_frame p with Some (u, s, e) => [PWin (WUnit u); PWin (WStart s); PWin (WEnd e)] | None => [] end ++ [PWin (WRow rid)]) vs a w =
        wparse (match p_frame p with Some (u, s, e) => [PWin (WUnit u); PWin (WStart s); PWin (WEnd e)] | None => [] end ++ [PWin (WRow rid)]) vs a (add_order (add_parts w (map recv (r_part r))) (map sentk (all_keys r)))).
    { intros vs a w. rewrite parse_parts by exact P.
      assert (Q : map (fun k => PWin (WOrder k true)) (map Some (r_part r)) = map (fun k => PWin (WOrder (fst k) (snd k))) (map (fun k : val * bool => (Some (fst k), snd k)) (map (fun v => (v, true)) (r_part r)))).
      { rewrite !map_map. reflexivity. }
      rewrite Q, parse_order, parse_order by (auto; intros k K; apply in_map_iff in K; destruct K as (v & <- & V); cbn [fst]; auto).
      unfold all_keys. rewrite map_app. unfold add_order. cbn [w_order w_unit w_start w_end w_parts w_row]. now rewrite <- app_assoc. }
    assert (G : forall vs a, wparse (match p_frame p with Some (u, s, e) => [PWin (WUnit u); PWin (WStart s); PWin (WEnd e)] | None => [] end ++ [PWin (WRow rid)]) vs a (add_order (add_parts no_wopt (map recv (r_part r))) (map sentk (all_keys r))) = Ok (vs, a, wopt_of p rid r)).
    { intros vs a. unfold wopt_of, frame_of. destruct (p_frame p) as [[[u s] e]|]; reflexivity. }
    unfold opts. destruct (p_distinct p), (p_respect p); cbn [app WindowModel.wparse]; rewrite F, G; reflexivity.
  Qed.

  (** What the function keeps and stores over the rows *)
  Fixpoint feed (f : wfn) (s : Wst f) (l : list (list (option val))) : res (Wst f * list (option val)) :=
    match l with
    | [] => Ok (s, [])
    | x :: r => bind (wstep f s x) (fun '(s', v) =>
                match v with
                | Some v => bind (feed f s' r) (fun '(s2, vs) => Ok (s2, v :: vs))
                | None => Err
                end)
    end.
  Definition ptext_of (ps : list val) : option string := match partition text (map recv ps) with Ok p => p | _ => None end.
  Definition ptext (r : srow) : option string := ptext_of (r_part r).
  Definition mk (i : nat) (r : srow) (v : option val) : ent := {| e_id := i; e_keys := map sentk (all_keys r); e_val := v; e_part := ptext r |}.
  Fixpoint ents_from (i : nat) (rows : list srow) (vs : list (option val)) : list ent :=
    match rows, vs with
    | r :: rows', v :: vs' => mk i r v :: ents_from (S i) rows' vs'
    | _, _ => []
    end.
  Lemma unit_eqb_refl : forall u, unit_eqb u u = true. Proof. now destruct u. Qed.
  Lemma same_kind_refl : forall b, same_kind b b = Ok tt.
  Proof. intros [b|]; [|reflexivity]. cbn. now destruct (b_kind b). Qed.

  Definition good (r : srow) : Prop :=
    ordinary_args text r /\
    (forall v, In v (r_part r) -> win_key (Some v) = Ok (Some (recv v))) /\
    (forall k, In k (r_order r) -> win_key (Some (fst k)) = Ok (Some (recv (fst k)))) /\
    partition text (map recv (r_part r)) = Ok (ptext r).
  Lemma steps_from : forall f p rid rows s s' vs (w0 : wopt) (l0 : list ent),
    (forall r, In r rows -> good r) ->
    feed f s (map r_args rows) = Ok (s', vs) ->
    (w_unit w0, w_start w0, w_end w0, w_row w0) = (fst (fst (frame_of p)), snd (fst (frame_of p)), snd (frame_of p), rid) ->
    row_steps text loose wloose f (s, {| s_first := Some (w0, opts p); s_ents := l0 |}) (map (call_args p rid) (map row_of rows)) =
    Ok (s', {| s_first := Some (w0, opts p); s_ents := (l0 ++ ents_from (List.length l0) rows vs)%list |}).
  Proof.
    intros f p rid. induction rows as [|r rows IH]; intros s s' vs w0 l0 G F W.
    - cbn [map feed] in F. assert (s' = s /\ vs = []) as [-> ->] by (split; congruence). cbn [map row_steps ents_from]. now rewrite app_nil_r.
    - cbn [map feed] in F. destruct (wstep f s (r_args r)) as [[s1 [v|]]| |] eqn:E; cbn [bind] in F; try discriminate.
      destruct (feed f s1 (map r_args rows)) as [[s2 vs']| |] eqn:E2; cbn [bind] in F; try discriminate.
      assert (s' = s2 /\ vs = v :: vs') as [-> ->] by (split; congruence).
      destruct (G r (or_introl eq_refl)) as (G1 & G2 & G3 & G4).
      cbn [map row_steps]. unfold row_step at 1. rewrite parse_row by auto. cbn [bind fst snd]. rewrite E. cbn [bind].
      unfold agg_step. cbn [s_first fst].
      assert (Wu : w_unit w0 = w_unit (wopt_of p rid r)) by (cbn [wopt_of w_unit]; congruence).
      assert (Ws : w_start w0 = w_start (wopt_of p rid r)) by (cbn [wopt_of w_start]; congruence).
      assert (We : w_end w0 = w_end (wopt_of p rid r)) by (cbn [wopt_of w_end]; congruence).
      assert (Wr : w_row w0 = w_row (wopt_of p rid r)) by (cbn [wopt_of w_row]; congruence).
      rewrite Wu, Ws, We, Wr, unit_eqb_refl, !same_kind_refl, Z.eqb_refl. cbn [negb bind]. cbn [wopt_of w_parts w_order s_ents]. rewrite G4. cbn [bind].
      rewrite (IH s1 s2 vs' w0) by (auto; intros r' R'; apply G; now right).
      rewrite app_length. cbn [List.length ents_from]. rewrite Nat.add_1_r, <- app_assoc. reflexivity.
  Qed.
  Lemma steps_all : forall f p rid r0 rows s' vs, (forall r, In r (r0 :: rows) -> good r) ->
    feed f (winit f) (map r_args (r0 :: rows)) = Ok (s', vs) ->
    row_steps text loose wloose f (winit f, wst0) (map (call_args p rid) (map row_of (r0 :: rows))) =
    Ok (s', {| s_first := Some (wopt_of p rid r0, opts p); s_ents := ents_from 0 (r0 :: rows) vs |}).
  Proof.
    intros f p rid r0 rows s' vs G F.
    cbn [map feed] in F. destruct (wstep f (winit f) (r_args r0)) as [[s1 [v|]]| |] eqn:E; cbn [bind] in F; try discriminate.
    destruct (feed f s1 (map r_args rows)) as [[s2 vs']| |] eqn:E2; cbn [bind] in F; try discriminate.
    assert (s' = s2 /\ vs = v :: vs') as [-> ->] by (split; congruence).
    destruct (G r0 (or_introl eq_refl)) as (G1 & G2 & G3 & G4).
    cbn [map row_steps]. unfold row_step at 1. rewrite parse_row by auto. cbn [bind fst snd]. rewrite E. cbn [bind].
    unfold agg_step. cbn [wst0 s_first fst s_ents]. rewrite unit_eqb_refl, !same_kind_refl, Z.eqb_refl. cbn [negb bind]. cbn [wopt_of w_parts w_order]. rewrite G4. cbn [bind].
    rewrite (steps_from f p rid rows s1 s2 vs' (wopt_of p rid r0)); [reflexivity|intros r' R'; apply G; now right|exact E2|reflexivity].
  Qed.

  (** ** The rows as a function of their number *)
  Definition ent_at (rows : list srow) (vs : list (option val)) (i : nat) : ent := mk i (at_row rows i) (nth i vs None).
  Lemma ents_map : forall rows vs i, List.length vs = List.length rows ->
    ents_from i rows vs = map (fun j => mk (i + j) (at_row rows j) (nth j vs None)) (seq 0 (List.length rows)).
  Proof.
    induction rows as [|r rows IH]; intros [|v vs] i L; cbn [List.length] in L; try discriminate; [reflexivity|].
    cbn [ents_from List.length seq map]. f_equal.
    - unfold at_row. cbn [nth]. now rewrite Nat.add_0_r.
    - rewrite IH by lia. rewrite <- seq_shift, map_map. apply map_ext. intros j. unfold at_row. cbn [nth]. f_equal. lia.
  Qed.
  Lemma feed_length : forall f l s s' vs, feed f s l = Ok (s', vs) -> List.length vs = List.length l.
  Proof.
    intros f. induction l as [|x l IH]; intros s s' vs H; cbn [feed] in H.
    - assert (vs = []) as -> by congruence. reflexivity.
    - destruct (wstep f s x) as [[s1 [v|]]| |]; cbn [bind] in H; try discriminate.
      destruct (feed f s1 l) as [[s2 vs']| |] eqn:E; cbn [bind] in H; try discriminate.
      assert (vs = v :: vs') as -> by congruence. cbn. f_equal. eauto.
  Qed.

  (** ** The order of a partition *)
  Definition members (rows : list srow) (part : option string) : list nat :=
    filter (fun i => part_eqb (ptext (at_row rows i)) part) (seq 0 (List.length rows)).
  Definition order_of (rows : list srow) (part : option string) : list nat :=
    map e_id (sort wless (map (ent_at rows []) (members rows part))).
  Lemma filter_map {A B} (g : A -> B) (q : B -> bool) l : filter q (map g l) = map g (filter (fun x => q (g x)) l).
  Proof. induction l as [|x l IH]; [reflexivity|]. cbn. destruct (q (g x)); cbn; now rewrite IH. Qed.
  Hypothesis slices : sort_slice sort.
  Lemma sort_in : forall l x, In x (sort wless l) <-> In x l.
  Proof. intros l x. destruct (proj1 slices l) as [P _]. split; [apply Permutation_in; now symmetry|now apply Permutation_in]. Qed.
  Lemma sorted_members : forall rows vs part,
    sort wless (map (ent_at rows vs) (members rows part)) = map (ent_at rows vs) (order_of rows part).
  Proof.
    intros rows vs part. set (l := members rows part).
    set (h := fun x => {| e_id := e_id x; e_keys := e_keys x; e_val := nth (e_id x) vs None; e_part := e_part x |}).
    assert (E : map (ent_at rows vs) l = map h (map (ent_at rows []) l)) by (rewrite map_map; reflexivity).
    rewrite E, (proj2 slices h) by reflexivity. unfold order_of. fold l. rewrite map_map.
    apply map_ext_in. intros x X. apply (proj1 (sort_in _ _)) in X. apply in_map_iff in X. destruct X as (i & <- & _). reflexivity.
  Qed.
  Lemma order_perm : forall rows part, Permutation (members rows part) (order_of rows part).
  Proof.
    intros rows part. unfold order_of. destruct (proj1 slices (map (ent_at rows []) (members rows part))) as [P _].
    apply (Permutation_map e_id) in P. rewrite map_map in P. cbn [ent_at mk e_id] in P. rewrite map_id in P. exact P.
  Qed.
  Lemma order_nodup : forall rows part, NoDup (order_of rows part).
  Proof. intros rows part. eapply Permutation_NoDup; [apply order_perm|]. apply NoDup_filter, seq_NoDup. Qed.
  Lemma part_eqb_eq : forall a b, part_eqb a b = true <-> a = b.
  Proof. intros [a|] [b|]; cbn; rewrite ?String.eqb_eq; split; congruence. Qed.
  Lemma order_in : forall rows part i, In i (order_of rows part) <-> (i < List.length rows)%nat /\ ptext (at_row rows i) = part.
  Proof.
    intros rows part i. transitivity (In i (members rows part)).
    { split; apply Permutation_in; [symmetry|]; apply order_perm. }
    unfold members. rewrite filter_In, in_seq, part_eqb_eq. intuition lia.
  Qed.
  Lemma index_of_spec : forall (g : nat -> ent) order p i k, (forall j, e_id (g j) = j) -> NoDup order -> nth_error order p = Some i ->
    index_of i (map g order) k = Ok (k + Z.of_nat p).
  Proof.
    intros g order p i k G. revert p k. induction order as [|x order IH]; intros p k N E; [now destruct p|].
    inversion N as [|? ? Nx Nr]; subst. cbn [map index_of]. rewrite G. destruct p as [|p].
    - cbn in E. assert (x = i) by congruence. subst x. rewrite Nat.eqb_refl. f_equal. lia.
    - cbn [nth_error] in E. destruct (Nat.eqb_spec x i) as [->|D].
      + exfalso. apply Nx. eapply nth_error_In; eauto.
      + rewrite (IH p (k + 1) Nr E). f_equal. lia.
  Qed.

  (** ** The result for a row *)
  Definition parted (rows : list srow) : Prop := (forall r, In r rows -> ptext r = None) \/ (forall r, In r rows -> ptext r <> None).
  Lemma nth_row_map : forall A (g : nat -> A) n i, (i < n)%nat -> nth_row (map g (seq 0 n)) (Z.of_nat i + 1) = Ok (g i).
  Proof.
    intros A g n i L. unfold nth_row. destruct (Z.ltb_spec (Z.of_nat i + 1) 1); [lia|].
    replace (Z.to_nat (Z.of_nat i + 1 - 1)) with i by lia. rewrite nth_error_map.
    rewrite (nth_error_nth' _ 0%nat) by now rewrite seq_length. rewrite seq_nth by lia. reflexivity.
  Qed.
  Lemma over_core : forall f p rows s vs i,
    (forall r, In r rows -> good r) -> parted rows ->
    feed f (winit f) (map r_args rows) = Ok (s, vs) -> (i < List.length rows)%nat ->
    let order := order_of rows (ptext (at_row rows i)) in
    let sorted := map (ent_at rows vs) order in
    over text loose wloose sort f p (map row_of rows) (Z.of_nat i + 1) =
    bind (bound_index (fst (fst (frame_of p))) sorted (Ok (ent_at rows vs i)) (snd (fst (frame_of p)))) (fun a =>
    bind (bound_index (fst (fst (frame_of p))) sorted (Ok (ent_at rows vs i)) (snd (frame_of p))) (fun b =>
    wdone f s (opts p) sorted (clamp (zlen order) a b))).
  Proof.
    intros f p rows s vs i G Pt F L order sorted. unfold over, wcall.
    assert (ST : exists r0, row_steps text loose wloose f (winit f, wst0) (map (call_args p (Z.of_nat i + 1)) (map row_of rows)) =
      Ok (s, {| s_first := Some (wopt_of p (Z.of_nat i + 1) r0, opts p); s_ents := ents_from 0 rows vs |})).
    { clear - G F L. destruct rows as [|r0 rest]; [cbn in L; lia|]. exists r0. now apply steps_all. }
    destruct ST as (r0 & ->). cbn [bind fst snd].
    unfold finish. cbn [s_first s_ents]. cbn [wopt_of w_row w_unit w_start w_end].
    destruct (Z.leb_spec (Z.of_nat i + 1) 0); [lia|].
    pose proof (feed_length _ _ _ _ _ F) as Lv. rewrite map_length in Lv.
    assert (E : ents_from 0 rows vs = map (ent_at rows vs) (seq 0 (List.length rows))) by (rewrite ents_map by exact Lv; apply map_ext; intros j; reflexivity).
    rewrite E.
    assert (Ir : In (at_row rows i) rows) by (apply nth_In; exact L).
    assert (PV : current (map (ent_at rows vs) (seq 0 (List.length rows))) (Z.of_nat i + 1) = Ok (ent_at rows vs i) /\
      filtered (map (ent_at rows vs) (seq 0 (List.length rows))) (Z.of_nat i + 1) = Ok (map (ent_at rows vs) (members rows (ptext (at_row rows i))))).
    { destruct Pt as [Pt|Pt].
      - assert (Np : pvals (map (ent_at rows vs) (seq 0 (List.length rows))) = []).
        { unfold pvals. rewrite filter_map. replace (filter _ _) with (@nil nat); [reflexivity|]. symmetry.
          assert (K : forall l, (forall j, In j l -> (j < List.length rows)%nat) -> filter (fun x => has_part (ent_at rows vs x)) l = []).
          { induction l as [|j l IH]; intros K; [reflexivity|]. cbn [filter]. unfold has_part at 1. cbn [ent_at mk e_part]. rewrite Pt by (apply nth_In, K; now left). apply IH. intros; apply K; now right. }
          apply K. intros j J. apply in_seq in J. lia. }
        unfold current, filtered. rewrite Np. split; [now apply nth_row_map|]. do 2 f_equal. unfold members. symmetry.
        assert (K : forall l, (forall j, In j l -> (j < List.length rows)%nat) -> filter (fun j => part_eqb (ptext (at_row rows j)) (ptext (at_row rows i))) l = l).
        { induction l as [|j l IH]; intros K; [reflexivity|]. cbn [filter]. rewrite !Pt by (auto; apply nth_In, K; now left). cbn [part_eqb]. f_equal. rewrite <- (Pt (at_row rows i)) by auto. apply IH. intros; apply K; now right. }
        apply K. intros j J. apply in_seq in J. lia.
      - assert (Ap : pvals (map (ent_at rows vs) (seq 0 (List.length rows))) = map (ent_at rows vs) (seq 0 (List.length rows))).
        { unfold pvals. rewrite filter_map. f_equal.
          assert (K : forall l, (forall j, In j l -> (j < List.length rows)%nat) -> filter (fun x => has_part (ent_at rows vs x)) l = l).
          { induction l as [|j l IH]; intros K; [reflexivity|]. cbn [filter]. unfold has_part at 1. cbn [ent_at mk e_part].
            pose proof (Pt (at_row rows j)) as Q. destruct (ptext (at_row rows j)); [|exfalso; apply Q; auto; apply nth_In, K; now left]. f_equal. apply IH. intros; apply K; now right. }
          apply K. intros j J. apply in_seq in J. lia. }
        unfold current, filtered. rewrite Ap.
        destruct (map (ent_at rows vs) (seq 0 (List.length rows))) as [|e0 el] eqn:M; [exfalso; apply map_eq_nil in M; assert (Q : List.length (seq 0 (List.length rows)) = 0%nat) by (now rewrite M); rewrite seq_length in Q; lia|].
        rewrite <- M. rewrite nth_row_map by exact L. split; [reflexivity|]. cbn [bind]. f_equal. rewrite filter_map. reflexivity. }
    destruct PV as [-> ->]. cbn [bind]. cbn zeta. rewrite sorted_members. fold order. fold sorted.
    replace (zlen sorted) with (zlen order) by (unfold zlen, sorted; now rewrite map_length). reflexivity.
  Qed.

  (** ** Tables for which the claims are made *)
  Lemma recv_str : forall s, text_ok s -> recv (VStr s) = VStr s.
  Proof.
    intros s H. destruct (recv_alike YStr (VStr s) H) as [A _]; [discriminate|]. destruct (recv (VStr s)); cbn [alike] in A; try contradiction. now subst.
  Qed.
  Lemma pty_text : prints text -> forall b t v, of_pty b t v -> exists x, text (recv v) = Ok x /\ (b = true -> has_char "_" x = false).
  Proof.
    intros (P1 & P2 & P3) b t v [H C]. destruct v; try contradiction.
    - rewrite recv_int. destruct t; cbn [of_kty] in H; try contradiction. destruct (P2 _ H) as (x & E & N). eauto.
    - destruct t; cbn [of_kty] in H; try contradiction. rewrite recv_str by exact H. rewrite P1. eauto.
  Qed.
  Lemma pty_text_inj : prints text -> forall b t v w, of_pty b t v -> of_pty b t w -> text (recv v) = text (recv w) -> v = w.
  Proof.
    intros (P1 & P2 & P3) b t v w [H C] [H' C'] E. destruct v; try contradiction; destruct t; cbn [of_kty] in H; try contradiction; destruct w; cbn [of_kty] in H'; try contradiction.
    - rewrite !recv_int in E. f_equal. now apply P3.
    - rewrite !recv_str, !P1 in E by auto. congruence.
  Qed.
  Lemma part_texts_ok : prints text -> forall b sh ps, Forall2 (of_pty b) sh ps ->
    exists ts, part_texts text (map recv ps) = Ok ts /\ List.length ts = List.length ps /\ (b = true -> forall t, In t ts -> has_char "_" t = false).
  Proof.
    intros P b sh ps H. induction H as [|t v sh ps Hv Hr IH]; [exists []; repeat split; auto; intros _ ? []|].
    destruct IH as (ts & E & L & N). destruct (pty_text P b t v Hv) as (x & Ex & Nx). exists (x :: ts).
    cbn [map part_texts]. rewrite Ex. cbn [bind]. rewrite E. cbn. split; [reflexivity|]. split; [now f_equal|].
    intros B u [<-|U]; auto.
  Qed.
  Lemma part_texts_inj : prints text -> forall b sh ps qs, Forall2 (of_pty b) sh ps -> Forall2 (of_pty b) sh qs ->
    part_texts text (map recv ps) = part_texts text (map recv qs) -> ps = qs.
  Proof.
    intros P b sh ps qs H. revert qs. induction H as [|t v sh ps Hv Hr IH]; intros qs Q E; inversion Q as [|? w ? qs' Hw Hq]; subst; [reflexivity|].
    cbn [map part_texts] in E. destruct (pty_text P b t v Hv) as (x & Ex & _). destruct (pty_text P b t w Hw) as (y & Ey & _).
    destruct (part_texts_ok P b sh ps Hr) as (ts & Et & _). destruct (part_texts_ok P b sh qs' Hq) as (us & Eu & _).
    rewrite Ex, Ey in E. cbn [bind] in E. rewrite Et, Eu in E. cbn [bind] in E.
    assert (x = y /\ ts = us) as [-> ->] by (split; congruence). f_equal; [|apply IH; congruence]. apply (pty_text_inj P b t); congruence.
  Qed.
  Lemma partition_ok : prints text -> forall sh ps, well_parted sh ps -> partition text (map recv ps) = Ok (ptext_of ps) /\ (ptext_of ps = None <-> sh = []).
  Proof.
    intros P sh ps H. unfold ptext_of. inversion H as [|t v sh' ps' Hv Hr E1 E2]; subst; [split; [reflexivity|tauto]|].
    destruct (part_texts_ok P _ _ _ H) as (ts & E & _). unfold partition. cbn [map] in *. rewrite E. split; [reflexivity|]. cbn [bind]. split; discriminate.
  Qed.
  Lemma ptext_inj : prints text -> forall sh ps qs, well_parted sh ps -> well_parted sh qs -> ptext_of ps = ptext_of qs -> ps = qs.
  Proof.
    intros P sh ps qs H Q E. destruct (partition_ok P sh ps H) as [E1 _]. destruct (partition_ok P sh qs Q) as [E2 _]. rewrite <- E in E2.
    destruct (part_texts_ok P _ _ _ H) as (ts & T1 & L1 & N1). destruct (part_texts_ok P _ _ _ Q) as (us & T2 & L2 & N2).
    apply (part_texts_inj P _ sh ps qs H Q). rewrite T1, T2. f_equal.
    pose proof (Forall2_length _ _ _ _ _ H) as Lh. pose proof (Forall2_length _ _ _ _ _ Q) as Lq.
    destruct ps as [|v ps]; destruct qs as [|w qs]; cbn [List.length] in *; try congruence.
    unfold partition in E1, E2. change (map recv (v :: ps)) with (recv v :: map recv ps) in *. change (map recv (w :: qs)) with (recv w :: map recv qs) in *.
    rewrite T1 in E1. rewrite T2 in E2. cbn [bind] in E1, E2.
    assert (J : join "_" ts = join "_" us) by congruence.
    destruct (Nat.ltb_spec 1 (List.length sh)) as [B|B].
    - apply (join_inj "_"); auto; intros ->; discriminate.
    - destruct ts as [|x [|x' ts]]; cbn [List.length] in L1; try lia. destruct us as [|y [|y' us]]; cbn [List.length] in L2; try lia. cbn [join] in J. congruence.
  Qed.
  Section Sound.
    Variable shp : list kty.
    Variable sho : list (kty * bool).
    Variable rows : list srow.
    Hypothesis so : sound text shp sho rows.
    Lemma wo_key : forall sh ks k, well_ordered sh ks -> In k ks -> exists t, of_kty t (fst k).
    Proof.
      intros sh ks k H. induction H as [|t x sh ks [Hx _] Hr IH]; intros [].
      - subst. eauto.
      - auto.
    Qed.
    Lemma wp_key : forall b sh ks k, Forall2 (of_pty b) sh ks -> In k ks -> exists t, of_kty t k.
    Proof.
      intros b sh ks k H. induction H as [|t x sh ks [Hx _] Hr IH]; intros [].
      - subst. eauto.
      - auto.
    Qed.
    Lemma sound_good : forall r, In r rows -> good r.
    Proof.
      intros r R. destruct so as [P S]. destruct (S r R) as (W & O & A). split; [exact A|]. split; [|split].
      - intros v V. destruct (wp_key _ _ _ _ W V) as (t & T). now apply (recv_ok t).
      - intros k K. destruct (wo_key _ _ _ O K) as (t & T). now apply (recv_ok t).
      - now apply (partition_ok P shp).
    Qed.
    Lemma sound_parted : parted rows.
    Proof.
      destruct so as [P S]. destruct shp as [|t sh] eqn:E; [left|right]; intros r R; destruct (S r R) as (W & _).
      - now apply (partition_ok P []).
      - intros N. apply (partition_ok P _ _ W) in N. discriminate.
    Qed.
    Lemma at_in : forall i, (i < List.length rows)%nat -> In (at_row rows i) rows.
    Proof. intros i L. now apply nth_In. Qed.
    Lemma same_part : forall i j, (i < List.length rows)%nat -> (j < List.length rows)%nat ->
      (ptext (at_row rows j) = ptext (at_row rows i) <-> r_part (at_row rows j) = r_part (at_row rows i)).
    Proof.
      intros i j I J. destruct so as [P S]. unfold ptext. split; [|now intros ->].
      apply (ptext_inj P shp); apply S; now apply at_in.
    Qed.
    Lemma all_keys_wo : forall r, In r rows -> wo (map (fun t => (t, true)) shp ++ sho)%list (all_keys r).
    Proof.
      intros r R. destruct so as [P S]. destruct (S r R) as (W & O & _). unfold wo, well_ordered, all_keys. apply Forall2_app; [|exact O].
      unfold well_parted in W. induction W as [|t v sh ps [Hv _] Hr IH]; constructor; auto.
    Qed.
    Definition order_at (i : nat) : list nat := order_of rows (ptext (at_row rows i)).
    Lemma sorted_rows : forall part i j, In i (order_of rows part) -> In j (order_of rows part) ->
      (wless (ent_at rows [] j) (ent_at rows [] i) = true <-> keys_before (r_order (at_row rows j)) (r_order (at_row rows i))).
    Proof.
      intros part i j I J. apply order_in in I. apply order_in in J. destruct I as [Li Pi]. destruct J as [Lj Pj].
      unfold wless. cbn [ent_at mk e_keys]. rewrite (wless_sent _ _ _ (all_keys_wo _ (at_in _ Lj)) (all_keys_wo _ (at_in _ Li))).
      unfold all_keys. assert (E : r_part (at_row rows j) = r_part (at_row rows i)) by (apply same_part; congruence). rewrite E.
      apply keys_before_same_prefix. intros p Q. apply in_map_iff in Q. destruct Q as (v & <- & V). cbn [fst].
      destruct so as [P S]. destruct (S _ (at_in _ Li)) as (W & _). destruct (wp_key _ _ _ _ W V) as (t & T). now apply (kty_alike_refl t).
    Qed.
    Lemma SSorted_map_inv : forall A B (g : A -> B) (R : B -> B -> Prop) l, StronglySorted R (map g l) -> StronglySorted (fun x y => R (g x) (g y)) l.
    Proof.
      intros A B g R. induction l as [|x l IH]; intros H; [constructor|]. inversion H as [|? ? Hs Hf]; subst. constructor; [auto|].
      rewrite Forall_forall in *. intros y Y. apply Hf. now apply in_map.
    Qed.
    Lemma SSorted_weaken : forall A (R Q : A -> A -> Prop) l, (forall x y, In x l -> In y l -> R x y -> Q x y) -> StronglySorted R l -> StronglySorted Q l.
    Proof.
      intros A R Q l. induction l as [|x l IH]; intros H S; [constructor|]. inversion S as [|? ? Ss Sf]; subst. constructor.
      - apply IH; auto. intros; apply H; auto; now right.
      - rewrite Forall_forall in *. intros y Y. apply H; [now left|now right|auto].
    Qed.
    Lemma order_arranged : forall i, (i < List.length rows)%nat -> arranged rows (r_part (at_row rows i)) (order_at i).
    Proof.
      intros i L. unfold order_at. split; [apply order_nodup|]. split.
      - intros j. rewrite order_in. split; intros [Lj E]; split; auto; now apply same_part.
      - set (part := ptext (at_row rows i)).
        assert (Srt : StronglySorted (fun a b => wless b a = false) (map (ent_at rows []) (order_of rows part))).
        { rewrite <- sorted_members. apply (proj1 slices). apply (wless_weak_order (map (fun t => (t, true)) shp ++ sho)%list).
          intros x X. apply in_map_iff in X. destruct X as (j & <- & J). cbn [ent_at mk e_keys]. exists (all_keys (at_row rows j)). split; [reflexivity|].
          apply all_keys_wo, at_in. unfold members in J. apply filter_In in J. destruct J as [J _]. apply in_seq in J. lia. }
        apply SSorted_map_inv in Srt. revert Srt. apply SSorted_weaken. intros x y X Y E K. apply (sorted_rows part) in K; auto. congruence.
    Qed.
    Lemma over_sound : forall f p s vs i,
      feed f (winit f) (map r_args rows) = Ok (s, vs) -> (i < List.length rows)%nat ->
      over text loose wloose sort f p (map row_of rows) (Z.of_nat i + 1) =
      bind (bound_index (fst (fst (frame_of p))) (map (ent_at rows vs) (order_at i)) (Ok (ent_at rows vs i)) (snd (fst (frame_of p)))) (fun a =>
      bind (bound_index (fst (fst (frame_of p))) (map (ent_at rows vs) (order_at i)) (Ok (ent_at rows vs i)) (snd (frame_of p))) (fun b =>
      wdone f s (opts p) (map (ent_at rows vs) (order_at i)) (clamp (zlen (order_at i)) a b))).
    Proof. intros f p s vs i F L. apply over_core; auto; [exact sound_good|exact sound_parted]. Qed.
    Lemma position : forall i, (i < List.length rows)%nat -> exists p, nth_error (order_at i) p = Some i.
    Proof. intros i L. apply In_nth_error. apply order_in. split; auto. Qed.
    Lemma cur_index_at : forall vs i p, nth_error (order_at i) p = Some i ->
      cur_index (map (ent_at rows vs) (order_at i)) (Ok (ent_at rows vs i)) = Ok (Z.of_nat p).
    Proof. intros vs i p N. unfold cur_index. cbn [bind ent_at mk e_id]. rewrite (index_of_spec _ _ p); auto. apply order_nodup. Qed.
  End Sound.
End Over.

(** ** ROWS frames *)
Lemma picks_unique : forall A (P : nat -> Prop) k (l a b : list A), picks P k l a -> picks P k l b -> a = b.
Proof.
  intros A P k l a b H. revert b. induction H as [k|k x l o Px H IH|k x l o Px H IH]; intros b B; inversion B; subst; try contradiction; auto.
  f_equal. auto.
Qed.
Lemma picks_ext : forall A (P Q : nat -> Prop) (l : list A) k o, (forall i, (k <= i < k + List.length l)%nat -> P i <-> Q i) -> picks P k l o -> picks Q k l o.
Proof.
  intros A P Q l k o E H. revert E. induction H as [k|k x l o Px H IH|k x l o Px H IH]; intros E; [constructor| |].
  - constructor 2; [apply E; auto; cbn; lia|]. apply IH. intros i I. apply E. cbn. lia.
  - constructor 3; [rewrite <- E; auto; cbn; lia|]. apply IH. intros i I. apply E. cbn. lia.
Qed.
Lemma picks_range : forall A (l : list A) k a b,
  picks (fun i => a <= Z.of_nat i <= b) k l (firstn (Z.to_nat (b + 1 - Z.max a (Z.of_nat k))) (skipn (Z.to_nat (a - Z.of_nat k)) l)).
Proof.
  intros A. induction l as [|x l IH]; intros k a b.
  - rewrite skipn_nil, firstn_nil. constructor.
  - destruct (Z.ltb_spec (Z.of_nat k) a) as [L|L].
    + replace (Z.to_nat (a - Z.of_nat k)) with (S (Z.to_nat (a - Z.of_nat (S k)))) by lia. cbn [skipn].
      constructor 3; [lia|]. replace (Z.max a (Z.of_nat k)) with (Z.max a (Z.of_nat (S k))) by lia. apply IH.
    + replace (Z.to_nat (a - Z.of_nat k)) with 0%nat by lia. cbn [skipn]. specialize (IH (S k) a b).
      replace (Z.to_nat (a - Z.of_nat (S k))) with 0%nat in IH by lia. cbn [skipn] in IH.
      destruct (Z.leb_spec (Z.of_nat k) b) as [B|B].
      * replace (Z.to_nat (b + 1 - Z.max a (Z.of_nat k))) with (S (Z.to_nat (b + 1 - Z.max a (Z.of_nat (S k))))) by lia. cbn [firstn].
        constructor 2; [lia|exact IH].
      * replace (Z.to_nat (b + 1 - Z.max a (Z.of_nat k))) with 0%nat by lia. replace (Z.to_nat (b + 1 - Z.max a (Z.of_nat (S k)))) with 0%nat in IH by lia.
        constructor 3; [lia|exact IH].
Qed.
Lemma picks_exists : forall A (l : list A) a b, exists o, picks (fun i => a <= Z.of_nat i <= b) 0 l o.
Proof. intros. eexists. apply picks_range. Qed.
Lemma clamp_frame : forall A (l : list A) a b fr, picks (fun i => a <= Z.of_nat i <= b) 0 l fr -> a <= b + 1 \/ b < 0 \/ zlen l <= a ->
  match clamp (zlen l) a b with
  | None => fr = []
  | Some (s, e) => slice l s e = Ok fr
  end.
Proof.
  intros A l a b fr P H. pose proof (picks_unique _ _ _ _ _ _ P (picks_range A l 0 a b)) as E. clear P.
  change (Z.of_nat 0) with 0 in E. rewrite Z.sub_0_r in E. unfold clamp, zlen in *.
  destruct (Z.leb_spec (Z.of_nat (List.length l)) a) as [La|La]; cbn [orb].
  { rewrite E, skipn_all2 by lia. apply firstn_nil. }
  destruct (Z.ltb_spec b 0) as [Lb|Lb].
  { rewrite E. replace (Z.to_nat (b + 1 - Z.max a 0)) with 0%nat by lia. reflexivity. }
  unfold slice.
  destruct (Z.ltb_spec a 0) as [La0|La0]; destruct (Z.leb_spec (Z.of_nat (List.length l)) b) as [Lbn|Lbn].
  - destruct (Z.ltb_spec (Z.of_nat (List.length l) - 1 + 1) 0); [lia|]. rewrite E. f_equal.
    replace (Z.to_nat a) with 0%nat by lia. replace (Z.to_nat 0) with 0%nat by reflexivity. cbn [skipn]. rewrite !firstn_all2 by lia. reflexivity.
  - destruct (Z.ltb_spec (b + 1) 0); [lia|]. rewrite E. f_equal.
    replace (Z.to_nat a) with 0%nat by lia. replace (Z.to_nat 0) with 0%nat by reflexivity. f_equal. lia.
  - destruct (Z.ltb_spec (Z.of_nat (List.length l) - 1 + 1) a); [lia|]. rewrite E. f_equal.
    rewrite !firstn_all2 by (rewrite skipn_length; lia). reflexivity.
  - destruct (Z.ltb_spec (b + 1) a); [lia|]. rewrite E. f_equal. f_equal. lia.
Qed.
Lemma slice_map : forall A B (g : A -> B) l s e, slice (map g l) s e = bind (slice l s e) (fun x => Ok (map g x)).
Proof. intros A B g l s e. unfold slice. destruct (e + 1 <? s); [reflexivity|]. cbn [bind]. now rewrite skipn_map, firstn_map. Qed.
Lemma in_frame_at : forall B (g : nat -> ent) order a b fr (none : B) k, picks (fun i => a <= Z.of_nat i <= b) 0 order fr -> a <= b + 1 \/ b < 0 \/ zlen order <= a -> k [] = Ok none ->
  in_frame none (map g order) (clamp (zlen order) a b) k = k (map (fun i => e_val (g i)) fr).
Proof.
  intros B g order a b fr none k P H K. pose proof (clamp_frame _ _ _ _ _ P H) as C. unfold in_frame.
  destruct (clamp (zlen order) a b) as [[s e]|]; [|now rewrite C].
  unfold vals. rewrite map_map, slice_map, C. reflexivity.
Qed.

(** Where a bound is for the row at position p of n *)
Definition bpos (n p : Z) (b : bound) : Z :=
  match b_kind b with
  | UnboundedPreceding => 0
  | UnboundedFollowing => n - 1
  | OffsetPreceding => p - b_off b
  | OffsetFollowing => p + b_off b
  | _ => p
  end.
Lemma rows_index_at : forall sorted cur b p, cur_index sorted cur = Ok p -> b_kind b <> BUnknown -> 0 <= b_off b -> 0 <= p -> b_off b + p < two63 ->
  rows_index sorted cur (Some b) = Ok (bpos (zlen sorted) p b).
Proof.
  intros sorted cur b p C K O P S. unfold rows_index, bpos. pose proof eq_refl : two63 = 2 ^ 63 as T.
  destruct (b_kind b); try congruence; rewrite C; cbn [bind]; f_equal; apply wrap64_id; unfold in64; lia.
Qed.
Lemma bound_positions : forall s e n p i, start_bound s -> end_bound e -> 0 <= i < n ->
  (from_start s (i - p) /\ to_end e (i - p) <-> bpos n p s <= i <= bpos n p e).
Proof.
  intros s e n p i (S1 & S2 & S3) (E1 & E2 & E3) I. unfold from_start, to_end, bpos.
  destruct (b_kind s) eqn:Ks; try congruence; destruct (b_kind e) eqn:Ke; try congruence; lia.
Qed.
Lemma proper_positions : forall s e n p, start_bound s -> end_bound e -> proper s e -> 0 <= p < n ->
  bpos n p s <= bpos n p e + 1 \/ bpos n p e < 0 \/ n <= bpos n p s.
Proof.
  intros s e n p (S1 & S2 & S3) (E1 & E2 & E3) P I. unfold proper, bpos in *.
  destruct (b_kind s) eqn:Ks; try congruence; destruct (b_kind e) eqn:Ke; try congruence; lia.
Qed.
(** ** What the functions return *)
Lemma app_split : forall A (l : list A) p x, nth_error l p = Some x -> exists l1 l2, l = (l1 ++ x :: l2)%list /\ List.length l1 = p.
Proof. intros. now apply nth_error_split. Qed.
Lemma nth_hd : forall (h : srow -> option val) rows j, h row0 = None -> nth j (map h rows) None = h (at_row rows j).
Proof. intros h rows j H. pose proof (map_nth h rows row0 j) as M. rewrite H in M. exact M. Qed.
Lemma feed_store0 : forall d rows, (forall r, In r rows -> has_arg r) ->
  feed (simple store0 d) tt (map r_args rows) = Ok (tt, map (fun r => hd None (r_args r)) rows).
Proof.
  intros d. induction rows as [|r rows IH]; intros H; [reflexivity|]. cbn [map feed].
  assert (E : wstep (simple store0 d) tt (r_args r) = Ok (tt, Some (hd None (r_args r)))).
  { pose proof (H r (or_introl eq_refl)) as A. unfold has_arg in A. destruct (r_args r); [congruence|reflexivity]. }
  rewrite E. cbn [bind]. rewrite IH by (intros; apply H; now right). reflexivity.
Qed.
Lemma feed_store1 : forall d rows, feed (simple store1 d) tt (map r_args rows) = Ok (tt, map (fun _ => Some (VInt 1)) rows).
Proof.
  intros d. induction rows as [|r rows IH]; [reflexivity|]. cbn [map feed].
  change (wstep (simple store1 d) tt (r_args r)) with (@Ok (unit * option (option val)) (tt, Some (Some (VInt 1)))). cbn [bind]. rewrite IH. reflexivity.
Qed.
Lemma feed_array : forall text rows, (forall r, In r rows -> has_arg r /\ hd None (r_args r) <> None) ->
  feed (w_array_agg text) tt (map r_args rows) = Ok (tt, map (fun r => hd None (r_args r)) rows).
Proof.
  intros text. induction rows as [|r rows IH]; intros H; [reflexivity|]. cbn [map feed].
  assert (E : wstep (w_array_agg text) tt (r_args r) = Ok (tt, Some (hd None (r_args r)))).
  { destruct (H r (or_introl eq_refl)) as [A N]. unfold has_arg in A. destruct (r_args r) as [|[v|] l]; cbn in N; [congruence|reflexivity|congruence]. }
  rewrite E. cbn [bind]. rewrite IH by (intros; apply H; now right). reflexivity.
Qed.
Lemma kept_all : forall text l, kept text false [] l = Ok (not_null l).
Proof. intros text. induction l as [|[v|] l IH]; cbn [kept]; [reflexivity| |exact IH]. rewrite IH. reflexivity. Qed.
Lemma not_null_all : forall l, (forall v, In v l -> v <> None) -> map Some (not_null l) = l.
Proof.
  induction l as [|[v|] l IH]; intros H; [reflexivity| |now destruct (H None (or_introl eq_refl))].
  cbn. f_equal. apply IH. intros. apply H. now right.
Qed.
Lemma picks_in : forall A (P : nat -> Prop) k (l o : list A) x, picks P k l o -> In x o -> In x l.
Proof. intros A P k l o x H. induction H; intros I; [exact I| |]; cbn in *; tauto. Qed.

Section Frames.
  Variable text : val -> res string.
  Variable loose : string -> option item.
  Variable wloose : string -> option witem.
  Variable sort : (ent -> ent -> bool) -> list ent -> list ent.
  Hypothesis slices : sort_slice sort.
  Variable shp : list kty.
  Variable sho : list (kty * bool).
  Variable rows : list srow.
  Hypothesis so : sound text shp sho rows.
  Notation ov := (over text loose wloose sort).
  Notation ord := (order_at text sort rows).
  Notation ent_at := (ent_at text).

  Lemma ord_arrangement : arrangement rows ord.
  Proof.
    intros i L. split; [eapply order_arranged; eauto|]. intros j J E. unfold order_at. f_equal.
    now apply (same_part text shp sho rows so i j).
  Qed.
  Lemma ord_lt : forall i p, nth_error (ord i) p = Some i -> (i < List.length rows)%nat.
  Proof. intros i p N. apply nth_error_In in N. unfold order_at in N. apply order_in in N; auto. tauto. Qed.
  Lemma ord_length : forall i, (List.length (ord i) <= List.length rows)%nat.
  Proof.
    intros i. unfold order_at. rewrite <- (seq_length (List.length rows) 0). apply NoDup_incl_length; [now apply order_nodup|].
    intros j J. apply order_in in J; auto. apply in_seq. lia.
  Qed.
  Lemma ord_pos : forall i p, nth_error (ord i) p = Some i -> 0 <= Z.of_nat p < zlen (ord i) /\ zlen (ord i) <= zlen rows.
  Proof.
    intros i p N. assert (L : (p < List.length (ord i))%nat) by (apply nth_error_Some; congruence). pose proof (ord_length i). unfold zlen. lia.
  Qed.

  Lemma over_rows : forall f sp s e st vs i p fr none K,
    p_frame sp = Some (URows, s, e) ->
    feed f (winit f) (map r_args rows) = Ok (st, vs) ->
    nth_error (ord i) p = Some i ->
    start_bound s -> end_bound e -> proper s e -> small rows s -> small rows e ->
    rows_frame s e (ord i) p fr ->
    (forall l x, wdone f st (opts sp) l x = in_frame none l x K) -> K [] = Ok none ->
    ov f sp (map row_of rows) (Z.of_nat i + 1) = K (map (fun j => nth j vs None) fr).
  Proof.
    intros f sp s e st vs i p fr none K Sp F N Hs He Pr Ss Se Fr D Kn.
    pose proof (ord_lt i p N) as L. pose proof (ord_pos i p N) as [Lp Ln].
    rewrite (over_sound text loose wloose sort slices shp sho rows so f sp st vs i F L). unfold frame_of. rewrite Sp. cbn [fst snd].
    pose proof (cur_index_at text sort slices rows vs i p N) as C.
    assert (Zl : zlen (map (ent_at rows vs) (ord i)) = zlen (ord i)) by (unfold zlen; now rewrite map_length).
    cbn [bound_index]. destruct Hs as (S1 & S2 & S3). destruct He as (E1 & E2 & E3). unfold small in *.
    rewrite (rows_index_at _ _ s _ C), (rows_index_at _ _ e _ C) by (auto; lia). cbn [bind]. rewrite Zl, D.
    rewrite (in_frame_at _ _ _ _ _ fr); auto.
    - eapply picks_ext; [|exact Fr]. cbn beta. intros j J. apply bound_positions; [repeat split; auto; lia|repeat split; auto; lia|unfold zlen; lia].
    - apply proper_positions; repeat split; auto; lia.
  Qed.
  (** Functions of one argument without state *)
  Lemma over_rows0 : forall d sp s e i p fr none K, (forall r, In r rows -> has_arg r) ->
    p_frame sp = Some (URows, s, e) -> nth_error (ord i) p = Some i ->
    start_bound s -> end_bound e -> proper s e -> small rows s -> small rows e -> rows_frame s e (ord i) p fr ->
    (forall l x, d (opts sp) l x = in_frame none l x K) -> K [] = Ok none ->
    ov (simple store0 d) sp (map row_of rows) (Z.of_nat i + 1) = K (map (arg_of rows) fr).
  Proof.
    intros d sp s e i p fr none K A Sp N Hs He Pr Ss Se Fr D Kn.
    rewrite (over_rows (simple store0 d) sp s e tt _ i p fr none K Sp (feed_store0 d rows A) N Hs He Pr Ss Se Fr D Kn).
    f_equal. apply map_ext. intros j. now apply nth_hd.
  Qed.

  (** ** RANGE frames *)
  Lemma last_key_at : forall vs i k asc, r_order (at_row rows i) = [(k, asc)] -> last_key (ent_at rows vs i) = Some (Some (recv k), asc).
  Proof.
    intros vs i k asc E. unfold last_key. cbn [WindowProofs.ent_at mk e_keys]. unfold all_keys. rewrite E, map_app, rev_app_distr. reflexivity.
  Qed.
End Frames.
Lemma scan_from : forall op a (c : ent -> bool) l i found,
  (forall x, In x l -> exists k asc, last_key x = Some (k, asc) /\ key_op op a k = Ok (c x)) ->
  scan_keys op a (numbered i l) found = Ok (snd (fold_left (fun (st : Z * Z) x => (fst st + 1, if c x then fst st else snd st)) l (i, found))).
Proof.
  intros op a c. induction l as [|x l IH]; intros i found H; [reflexivity|]. cbn [numbered scan_keys fold_left].
  destruct (H x (or_introl eq_refl)) as (k & asc & -> & ->). cbn [bind fst snd]. rewrite IH by (intros; apply H; now right). reflexivity.
Qed.
Lemma scan_none : forall (c : ent -> bool) l i found, (forall x, In x l -> c x = false) ->
  snd (fold_left (fun (st : Z * Z) x => (fst st + 1, if c x then fst st else snd st)) l (i, found)) = found.
Proof.
  intros c. induction l as [|x l IH]; intros i found H; [reflexivity|]. cbn [fold_left fst snd]. rewrite (H x (or_introl eq_refl)).
  apply IH. intros. apply H. now right.
Qed.
Lemma scan_fst : forall (c : ent -> bool) l i found, fst (fold_left (fun (st : Z * Z) x => (fst st + 1, if c x then fst st else snd st)) l (i, found)) = i + zlen l.
Proof.
  intros c. induction l as [|x l IH]; intros i found; [cbn; lia|]. cbn [fold_left fst snd]. rewrite IH. unfold zlen. cbn [List.length]. lia.
Qed.
Lemma scan_last : forall (c : ent -> bool) l1 x l2 i found, c x = true -> (forall y, In y l2 -> c y = false) ->
  snd (fold_left (fun (st : Z * Z) x => (fst st + 1, if c x then fst st else snd st)) (l1 ++ x :: l2)%list (i, found)) = i + zlen l1.
Proof.
  intros c l1 x l2 i found X Y. rewrite fold_left_app. cbn [fold_left].
  rewrite (surjective_pairing (fold_left _ l1 (i, found))). cbn [fst snd]. rewrite scan_fst, X. now apply scan_none.
Qed.
(** ** RANGE frames by the last key *)
Lemma keeps_unique : forall A (P : A -> Prop) l a b, keeps P l a -> keeps P l b -> a = b.
Proof.
  intros A P l a b H. revert b. induction H as [|x l o Px H IH|x l o Px H IH]; intros b B; inversion B; subst; try contradiction; auto.
  f_equal. auto.
Qed.
Lemma keeps_app : forall A (P : A -> Prop) l m a b, keeps P l a -> keeps P m b -> keeps P (l ++ m)%list (a ++ b)%list.
Proof. intros A P l m a b H K. induction H; cbn; [exact K|now constructor|now constructor 3]. Qed.
Lemma keeps_all : forall A (P : A -> Prop) l, (forall x, In x l -> P x) -> keeps P l l.
Proof. intros A P. induction l as [|x l IH]; intros H; constructor; [apply H; now left|apply IH; intros; apply H; now right]. Qed.
Lemma keeps_none : forall A (P : A -> Prop) l, (forall x, In x l -> ~ P x) -> keeps P l [].
Proof. intros A P. induction l as [|x l IH]; intros H; [constructor|]. constructor 3; [apply H; now left|apply IH; intros; apply H; now right]. Qed.
Lemma keeps_in : forall A (P : A -> Prop) l o x, keeps P l o -> (In x o <-> In x l /\ P x).
Proof.
  intros A P l o x H. induction H as [|y l o Py H IH|y l o Py H IH]; cbn [In]; [tauto| |]; rewrite IH.
  - split; [intros [->|[]]; tauto|intros [[->|] ]; tauto].
  - split; [tauto|]. intros [[->|] Q]; tauto.
Qed.
(** A test that fails from some place on *)
Lemma prefix_split : forall A (R : A -> A -> Prop) (c : A -> bool) l, StronglySorted R l ->
  (forall x y, In x l -> In y l -> R x y -> c y = true -> c x = true) ->
  exists l1 l2, l = (l1 ++ l2)%list /\ (forall x, In x l1 -> c x = true) /\ (forall x, In x l2 -> c x = false).
Proof.
  intros A R c. induction l as [|x l IH]; intros S M; [exists [], []; repeat split; intros ? []|].
  inversion S as [|? ? Sl Sx]; subst. destruct (c x) eqn:E.
  - destruct (IH Sl) as (l1 & l2 & -> & H1 & H2); [intros a b Ia Ib; apply M; now right|].
    exists (x :: l1), l2. repeat split; auto. intros y [<-|Y]; auto.
  - exists [], (x :: l). repeat split; [intros ? []|]. intros y [<-|Y]; [exact E|]. destruct (c y) eqn:Ey; [|reflexivity].
    rewrite Forall_forall in Sx. rewrite (M x y) in E; auto; [now left|now right].
Qed.
Lemma picks_prefix : forall A (l1 l2 : list A), picks (fun i => 0 <= Z.of_nat i <= zlen l1 - 1) 0 (l1 ++ l2) l1.
Proof.
  intros A l1 l2. pose proof (picks_range A (l1 ++ l2)%list 0 0 (zlen l1 - 1)) as P.
  replace (Z.to_nat (0 - Z.of_nat 0)) with 0%nat in P by reflexivity. cbn [skipn] in P.
  replace (Z.to_nat (zlen l1 - 1 + 1 - Z.max 0 (Z.of_nat 0))) with (List.length l1) in P by (unfold zlen; lia).
  rewrite firstn_app, Nat.sub_diag, firstn_all in P. cbn [firstn] in P. now rewrite app_nil_r in P.
Qed.
Lemma picks_suffix : forall A (l1 l2 : list A), picks (fun i => zlen l1 <= Z.of_nat i <= zlen (l1 ++ l2)%list - 1) 0 (l1 ++ l2) l2.
Proof.
  intros A l1 l2. pose proof (picks_range A (l1 ++ l2)%list 0 (zlen l1) (zlen (l1 ++ l2)%list - 1)) as P.
  replace (Z.to_nat (zlen l1 - Z.of_nat 0)) with (List.length l1) in P by (unfold zlen; lia).
  rewrite skipn_app, Nat.sub_diag, skipn_all in P. cbn [skipn app] in P. rewrite firstn_all2 in P; [exact P|].
  unfold zlen. rewrite app_length. lia.
Qed.

Section Ranges.
  Variable text : val -> res string.
  Variable loose : string -> option item.
  Variable wloose : string -> option witem.
  Variable sort : (ent -> ent -> bool) -> list ent -> list ent.
  Hypothesis slices : sort_slice sort.
  Variable shp : list kty.
  Variable sho : list (kty * bool).
  Variable ty : kty.
  Variable dir : bool.
  Variable rows : list srow.
  Hypothesis so : sound text shp (sho ++ [(ty, dir)])%list rows.
  Notation ov := (over text loose wloose sort).
  Notation ord := (order_at text sort rows).
  Notation ent_at := (ent_at text).
  Notation sh := (sho ++ [(ty, dir)])%list.
  Definition lastk (i : nat) : val := fst (last (r_order (at_row rows i)) (VInt 0, true)).

  Lemma wo_last : forall ks, well_ordered sh ks -> exists k0 k, ks = (k0 ++ [(k, dir)])%list /\ well_ordered sho k0 /\ of_kty ty k.
  Proof.
    intros ks H. apply Forall2_app_inv_l in H. destruct H as (k0 & k1 & H0 & H1 & ->).
    inversion H1 as [|? [k d] ? ? [K E] Hn]; subst. inversion Hn; subst. cbn [fst snd] in *. subst. eauto.
  Qed.
  Lemma lastk_key : forall i, (i < List.length rows)%nat -> of_kty ty (lastk i) /\ forall vs, last_key (ent_at rows vs i) = Some (Some (recv (lastk i)), dir).
  Proof.
    intros i L. destruct so as [P S]. destruct (S _ (at_in rows i L)) as (_ & O & _). destruct (wo_last _ O) as (k0 & k & E & _ & K).
    unfold lastk. rewrite E, last_last. cbn [fst]. split; [exact K|]. intros vs.
    unfold last_key. cbn [WindowProofs.ent_at mk e_keys]. unfold all_keys. rewrite E, app_assoc, map_app, rev_app_distr. reflexivity.
  Qed.
  (** The test of lookupMaxIndexFromRangeValue *)
  Definition atmost (i j : nat) : bool := holds (cmp GTE (recv (lastk i)) (recv (lastk j))).
  Lemma atmost_spec : forall i j, (i < List.length rows)%nat -> (j < List.length rows)%nat ->
    cmp GTE (recv (lastk i)) (recv (lastk j)) = Ok (atmost i j) /\ (atmost i j = true <-> ~ before (lastk i) (lastk j)).
  Proof.
    intros i j Li Lj. destruct (lastk_key i Li) as [Ki _]. destruct (lastk_key j Lj) as [Kj _].
    destruct (recv_rel ty _ _ Ki Kj) as (C & A & B). destruct (recv_rel ty _ _ Kj Ki) as (_ & _ & B').
    unfold atmost. destruct (cmp_scalar GTE _ _ C) as (c & -> & M). split; [reflexivity|]. cbn [holds means] in *. rewrite M, A, B'.
    destruct (trichotomy _ _ (of_kty_comparable ty _ _ Ki Kj)) as [T|[T|T]].
    - split; [|tauto]. intros [Q|Q] _; [now apply (before_irrefl (lastk i)), (before_trans _ (lastk j))|now apply (before_not_alike _ _ T)].
    - split; [intros _ Q; now apply (before_not_alike _ _ Q)|auto].
    - split; [|auto]. intros _ Q. now apply (before_irrefl (lastk i)), (before_trans _ (lastk j)).
  Qed.
  Lemma lookup_max_at : forall vs i, (i < List.length rows)%nat ->
    lookup_max (map (ent_at rows vs) (ord i)) (Some (recv (lastk i))) =
    Ok (snd (fold_left (fun (st : Z * Z) x => (fst st + 1, if atmost i (e_id x) then fst st else snd st)) (map (ent_at rows vs) (ord i)) (0, -1))).
  Proof.
    intros vs i L. unfold lookup_max. rewrite (scan_from _ _ (fun x => atmost i (e_id x))); [reflexivity|].
    intros x X. apply in_map_iff in X. destruct X as (j & <- & J). unfold order_at in J. apply order_in in J; auto. destruct J as [J _].
    destruct (lastk_key j J) as [_ K]. exists (Some (recv (lastk j))), dir. split; [apply K|]. cbn [key_op WindowProofs.ent_at mk e_id]. now apply atmost_spec.
  Qed.
  (** When the last of the rows that pass is x *)
  Lemma lookup_max_split : forall vs i l1 x l2, (i < List.length rows)%nat -> ord i = (l1 ++ x :: l2)%list -> atmost i x = true -> (forall y, In y l2 -> atmost i y = false) ->
    lookup_max (map (ent_at rows vs) (ord i)) (Some (recv (lastk i))) = Ok (zlen l1).
  Proof.
    intros vs i l1 x l2 L E X Y. rewrite lookup_max_at by exact L. f_equal. rewrite E, map_app. cbn [map].
    rewrite scan_last; [unfold zlen; rewrite map_length; lia|exact X|].
    intros y H. apply in_map_iff in H. destruct H as (j & <- & J). now apply Y.
  Qed.
  Lemma range_current : forall vs i, (i < List.length rows)%nat ->
    range_index (map (ent_at rows vs) (ord i)) (Ok (ent_at rows vs i)) (Some (the_bound CurrentRow 0)) = lookup_max (map (ent_at rows vs) (ord i)) (Some (recv (lastk i))).
  Proof. intros vs i L. destruct (lastk_key i L) as [_ K]. unfold range_index. cbn [the_bound b_kind bind]. rewrite K. reflexivity. Qed.
  Lemma zlen_ents : forall vs l, zlen (map (ent_at rows vs) l) = zlen l.
  Proof. intros. unfold zlen. now rewrite map_length. Qed.
  Lemma over_default : forall f st vs i l1 x l2 none K,
    feed f (winit f) (map r_args rows) = Ok (st, vs) -> (i < List.length rows)%nat ->
    ord i = (l1 ++ x :: l2)%list -> atmost i x = true -> (forall y, In y l2 -> atmost i y = false) ->
    (forall l x, wdone f st (opts default_frame) l x = in_frame none l x K) -> K [] = Ok none ->
    ov f default_frame (map row_of rows) (Z.of_nat i + 1) = K (map (fun j => nth j vs None) (l1 ++ [x])%list).
  Proof.
    intros f st vs i l1 x l2 none K F L E X Y D Kn.
    rewrite (over_sound text loose wloose sort slices shp sh rows so f _ st vs i F L). cbn [frame_of default_frame range_spec p_frame fst snd bound_index].
    rewrite range_current by exact L. rewrite (lookup_max_split vs i l1 x l2) by auto. cbn [range_index the_bound b_kind bind]. rewrite D.
    rewrite (in_frame_at _ _ _ _ _ (l1 ++ [x])%list); auto.
    - rewrite E. replace (l1 ++ x :: l2)%list with ((l1 ++ [x]) ++ l2)%list by now rewrite <- app_assoc.
      eapply picks_ext; [|apply picks_prefix]. intros j J. cbn beta. unfold zlen. rewrite app_length. cbn [List.length]. lia.
    - left. unfold zlen. lia.
  Qed.
  Lemma over_from_here : forall f st vs i l1 x l2 none K,
    feed f (winit f) (map r_args rows) = Ok (st, vs) -> (i < List.length rows)%nat ->
    ord i = (l1 ++ x :: l2)%list -> atmost i x = true -> (forall y, In y l2 -> atmost i y = false) ->
    (forall l x, wdone f st (opts from_here) l x = in_frame none l x K) -> K [] = Ok none ->
    ov f from_here (map row_of rows) (Z.of_nat i + 1) = K (map (fun j => nth j vs None) (x :: l2)).
  Proof.
    intros f st vs i l1 x l2 none K F L E X Y D Kn.
    rewrite (over_sound text loose wloose sort slices shp sh rows so f _ st vs i F L). cbn [frame_of from_here range_spec p_frame fst snd bound_index].
    rewrite range_current by exact L. rewrite (lookup_max_split vs i l1 x l2) by auto. cbn [range_index the_bound b_kind bind]. rewrite D.
    rewrite (in_frame_at _ _ _ _ _ (x :: l2)); auto.
    - rewrite zlen_ents, E. apply picks_suffix.
    - left. rewrite zlen_ents, E. unfold zlen. rewrite app_length. cbn [List.length]. lia.
  Qed.
End Ranges.
(** ** Without a frame *)
Section NoFrame.
  Variable text : val -> res string.
  Variable loose : string -> option item.
  Variable wloose : string -> option witem.
  Variable sort : (ent -> ent -> bool) -> list ent -> list ent.
  Hypothesis slices : sort_slice sort.
  Variable shp : list kty.
  Variable sho : list (kty * bool).
  Variable rows : list srow.
  Hypothesis so : sound text shp sho rows.
  Lemma over_none : forall f sp st vs i p,
    p_frame sp = None ->
    feed f (winit f) (map r_args rows) = Ok (st, vs) -> nth_error (order_at text sort rows i) p = Some i ->
    over text loose wloose sort f sp (map row_of rows) (Z.of_nat i + 1) =
    wdone f st (opts sp) (map (ent_at text rows vs) (order_at text sort rows i)) (Some (Z.of_nat p, Z.of_nat p)).
  Proof.
    intros f sp st vs i p Sp F N. pose proof (ord_lt text sort slices rows i p N) as L. pose proof (ord_pos text sort slices rows i p N) as [Lp _].
    rewrite (over_sound text loose wloose sort slices shp sho rows so f sp st vs i F L). unfold frame_of. rewrite Sp. cbn [fst snd bound_index].
    rewrite (cur_index_at text sort slices rows vs i p N). cbn [bind]. f_equal. unfold clamp.
    destruct (Z.leb_spec (zlen (order_at text sort rows i)) (Z.of_nat p)); [lia|]. destruct (Z.ltb_spec (Z.of_nat p) 0); [lia|]. reflexivity.
  Qed.
End NoFrame.

(** ** RANK and DENSE_RANK *)
Definition rstep (st : Z * Z * Z) (c : Z) : Z * Z * Z := let '(rank, same, m) := st in if m <? c then (rank + same, 1, c) else (rank, same + 1, m).
Definition dstep (st : Z * Z) (c : Z) : Z * Z := let '(rank, m) := st in if m <? c then (rank + 1, c) else (rank, m).
Definition nless (z : Z) (l : list Z) : Z := zlen (filter (fun x => x <? z) l).
Lemma zlen_app : forall A (l m : list A), zlen (l ++ m)%list = zlen l + zlen m.
Proof. intros. unfold zlen. rewrite app_length. lia. Qed.
Lemma nless_all : forall z l, (forall x, In x l -> x < z) -> nless z l = zlen l.
Proof.
  intros z l H. unfold nless. f_equal. induction l as [|x l IH]; [reflexivity|]. cbn. pose proof (H x (or_introl eq_refl)).
  destruct (Z.ltb_spec x z); [|lia]. f_equal. apply IH. intros. apply H. now right.
Qed.
Lemma nless_none : forall z l, (forall x, In x l -> z <= x) -> nless z l = 0.
Proof.
  intros z l H. unfold nless. induction l as [|x l IH]; [reflexivity|]. cbn. pose proof (H x (or_introl eq_refl)).
  destruct (Z.ltb_spec x z); [lia|]. apply IH. intros. apply H. now right.
Qed.
Lemma nless_app : forall z l m, nless z (l ++ m)%list = nless z l + nless z m.
Proof. intros. unfold nless. now rewrite filter_app, zlen_app. Qed.
Lemma SS_snoc : forall A (R : A -> A -> Prop) l x, StronglySorted R (l ++ [x])%list -> StronglySorted R l /\ forall y, In y l -> R y x.
Proof.
  intros A R. induction l as [|a l IH]; intros x S; [split; [constructor|intros ? []]|]. cbn [app] in S. inversion S as [|? ? Sl Sf]; subst.
  destruct (IH x Sl) as [S1 S2]. rewrite Forall_forall in Sf. split.
  - constructor; auto. rewrite Forall_forall. intros y Y. apply Sf, in_or_app. now left.
  - intros y [<-|Y]; auto. apply Sf, in_or_app. right. now left.
Qed.
Lemma triple_eq : forall a b c a' b' c' : Z, a = a' -> b = b' -> c = c' -> (a, b, c) = (a', b', c').
Proof. congruence. Qed.
Lemma rank_inv : forall m0 l z, StronglySorted Z.le (l ++ [z])%list ->
  fold_left rstep (l ++ [z])%list (0, 1, m0) =
  (if m0 <? z then (1 + nless z l, zlen l + 1 - nless z l, z) else (0, zlen l + 2, m0)).
Proof.
  intros m0. induction l as [|w l IH] using rev_ind; intros z S.
  - cbn. destruct (m0 <? z); reflexivity.
  - apply SS_snoc in S. destruct S as [S M]. specialize (IH w S). apply SS_snoc in S. destruct S as [_ Mw].
    rewrite fold_left_app, IH. cbn [fold_left]. assert (Wz : w <= z) by (apply M, in_or_app; right; now left).
    rewrite nless_app, zlen_app. change (zlen [w]) with 1.
    destruct (Z.ltb_spec m0 w) as [A|A]; cbn [rstep].
    + destruct (Z.ltb_spec m0 z); [|lia]. destruct (Z.ltb_spec w z) as [B|B].
      * rewrite (nless_all z l), (nless_all z [w]); [change (zlen [w]) with 1; apply triple_eq; lia|intros x [<-|[]]; exact B|].
        intros x X. pose proof (Mw x X). lia.
      * assert (z = w) by lia. subst z. rewrite (nless_none w [w]) by (intros x [<-|[]]; lia). apply triple_eq; lia.
    + destruct (Z.ltb_spec m0 z) as [B|B].
      * rewrite (nless_all z l), (nless_all z [w]); [change (zlen [w]) with 1; apply triple_eq; lia|intros x [<-|[]]; lia|].
        intros x X. pose proof (Mw x X). lia.
      * apply triple_eq; lia.
Qed.
Definition distinct (l : list Z) : Z := zlen (nodup Z.eq_dec l).
Lemma distinct_snoc : forall l z, distinct (l ++ [z])%list = distinct l + (if in_dec Z.eq_dec z l then 0 else 1).
Proof.
  intros l z. unfold distinct. induction l as [|x l IH]; [reflexivity|]. cbn [app nodup].
  destruct (in_dec Z.eq_dec x (l ++ [z])%list) as [I|I]; destruct (in_dec Z.eq_dec x l) as [J|J].
  - rewrite IH. destruct (in_dec Z.eq_dec z l); destruct (in_dec Z.eq_dec z (x :: l)) as [K|K]; cbn in K; try lia; [tauto|]. destruct K; [subst; contradiction|contradiction].
  - apply in_app_or in I. destruct I as [I|[I|[]]]; [contradiction|]. subst x. rewrite IH.
    destruct (in_dec Z.eq_dec z l); [contradiction|]. destruct (in_dec Z.eq_dec z (z :: l)) as [K|K]; cbn in K; [|tauto]. unfold zlen. cbn [List.length]. lia.
  - exfalso. apply I, in_or_app. now left.
  - unfold zlen in *. cbn [List.length]. destruct (in_dec Z.eq_dec z l); destruct (in_dec Z.eq_dec z (x :: l)) as [K|K]; cbn in K; try lia; [tauto|].
    destruct K as [K|K]; [|contradiction]. subst x. exfalso. apply I, in_or_app. right. now left.
Qed.
Lemma dense_inv : forall m0 l z, StronglySorted Z.le (l ++ [z])%list ->
  fold_left dstep (l ++ [z])%list (0, m0) = (if m0 <? z then (distinct (filter (fun x => m0 <? x) (l ++ [z])%list), z) else (0, m0)).
Proof.
  intros m0. induction l as [|w l IH] using rev_ind; intros z S.
  - cbn. destruct (m0 <? z); reflexivity.
  - apply SS_snoc in S. destruct S as [S M]. specialize (IH w S). apply SS_snoc in S. destruct S as [_ Mw].
    rewrite fold_left_app, IH. cbn [fold_left]. assert (Wz : w <= z) by (apply M, in_or_app; right; now left).
    destruct (Z.ltb_spec m0 w) as [A|A]; cbn [dstep].
    + destruct (Z.ltb_spec m0 z) as [B|B]; [|lia]. rewrite (filter_app _ (l ++ [w])%list [z]).
      assert (E : filter (fun x => m0 <? x) [z] = [z]) by (cbn; destruct (Z.ltb_spec m0 z); [reflexivity|lia]). rewrite E, distinct_snoc.
      destruct (Z.ltb_spec w z) as [C|C].
      * destruct (in_dec Z.eq_dec z (filter (fun x => m0 <? x) (l ++ [w])%list)) as [I|I]; [|reflexivity]. exfalso.
        apply filter_In in I. destruct I as [I _]. apply in_app_or in I. destruct I as [I|[I|[]]]; [pose proof (Mw z I)|]; lia.
      * assert (z = w) by lia. subst z. destruct (in_dec Z.eq_dec w (filter (fun x => m0 <? x) (l ++ [w])%list)) as [I|I]; [f_equal; lia|]. exfalso.
        apply I. apply filter_In. split; [apply in_or_app; right; now left|now apply Z.ltb_lt].
    + destruct (Z.ltb_spec m0 z) as [B|B]; [|reflexivity]. rewrite (filter_app _ (l ++ [w])%list [z]).
      assert (E : filter (fun x => m0 <? x) [z] = [z]) by (cbn; destruct (Z.ltb_spec m0 z); [reflexivity|lia]).
      assert (E' : filter (fun x => m0 <? x) (l ++ [w])%list = []).
      { assert (K : forall q, (forall x, In x q -> x <= m0) -> filter (fun x => m0 <? x) q = []).
        { induction q as [|a q IHq]; intros Q; [reflexivity|]. cbn. pose proof (Q a (or_introl eq_refl)). destruct (Z.ltb_spec m0 a); [lia|]. apply IHq. intros. apply Q. now right. }
        apply K. intros x X. apply in_app_or in X. destruct X as [X|[<-|[]]]; [pose proof (Mw x X)|]; lia. }
      rewrite E, E'. reflexivity.
Qed.
(** The loops over INT64 keys; descending keys are ascending ones with the sign changed *)
Definition signed (asc : bool) (z : Z) : Z := if asc then z else - z.
Definition akey (z : Z) : option val := Some (VFloat (float_of_int z)).
Definition threshold (asc : bool) : Z := signed asc (rank_start asc).
Lemma rank_loop_ints : forall asc l, (forall z, In z l -> Z.abs z < 2 ^ 53) ->
  rank_loop asc (map akey l) = Ok (fst (fst (fold_left rstep (map (signed asc) l) (0, 1, threshold asc)))).
Proof.
  intros asc l B. unfold rank_loop.
  assert (G : forall l r s m, (forall z, In z l -> Z.abs z < 2 ^ 53) -> exists m',
    foldr (rank_step asc) (r, s, m) (map akey l) = Ok (fst (fst (fold_left rstep (map (signed asc) l) (r, s, signed asc m))), snd (fst (fold_left rstep (map (signed asc) l) (r, s, signed asc m))), m')
    ).
  { clear. induction l as [|z l IH]; intros r s m B; [eexists; reflexivity|]. cbn [map foldr fold_left]. unfold rank_step at 1, akey at 1. cbn [key_int bind].
    rewrite float_of_int_back by (apply B; now left). unfold rstep at 2 4.
    assert (E : (signed asc m <? signed asc z) = (if asc then m <? z else z <? m)).
    { destruct asc; cbn [signed]; [reflexivity|]. destruct (Z.ltb_spec z m), (Z.ltb_spec (- m) (- z)); auto; lia. }
    rewrite E. destruct (if asc then m <? z else z <? m); cbn [bind]; apply IH; intros; apply B; now right. }
  destruct (G l 0 1 (rank_start asc) B) as (m' & ->). reflexivity.
Qed.
Lemma dense_loop_ints : forall asc l, (forall z, In z l -> Z.abs z < 2 ^ 53) ->
  dense_loop asc (map akey l) = Ok (fst (fold_left dstep (map (signed asc) l) (0, threshold asc))).
Proof.
  intros asc l B. unfold dense_loop.
  assert (G : forall l r m, (forall z, In z l -> Z.abs z < 2 ^ 53) -> exists m',
    foldr (dense_step asc) (r, m) (map akey l) = Ok (fst (fold_left dstep (map (signed asc) l) (r, signed asc m)), m')).
  { clear. induction l as [|z l IH]; intros r m B; [eexists; reflexivity|]. cbn [map foldr fold_left]. unfold dense_step at 1, akey at 1. cbn [key_int bind].
    rewrite float_of_int_back by (apply B; now left). unfold dstep at 2.
    assert (E : (signed asc m <? signed asc z) = (if asc then m <? z else z <? m)).
    { destruct asc; cbn [signed]; [reflexivity|]. destruct (Z.ltb_spec z m), (Z.ltb_spec (- m) (- z)); auto; lia. }
    rewrite E. destruct (if asc then m <? z else z <? m); cbn [bind]; apply IH; intros; apply B; now right. }
  destruct (G l 0 (rank_start asc) B) as (m' & ->). reflexivity.
Qed.

(** ** NTILE *)
Lemma ntile_nth : forall k i d p, (p < k)%nat -> 0 <= d ->
  nth_error (ntile_list k i d) p = Some (if Z.of_nat p <? 2 * d then i + Z.of_nat p / 2 else i + Z.of_nat p - d).
Proof.
  induction k as [|k IH]; intros i d p L D; [lia|]. cbn [ntile_list]. destruct (Z.ltb_spec 0 d) as [P|P].
  - destruct p as [|[|p]].
    + cbn [nth_error]. destruct (Z.ltb_spec (Z.of_nat 0) (2 * d)); [|lia]. f_equal. change (Z.of_nat 0 / 2) with 0. lia.
    + cbn [nth_error]. destruct (Z.ltb_spec (Z.of_nat 1) (2 * d)); [|lia]. f_equal. change (Z.of_nat 1 / 2) with 0. lia.
    + cbn [nth_error]. rewrite IH by lia. replace (Z.of_nat (S (S p)) / 2) with (Z.of_nat p / 2 + 1).
      2:{ replace (Z.of_nat (S (S p))) with (Z.of_nat p + 1 * 2) by lia. rewrite Z.div_add by lia. reflexivity. }
      destruct (Z.ltb_spec (Z.of_nat p) (2 * (d - 1))), (Z.ltb_spec (Z.of_nat (S (S p))) (2 * d)); try lia; f_equal; lia.
  - assert (d = 0) by lia. subst d. destruct p as [|p]; cbn [nth_error].
    + destruct (Z.ltb_spec (Z.of_nat 0) (2 * 0)); [lia|]. f_equal. lia.
    + rewrite IH by lia. destruct (Z.ltb_spec (Z.of_nat p) (2 * 0)), (Z.ltb_spec (Z.of_nat (S p)) (2 * 0)); try lia. f_equal. lia.
Qed.
(** ** One partition alone *)
(** Callbacks that look at the keys and the values only *)
Definition blind (d : aopt -> list ent -> option (Z * Z) -> res (option val)) : Prop :=
  forall a l l' fr, map e_keys l = map e_keys l' -> map e_val l = map e_val l' -> d a l fr = d a l' fr.
Lemma blind_in_frame : forall none k, blind (fun a l fr => in_frame none l fr (k a)).
Proof. intros none k a l l' fr _ V. unfold in_frame, vals. now rewrite V. Qed.
Lemma last_keys_keys : forall l l', map e_keys l = map e_keys l' -> last_keys l = last_keys l'.
Proof.
  induction l as [|x l IH]; intros [|y l'] H; cbn [map] in H; try discriminate; [reflexivity|].
  assert (e_keys x = e_keys y /\ map e_keys l = map e_keys l') as [E M] by (split; congruence). cbn [last_keys]. unfold last_key. rewrite E, (IH l' M). reflexivity.
Qed.
Lemma map_same_length : forall A B C (f : A -> C) (g : B -> C) l m, map f l = map g m -> zlen l = zlen m.
Proof. intros A B C f g l m H. unfold zlen. rewrite <- (map_length f), H. now rewrite map_length. Qed.
Lemma blind_rank_done : forall loop l l' fr, map e_keys l = map e_keys l' -> rank_done loop l fr = rank_done loop l' fr.
Proof. intros loop l l' fr K. unfold rank_done. destruct fr as [[s e]|]; [|reflexivity]. now rewrite (last_keys_keys l l' K). Qed.

Lemma scan_map : forall op a (g : ent -> ent) l found, (forall p, In p l -> last_key (g (snd p)) = last_key (snd p)) ->
  scan_keys op a (map (fun p => (fst p, g (snd p))) l) found = scan_keys op a l found.
Proof.
  intros op a g. induction l as [|[i x] l IH]; intros found H; [reflexivity|]. cbn [map fst snd scan_keys]. pose proof (H (i, x) (or_introl eq_refl)) as E. cbn [snd] in E. rewrite E.
  destruct (last_key x) as [[k asc]|]; [|apply IH; intros; apply H; now right]. destruct (key_op op a k); cbn [bind]; [|reflexivity|reflexivity]. apply IH. intros. apply H. now right.
Qed.
Lemma numbered_map : forall (g : ent -> ent) l i, numbered i (map g l) = map (fun p => (fst p, g (snd p))) (numbered i l).
Proof. intros g. induction l as [|x l IH]; intros i; [reflexivity|]. cbn [map numbered fst snd]. now rewrite IH. Qed.
Lemma bound_index_relabel : forall (g : ent -> ent) u l c b, (forall x, last_key (g x) = last_key x) ->
  (forall x, In x l -> e_id (g x) = e_id (g c) <-> e_id x = e_id c) ->
  bound_index u (map g l) (Ok (g c)) b = bound_index u l (Ok c) b.
Proof.
  intros g u l c b K I.
  assert (X : cur_index (map g l) (Ok (g c)) = cur_index l (Ok c)).
  { unfold cur_index. cbn [bind]. revert I. generalize 0. induction l as [|x l IH]; intros i I; [reflexivity|]. cbn [map index_of].
    destruct (Nat.eqb_spec (e_id (g x)) (e_id (g c))) as [E|E]; destruct (Nat.eqb_spec (e_id x) (e_id c)) as [F|F]; auto.
    - exfalso. apply F, I; [now left|exact E].
    - exfalso. apply E, I; [now left|exact F].
    - apply IH. intros. apply I. now right. }
  assert (Z : zlen (map g l) = zlen l) by (unfold zlen; now rewrite map_length).
  assert (Mx : forall k, lookup_max (map g l) k = lookup_max l k).
  { intros k. unfold lookup_max. rewrite numbered_map. apply scan_map. intros; apply K. }
  assert (Mn : forall k, lookup_min (map g l) k = lookup_min l k).
  { intros k. unfold lookup_min. rewrite numbered_map, <- map_rev. apply scan_map. intros; apply K. }
  destruct u; cbn [bound_index]; [exact X| |].
  - unfold rows_index. destruct b as [b|]; [|reflexivity]. now rewrite X, Z.
  - unfold range_index. cbn [bind]. rewrite K, Z. destruct b as [b|]; [|reflexivity].
    destruct (b_kind b); auto; destruct (last_key c) as [[k asc]|]; cbn [bind]; auto; destruct (shift_key _ k (b_off b)); cbn [bind]; auto.
Qed.
Lemma keeps_filter : forall A (P : A -> Prop) (b : A -> bool) l, (forall x, In x l -> b x = true <-> P x) -> keeps P l (filter b l).
Proof.
  intros A P b. induction l as [|x l IH]; intros H; [constructor|]. cbn [filter]. pose proof (H x (or_introl eq_refl)) as Hx.
  destruct (b x); [apply ke_take|apply ke_skip]; try (apply IH; intros; apply H; now right); [now apply Hx|]. intros Q. apply Hx in Q. discriminate.
Qed.
Lemma keeps_map : forall A B (g : A -> B) (P : B -> Prop) l o, keeps (fun x => P (g x)) l o -> keeps P (map g l) (map g o).
Proof. intros A B g P l o H. induction H; cbn [map]; [constructor|now constructor|now constructor 3]. Qed.
Lemma rows_as_map : forall rows, rows = map (at_row rows) (seq 0 (List.length rows)).
Proof.
  induction rows as [|r rows IH]; [reflexivity|]. cbn [List.length seq map]. f_equal. rewrite <- seq_shift, map_map. exact IH.
Qed.
Lemma firstn_seq : forall n k s, (n <= k)%nat -> firstn n (seq s k) = seq s n.
Proof. induction n as [|n IH]; intros k s L; [reflexivity|]. destruct k; [lia|]. cbn [seq firstn]. f_equal. apply IH. lia. Qed.

Section Alone.
  Variable text : val -> res string.
  Variable loose : string -> option item.
  Variable wloose : string -> option witem.
  Variable sort : (ent -> ent -> bool) -> list ent -> list ent.
  Hypothesis slices : sort_slice sort.
  Variable shp : list kty.
  Variable sho : list (kty * bool).
  Variable rows : list srow.
  Hypothesis so : sound text shp sho rows.
  Variable i : nat.
  Hypothesis Li : (i < List.length rows)%nat.
  Notation part := (ptext text (at_row rows i)).
  Notation mem := (members text rows part).
  Notation mine := (map (at_row rows) mem).
  Lemma mem_in : forall j, In j mem <-> (j < List.length rows)%nat /\ ptext text (at_row rows j) = part.
  Proof. intros j. unfold members. rewrite filter_In, in_seq, part_eqb_eq. intuition lia. Qed.
  Lemma mine_sound : sound text shp sho mine.
  Proof.
    destruct so as [P S]. split; [exact P|]. intros r R. apply S. apply in_map_iff in R. destruct R as (j & <- & J). apply mem_in in J. apply nth_In. tauto.
  Qed.
  Lemma mine_at : forall q, (q < List.length mem)%nat -> at_row mine q = at_row rows (nth q mem 0%nat).
  Proof. intros q L. unfold at_row at 1. rewrite (nth_indep _ _ (at_row rows 0%nat)) by (now rewrite map_length). apply map_nth. Qed.
  Lemma mine_part : forall q, (q < List.length mem)%nat -> ptext text (at_row mine q) = part.
  Proof. intros q L. rewrite mine_at by exact L. apply mem_in. now apply nth_In. Qed.
  Lemma mine_members : members text mine part = seq 0 (List.length mem).
  Proof.
    unfold members at 1. rewrite map_length.
    assert (K : forall l, (forall q, In q l -> (q < List.length mem)%nat) -> filter (fun q => part_eqb (ptext text (at_row mine q)) part) l = l).
    { induction l as [|q l IH]; intros H; [reflexivity|]. cbn [filter]. rewrite mine_part by (apply H; now left).
      assert (E : part_eqb part part = true) by now apply part_eqb_eq. rewrite E. f_equal. apply IH. intros. apply H. now right. }
    apply K. intros q Q. apply in_seq in Q. lia.
  Qed.
  Definition relabel (x : ent) : ent := {| e_id := nth (e_id x) mem 0%nat; e_keys := e_keys x; e_val := e_val x; e_part := e_part x |}.
  Lemma mem_as_map : mem = map (fun q => nth q mem 0%nat) (seq 0 (List.length mem)).
  Proof. generalize mem. induction l as [|x l IH]; [reflexivity|]. cbn [List.length seq map nth]. f_equal. rewrite <- seq_shift, map_map. exact IH. Qed.
  Definition vals_of (vs : list (option val)) : list (option val) := map (fun j => nth j vs None) mem.
  Lemma vals_of_nth : forall vs q, (q < List.length mem)%nat -> nth q (vals_of vs) None = nth (nth q mem 0%nat) vs None.
  Proof.
    intros vs q L. unfold vals_of. rewrite (nth_indep (map (fun j => nth j vs None) mem) None (nth 0%nat vs None)) by (rewrite map_length; lia).
    apply (map_nth (fun j => nth j vs None)).
  Qed.
  Lemma relabelled : forall vs, map (ent_at text rows vs) mem = map relabel (map (ent_at text mine (vals_of vs)) (members text mine part)).
  Proof.
    intros vs. rewrite mine_members, map_map. rewrite mem_as_map at 1. rewrite map_map. apply map_ext_in. intros q Q. apply in_seq in Q.
    unfold relabel, ent_at, mk. cbn [e_id e_keys e_val e_part]. rewrite mine_at, vals_of_nth by lia. reflexivity.
  Qed.
  Lemma sorted_relabelled : forall vs, map (ent_at text rows vs) (order_of text sort rows part) = map relabel (map (ent_at text mine (vals_of vs)) (order_of text sort mine part)).
  Proof.
    intros vs. rewrite <- !sorted_members by exact slices. rewrite relabelled. apply (proj2 slices). reflexivity.
  Qed.
  Lemma over_alone : forall f sp st vs k,
    feed f (winit f) (map r_args rows) = Ok (st, vs) -> feed f (winit f) (map r_args mine) = Ok (st, vals_of vs) ->
    nth_error mem k = Some i ->
    (forall a l l' fr, map e_keys l = map e_keys l' -> map e_val l = map e_val l' -> wdone f st a l fr = wdone f st a l' fr) ->
    over text loose wloose sort f sp (map row_of rows) (Z.of_nat i + 1) = over text loose wloose sort f sp (map row_of mine) (Z.of_nat k + 1).
  Proof.
    intros f sp st vs k F Fm Nk Bl.
    assert (Lk : (k < List.length mem)%nat) by (apply nth_error_Some; congruence).
    assert (Pk : ptext text (at_row mine k) = part) by now apply mine_part.
    rewrite (over_sound text loose wloose sort slices shp sho rows so f sp st vs i F Li).
    rewrite (over_sound text loose wloose sort slices shp sho mine mine_sound f sp st (vals_of vs) k Fm) by (now rewrite map_length).
    unfold order_at. rewrite Pk. rewrite sorted_relabelled.
    assert (Ec : ent_at text rows vs i = relabel (ent_at text mine (vals_of vs) k)).
    { unfold relabel, ent_at, mk. cbn [e_id e_keys e_val e_part]. rewrite mine_at, vals_of_nth by exact Lk. now rewrite (nth_error_nth _ _ 0%nat Nk). }
    rewrite Ec.
    assert (Il : forall x, In x (map (ent_at text mine (vals_of vs)) (order_of text sort mine part)) ->
       e_id (relabel x) = e_id (relabel (ent_at text mine (vals_of vs) k)) <-> e_id x = e_id (ent_at text mine (vals_of vs) k)).
    { intros x X. apply in_map_iff in X. destruct X as (q & <- & Q). apply order_in in Q; auto. destruct Q as [Q _]. rewrite map_length in Q.
      cbn [relabel ent_at mk e_id]. split; [|now intros ->]. apply NoDup_nth; auto. unfold members. apply NoDup_filter, seq_NoDup. }
    rewrite !bound_index_relabel by (try reflexivity; exact Il).
    assert (Zl : zlen (order_of text sort rows part) = zlen (order_of text sort mine part)).
    { pose proof (f_equal zlen (sorted_relabelled vs)) as Z. unfold zlen in Z. rewrite !map_length in Z. exact Z. }
    rewrite Zl. destruct (bound_index _ _ _ (snd (fst (frame_of sp)))); cbn [bind]; try reflexivity. destruct (bound_index _ _ _ (snd (frame_of sp))); cbn [bind]; try reflexivity.
    apply Bl; rewrite map_map; reflexivity.
  Qed.
  Definition mineb (j : nat) : bool := part_eqb (ptext text (at_row rows j)) part.
  Lemma mineb_spec : forall n, (n <= List.length rows)%nat -> forall j, In j (seq 0 n) -> mineb j = true <-> r_part (at_row rows j) = r_part (at_row rows i).
  Proof. intros n L j J. apply in_seq in J. unfold mineb. rewrite part_eqb_eq. apply (same_part text shp sho rows so); lia. Qed.
  Lemma mine_kept : forall l, keeps (fun r => r_part r = r_part (at_row rows i)) rows l -> l = mine.
  Proof.
    intros l K. pose proof (keeps_map _ _ (at_row rows) (fun r => r_part r = r_part (at_row rows i)) _ _ (keeps_filter _ _ _ _ (mineb_spec _ (le_n _)))) as Q.
    rewrite <- (rows_as_map rows) in Q. eapply keeps_unique; [exact K|exact Q].
  Qed.
  Lemma pre_kept : forall l, keeps (fun r => r_part r = r_part (at_row rows i)) (firstn i rows) l -> nth_error mem (List.length l) = Some i.
  Proof.
    intros l K. assert (Ln : (i <= List.length rows)%nat) by lia.
    pose proof (keeps_map _ _ (at_row rows) (fun r => r_part r = r_part (at_row rows i)) _ _ (keeps_filter _ _ _ _ (mineb_spec _ Ln))) as Q.
    rewrite <- (firstn_seq i (List.length rows) 0), <- firstn_map, <- (rows_as_map rows) in Q by lia.
    pose proof (keeps_unique _ _ _ _ _ K Q) as E. rewrite firstn_seq in E by lia.
    rewrite E, map_length. unfold members. change (fun i0 => part_eqb (ptext text (at_row rows i0)) part) with mineb. replace (List.length rows) with (i + S (List.length rows - S i))%nat by lia.
    rewrite seq_app. cbn [seq Nat.add]. rewrite filter_app. rewrite nth_error_app2 by lia. rewrite Nat.sub_diag. cbn [filter].
    assert (B : mineb i = true) by (unfold mineb; now apply part_eqb_eq). rewrite B. reflexivity.
  Qed.
End Alone.
