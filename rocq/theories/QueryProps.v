(** Column names in the generated SQL and what its queries and conditions mean
    (C83, C137-C142). *)
From Coq Require Import Ascii String List ZArith Lia Bool.
From Verif Require Import GoBase DecModel DecFacts QueryModel QuerySpec QueryProofs.
Import ListNotations.
Local Open Scope string_scope.

(** ** Names *)
Lemma lower_app a b : lower (a ++ b) = lower a ++ lower b.
Proof. induction a as [|c a IH]; [reflexivity|]. cbn. now rewrite IH. Qed.
Lemma lower_digits s : all_digits s = true -> lower s = s.
Proof.
  induction s as [|c s IH]; intros H; [reflexivity|]. cbn [all_digits lower] in *. apply andb_true_iff in H. destruct H as [A B]. rewrite (IH B). f_equal.
  clear -A. destruct c as [[] [] [] [] [] [] [] []]; try discriminate A; reflexivity.
Qed.
Lemma lower_dec z : lower (dec z) = dec z.
Proof.
  unfold dec. destruct (Z.ltb_spec z 0); [|apply lower_digits, udec_all_digits; assumption].
  cbn [lower]. rewrite lower_digits by (apply udec_all_digits; lia). reflexivity.
Qed.
Lemma digits_plain c s : is_digit c = false -> all_digits s = true -> has_char c s = false.
Proof.
  intros N. induction s as [|a s IH]; intros A; [reflexivity|]. cbn [all_digits has_char] in *. apply andb_true_iff in A. destruct A as [A B].
  rewrite (IH B), orb_false_r. apply Ascii.eqb_neq. intros ->. congruence.
Qed.
Lemma dec_no_hash z : has_char "#" (dec z) = false.
Proof.
  unfold dec. destruct (Z.ltb_spec z 0) as [L|L]; [|apply digits_plain; [reflexivity|now apply udec_all_digits]].
  cbn [has_char]. rewrite digits_plain; [reflexivity|reflexivity|apply udec_all_digits; lia].
Qed.
Lemma has_char_app c a b : has_char c (a ++ b) = has_char c a || has_char c b.
Proof. induction a as [|x a IH]; [reflexivity|]. cbn. rewrite IH. now rewrite orb_assoc. Qed.
Lemma last_hash a b x y : has_char "#" x = false -> has_char "#" y = false -> a ++ "#" ++ x = b ++ "#" ++ y -> x = y.
Proof.
  intros X Y. revert b. induction a as [|c a IH]; intros [|d b] E.
  - now injection E.
  - exfalso. cbn in E. assert (E' : x = b ++ String "#" y) by congruence. rewrite E', has_char_app in X. cbn in X. rewrite orb_true_r in X. discriminate.
  - exfalso. cbn in E. assert (E' : a ++ String "#" x = y) by congruence. rewrite <- E', has_char_app in Y. cbn in Y. rewrite orb_true_r in Y. discriminate.
  - cbn in E. apply (IH b). cbn. congruence.
Qed.
(** C83: the names written for two columns of a query differ, for SQLite too, which does not
    look at the case of letters. *)
Theorem c83_unique : forall names a b, in64 a -> in64 b -> a <> b -> same_name (with_id names a) (with_id names b) = false.
Proof.
  intros names a b A B N. unfold same_name, with_id. apply String.eqb_neq. rewrite !lower_app, !lower_dec. intros E. apply N, dec_inj; try assumption.
  exact (last_hash _ _ _ _ (dec_no_hash a) (dec_no_hash b) E).
Qed.
(** The names the user wrote need not differ. *)
Example c83_example : with_id (fun _ => "x#1") 1 = "x#1#1" /\ same_name (with_id (fun c => if Z.eqb c 1 then "K" else "k") 1) (with_id (fun c => if Z.eqb c 1 then "K" else "k") 2) = false /\
  same_name "K" "k" = true.
Proof. repeat split; reflexivity. Qed.

(** ** Queries *)
Lemma in64_inj names : forall a b, in64 a -> in64 b -> same_name (with_id names a) (with_id names b) = true -> a = b.
Proof.
  intros a b A B E. destruct (Z.eq_dec a b) as [->|N]; [reflexivity|]. rewrite c83_unique in E by assumption. discriminate.
Qed.
(** SQLite's own columns of json_each *)
Lemma no_json_id names : True -> forall c n, in64 c -> In n json_names -> same_name n (with_id names c) = false.
Proof.
  intros _ c n _ I. unfold same_name, with_id. apply String.eqb_neq. rewrite !lower_app. intros E. apply (f_equal (has_char "#")) in E.
  rewrite !has_char_app in E. cbn [lower has_char] in E. rewrite orb_true_r in E.
  cbn in I. repeat destruct I as [<-|I]; try discriminate E. destruct I.
Qed.
Lemma out_names names u cols : item_names (out_items u names cols) = map names cols.
Proof. induction cols as [|c r IH]; [reflexivity|]. cbn. now rewrite IH. Qed.
Lemma out_eval fn db names u env cols B b : pick cols B = Some b ->
  (forall c v, In c cols -> col c B = Some v -> lookup (u c) env = Some v) ->
  eval_items fn db env (out_items u names cols) = Some (map snd b).
Proof.
  intros P. apply every_forall2 in P. induction P as [|c p cols b F P IH]; intros H; [reflexivity|].
  destruct (col c B) as [v|] eqn:C; [|discriminate]. assert (p = (c, v)) by congruence. subst p. cbn [out_items map snd].
  rewrite ev_items_as, ev_col, (H c v (or_introl eq_refl) C). cbn [obind]. rewrite IH by (intros; apply H; [now right|assumption]). reflexivity.
Qed.
Lemma query_top fn db names u (D : Z -> Prop) (UN : Prop) s cols r rows :
  (forall a b, D a -> D b -> same_name (u a) (u b) = true -> a = b) ->
  (UN -> forall c n, D c -> In n json_names -> same_name n (u c) = false) ->
  wf_scan D UN [] [] s -> (forall c, In c cols -> In c (out s)) -> cols <> [] -> format_scan u names s [] = Some r ->
  mean_query fn db names s cols = Some rows -> forall t,
  (match fst r with RSelect q => t = KItem q KNil | RJoin t0 => t = KGroup t0 KNil | _ => False end) ->
  eval_query fn db [] (Select (out_items u names cols) (FJoins t) WNone None) = Some rows.
Proof.
  intros Inj Nj W Sub Ne F M t T. destruct r as [r m']. cbn [fst] in T. unfold mean_query in M.
  destruct (mean_scan fn db names [] s) as [l|] eqn:Ml; [|discriminate]. destruct (every (pick cols) l) as [l'|] eqn:E; [|discriminate].
  assert (rows = map (map snd) l') by congruence. subst rows.
  destruct (refine fn db names u D UN Inj Nj) as (_ & _ & R & _).
  destruct (R s [] [] [] r m' W ltac:(intros c []) ltac:(intros c []) ltac:(intros k x []) F) as [_ H].
  destruct (H [] [] l ltac:(intros c v []) Ml) as [K P]. clear H R.
  assert (Do : Forall D (out s)) by (apply Forall_forall; intros c I; apply (fresh_out D UN s [] [] W c I)).
  assert (G : exists srows, eval_group fn db [] t = Some srows /\ Forall2 (RR u D (out s)) l srows).
  { destruct r as [|t0|t0 e|q|ar]; try contradiction; subst t.
    - destruct P as (sr & Es & Rs & _). exact (group_ok fn db u D (out s) l sr t0 [] Es Rs).
    - destruct P as (N & Q & _). eexists. exact (item_ok fn db u D Inj (out s) l q [] K Do N Q). }
  destruct G as (srows & Eg & Rg). rewrite ev_select, ev_from_joins, Eg by (destruct cols; [congruence|discriminate]). cbn [obind].
  match goal with |- context [ofilter ?G srows] => replace (ofilter G srows) with (Some srows) by (symmetry; apply ofilter_always) end. cbn [obind].
  assert (Mo : omap (fun r => eval_items fn db [(r, [])] (out_items u names cols)) srows = Some (map (map snd) l')).
  { apply omap_forall2. pose proof (proj1 (every_forall2 _ _ _) E) as E2. pose proof (forall2_compose _ _ _ _ _ Rg E2) as C.
    clear -C Sub Do. induction C as [|zs z' srows l' (z & _ & [Kz Rz] & Pz) C IH]; cbn [map]; constructor; [|assumption].
    apply (out_eval fn db names u _ cols z); [assumption|]. intros c v Ic Cv. cbn [lookup].
    rewrite (Rz c) by (rewrite Forall_forall in Do; apply Do, Sub, Ic). now rewrite Cv. }
  match goal with |- context [omap ?G srows] => replace (omap G srows) with (Some (map (map (@snd Z val)) l')) by (symmetry; exact Mo) end. reflexivity.
Qed.

(** A query that SQLite accepts returns what the resolved query means, however its
    subqueries are nested and whatever columns of the queries around them they use.
    That it is accepted, and so C137, is in AcceptProps.v. *)
Lemma query_accepted : forall fn db names s cols q rows,
  wf_scan in64 True [] [] s -> (forall c, In c cols -> In c (out s)) -> cols <> [] ->
  query_sql names s cols = Some q -> mean_query fn db names s cols = Some rows ->
  eval_query fn db [] q = Some rows.
Proof.
  intros fn db names s cols q rows W Sub Ne Q M. unfold query_sql, format_query in Q.
  destruct (format_scan (with_id names) names s []) as [r|] eqn:F; [|discriminate]. cbn [obind] in Q.
  pose proof (query_top fn db names (with_id names) in64 True s cols r rows (in64_inj names) (no_json_id names) W Sub Ne F M) as T.
  destruct r as [[|t|t e|q0|ar] m]; try discriminate Q; cbn [fst] in *.
  - assert (q = Select (out_items (with_id names) names cols) (FJoins (KGroup t KNil)) WNone None) by congruence. subst. now apply T.
  - assert (q = Select (out_items (with_id names) names cols) (FJoins (KItem q0 KNil)) WNone None) by congruence. subst. now apply T.
Qed.

(** SELECT k, (SELECT v FROM u WHERE u.k = t.k) FROM t WHERE EXISTS (SELECT 1 FROM u WHERE u.k = t.k AND v > 5) *)
Definition ex_fn (f : string) (l : list val) : val :=
  if String.eqb f "equal" then match l with [Some a; Some b] => Some (if Z.eqb a b then 1%Z else 0%Z) | _ => None end
  else if String.eqb f "greater" then match l with [Some a; Some b] => Some (if Z.ltb b a then 1%Z else 0%Z) | _ => None end
  else if String.eqb f "and" then match l with [Some a; Some b] => Some (if (Z.eqb a 0 || Z.eqb b 0)%bool then 0%Z else 1%Z) | _ => None end
  else None.
Definition ex_db (t : string) : list frame :=
  if String.eqb t "t" then [[("k", Some 1%Z)]; [("k", Some 2%Z)]; [("k", Some 3%Z)]]
  else if String.eqb t "u" then [[("k", Some 2%Z); ("v", Some 20%Z)]; [("k", Some 3%Z); ("v", Some 4%Z)]]
  else [].
Definition ex_names (c : Z) : string :=
  if (Z.eqb c 1 || Z.eqb c 2 || Z.eqb c 5)%bool then "k" else if (Z.eqb c 3 || Z.eqb c 6)%bool then "v" else "$col1".
Definition eq2 (a b : Z) : expr := ECall "equal" (ECons (ECol a) (ECons (ECol b) ENil)).
Definition ex_exists : expr :=
  EExists (SProject (SFilter (STable "u" [2; 3]%Z) (ECall "and" (ECons (eq2 2 1) (ECons (ECall "greater" (ECons (ECol 3) (ECons (ELit (Some 5%Z)) ENil))) ENil))))
             (CCons 4 (ELit (Some 1%Z)) CNil) [4%Z]).
Definition ex_scalar : expr := EScalar (SProject (SFilter (STable "u" [5; 6]%Z) (eq2 5 1)) CNil [6%Z]).
Definition ex_scan : scan := SProject (SFilter (STable "t" [1%Z]) ex_exists) (CCons 7 ex_scalar CNil) [1; 7]%Z.
Ltac wf_step :=
  match goal with
  | |- True => exact I
  | |- _ /\ _ => split
  | H : _ /\ _ |- _ => destruct H
  | H : _ \/ _ |- _ => destruct H
  | H : False |- _ => destruct H
  | H : ?a = ?b |- _ => first [discriminate H | subst]
  | |- ~ _ => intro
  | |- forall _, _ => intro
  | |- in64 _ => unfold in64, two63; lia
  | |- NoDup _ => constructor
  | |- _ = _ => reflexivity
  | H : In _ _ |- _ => cbn in H
  | |- _ \/ _ => solve [intuition lia]
  | |- _ <> _ => discriminate
  end.
Ltac wf_tac := cbn; unfold fresh, apart; cbn; repeat wf_step.
Example c137_example :
  wf_scan in64 True [] [] ex_scan /\
  mean_query ex_fn ex_db ex_names ex_scan [1; 7]%Z = Some [[Some 2%Z; Some 20%Z]] /\
  obind (query_sql ex_names ex_scan [1; 7]%Z) (eval_query ex_fn ex_db []) = Some [[Some 2%Z; Some 20%Z]].
Proof. split; [wf_tac|]. split; reflexivity. Qed.

(** ** C138: DELETE and UPDATE, which write plain names *)
Lemma of_table_agree names cols (r : frame) b : of_table names cols r = Some b -> agree names cols [([r], [])] b.
Proof.
  intros H c v I C. unfold of_table in H. apply every_forall2 in H. cbn [lookup in_frames]. revert C I.
  induction H as [|d p cols b E H IH]; intros C I; [contradiction|]. destruct (in_frame (names d) r) as [x|] eqn:F; [|discriminate].
  assert (p = (d, x)) by congruence. subst p. unfold col in C. cbn [find fst] in C. destruct (d =? c)%Z eqn:Q.
  - apply Z.eqb_eq in Q. subst d. cbn in C. rewrite F. congruence.
  - apply IH; [exact C|]. destruct I as [->|I]; [rewrite Z.eqb_refl in Q; discriminate|assumption].
Qed.
Definition apart_names (names : Z -> string) (ids : list Z) : Prop := forall a b, In a ids -> In b ids -> same_name (names a) (names b) = true -> a = b.
(** None of them is called like a column of json_each. *)
Definition apart_json (names : Z -> string) (ids : list Z) : Prop := forall c n, In c ids -> In n json_names -> same_name n (names c) = false.
Lemma row_expr fn db names ids t cols w x m' : apart_names names ids -> wf (fun c => In c ids) (apart_json names ids) cols [] w -> incl cols ids ->
  format_expr names names w [] = Some (x, m') -> m' = [] /\
  forall r b v, In r (db t) -> of_table names cols r = Some b -> mean fn db names b w = Some v -> eval_expr fn db [([r], [])] x = Some v.
Proof.
  intros Inj W Sub F. destruct (refine fn db names names (fun c => In c ids) (apart_json names ids) Inj (fun H => H)) as (R & _).
  destruct (R w cols [] [] x m' W) as [E H]; auto; [intros c I; rewrite app_nil_r in I; now apply Sub|intros c I []|intros k y []|].
  split; [assumption|]. intros r b v _ T M. apply (H _ b); [|assumption]. now apply of_table_agree.
Qed.
(** Missing: columns of the same name, see c138_delete_refuted. *)
Theorem c138_delete_partial : forall fn db names ids t cols w x rows,
  apart_names names ids -> wf (fun c => In c ids) (apart_json names ids) cols [] w -> incl cols ids ->
  delete_sql names w = Some x -> mean_delete fn db names t cols w = Some rows -> delete_rows fn db t x = Some rows.
Proof.
  intros fn db names ids t cols w x rows Inj W Sub E M. unfold delete_sql in E.
  destruct (format_expr names names w []) as [[x0 m']|] eqn:F; [|discriminate]. assert (x0 = x) by (cbn in E; congruence). subst x0.
  destruct (row_expr fn db names ids t cols w x m' Inj W Sub F) as [_ H]. unfold mean_delete in M. unfold delete_rows.
  destruct (every (of_table names cols) (db t)) as [l|] eqn:T; [|discriminate].
  destruct (every (fun b => mean fn db names b w) l) as [vs|] eqn:V; [|discriminate].
  assert (O : omap (fun r => eval_expr fn db [([r], [])] x) (db t) = Some vs).
  { apply omap_forall2. apply every_forall2 in T. apply every_forall2 in V.
    assert (G : forall ds, incl ds (db t) -> forall l, Forall2 (fun r b => of_table names cols r = Some b) ds l -> forall vs, Forall2 (fun b v => mean fn db names b w = Some v) l vs ->
       Forall2 (fun r v => eval_expr fn db [([r], [])] x = Some v) ds vs).
    { induction ds as [|r ds IH]; intros Is l0 T0 vs0 V0; inversion T0; subst; inversion V0; subst; constructor.
      - eapply H; eauto. apply Is. now left.
      - eapply IH; eauto. intros z Iz. apply Is. now right. }
    eapply G; eauto. apply incl_refl. }
  rewrite O. cbn [obind]. rewrite <- M. reflexivity.
Qed.
Definition ex_names2 (c : Z) : string := if Z.eqb c 1 then "a" else if Z.eqb c 2 then "k" else if Z.eqb c 3 then "v" else "$col1".
Definition ex_db2 (t : string) : list frame := if String.eqb t "t" then [[("a", Some 1%Z)]; [("a", Some 2%Z)]] else ex_db t.
Example c138_delete_example :
  apart_names ex_names2 [1; 2; 3; 4]%Z /\ wf (fun c => In c [1; 2; 3; 4]%Z) (apart_json ex_names2 [1; 2; 3; 4]%Z) [1%Z] [] ex_exists /\
  mean_delete ex_fn ex_db2 ex_names2 "t" [1%Z] ex_exists = Some [[("a", Some 1%Z)]] /\
  obind (delete_sql ex_names2 ex_exists) (delete_rows ex_fn ex_db2 "t") = Some [[("a", Some 1%Z)]].
Proof.
  split; [|split; [wf_tac|split; reflexivity]].
  intros a b A B. cbn in A, B. repeat match goal with H : _ \/ _ |- _ => destruct H | H : False |- _ => destruct H end; subst; try reflexivity; discriminate.
Qed.

(** DELETE FROM t WHERE EXISTS (SELECT 1 FROM u WHERE u.k = t.k) removes every row of t as soon
    as u has a row. *)
Definition del_cond : expr := EExists (SProject (SFilter (STable "u" [2]%Z) (eq2 2 1)) (CCons 4 (ELit (Some 1%Z)) CNil) [4%Z]).
Definition del_table : query := Select (IAs (XCol "k") "k" INil) (FTable "u") WNone None.
Definition del_text : sexpr :=
  XExists (Select (IAs (XLit (Some 1%Z)) "$col1" INil) (FJoins (KItem del_table KNil))
             (WSome (XCall "equal" (XCons (XCol "k") (XCons (XCol "k") XNil)))) None).
Theorem c138_delete_refuted : exists x, delete_sql ex_names del_cond = Some x /\
  (forall fn db, (forall z, fn "equal" [Some z; Some z] = Some 1%Z) ->
     (forall r, In r (db "u") -> exists z, in_frame "k" r = Some (Some z)) -> db "u" <> [] -> delete_rows fn db "t" x = Some []) /\
  mean_delete ex_fn ex_db ex_names "t" [1%Z] del_cond = Some [[("k", Some 1%Z)]].
Proof.
  exists del_text. split; [reflexivity|]. split; [|reflexivity]. intros fn db Eq K Ne. unfold delete_rows, del_text.
  match goal with |- context [omap ?F (db "t")] => assert (O : omap F (db "t") = Some (map (fun _ => Some 1%Z) (db "t"))) end.
  { apply omap_forall2. induction (db "t") as [|r l IH]; cbn [map]; constructor; [|assumption]. clear IH.
    rewrite ev_exists.
    match goal with |- context [eval_query fn db ?env ?q] => assert (Q : exists l, eval_query fn db env q = Some l /\ l <> []) end.
    { rewrite ev_select, ev_from_joins by discriminate.
      set (env := [([r], [])]).
      assert (T : eval_group fn db env (KItem del_table KNil) =
                  Some (map (fun ru => [[("k", match in_frame "k" ru with Some v => v | None => None end)]]) (db "u"))).
      { unfold del_table. rewrite ev_group_item, ev_select, ev_from_table by discriminate. cbn [obind].
        match goal with |- context [ofilter ?G ?l] => replace (ofilter G l) with (Some l) by (symmetry; apply ofilter_always) end. cbn [obind].
        match goal with |- context [omap ?G ?l] => assert (M : omap G l = Some (map (fun ru => [match in_frame "k" ru with Some v => v | None => None end]) (db "u"))) end.
        { apply omap_forall2. clear Ne. induction (db "u") as [|ru lu IHu]; cbn [map]; constructor.
          - destruct (K ru (or_introl eq_refl)) as [z Z_]. rewrite ev_items_as, ev_col. cbn [lookup in_frames]. rewrite Z_. reflexivity.
          - apply IHu. intros r0 I0. apply K. now right. }
        rewrite M. cbn [obind]. rewrite ev_joins_nil. f_equal. unfold item_rows. cbn [page]. rewrite map_map. reflexivity. }
      rewrite T. cbn [obind].
      match goal with |- context [ofilter ?G ?l] => assert (Fl : ofilter G l = Some l) end.
      { clear Ne T. induction (db "u") as [|ru lu IHu]; [reflexivity|]. cbn [map ofilter].
        destruct (K ru (or_introl eq_refl)) as [z Z_]. rewrite ev_call, !ev_cons, !ev_col, ev_nil.
        assert (L : forall v als, lookup "k" (([[("k", v)]], als) :: env) = Some v) by reflexivity.
        rewrite !L, Z_. cbn [obind]. rewrite Eq. rewrite IHu by (intros r0 I0; apply K; now right). reflexivity. }
      rewrite Fl. cbn [obind].
      match goal with |- context [omap ?G ?l] => assert (M : omap G l = Some (map (fun _ => [Some 1%Z]) l)) end.
      { apply omap_forall2. clear. induction (db "u") as [|ru lu IHu]; cbn [map]; constructor; [reflexivity|exact IHu]. }
      rewrite M. cbn [obind]. eexists. split; [reflexivity|]. destruct (db "u"); [congruence|discriminate]. }
    destruct Q as (q & -> & Nq). cbn [obind]. destruct q; [congruence|reflexivity]. }
  rewrite O. cbn [obind]. f_equal. clear. induction (db "t") as [|r l IH]; [reflexivity|]. cbn. exact IH.
Qed.

Lemma same_sym a b : same_name a b = same_name b a.
Proof. unfold same_name. apply String.eqb_sym. Qed.
Lemma same_trans a b c : same_name a b = true -> same_name a c = same_name b c.
Proof. unfold same_name. intros E. apply String.eqb_eq in E. now rewrite E. Qed.
Lemma assign_map n v (r : frame) : NoDup (map (fun p => lower (fst p)) r) ->
  assign n v r = map (fun p => if same_name (fst p) n then (fst p, v) else p) r.
Proof.
  induction r as [|[k x] r IH]; intros N; [reflexivity|]. cbn [assign map fst]. inversion N; subst.
  destruct (same_name k n) eqn:E; [|now rewrite IH]. f_equal. symmetry. rewrite <- (map_id r) at 2. apply map_ext_in. intros [k' x'] I. cbn [fst].
  destruct (same_name k' n) eqn:E'; [|reflexivity]. exfalso. apply H1. apply in_map_iff. exists (k', x'). split; [|assumption]. cbn.
  unfold same_name in E, E'. apply String.eqb_eq in E, E'. congruence.
Qed.
Lemma set_keys names vs (r : frame) : map fst (set_cols names vs r) = map fst r.
Proof. unfold set_cols. rewrite map_map. apply map_ext. intros p. now destruct (find _ vs). Qed.
Lemma assign_set names ids vs : apart_names names ids -> forall r, incl (map fst vs) ids -> NoDup (map fst vs) -> NoDup (map (fun p => lower (fst p)) r) ->
  fold_left (fun acc p => assign (fst p) (snd p) acc) (map (fun q => (names (fst q), snd q)) vs) r = set_cols names vs r.
Proof.
  intros Inj. induction vs as [|[c v] vs IH]; intros r Sub N R.
  - cbn. unfold set_cols. cbn [find]. now rewrite map_id.
  - cbn [map fold_left fst snd]. rewrite assign_map by assumption. inversion N; subst. rewrite IH; auto.
    + unfold set_cols. rewrite map_map. apply map_ext. intros [k x]. cbn [fst snd find]. rewrite (same_sym (names c) k).
      destruct (same_name k (names c)) eqn:E; cbn [fst].
      * destruct (find _ vs) as [[d y]|] eqn:F; [|reflexivity]. exfalso. apply find_some in F. destruct F as [I S_]. cbn [fst] in S_. apply H1.
        assert (c = d) as ->; [|change d with (fst (d, y)); now apply in_map].
        apply Inj; [apply Sub; now left|apply Sub; right; change d with (fst (d, y)); now apply in_map|].
        rewrite same_sym in E. rewrite (same_trans _ _ _ E). now rewrite same_sym.
      * destruct (find _ vs); reflexivity.
    + intros d I. apply Sub. now right.
    + rewrite map_map. erewrite map_ext; [exact R|]. intros [k x]. cbn [fst]. now destruct (same_name k (names c)).
Qed.
Definition plain_rows (db : string -> list frame) (t : string) : Prop := forall r, In r (db t) -> NoDup (map (fun p => lower (fst p)) r).
(** Missing: columns of the same name, and FROM (C142). *)
Theorem c138_update_partial : forall fn db names ids t cols l w its x rows,
  apart_names names ids -> incl cols ids -> incl (map fst l) ids -> NoDup (map fst l) -> plain_rows db t ->
  wf (fun c => In c ids) (apart_json names ids) cols [] w -> (forall p, In p l -> wf (fun c => In c ids) (apart_json names ids) cols [] (snd p)) ->
  update_sql names l None w = Some (its, x) -> mean_update fn db names t cols l w = Some rows ->
  update_rows fn db t its x = Some rows.
Proof.
  intros fn db names ids t cols l w its x rows Inj Sub Sl Nd Pl W Wl E M. unfold update_sql in E.
  destruct (update_items names l []) as [[its0 m0]|] eqn:U; [|discriminate]. cbn [obind fst snd] in E.
  assert (Hi : m0 = [] /\ forall r b vs, In r (db t) -> of_table names cols r = Some b -> values fn db names b l = Some vs ->
     omap (fun p => obind (eval_expr fn db [([r], [])] (snd p)) (fun x => Some (fst p, x))) its0 = Some (map (fun q => (names (fst q), snd q)) vs)).
  { clear -U Inj Sub Wl. revert its0 m0 U. induction l as [|[c e] l IH]; intros its0 m0 U; cbn [update_items] in U.
    - assert (its0 = [] /\ m0 = []) as [-> ->] by (split; congruence). split; [reflexivity|]. intros r b vs _ _ V. cbn in V. assert (vs = []) by congruence. now subst.
    - destruct (format_expr names names e []) as [[xe m1]|] eqn:F; [|discriminate]. cbn [obind fst snd] in U.
      destruct (row_expr fn db names ids t cols e xe m1 Inj (Wl _ (or_introl eq_refl)) Sub F) as [-> He].
      destruct (update_items names l []) as [[its1 m2]|] eqn:U1; [|discriminate]. cbn [obind fst snd] in U.
      destruct (IH ltac:(intros p I; apply Wl; now right) its1 m2 eq_refl) as [-> Hl].
      assert (its0 = (names c, xe) :: its1 /\ m0 = []) as [-> ->] by (split; congruence). split; [reflexivity|].
      intros r b vs I T V. unfold values in V. rewrite every_cons in V. cbn [fst snd] in V.
      destruct (mean fn db names b e) as [v|] eqn:Me; [|discriminate].
      match type of V with context [every ?G l] => destruct (every G l) as [vs'|] eqn:V' end; [|discriminate].
      assert (vs = (c, v) :: vs') by congruence. subst. cbn [omap map fst snd]. rewrite (He r b v I T Me). cbn [obind].
      rewrite (Hl r b vs' I T V'). reflexivity. }
  destruct Hi as [-> Hi]. destruct (format_expr names names w []) as [[x0 m1]|] eqn:F; [|discriminate]. cbn [obind fst snd] in E.
  assert (its0 = its /\ x0 = x) as [-> ->] by (split; congruence).
  destruct (row_expr fn db names ids t cols w x m1 Inj W Sub F) as [_ Hw].
  unfold mean_update in M. unfold update_rows. apply omap_forall2. apply every_forall2 in M.
  assert (G : forall r r', In r (db t) -> (match of_table names cols r with
                    | Some b => match mean fn db names b w with
                        | Some v => if holds v then match values fn db names b l with Some vs => Some (set_cols names vs r) | None => None end else Some r
                        | None => None end
                    | None => None end) = Some r' -> update_row fn db its x r = Some r').
  { intros r r' I H. destruct (of_table names cols r) as [b|] eqn:T; [|discriminate]. destruct (mean fn db names b w) as [v|] eqn:Mw; [|discriminate].
    unfold update_row. rewrite (Hw r b v I T Mw). cbn [obind]. change (truth v) with (holds v). destruct (holds v); [|assumption].
    destruct (values fn db names b l) as [vs|] eqn:V; [|discriminate]. rewrite (Hi r b vs I T V). cbn [obind].
    assert (Kv : map fst vs = map fst l).
    { unfold values in V. apply every_forall2 in V. clear -V. induction V as [|p q l vs E V IH]; [reflexivity|]. cbn. rewrite IH.
      destruct (mean fn db names b (snd p)); [|discriminate]. assert (q = (fst p, v)) by congruence. now subst q. }
    rewrite (assign_set names ids vs Inj r); auto; rewrite Kv; assumption. }
  clear -M G. induction M as [|r r' l1 l2 H M IH]; constructor; [apply G; [now left|exact H]|apply IH; intros; apply G; [now right|assumption]].
Qed.
Example c138_update_example :
  let names := fun c => if Z.eqb c 1 then "a" else if Z.eqb c 8 then "b" else if Z.eqb c 5 then "k" else "v" in
  let db := fun t => if String.eqb t "t" then [[("a", Some 1%Z); ("b", Some 7%Z)]; [("a", Some 2%Z); ("b", Some 7%Z)]] else ex_db t in
  apart_names names [1; 5; 6; 8]%Z /\ plain_rows db "t" /\ wf (fun c => In c [1; 5; 6; 8]%Z) (apart_json names [1; 5; 6; 8]%Z) [1; 8]%Z [] ex_scalar /\
  mean_update ex_fn db names "t" [1; 8]%Z [(8%Z, ex_scalar)] (ELit (Some 1%Z)) =
    Some [[("a", Some 1%Z); ("b", None)]; [("a", Some 2%Z); ("b", Some 20%Z)]] /\
  obind (update_sql names [(8%Z, ex_scalar)] None (ELit (Some 1%Z))) (fun p => update_rows ex_fn db "t" (fst p) (snd p)) =
    Some [[("a", Some 1%Z); ("b", None)]; [("a", Some 2%Z); ("b", Some 20%Z)]].
Proof.
  cbv zeta. split; [|split; [|split; [wf_tac|split; reflexivity]]].
  - intros a b A B. cbn in A, B. repeat match goal with H : _ \/ _ |- _ => destruct H | H : False |- _ => destruct H end; subst; try reflexivity; discriminate.
  - intros r I. cbn in I. repeat match goal with H : _ \/ _ |- _ => destruct H | H : False |- _ => destruct H end; subst; repeat constructor; cbn; intuition discriminate.
Qed.

(** ** C142: UPDATE ... FROM *)
(** UPDATE t SET v = u.v FROM u WHERE u.k = t.k, u.k and t.k being called k and both v v, gives
    every row its own value. *)
Definition upd_names (c : Z) : string := if (Z.eqb c 1 || Z.eqb c 3)%bool then "k" else "v".
Definition upd_text : list (string * sexpr) * sexpr := ([("v", XCol "v")], XCall "equal" (XCons (XCol "k") (XCons (XCol "k") XNil))).
Lemma assign_same n v r : in_frame n r = Some v -> assign n v r = r.
Proof.
  unfold in_frame. induction r as [|[k x] r IH]; intros E; [discriminate|]. cbn [assign find fst] in *. destruct (same_name k n).
  - cbn in E. congruence.
  - now rewrite IH.
Qed.
Theorem c142_same_names_refuted :
  update_sql upd_names [(2%Z, ECol 4)] (Some (STable "u" [3; 4]%Z)) (eq2 3 1) = Some upd_text /\
  (forall fn db, (forall v, fn "equal" [v; v] = Some 1%Z \/ fn "equal" [v; v] = None) ->
    (forall r, In r (db "t") -> in_frame "k" r <> None /\ in_frame "v" r <> None) ->
    update_rows fn db "t" (fst upd_text) (snd upd_text) = Some (db "t")) /\
  mean_update_from ex_fn (fun t => if String.eqb t "t" then [[("k", Some 2%Z); ("v", Some 7%Z)]] else ex_db t) upd_names "t" [1; 2]%Z
    [(2%Z, ECol 4)] (STable "u" [3; 4]%Z) (eq2 3 1) = Some [[("k", Some 2%Z); ("v", Some 20%Z)]].
Proof.
  split; [reflexivity|]. split; [|reflexivity]. intros fn db Eq K. unfold update_rows. apply omap_forall2.
  induction (db "t") as [|r l IH]; constructor; [|apply IH; intros; apply K; now right].
  destruct (K r (or_introl eq_refl)) as [Kk Kv]. destruct (in_frame "k" r) as [k|] eqn:Ek; [|congruence]. destruct (in_frame "v" r) as [v|] eqn:Ev; [|congruence].
  unfold update_row, upd_text. cbn [fst snd]. rewrite ev_call, !ev_cons, !ev_col, ev_nil. cbn [lookup in_frames]. rewrite Ek. cbn [obind].
  destruct (Eq k) as [-> | ->]; [|reflexivity]. cbn [truth Z.eqb negb omap obind fst snd]. rewrite ev_col. cbn [lookup in_frames]. rewrite Ev. cbn [obind fold_left fst snd].
  now rewrite assign_same.
Qed.
(** With other names the statement is refused: no table of it has a column of FROM. *)
Theorem c142_other_names_refuted : forall names fn db l f c d its x,
  update_sql names l (Some f) (eq2 c d) = Some (its, x) -> db "t" <> [] -> (forall r, In r (db "t") -> in_frame (names c) r = None) ->
  update_rows fn db "t" its x = None.
Proof.
  intros names fn db l f c d its x E Ne K. unfold update_sql in E. destruct (update_items names l []) as [[its0 m]|]; [|discriminate]. cbn [obind fst snd] in E.
  unfold eq2 in E. rewrite fm_call, fm_cons, fm_col in E. destruct (get m (names c)) eqn:G; [discriminate|]. cbn [obind fst snd] in E. rewrite fm_cons, fm_col in E.
  destruct (get m (names d)) eqn:G'; [discriminate|]. cbn [obind fst snd] in E. rewrite fm_nil in E. cbn [obind fst snd] in E.
  assert (x = XCall "equal" (XCons (XCol (names c)) (XCons (XCol (names d)) XNil))) by congruence. subst x.
  unfold update_rows. destruct (db "t") as [|r rs]; [congruence|]. cbn [omap]. unfold update_row at 1. rewrite ev_call, !ev_cons, !ev_col. cbn [lookup in_frames].
  rewrite (K r (or_introl eq_refl)). reflexivity.
Qed.
Example c142_example : exists p, update_sql (fun c => if Z.eqb c 3 then "id" else "k") [] (Some (STable "u" [3%Z])) (eq2 3 1) = Some p /\
  in_frame "id" [("k", Some 2%Z)] = None.
Proof. eexists. split; reflexivity. Qed.

(** ** C141: a scalar subquery of several rows *)
Theorem c141_refuted : forall fn db names s c r1 r2 rest d v tl q,
  in64 c -> wf_scan in64 True [] [c] s -> mean_scan fn db names [] s = Some (r1 :: r2 :: rest) -> r1 = (d, v) :: tl ->
  query_sql names (SProject SSingle (CCons c (EScalar s) CNil) [c]) [c] = Some q ->
  mean_query fn db names (SProject SSingle (CCons c (EScalar s) CNil) [c]) [c] = None /\ eval_query fn db [] q = Some [[v]].
Proof.
  intros fn db names s c r1 r2 rest d v tl q C W M Er Q. split.
  - unfold mean_query. rewrite mn_project. change (mean_scan fn db names [] SSingle) with (Some [[] : binding]). cbv beta iota. rewrite every_cons. cbn [app].
    rewrite mn_ccons, mn_scalar, M. reflexivity.
  - unfold query_sql, format_query in Q. rewrite fm_project, fm_ccons, fm_scalar in Q.
    destruct (format_scan (with_id names) names s []) as [[r m']|] eqn:F; [|discriminate]. cbn [obind fst snd] in Q.
    destruct r as [|t|t e|q0|ar]; try discriminate Q. cbn [obind fst snd] in Q. rewrite fm_cnil in Q. cbn [obind] in Q. rewrite fm_single in Q. cbn [obind fst snd take_items] in Q.
    destruct (refine fn db names (with_id names) in64 True (in64_inj names) (no_json_id names)) as (_ & _ & R & _).
    destruct (R s [] [c] [] (RSelect q0) m' W) as [-> H]; auto; [intros e [->|[]]; assumption|intros e []|intros k x []|].
    assert (G : get (set [] (with_id names c) (XScalar q0)) (with_id names c) = Some (XScalar q0)).
    { unfold get, set. cbn [del filter find fst]. now rewrite String.eqb_refl. }
    rewrite G in Q. cbn [input_from fst snd obind] in Q.
    assert (Eq : q = Select (out_items (with_id names) names [c]) (FJoins (KItem (Select (IAs (XScalar q0) (with_id names c) INil) FNone WNone None) KNil)) WNone None) by congruence.
    subst q. destruct (H [([], [])] [] _ ltac:(intros e x []) M) as (_ & _ & Ev & _).
    rewrite ev_select, ev_from_joins, ev_group_item, ev_select, ev_from_none by discriminate.
    cbn [obind ofilter truth Z.eqb negb omap]. rewrite ev_items_as, ev_scalar.
    match goal with |- context [eval_query fn db ?e q0] => replace (eval_query fn db e q0) with (Some (map (map (@snd Z val)) (r1 :: r2 :: rest))) by (symmetry; exact Ev) end.
    subst r1. cbn [map snd obind]. rewrite ev_items_nil. cbn [obind]. rewrite ev_joins_nil. cbn [obind page query_names item_names item_rows map combine].
    cbn [ofilter obind truth Z.eqb negb omap out_items]. rewrite ev_items_as, ev_col. cbn [lookup in_frames]. unfold in_frame. cbn [find fst snd].
    assert (Sm : same_name (with_id names c) (with_id names c) = true) by (unfold same_name; apply String.eqb_refl). rewrite Sm. reflexivity.
Qed.
Example c141_example :
  mean_scan ex_fn ex_db ex_names [] (SProject (STable "u" [3%Z]) CNil [3%Z]) = Some [[(3%Z, Some 20%Z)]; [(3%Z, Some 4%Z)]] /\
  obind (query_sql ex_names (SProject SSingle (CCons 4 (EScalar (SProject (STable "u" [3%Z]) CNil [3%Z])) CNil) [4%Z]) [4%Z]) (eval_query ex_fn ex_db []) = Some [[Some 20%Z]].
Proof. split; reflexivity. Qed.

(** ** C140: a condition on a query with LIMIT *)
(** SELECT k FROM (SELECT k FROM t LIMIT 2) WHERE k = 1 becomes ... LIMIT 2 WHERE ... *)
Definition lim_scan : scan := SProject (SFilter (SLimit (SProject (STable "t" [1%Z]) CNil [1%Z]) 2 None [1%Z]) (ECall "equal" (ECons (ECol 1) (ECons (ELit (Some 1%Z)) ENil)))) CNil [1%Z].
Theorem c140_refuted : wf_scan in64 True [] [] lim_scan /\
  mean_query ex_fn ex_db ex_names lim_scan [1%Z] = Some [[Some 1%Z]] /\ query_sql ex_names lim_scan [1%Z] = None.
Proof. split; [wf_tac|]. split; reflexivity. Qed.
(** A condition on a query with a WHERE of its own is not a problem. *)
Example c140_example :
  let w := SProject (SFilter (SProject (SFilter (STable "t" [1%Z]) (ECall "greater" (ECons (ECol 1) (ECons (ELit (Some 1%Z)) ENil)))) CNil [1%Z])
             (ECall "greater" (ECons (ELit (Some 3%Z)) (ECons (ECol 1) ENil)))) CNil [1%Z] in
  obind (query_sql ex_names w [1%Z]) (eval_query ex_fn ex_db []) = Some [[Some 2%Z]].
Proof. reflexivity. Qed.

(** ** C139: a join on the right of a join *)
Lemma forall2_len {A B} (R : A -> B -> Prop) l l' : Forall2 R l l' -> length l = length l'.
Proof. intros H. induction H; cbn; congruence. Qed.
Lemma table_item fn db names env t cols rows : cols <> [] -> every (of_table names cols) (db t) = Some rows ->
  eval_query fn db env (Select (table_items (with_id names) names cols) (FTable t) WNone None) = Some (map (map snd) rows).
Proof. intros Ne M. now apply (table_ok fn db names (with_id names) env t cols rows). Qed.
Lemma joined_none on ln rn l : joined_rows JInner on ln rn l [] = Some [].
Proof.
  assert (H : join_rows JInner on rn l [] = Some []) by (induction l as [|a l IH]; [reflexivity|]; cbn; now rewrite IH).
  unfold joined_rows. rewrite H. reflexivity.
Qed.
Lemma joined_always k ln rn l r : exists x, joined_rows k always ln rn l r = Some x.
Proof.
  assert (J : exists x, join_rows k always rn l r = Some x).
  { induction l as [|a l [x IH]]; [now exists []|]. cbn [join_rows]. unfold pairs_on. rewrite ofilter_always, IH. cbn [obind]. eauto. }
  assert (R : exists x, right_rows k always ln l r = Some x).
  { clear J. induction r as [|b r [x IH]]; [exists []; now destruct k|]. destruct k; cbn [right_rows]; eauto.
    all: assert (O : omap (fun a => always (a ++ b)%list) l = Some (map (fun _ => Some 1%Z) l)) by (clear; induction l as [|a l IH]; [reflexivity|]; cbn [omap map]; rewrite IH; reflexivity).
    all: rewrite O, IH; cbn [obind]; eauto. }
  destruct J as [x Jx], R as [y Ry]. unfold joined_rows. rewrite Jx, Ry. cbn [obind]. eauto.
Qed.
(** a LEFT JOIN (b CROSS JOIN c) ON e has a row for every row of a; the generated query has none
    when c is empty. *)
Theorem c139_left_refuted : forall fn db names ta tb tc ca cb cc e q cols rows,
  ca <> [] -> cb <> [] -> cc <> [] -> db tc = [] -> db tb <> [] -> every (of_table names cb) (db tb) <> None ->
  query_sql names (SJoin JLeft (STable ta ca) (SCross (STable tb cb) (STable tc cc)) e) cols = Some q -> cols <> [] ->
  mean_query fn db names (SJoin JLeft (STable ta ca) (SCross (STable tb cb) (STable tc cc)) e) cols = Some rows ->
  length rows = length (db ta) /\ eval_query fn db [] q = Some [].
Proof.
  intros fn db names ta tb tc ca cb cc e q cols rows Na Nb Nc Ec Eb Tb Q Ne M. unfold mean_query in M. rewrite mn_join, mn_cross, !mn_table in M.
  destruct (every (of_table names ca) (db ta)) as [a|] eqn:A; [|discriminate]. destruct (every (of_table names cb) (db tb)) as [b|] eqn:B; [|congruence].
  rewrite Ec in M. change (every (of_table names cc) []) with (Some ([] : list binding)) in M.
  cbv beta iota in M.
  match type of M with context [flat_map ?G b] => assert (Fm : flat_map G b = []) by (clear; induction b; [reflexivity|assumption]) end.
  rewrite Fm in M. cbn [map] in M.
  assert (El : forall l, every (fun x : binding => match every (fun z => mean fn db names (z ++ [])%list e) [] with
     | Some vs => Some match where_true ([] : list binding) vs with [] => [(x ++ map (fun c => (c, None)) (out (SCross (STable tb cb) (STable tc cc))))%list] | m => m end
     | None => None end) l = Some (map (fun x => [(x ++ map (fun c => (c, None)) (out (SCross (STable tb cb) (STable tc cc))))%list]) l)).
  { induction l as [|x l IH]; [reflexivity|]. rewrite every_cons, IH. reflexivity. }
  split.
  - match type of M with match match ?EV with Some _ => _ | None => _ end with Some _ => _ | None => _ end = _ =>
      assert (X : EV = Some (map (fun x => [(x ++ map (fun c => (c, None)) (out (SCross (STable tb cb) (STable tc cc))))%list]) a)) by apply El end.
    rewrite X in M. clear El X. cbn [every fold_right concat] in M. rewrite app_nil_r in M. apply every_forall2 in A. apply forall2_len in A.
    match type of M with match ?EV with Some _ => _ | None => _ end = _ => destruct EV as [l'|] eqn:P end; [|discriminate].
    apply every_forall2 in P. apply forall2_len in P. assert (rows = map (map snd) l') by congruence. subst rows. rewrite map_length. etransitivity; [symmetry; exact P|]. etransitivity; [|symmetry; exact A].
    clear. induction a as [|x a IH]; [reflexivity|]. cbn [map concat app length]. now rewrite IH.
  - unfold query_sql, format_query in Q. rewrite fm_join, fm_table in Q. cbn [obind fst snd] in Q. rewrite fm_cross, !fm_table in Q. cbn [obind fst snd join_side] in Q. rewrite fm_table in Q. cbn [obind fst snd join_side kapp] in Q.
    destruct (format_expr (with_id names) names e []) as [[x m]|]; [|discriminate]. cbn [obind fst snd] in Q.
    match type of Q with Some ?X = _ => assert (Eq : q = X) by congruence end. subst q.
    rewrite ev_select, ev_from_joins, ev_group_group, ev_group_item by (destruct cols; [congruence|discriminate]).
    rewrite (table_item fn db names _ ta ca a Na A). cbn [obind]. rewrite ev_joins_join, ev_right_item, (table_item fn db names _ tb cb b Nb B). cbn [obind].
    match goal with |- context [joined_rows JLeft always ?an ?n ?l0 ?r0] => destruct (joined_always JLeft an n l0 r0) as [jr Ej]; rewrite Ej end. cbn [obind].
    rewrite ev_joins_cross, ev_right_item, (table_item fn db names _ tc cc [] Nc); [|now rewrite Ec]. cbn [obind map item_rows]. rewrite joined_none.
    cbn [obind]. rewrite ev_joins_nil. cbn [obind group_rows map]. rewrite ev_joins_nil. reflexivity.
Qed.
Example c139_left_example :
  let s := SJoin JLeft (STable "t" [1%Z]) (SCross (STable "u" [2; 3]%Z) (STable "empty" [4%Z])) (eq2 1 2) in
  mean_query ex_fn ex_db ex_names s [1; 2]%Z = Some [[Some 1%Z; None]; [Some 2%Z; None]; [Some 3%Z; None]] /\
  obind (query_sql ex_names s [1; 2]%Z) (eval_query ex_fn ex_db []) = Some [].
Proof. split; reflexivity. Qed.

(** a JOIN (b JOIN c ON e) ON f is refused: ... ON e ON f. *)
Theorem c139_on_refuted : forall fn db names ta tb tc ca cb cc k k' e f q cols,
  query_sql names (SJoin k (STable ta ca) (SJoin k' (STable tb cb) (STable tc cc) e) f) cols = Some q -> eval_query fn db [] q = None.
Proof.
  intros fn db names ta tb tc ca cb cc k k' e f q cols Q. unfold query_sql, format_query in Q. rewrite fm_join, fm_table in Q. cbn [obind fst snd] in Q.
  rewrite fm_join, !fm_table in Q. cbn [obind fst snd join_side] in Q. rewrite fm_table in Q. cbn [obind fst snd join_side kapp] in Q.
  destruct (format_expr (with_id names) names e []) as [[x m]|]; [|discriminate]. cbn [obind fst snd join_side kapp] in Q.
  destruct (format_expr (with_id names) names f m) as [[y m']|]; [|discriminate]. cbn [obind fst snd kapp] in Q.
  match type of Q with Some ?X = _ => assert (Eq : q = X) by congruence end. subst q.
  destruct cols as [|c cols]; [apply ev_select_nil|].
  rewrite ev_select, ev_from_joins, ev_group_group, ev_group_item by discriminate.
  destruct (eval_query fn db [] _) as [la|]; [|reflexivity]. cbn [obind]. rewrite ev_joins_join, ev_right_item.
  destruct (eval_query fn db [] _) as [lb|]; [|reflexivity]. cbn [obind]. destruct (joined_rows k always _ _ _ _) as [lj|]; [|reflexivity]. cbn [obind].
  rewrite ev_joins_join, ev_right_item. destruct (eval_query fn db [] _) as [lc|]; [|reflexivity]. cbn [obind].
  destruct (joined_rows k' _ _ _ _ _) as [lk|]; reflexivity.
Qed.
Example c139_on_example :
  let s := SJoin JInner (STable "t" [1%Z]) (SJoin JInner (STable "u" [2; 3]%Z) (STable "t" [5%Z]) (eq2 2 5)) (eq2 1 2) in
  mean_query ex_fn ex_db ex_names s [1; 3]%Z = Some [[Some 2%Z; Some 20%Z]; [Some 3%Z; Some 4%Z]] /\ query_sql ex_names s [1; 3]%Z <> None.
Proof. split; [reflexivity|]. intros H. vm_compute in H. discriminate. Qed.
(** Joins that nest on the left, as those written in a row do, are as in C137. *)
Theorem c139_left_deep_partial : forall fn db names l t cols k e q out_cols rows,
  wf_scan in64 True [] [] (SJoin k l (STable t cols) e) -> out_cols <> [] ->
  (forall c, In c out_cols -> In c (out l) \/ In c cols) ->
  query_sql names (SJoin k l (STable t cols) e) out_cols = Some q ->
  mean_query fn db names (SJoin k l (STable t cols) e) out_cols = Some rows -> eval_query fn db [] q = Some rows.
Proof.
  intros fn db names l t cols k e q oc rows W Ne I Q M. apply (query_accepted fn db names _ oc q rows W); try assumption.
  intros c Ic. cbn [out]. apply in_or_app. now apply I.
Qed.

Print Assumptions c83_unique.
Print Assumptions c138_delete_partial.
Print Assumptions c138_delete_refuted.
Print Assumptions c138_update_partial.
Print Assumptions c142_same_names_refuted.
Print Assumptions c142_other_names_refuted.
Print Assumptions c141_refuted.
Print Assumptions c140_refuted.
Print Assumptions c139_left_refuted.
Print Assumptions c139_on_refuted.
Print Assumptions c139_left_deep_partial.
