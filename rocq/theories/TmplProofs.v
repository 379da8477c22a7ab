(** Proofs about functions with ANY TYPE arguments. *)
From Coq Require Import Ascii String List ZArith Lia Bool.
From Verif Require Import GoBase TmplModel TmplSpec.
Import ListNotations.
Local Open Scope string_scope.

(** ** Types *)
Fixpoint ty_ind' (P : ty -> Prop) (s : forall k, P (Scalar k)) (a : forall t, P t -> P (Array t))
  (r : forall fs, Forall (fun f => P (snd f)) fs -> P (Struct fs)) (t : ty) : P t :=
  match t with
  | Scalar k => s k
  | Array t => a t (ty_ind' P s a r t)
  | Struct fs => r fs ((fix go (fs : list (string * ty)) : Forall (fun f => P (snd f)) fs :=
                          match fs with [] => Forall_nil _ | f :: fs => Forall_cons f (ty_ind' P s a r (snd f)) (go fs) end) fs)
  end.
Lemma ty_eqb_eq a : forall b, ty_eqb a b = true <-> a = b.
Proof.
  induction a as [k|t IH|fs IH] using ty_ind'; intros b.
  - destruct b; cbn; [|split; discriminate..]. rewrite String.eqb_eq. split; intros E; congruence.
  - destruct b; cbn [ty_eqb]; [split; discriminate| |split; discriminate]. rewrite IH. split; intros E; congruence.
  - destruct b as [|?|gs]; [split; discriminate..|]. revert gs. induction IH as [|[n x] fs H _ IHl]; intros [|[m y] gs].
    + split; reflexivity.
    + split; discriminate.
    + split; discriminate.
    + cbn [snd] in H. specialize (IHl gs). cbn [ty_eqb] in IHl |- *. rewrite !andb_true_iff, String.eqb_eq, H, IHl. split.
      * intros ((-> & ->) & E). congruence.
      * intros E. assert (n = m /\ x = y /\ fs = gs) as (-> & -> & ->) by (repeat split; congruence). tauto.
Qed.
Lemma ty_eqb_refl a : ty_eqb a a = true.
Proof. now apply ty_eqb_eq. Qed.

Lemma format_named t : named t -> format_type t = sql_type t.
Proof.
  induction t as [k|t IH|fs IH] using ty_ind'; intros N; [reflexivity| |].
  - cbn. rewrite IH; [reflexivity|now inversion N].
  - assert (F : Forall (fun f => fst f <> "" /\ named (snd f)) fs) by now inversion N. cbn [format_type sql_type]. clear N.
    match goal with |- _ ++ String.concat _ ?a ++ _ = _ ++ String.concat _ ?b ++ _ => assert (E : a = b); [|now rewrite E] end.
    induction IH as [|[n x] fs H _ IHl]; [reflexivity|]. pose proof (Forall_inv F) as (Nn & Nx). apply Forall_inv_tail in F. cbn [map fst snd] in *.
    rewrite (H Nx), (IHl F). destruct n; [contradiction|reflexivity].
Qed.

(** ** Empty quotes *)
Lemma contains_here p s : contains p (p ++ s) = true.
Proof.
  assert (E : String.prefix p (p ++ s) = true). { induction p as [|a p IH]; [now destruct s|]. cbn. now destruct (ascii_dec a a). }
  destruct p as [|a p]; [destruct s; reflexivity|]. change ((String a p ++ s)) with (String a (p ++ s)) in *. cbn [contains]. now rewrite E.
Qed.
Lemma contains_app p s t : contains p t = true -> contains p (s ++ t) = true.
Proof. intros H. induction s as [|a s IH]; [exact H|]. cbn. rewrite IH. apply orb_true_r. Qed.
Lemma prefix_app p s t : String.prefix p s = true -> String.prefix p (s ++ t) = true.
Proof.
  revert s. induction p as [|a p IH]; intros s H; [now destruct (s ++ t)|]. destruct s as [|b s]; [discriminate|]. cbn in *.
  destruct (ascii_dec a b); [now apply IH|discriminate].
Qed.
Lemma contains_app_l p s t : contains p s = true -> contains p (s ++ t) = true.
Proof.
  induction s as [|a s IH]; cbn [contains].
  - intros H. rewrite orb_false_r in H. pose proof (prefix_app p "" t H) as E. cbn [append] in *. destruct t; cbn [contains]; now rewrite E.
  - intros H. apply orb_true_iff in H. change (String a s ++ t) with (String a (s ++ t)). cbn [contains]. destruct H as [H|H].
    + pose proof (prefix_app p (String a s) t H) as E. change (String a s ++ t) with (String a (s ++ t)) in E. now rewrite E.
    + rewrite (IH H). apply orb_true_r.
Qed.
Lemma contains_concat p sep l x : In x l -> contains p x = true -> contains p (String.concat sep l) = true.
Proof.
  intros I H. induction l as [|y l IH]; [destruct I|]. cbn [String.concat]. destruct l as [|z l].
  - destruct I as [->|[]]. exact H.
  - destruct I as [->|I]; [now apply contains_app_l|]. apply contains_app, contains_app. now apply IH.
Qed.
Lemma classic_named t : named t \/ ~ named t.
Proof.
  induction t as [k|t IH|fs IH] using ty_ind'; [left; constructor|destruct IH; [left; now constructor|right; intros N; now inversion N]|].
  assert (X : Forall (fun f => fst f <> "" /\ named (snd f)) fs \/ ~ Forall (fun f => fst f <> "" /\ named (snd f)) fs).
  { induction IH as [|[n x] fs H _ IHl]; [left; constructor|]. cbn [snd] in H.
    destruct (string_dec n "") as [->|Nn]; [right; intros F; apply Forall_inv in F; now destruct F|].
    destruct H as [H|H]; [|right; intros F; apply Forall_inv in F; now destruct F].
    destruct IHl as [L|L]; [left; now repeat constructor|right; intros F; now apply Forall_inv_tail in F]. }
  destruct X; [left; now constructor|right; intros N; now inversion N].
Qed.
Lemma not_named t : ~ named t -> contains "``" (format_type t) = true.
Proof.
  induction t as [k|t IH|fs IH] using ty_ind'; intros N.
  - exfalso. apply N. constructor.
  - cbn [format_type]. apply contains_app, contains_app_l, IH. intros H. apply N. now constructor.
  - cbn [format_type]. apply contains_app, contains_app_l.
    assert (X : Exists (fun f => fst f = "" \/ ~ named (snd f)) fs \/ Forall (fun f => fst f <> "" /\ named (snd f)) fs).
    { clear. induction fs as [|[n x] fs IHl]; [right; constructor|]. destruct IHl as [X|X]; [left; now right|].
      destruct n as [|a n]; [left; left; now left|].
      destruct (classic_named x) as [K|K]; [right; constructor; [split; [discriminate|exact K]|exact X]|left; left; now right]. }
    destruct X as [X|X]; [|exfalso; apply N; now constructor].
    apply Exists_exists in X. destruct X as (f & I & H). apply (contains_concat _ _ _ ("`" ++ fst f ++ "` " ++ format_type (snd f))).
    + apply (in_map (fun f => "`" ++ fst f ++ "` " ++ format_type (snd f)) fs f I).
    + destruct H as [H|H].
      * rewrite H. apply (contains_here "``").
      * apply contains_app, contains_app, contains_app. rewrite Forall_forall in IH. now apply IH.
Qed.

(** ** Definitions *)
Section Analyze.
  Variable analyze : list (string * string) -> string -> option ty.
  Notation create := (create analyze).
  Notation body := (body analyze).

  Lemma tried_texts : map format_type tried = inferTypes.
  Proof. reflexivity. Qed.
  Lemma tried_arrays : map format_type (map Array tried) = map (fun r => "ARRAY<" ++ r ++ ">") inferTypes.
  Proof. reflexivity. Qed.
  Lemma tried_named : Forall named tried.
  Proof. unfold tried. repeat constructor. Qed.
  Lemma arrays_named : Forall named (map Array tried).
  Proof. unfold tried. cbn [map]. repeat constructor. Qed.

  Lemma decls_body c t : any_type c -> named t -> analyze (decls (format_type t) (c_args c)) (c_code c) = body c (all_any c t).
  Proof.
    intros (_ & _ & Nd) N. unfold body, all_any. f_equal. unfold decls. revert Nd. generalize (c_args c). induction l as [|f l IH]; intros Nd; [reflexivity|].
    cbn [map combine]. rewrite IH by (intros g u I; apply (Nd g u); now right). do 2 f_equal. destruct (f_ty f) as [u|] eqn:E.
    - apply format_named. apply (Nd f u); [now left|exact E].
    - now apply format_named.
  Qed.
  (** the types of the body for the types in the list that are accepted *)
  Fixpoint somes {A} (l : list (option A)) : list A := match l with [] => [] | Some x :: r => x :: somes r | None :: r => somes r end.
  Lemma somes_in {A} (l : list (option A)) x : In x (somes l) <-> In (Some x) l.
  Proof.
    induction l as [|[y|] l IH]; cbn [somes In]; [tauto|rewrite IH|rewrite IH].
    - split; intros [E|E]; try (right; assumption); left; congruence.
    - split; [tauto|intros [E|E]; [discriminate|exact E]].
  Qed.
  Lemma accepted_eq c l : any_type c -> Forall named l -> accepted analyze (c_args c) (c_code c) (map format_type l) = somes (map (fun t => body c (all_any c t)) l).
  Proof.
    intros H F. induction F as [|t l N _ IH]; [reflexivity|]. cbn [map accepted]. rewrite (decls_body c t H N), IH. now destruct (body c (all_any c t)).
  Qed.
  Definition scalars c := somes (map (fun t => body c (all_any c t)) tried).
  Definition arrays c := somes (map (fun t => body c (all_any c (Array t))) tried).
  Lemma infer_eq c : any_type c -> infer analyze (c_args c) (c_code c) =
    match scalars c with [] => match arrays c with [] => Err | l => Ok (true, l) end | l => Ok (false, l) end.
  Proof.
    intros H. unfold infer, scalars, arrays. rewrite <- tried_texts at 1. rewrite (accepted_eq c _ H tried_named).
    rewrite <- tried_arrays, (accepted_eq c _ H arrays_named), map_map. reflexivity.
  Qed.
  Lemma scalars_in c r : In r (scalars c) <-> exists t, In t tried /\ body c (all_any c t) = Some r.
  Proof. unfold scalars. rewrite somes_in, in_map_iff. split; intros (t & A & B); exists t; tauto. Qed.
  Lemma arrays_in c r : In r (arrays c) <-> exists t, In t tried /\ body c (all_any c (Array t)) = Some r.
  Proof. unfold arrays. rewrite somes_in, in_map_iff. split; intros (t & A & B); exists t; tauto. Qed.

  (** the spec of a definition *)
  Definition the_spec c (array : bool) (r : ty) (l : list ty) : fspec :=
    {| s_args := map (fun f => (f_name f, match f_ty f with None => by_real array | Some t => Fixed t end)) (c_args c);
       s_ret := if forallb (fun t => (format_type t =? format_type r)%string) (r :: l) then Fixed r else by_real (is_array r);
       s_code := c_code c |}.
  Lemma create_eq c : any_type c -> create c =
    match scalars c with
    | [] => match arrays c with [] => Err | r :: l => Ok (the_spec c true r l) end
    | r :: l => Ok (the_spec c false r l)
    end.
  Proof.
    intros H. unfold TmplModel.create. destruct H as (Er & H). rewrite Er. rewrite (infer_eq c (conj Er H)).
    destruct (scalars c); [destruct (arrays c)|]; reflexivity.
  Qed.
  Lemma create_ok c f : any_type c -> create c = Ok f ->
    exists array r l, f = the_spec c array r l /\ (if array then scalars c = [] /\ arrays c = r :: l else scalars c = r :: l).
  Proof.
    intros H. rewrite (create_eq c H). destruct (scalars c) as [|r l]; [destruct (arrays c) as [|r l]; [discriminate|]|]; intros E.
    - exists true, r, l. split; [congruence|now split].
    - exists false, r, l. split; [congruence|reflexivity].
  Qed.

  (** ** Calls *)
  (** what [Any1] stands for when the argument is of type [t] *)
  Definition elem (array : bool) (t : ty) : option ty := if array then match t with Array e => Some e | _ => None end else Some t.
  Lemma match_by_real b array t : match_arg b (by_real array) t = match elem array t with Some u => bind_one b u | None => None end.
  Proof. destruct array; [destruct t|]; reflexivity. Qed.
  Definition sargs (array : bool) (fs : list formal) := map (fun f => (f_name f, match f_ty f with None => by_real array | Some t => Fixed t end)) fs.
  Lemma match_bound array fs : forall ts u b, match_args (Some u) (sargs array fs) ts = Some b ->
    b = Some u /\ Forall2 (fun f t => match f_ty f with Some v => t = v | None => elem array t = Some u end) fs ts.
  Proof.
    induction fs as [|f fs IH]; intros [|t ts] u b; cbn [sargs map match_args]; try discriminate.
    - intros E. split; [congruence|constructor].
    - cbn [snd]. destruct (f_ty f) as [v|] eqn:E.
      + cbn [match_arg]. destruct (ty_eqb v t) eqn:Q; [|discriminate]. intros M. apply ty_eqb_eq in Q. subst v. apply IH in M. destruct M as (-> & M).
        split; [reflexivity|]. constructor; [now rewrite E|exact M].
      + rewrite match_by_real. destruct (elem array t) as [e|] eqn:Ee; [|discriminate]. cbn [bind_one]. destruct (ty_eqb u e) eqn:Q; [|discriminate].
        intros M. apply ty_eqb_eq in Q. subst e. apply IH in M. destruct M as (-> & M). split; [reflexivity|]. constructor; [now rewrite E|exact M].
  Qed.
  Lemma match_free array fs : forall ts b, match_args None (sargs array fs) ts = Some b ->
    Forall2 (fun f t => match f_ty f with Some v => t = v | None => b <> None /\ elem array t = b end) fs ts.
  Proof.
    induction fs as [|f fs IH]; intros [|t ts] b; cbn [sargs map match_args]; try discriminate; [constructor|].
    cbn [snd]. destruct (f_ty f) as [v|] eqn:E.
    - cbn [match_arg]. destruct (ty_eqb v t) eqn:Q; [|discriminate]. intros M. apply ty_eqb_eq in Q. subst v. constructor; [now rewrite E|now apply IH].
    - rewrite match_by_real. destruct (elem array t) as [e|] eqn:Ee; [|discriminate]. cbn [bind_one]. intros M. apply match_bound in M. destruct M as (-> & M).
      constructor; [rewrite E; split; [discriminate|exact Ee]|]. clear -M. induction M as [|f t fs ts H _ IH]; [constructor|]. constructor; [|exact IH].
      destruct (f_ty f); [exact H|split; [discriminate|exact H]].
  Qed.
  Lemma match_all array fs u t b : elem array t = Some u -> (b = None \/ b = Some u) ->
    match_args b (sargs array fs) (map (fun f => match f_ty f with Some v => v | None => t end) fs) = Some (if existsb templated fs then Some u else b).
  Proof.
    intros E. revert b. induction fs as [|f fs IH]; intros b B; [reflexivity|]. cbn [sargs map match_args existsb snd]. unfold templated at 1. destruct (f_ty f) as [v|].
    - cbn [match_arg]. rewrite ty_eqb_refl. now apply IH.
    - rewrite match_by_real, E. assert (Q : bind_one b u = Some (Some u)) by (destruct B as [->| ->]; cbn [bind_one]; [reflexivity|now rewrite ty_eqb_refl]).
      rewrite Q. cbn [orb]. fold (sargs array fs). rewrite (IH (Some u)) by now right. now destruct (existsb templated fs).
  Qed.
  Lemma any_templated c : any_type c -> existsb templated (c_args c) = true.
  Proof. intros (_ & (f & I & E) & _). apply existsb_exists. exists f. split; [exact I|]. unfold templated. now rewrite E. Qed.
  Lemma sargs_names array c r l : map fst (s_args (the_spec c array r l)) = map f_name (c_args c).
  Proof. cbn [the_spec s_args]. now rewrite map_map. Qed.
  Lemma formats ts : Forall named ts -> map format_type ts = map sql_type ts.
  Proof. induction 1 as [|t ts N _ IH]; [reflexivity|]. cbn [map]. now rewrite IH, format_named. Qed.
  Lemma call_eq c array r l ts : Forall named ts -> call analyze (the_spec c array r l) ts =
    match signature (the_spec c array r l) ts with None => Err | Some d => match body c ts with None => Err | Some a => Ok (d, a) end end.
  Proof. intros N. unfold call. rewrite sargs_names, (formats ts N). reflexivity. Qed.

  Lemma ret_fixed c array r l R : (forall x, In x (r :: l) -> x = R) -> s_ret (the_spec c array r l) = Fixed R.
  Proof.
    intros H. cbn [the_spec s_ret]. assert (r = R) by (apply H; now left). subst r.
    assert (E : forallb (fun t => (format_type t =? format_type R)%string) (R :: l) = true) by (apply forallb_forall; intros x I; rewrite (H x I); apply String.eqb_refl).
    now rewrite E.
  Qed.
  Lemma ret_any c array r l x y : In x (r :: l) -> In y (r :: l) -> format_type x <> format_type y -> s_ret (the_spec c array r l) = by_real (is_array r).
  Proof.
    intros X Y D. cbn [the_spec s_ret]. destruct (forallb _ (r :: l)) eqn:E; [|reflexivity].
    rewrite forallb_forall in E. pose proof (E x X) as A. pose proof (E y Y) as B. apply String.eqb_eq in A, B. congruence.
  Qed.
  Lemma elem_inj array t u b : b <> None -> elem array t = b -> elem array u = b -> t = u.
  Proof. intros N A B. destruct array; cbn [elem] in *; [destruct t, u|]; congruence. Qed.
  Lemma differ_nomatch c array r l ts : differ c ts -> signature (the_spec c array r l) ts = None.
  Proof.
    intros (i & j & f & g & t & u & Fi & Gj & Ef & Eg & Ti & Uj & Ne). unfold signature. cbn [the_spec s_args]. fold (sargs array (c_args c)).
    destruct (match_args None (sargs array (c_args c)) ts) as [b|] eqn:E; [|reflexivity]. exfalso. apply match_free in E.
    assert (G : forall k h v, nth_error (c_args c) k = Some h -> f_ty h = None -> nth_error ts k = Some v -> b <> None /\ elem array v = b).
    { revert E. clear. generalize (c_args c). intros fs E. induction E as [|f t fs ts H _ IH]; intros k h v A B C; [now destruct k|].
      destruct k; [|now apply (IH k h)]. cbn in A, C. assert (f = h) by congruence. assert (t = v) by congruence. subst. now rewrite B in H. }
    destruct (G i f t Fi Ef Ti) as (Nb & A), (G j g u Gj Eg Uj) as (_ & B). exact (Ne (elem_inj array t u b Nb A B)).
  Qed.
  Lemma signature_all c array r l t u : any_type c -> elem array t = Some u ->
    signature (the_spec c array r l) (all_any c t) = match s_ret (the_spec c array r l) with Fixed x => Some x | Any1 => Some u | ArrayAny1 => Some (Array u) | Arbitrary => None end.
  Proof.
    intros H E. unfold signature, all_any. cbn [s_args the_spec]. fold (sargs array (c_args c)). rewrite (match_all array (c_args c) u t None E) by now left.
    now rewrite (any_templated c H).
  Qed.
  Lemma all_named c t : any_type c -> named t -> Forall named (all_any c t).
  Proof.
    intros (_ & _ & H) N. unfold all_any. apply Forall_forall. intros x I. apply in_map_iff in I. destruct I as (f & <- & I). destruct (f_ty f) as [u|] eqn:E; [now apply (H f u)|exact N].
  Qed.
  Lemma arbitrary fs : forall ts b, Forall2 (fun f t => match f_ty f with Some u => t = u | None => True end) fs ts ->
    match_args b (map (fun f => (f_name f, match f_ty f with None => Arbitrary | Some t => Fixed t end)) fs) ts = Some b.
  Proof.
    intros ts b H. induction H as [|f t fs ts E _ IH]; [reflexivity|]. cbn [map match_args snd]. destruct (f_ty f) as [u|]; cbn [match_arg]; [subst u; now rewrite ty_eqb_refl|exact IH].
  Qed.
  Lemma create_names c f : create c = Ok f -> map fst (s_args f) = map f_name (c_args c) /\ s_code f = c_code c.
  Proof.
    unfold TmplModel.create. destruct (c_returns c) as [R|].
    - intros E. assert (f = plain_spec c R) as -> by congruence. cbn. now rewrite map_map.
    - destruct (infer analyze (c_args c) (c_code c)) as [[array [|r l]]| |]; cbn [bind fst snd templated_spec]; try discriminate. intros E.
      assert (f = the_spec c array r l) as -> by (unfold the_spec; congruence). cbn [the_spec s_args s_code]. now rewrite map_map.
  Qed.
End Analyze.
