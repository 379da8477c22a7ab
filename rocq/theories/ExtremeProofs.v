From Coq Require Import Ascii String List ZArith Lia Bool Sorted.
From Verif Require Import GoBase GoBaseFacts ValueModel ValueFacts CompareSpec CompareProofs FloatFacts LogicModel ExtremeModel.
Import ListNotations.
Open Scope Z_scope.

Lemma no_null_some : forall l : list val, exists_null (map Some l) = false.
Proof. induction l; cbn; auto. Qed.

(** For GREATEST, [worse a b] is [before a b]; for LEAST the converse. *)
Definition worse (op : cmpop) (a b : val) : Prop :=
  match op with GT => before a b | _ => before b a end.

Lemma worse_trans_ok : forall op a b c, op = GT \/ op = LT -> comparable a b -> comparable b c ->
  ~ worse op a b -> ~ worse op b c -> ~ worse op a c.
Proof.
  intros op a b c O C D H K W.
  destruct O as [-> | ->]; cbn in *.
  - destruct (trichotomy a b C) as [T|[T|T]]; auto.
    + apply K. eapply alike_before; eauto using alike_sym.
    + apply K. eapply before_trans; eauto.
  - destruct (trichotomy a b C) as [T|[T|T]]; auto.
    + apply K. eapply before_trans; eauto.
    + apply K. eapply before_alike; eauto.
Qed.

Lemma extreme_spec : forall op, op = GT \/ op = LT -> forall l m,
  (forall x, In x l -> comparable m x) ->
  (forall x y, In x l -> In y l -> comparable x y) ->
  exists r, extreme_loop op (Some m) (map Some l) = Ok (Some r) /\ In r (m :: l) /\
    ~ worse op r m /\ (forall x, In x l -> ~ worse op r x).
Proof.
  intros op O l. induction l as [|a l IH]; intros m C D.
  - exists m. split; [reflexivity|]. split; [now left|]. split; [|intros x []].
    destruct O as [-> | ->]; apply before_irrefl.
  - cbn [map extreme_loop].
    assert (Cma : comparable m a) by (apply C; now left).
    destruct (cmp_scalar op a m) as (c & -> & H); [now apply comparable_sym|].
    assert (M : c = true <-> worse op m a).
    { destruct O as [-> | ->]; cbn in *; exact H. }
    destruct c.
    + destruct (IH a) as (r & E & I & W & A).
      * intros x Hx. apply D; [now left|now right].
      * intros x y Hx Hy. apply D; now right.
      * exists r. split; auto. split; [right; destruct I; [now left|now right]|].
        assert (Wma : worse op m a) by now apply M.
        split.
        -- intros Wr. apply W. destruct O as [-> | ->]; cbn in *; eapply before_trans; eauto.
        -- intros x [<-|Hx]; auto.
    + destruct (IH m) as (r & E & I & W & A).
      * intros x Hx. apply C. now right.
      * intros x y Hx Hy. apply D; now right.
      * exists r. split; auto. split; [destruct I; [now left|right; now right]|].
        split; auto. intros x [<-|Hx]; auto.
        assert (N : ~ worse op m a) by (intros K; apply M in K; discriminate).
        assert (Crm : comparable r m).
        { destruct I as [<-|I]; [eapply comparable_trans; [exact Cma|now apply comparable_sym]|].
          apply comparable_sym. apply C. now right. }
        eapply worse_trans_ok; eauto.
Qed.

(** ** RANGE_BUCKET *)

Definition at_most (p v : val) : Prop := before v p \/ alike p v.

Lemma at_most_down : forall p v w, comparable p v -> comparable v w -> (before v w \/ alike v w) -> at_most p w -> at_most p v.
Proof.
  intros p v w C D [H|H] [K|K]; unfold at_most.
  - left. eapply before_trans; eauto.
  - left. eapply before_alike; eauto using alike_sym.
  - left. eapply alike_before; eauto.
  - right. eapply alike_trans; eauto using alike_sym.
Qed.

(** The number of boundaries that are at most p, as the length of a sublist. *)
Inductive counts (p : val) : list val -> Z -> Prop :=
| counts_nil : counts p [] 0
| counts_in : forall v l n, at_most p v -> counts p l n -> counts p (v :: l) (n + 1)
| counts_out : forall v l n, ~ at_most p v -> counts p l n -> counts p (v :: l) n.

Lemma counts_none : forall p l, (forall v, In v l -> ~ at_most p v) -> counts p l 0.
Proof.
  intros p l. induction l as [|v l IH]; intros H; [constructor|].
  apply counts_out; [apply H; now left|]. apply IH. intros; apply H; now right.
Qed.

Lemma bucket_spec : forall p l idx, (forall v, In v l -> comparable p v) -> nondecreasing l ->
  exists n, bucket_loop p (map Some l) idx = Ok (idx + n) /\ counts p l n.
Proof.
  intros p l idx C S. revert idx. induction S as [|v l S IH F]; intros idx.
  - exists 0. split; [cbn; f_equal; lia|constructor].
  - cbn [map bucket_loop]. assert (Cv : comparable p v) by (apply C; now left).
    destruct (cmp_scalar GTE p v Cv) as (c & -> & H). cbn [means] in H.
    destruct c.
    + destruct (IH (fun w Hw => C w (or_intror Hw)) (idx + 1)) as (n & E & K).
      exists (n + 1). split; [rewrite E; f_equal; lia|]. apply counts_in; auto. unfold at_most. now apply H.
    + exists 0. split; [f_equal; lia|].
      assert (N : ~ at_most p v) by (intros K; apply H in K; discriminate).
      apply counts_none. intros w [<-|Hw]; auto. intros K. apply N.
      rewrite Forall_forall in F.
      assert (Cw : comparable p w) by (apply C; now right).
      eapply at_most_down with (w := w); eauto.
      eapply comparable_trans; [apply comparable_sym; eassumption|assumption].
Qed.

(** Integers whose array went through SQLite. *)
Lemma bucket_ints : forall p l idx, (forall y, In y l -> Z.abs y < 2 ^ 53) ->
  bucket_loop (VInt p) (map (fun y => decoded_elem (Some (VInt y))) l) idx =
  bucket_loop (VInt p) (map (fun y => Some (VInt y)) l) idx.
Proof.
  intros p l. induction l as [|y l IH]; intros idx B; auto.
  cbn [map bucket_loop decoded_elem]. unfold cmp. cbn [cmp_sw]. unfold scalar_op. cbn [refuses scalar_compare].
  rewrite float_of_int_back by (apply B; now left).
  rewrite IH by (intros; apply B; now right). reflexivity.
Qed.
