(** Proofs about host names, hashes and PARSE_NUMERIC. *)
From Coq Require Import Ascii String List ZArith QArith Lia Bool.
From Verif Require Import GoBase GoBaseFacts ValueModel DecModel DecFacts CodecModel NetModel ConvertModel MiscModel MiscSpec.
Import ListNotations.
Local Open Scope string_scope.
Open Scope Z_scope.

Lemma split_labels : forall h, labels h (split1 dot h).
Proof.
  intros h. split; [apply split1_nonempty|]. split; [|symmetry; apply split1_join].
  apply Forall_forall. intros p. apply split1_pieces.
Qed.
Lemma labels_split : forall h l, labels h l -> split1 dot h = l.
Proof. intros h l (N & F & ->). apply join_split1; [exact N|]. intros p J. rewrite Forall_forall in F. now apply F. Qed.
Lemma zlen_split_pos : forall h, 1 <= zlen (split1 dot h).
Proof. intros h. pose proof (split1_nonempty dot h). unfold zlen. destruct (split1 dot h); [congruence|]. cbn [List.length]. lia. Qed.

Lemma from_ok : forall {A} (l r : list A) n, from l n = Ok r <-> exists p, l = (p ++ r)%list /\ zlen p = n.
Proof.
  intros A l r n. unfold from. destruct (Z.ltb_spec n 0) as [L|L].
  - split; [discriminate|]. intros (p & _ & E). unfold zlen in E. lia.
  - destruct (Z.ltb_spec (zlen l) n) as [L2|L2].
    + split; [discriminate|]. intros (p & -> & E). unfold zlen in *. rewrite app_length in L2. lia.
    + split.
      * intros E. assert (r = skipn (Z.to_nat n) l) by congruence. subst r. exists (firstn (Z.to_nat n) l). split; [symmetry; apply firstn_skipn|].
        unfold zlen in *. rewrite firstn_length. lia.
      * intros (p & -> & <-). unfold zlen. rewrite Nat2Z.id, skipn_app, skipn_all, Nat.sub_diag. reflexivity.
Qed.

Lemma join_app : forall l r, l <> [] -> r <> [] -> join "." (l ++ r)%list = join "." l ++ "." ++ join "." r.
Proof.
  induction l as [|x l IH]; intros r N M; [congruence|]. destruct l as [|y l].
  - cbn [app]. destruct r; [congruence|reflexivity].
  - cbn [app] in *. change (join "." (x :: y :: l ++ r)) with (x ++ "." ++ join "." (y :: l ++ r)). rewrite IH by (congruence || exact M).
    change (join "." (x :: y :: l)) with (x ++ "." ++ join "." (y :: l)). rewrite !string_app_assoc. reflexivity.
Qed.
Lemma join_ends : forall p r, r <> [] -> ends_in (join "." (p ++ r)%list) (join "." r).
Proof.
  intros p r M. destruct p as [|x p]; [now left|]. right. exists (join "." (x :: p)). apply join_app; [discriminate|exact M].
Qed.
Lemma labels_tail : forall p r, Forall label (p ++ r)%list -> r <> [] -> labels (join "." r) r.
Proof. intros p r F N. split; [exact N|]. split; [|reflexivity]. now apply Forall_app in F as [_ F]. Qed.

(** ** The regular expression *)
Lemma points_snoc : forall n s, points n ++ String "." s = points (S n) ++ s.
Proof. induction n as [|n IH]; intros s; [reflexivity|]. cbn [points append]. f_equal. apply IH. Qed.
(** [double_dot] run from the middle of a text *)
Lemma double_dot_sound : forall s seen n, double_dot seen n s = true ->
  gap s \/ (seen = true /\ exists m y b, (2 <= n + m)%nat /\ y <> "."%char /\ s = points m ++ String y b).
Proof.
  induction s as [|c r IH]; intros seen n H; [discriminate|]. cbn [double_dot] in H. destruct (Ascii.eqb_spec c dot) as [->|N].
  - apply IH in H as [(a & x & k & y & b & X & Y & K & ->)|(S1 & m & y & b & M & Y & ->)].
    + left. exists (String dot a), x, k, y, b. repeat split; assumption || reflexivity.
    + right. split; [exact S1|]. exists (S m), y, b. split; [lia|]. split; [exact Y|reflexivity].
  - destruct (seen && (2 <=? n)%nat) eqn:E.
    + apply andb_prop in E as [-> E]. apply Nat.leb_le in E. right. split; [reflexivity|]. exists 0%nat, c, r. split; [lia|]. split; [exact N|reflexivity].
    + apply IH in H as [(a & x & k & y & b & X & Y & K & ->)|(_ & m & y & b & M & Y & ->)].
      * left. exists (String c a), x, k, y, b. repeat split; assumption || reflexivity.
      * left. exists "", c, m, y, b. repeat split; [exact N|exact Y|lia].
Qed.
Lemma double_dot_points : forall m n y b, (2 <= n + m)%nat -> y <> "."%char -> double_dot true n (points m ++ String y b) = true.
Proof.
  induction m as [|m IH]; intros n y b M Y; cbn [points append double_dot].
  - destruct (Ascii.eqb_spec y dot) as [E|_]; [destruct (Y E)|]. replace (2 <=? n)%nat with true; [reflexivity|]. symmetry. apply Nat.leb_le. lia.
  - change (Ascii.eqb "." dot) with true. cbn iota. apply IH; [lia|exact Y].
Qed.
Lemma double_dot_complete : forall a x n y b seen k, x <> "."%char -> y <> "."%char -> (2 <= n)%nat ->
  double_dot seen k (a ++ String x (points n ++ String y b)) = true.
Proof.
  induction a as [|c a IH]; intros x n y b seen k X Y N; cbn [append double_dot].
  - destruct (Ascii.eqb_spec x dot) as [E|_]; [destruct (X E)|]. destruct (seen && (2 <=? k)%nat); [reflexivity|]. apply double_dot_points; [lia|exact Y].
  - destruct (Ascii.eqb c dot); [now apply IH|]. destruct (seen && (2 <=? k)%nat); [reflexivity|now apply IH].
Qed.
Lemma double_dot_gap : forall h, double_dot false 0 h = true <-> gap h.
Proof.
  intros h. split.
  - intros H. apply double_dot_sound in H as [H|[E _]]; [exact H|discriminate].
  - intros (a & x & n & y & b & X & Y & N & ->). now apply double_dot_complete.
Qed.

(** ** public suffixes *)
Section Suffix.
  Variable url_parse : string -> option (string * string).
  Variable trim_space : string -> string.
  Variable to_lower : string -> string.
  Variable to_ascii : string -> option string.
  Variable psl : string -> string * bool.
  Let ps := public_suffix to_lower to_ascii psl.

  Lemma ps_tail : forall h s, ps h = Ok s -> s <> "" -> exists p r, split1 dot h = (p ++ r)%list /\ r <> [] /\ s = join "." r /\ split1 dot s = r.
  Proof.
    intros h s H N. unfold ps, public_suffix in H. destruct (double_dot false 0 h); [congruence|].
    destruct (to_ascii (to_lower h)) as [e|]; [|discriminate]. destruct (psl e) as [x i]. destruct i; [|congruence].
    destruct (from _ _) as [l| |] eqn:E; cbn [bind] in H; try discriminate. apply from_ok in E as (p & E & L).
    assert (s = join "." l) by congruence. subst s. exists p, l.
    assert (NE : l <> []). { intros ->. cbn in N. congruence. }
    split; [exact E|]. split; [exact NE|]. split; [reflexivity|]. apply labels_split. destruct (split_labels h) as (_ & F & _). rewrite E in F. now apply labels_tail in F.
  Qed.
  Lemma host_of : forall h p r, split1 dot h = (p ++ r)%list -> h = join "." (p ++ r)%list.
  Proof. intros h p r E. destruct (split_labels h) as (_ & _ & H). now rewrite E in H. Qed.
End Suffix.
