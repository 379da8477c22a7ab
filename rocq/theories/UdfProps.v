(** C23: calling a SQL function. *)
From Coq Require Import Ascii String List ZArith Lia Bool.
From Verif Require Import GoBase GoBaseFacts UdfModel UdfSpec UdfProofs.
Import ListNotations.
Local Open Scope string_scope.

(** C23 for argument texts without "@" and parameter names none of which is a
    proper prefix of a later one.  Missing: arguments that themselves contain a
    parameter reference or an "@", and names like a, ab in this order. *)
Theorem c23_simultaneous_partial : forall names values ps,
  length values = length names ->
  (forall n, In n names -> identifier n) -> NoDup names -> prefix_free names ->
  formatted ps -> (forall n, In (Ref n) ps -> In n names) ->
  (forall v, In v values -> has_char "@" v = false) ->
  call_sql names values (render ps) = Ok ("( " ++ simultaneous names values ps ++ " )").
Proof.
  intros. unfold call_sql. rewrite substitute_spec by assumption. reflexivity.
Qed.
Print Assumptions c23_simultaneous_partial.

(** add(@ab, @a) with parameters ab, a (the longer name first). *)
Example c23_example :
  let names := ["ab"; "a"] in let values := ["1"; "`x#1`"] in
  let ps := [Lit "zetasqlite_add("; Ref "ab"; Lit ","; Ref "a"; Lit ")"] in
  (forall n, In n names -> identifier n) /\ NoDup names /\ prefix_free names /\ formatted ps /\
  (forall v, In v values -> has_char "@" v = false) /\
  call_sql names values (render ps) = Ok "( zetasqlite_add(1,`x#1`) )".
Proof.
  cbn zeta. split. { intros n [<-|[<-|[]]]; split; [discriminate|reflexivity|discriminate|reflexivity]. }
  split. { constructor; [intros [H|[]]; discriminate|]. constructor; [intros []|constructor]. }
  split. { cbn. split; [intros m [<-|[]]; reflexivity|]. split; [intros m []|exact I]. }
  split. { cbn. repeat split; discriminate. }
  split. { intros v [<-|[<-|[]]]; reflexivity. }
  reflexivity.
Qed.

(** Refuted whenever one parameter's name is a proper prefix of a later one's:
    the body @<n><ext> yields the first argument followed by <ext>, not the second. *)
Theorem c23_prefix_refuted : forall n ext v w,
  identifier n -> identifier ext -> has_char "@" v = false -> v ++ ext <> w ->
  call_sql [n; n ++ ext] [v; w] (render [Ref (n ++ ext)]) = Ok ("( " ++ (v ++ ext) ++ " )") /\
  Ok ("( " ++ (v ++ ext) ++ " )") <> Ok ("( " ++ simultaneous [n; n ++ ext] [v; w] [Ref (n ++ ext)] ++ " )").
Proof.
  intros n ext v w Hn He Hv Hw. split.
  - unfold call_sql. rewrite prefix_destroys; auto. apply He.
  - cbn [simultaneous value_of]. destruct (String.eqb_spec n (n ++ ext)) as [E|_].
    { exfalso. destruct He as [He _]. apply He. clear -E. induction n as [|a n IH]; [now symmetry|].
      injection E as E. auto. }
    rewrite String.eqb_refl. rewrite string_app_nil_r. intros H. injection H as H.
    apply Hw. clear -H. revert w H. generalize (v ++ ext). clear. intros u. induction u as [|a u IH]; intros [|b w] H.
    + reflexivity.
    + cbn in H. injection H as <- H. destruct w as [|c w]; [discriminate|]. injection H as <- H. destruct w; discriminate.
    + cbn in H. injection H as -> H. destruct u as [|c u]; [discriminate|]. injection H as -> H. destruct u; discriminate.
    + cbn in H. injection H as -> H. f_equal. now apply IH.
Qed.
Print Assumptions c23_prefix_refuted.

(** Refuted when an argument mentions a parameter, which is what happens when the
    body of one function calls another: with g(x, y) = x <sep> y, a function
    f(x, y) = g(y, x) is stored as x <sep> x. *)
Theorem c23_swapped_arguments_refuted : forall x y sep,
  identifier x -> identifier y -> x <> y -> proper_prefix x y = false -> proper_prefix y x = false ->
  has_char "@" sep = false -> (exists a t, sep = String a t /\ ident_char a = false) ->
  call_sql [x; y] ["@" ++ y; "@" ++ x] (render [Ref x; Lit sep; Ref y]) =
    Ok ("( " ++ ("@" ++ x ++ sep ++ "@" ++ x) ++ " )") /\
  simultaneous [x; y] ["@" ++ y; "@" ++ x] [Ref x; Lit sep; Ref y] = "@" ++ y ++ sep ++ "@" ++ x.
Proof.
  intros x y sep Hx Hy Hne P1 P2 Hs Ha. split.
  - unfold call_sql. rewrite swap_collapses by assumption. reflexivity.
  - cbn [simultaneous value_of]. rewrite !String.eqb_refl. apply String.eqb_neq in Hne. rewrite Hne.
    rewrite string_app_nil_r. cbn. reflexivity.
Qed.
Print Assumptions c23_swapped_arguments_refuted.

Example c23_witnesses :
  call_sql ["a"; "ab"] ["1"; "2"] "zetasqlite_add(@ab,@a)" = Ok "( zetasqlite_add(1b,1) )" /\
  call_sql ["x"; "y"] ["@y"; "@x"] "zetasqlite_subtract(@x,@y)" = Ok "( zetasqlite_subtract(@x,@x) )".
Proof. split; reflexivity. Qed.

(** A call with too few argument texts panics instead of returning an error. *)
Theorem c23_too_few_partial : forall names values body,
  (length values < length names)%nat -> call_sql names values body = GoPanic.
Proof. intros. unfold call_sql. now rewrite substitute_short. Qed.
Print Assumptions c23_too_few_partial.
