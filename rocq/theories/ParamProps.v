(** C21, C22 and C86: query parameters. *)
From Coq Require Import Ascii String List ZArith Lia Bool.
From Verif Require Import GoBase GoBaseFacts ParamModel ParamSpec ParamProofs.
Import ListNotations.
Local Open Scope string_scope.
Local Open Scope nat_scope.

(** C21.  Whatever the order of the arguments and whatever extra arguments are
    passed, every reference @n receives the (encoded) value of the argument
    passed under n, names compared without case. *)
Theorem c21_named_by_name :
  forall (V T W : Type) (enc : T -> V -> option W) (values : list (arg V)) (s : pstmt T),
    named_stmt s ->
    (forall p a, In p (ps_params s) -> In a values -> enc (p_ty p) (a_val a) <> None) ->
    (forall p, In p (ps_params s) -> exists v, arg_named values (p_name p) v) ->
    exists args bs, run_stmt enc values s = Ok (args, bs) /\
      forall i r, nth_error (ps_refs s) i = Some r ->
        exists p v w, In p (ps_params s) /\ p_name p = r /\ arg_named values r v /\
          enc (p_ty p) v = Some w /\ nth_error bs i = Some (Some w).
Proof. intros V T W enc. exact (named_run enc). Qed.
Print Assumptions c21_named_by_name.

(** Repeated uses of one name receive one value. *)
Theorem c21_same_name_same_value :
  forall (V T W : Type) (enc : T -> V -> option W) (values : list (arg V)) (s : pstmt T) args bs i j r,
    named_stmt s ->
    run_stmt enc values s = Ok (args, bs) ->
    nth_error (ps_refs s) i = Some r -> nth_error (ps_refs s) j = Some r ->
    nth_error bs i = nth_error bs j.
Proof. intros V T W enc values s args bs i j r. exact (same_name_same_value enc values s args bs i j r). Qed.
Print Assumptions c21_same_name_same_value.

Definition q (n : string) : param unit := mkparam n tt.
Definition mk {A} (n : string) (v : A) : arg A := mkarg n v.
Definition enc_id (_ : unit) (v : nat) : option nat := Some v.

(** UPDATE t SET a = @x WHERE b = @y OR c = @x, arguments in another order,
    in another case, and with an argument too many. *)
Example c21_example :
  let s := mkpstmt [q "x"; q "y"; q "x"] ["x"; "y"; "x"] false in
  let values := [mk "Z" 3; mk "Y" 2; mk "X" 1] in
  named_stmt s /\
  (forall p, In p (ps_params s) -> exists v, arg_named values (p_name p) v) /\
  run_stmt enc_id values s = Ok ([("x", 1); ("y", 2)], [Some 1; Some 2; Some 1]).
Proof.
  assert (Hx : arg_named [mk "Z" 3; mk "Y" 2; mk "X" 1] "x" 1).
  { exists [mk "Z" 3; mk "Y" 2], (mk "X" 1), []. repeat split. intros b []. }
  assert (Hy : arg_named [mk "Z" 3; mk "Y" 2; mk "X" 1] "y" 2).
  { exists [mk "Z" 3], (mk "Y" 2), [mk "X" 1]. repeat split. intros b [<-|[]]. discriminate. }
  split; [split|split; [|reflexivity]].
  - intros p [<-|[<-|[<-|[]]]]; split; try discriminate; reflexivity.
  - intros r [<-|[<-|[<-|[]]]]; [exists (q "x")|exists (q "y")|exists (q "x")]; (split; [|reflexivity]); cbn; auto.
  - intros p [<-|[<-|[<-|[]]]]; eexists; eassumption.
Qed.

(** C22.  Exactly what happens: the i-th question mark of statement j receives
    the argument at i plus the number of question marks in the CREATE TABLE
    statements before it; the other statements do not advance. *)
Theorem c22_offsets_partial :
  forall (V T W : Type) (enc : T -> V -> option W) (ss : list (pstmt T)) (values : list (arg V)) bss,
    (forall s, In s ss -> positional_stmt s) -> (forall a, In a values -> a_name a = "") ->
    run_params enc values ss = Ok bss ->
    length bss = length ss /\
    forall j s, nth_error ss j = Some s ->
      exists bs, nth_error bss j = Some bs /\ length bs = marks s /\
      forall i p, nth_error (ps_params s) i = Some p ->
        exists a w, nth_error values (kept_before ss j + i) = Some a /\
          enc (p_ty p) (a_val a) = Some w /\ nth_error bs i = Some (Some w).
Proof. intros V T W enc. exact (run_params_offset enc). Qed.
Print Assumptions c22_offsets_partial.

(** The property for every statement all of whose predecessors are CREATE TABLE
    statements or use no parameter; in particular for the first statement and
    for a call with one statement. *)
Theorem c22_after_create_table_partial :
  forall (V T W : Type) (enc : T -> V -> option W) (ss : list (pstmt T)) (values : list (arg V)) bss j s,
    (forall s, In s ss -> positional_stmt s) -> (forall a, In a values -> a_name a = "") ->
    run_params enc values ss = Ok bss ->
    nth_error ss j = Some s ->
    (forall s', In s' (firstn j ss) -> ps_keeps s' = true \/ marks s' = 0) ->
    exists bs, nth_error bss j = Some bs /\ length bs = marks s /\
      forall i p, nth_error (ps_params s) i = Some p ->
        exists a w, nth_error values (marks_before ss j + i) = Some a /\
          enc (p_ty p) (a_val a) = Some w /\ nth_error bs i = Some (Some w).
Proof. intros V T W enc. exact (after_create_table enc). Qed.
Print Assumptions c22_after_create_table_partial.

(** The property is violated by every script in which some statement other than
    CREATE TABLE has a question mark and a later statement has one too: the
    later one receives an argument that belongs further left. *)
Theorem c22_positional_refuted :
  forall (V T W : Type) (enc : T -> V -> option W) (ss : list (pstmt T)) (values : list (arg V)) bss j s i p,
    (forall s, In s ss -> positional_stmt s) -> (forall a, In a values -> a_name a = "") ->
    run_params enc values ss = Ok bss ->
    nth_error ss j = Some s -> nth_error (ps_params s) i = Some p ->
    (exists s', In s' (firstn j ss) /\ ps_keeps s' = false /\ marks s' <> 0) ->
    exists k a w, k < marks_before ss j + i /\ nth_error values k = Some a /\
      enc (p_ty p) (a_val a) = Some w /\
      exists bs, nth_error bss j = Some bs /\ nth_error bs i = Some (Some w).
Proof. intros V T W enc. exact (positional_wrong enc). Qed.
Print Assumptions c22_positional_refuted.

(** INSERT INTO t VALUES (?); INSERT INTO t VALUES (?) with 10, 20 inserts 10 twice;
    CREATE TABLE t AS SELECT ?; INSERT INTO t VALUES (?) binds as it should. *)
Example c22_witness :
  let dml := mkpstmt [q ""] [""] false in
  let ctas := mkpstmt [q ""] [""] true in
  run_params enc_id [mk "" 10; mk "" 20] [dml; dml] = Ok [[Some 10]; [Some 10]] /\
  run_params enc_id [mk "" 10; mk "" 20] [ctas; dml] = Ok [[Some 10]; [Some 20]] /\
  positional_stmt dml /\ positional_stmt ctas.
Proof.
  split; [reflexivity|split; [reflexivity|]]. split; (split; [intros p [<-|[]]; reflexivity|reflexivity]).
Qed.

(** C86 is refuted: whenever a name has no argument but the argument at its
    position has some other name, the reference is silently NULL. *)
Theorem c86_missing_argument_refuted :
  forall (V W : Type) (enc : unit -> V -> option W) (n m : string) (v : V) (w : W),
    n <> "" -> lower n = n -> m <> "" -> lower m <> n -> enc tt v = Some w ->
    run_stmt enc [mkarg m v] (mkpstmt [q n] [n] false) = Ok ([(lower m, w)], [None]).
Proof. exact missing_argument. Qed.
Print Assumptions c86_missing_argument_refuted.

(** C86, the part that holds: fewer arguments than distinct names is an error. *)
Theorem c86_too_few_partial :
  forall (V T W : Type) (enc : T -> V -> option W) (values : list (arg V)) (s : pstmt T),
    named_stmt s -> length values < length (nodup string_dec (map p_name (ps_params s))) ->
    run_stmt enc values s = Err.
Proof. intros V T W enc. exact (too_few enc). Qed.
Print Assumptions c86_too_few_partial.

Example c86_example :
  run_stmt enc_id [mk "x" 1] (mkpstmt [q "x"; q "y"; q "x"] ["x"; "y"; "x"] false) = Err /\
  run_stmt enc_id [mk "nmae" 1] (mkpstmt [q "name"] ["name"] false) = Ok ([("nmae", 1)], [None]).
Proof. split; reflexivity. Qed.
