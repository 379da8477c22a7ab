(** What a caller of the driver expects of query parameters. *)
From Coq Require Import Ascii String List ZArith Lia Bool.
From Verif Require Import GoBase ParamModel.
Import ListNotations.
Local Open Scope string_scope.

(** The argument passed under a name: the last one, names compared without case. *)
Definition arg_named {V} (values : list (arg V)) (n : string) (v : V) : Prop :=
  exists l a r, values = (l ++ a :: r)%list /\ lower (a_name a) = n /\ a_val a = v /\
    forall b, In b r -> lower (a_name b) <> n.

(** A statement that uses only named parameters; every reference in the SQL
    text is one of them.  ZetaSQL reports the names in lower case. *)
Definition named_stmt {T} (s : pstmt T) : Prop :=
  (forall p, In p (ps_params s) -> p_name p <> "" /\ lower (p_name p) = p_name p) /\
  (forall r, In r (ps_refs s) -> exists p, In p (ps_params s) /\ p_name p = r).

(** A statement that uses only question marks: one parameter for each of them. *)
Definition positional_stmt {T} (s : pstmt T) : Prop :=
  (forall p, In p (ps_params s) -> p_name p = "") /\
  ps_refs s = map (fun _ => "") (ps_params s).

(** The j-th statement of a positional script starts at the number of question
    marks of the statements before it. *)
Definition marks {T} (s : pstmt T) : nat := length (ps_params s).
Fixpoint marks_before {T} (ss : list (pstmt T)) (j : nat) : nat :=
  match j, ss with
  | O, _ => 0
  | S j', s :: r => marks s + marks_before r j'
  | S _, [] => 0
  end.

(** Same count, but only over the statements that hand their arguments back. *)
Fixpoint kept_before {T} (ss : list (pstmt T)) (j : nat) : nat :=
  match j, ss with
  | O, _ => 0
  | S j', s :: r => (if ps_keeps s then marks s else 0) + kept_before r j'
  | S _, [] => 0
  end.
