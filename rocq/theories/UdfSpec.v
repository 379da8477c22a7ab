(** What calling a SQL function means: simultaneous substitution. *)
From Coq Require Import Ascii String List ZArith Lia Bool.
From Verif Require Import GoBase UdfModel.
Import ListNotations.
Local Open Scope string_scope.

Fixpoint value_of (names values : list string) (n : string) : option string :=
  match names, values with
  | m :: ms, v :: vs => if String.eqb m n then Some v else value_of ms vs n
  | _, _ => None
  end.

(** Every reference replaced by its argument, everything else unchanged. *)
Fixpoint simultaneous (names values : list string) (ps : list piece) : string :=
  match ps with
  | [] => ""
  | Lit s :: r => s ++ simultaneous names values r
  | Ref n :: r =>
      match value_of names values n with
      | Some v => v ++ simultaneous names values r
      | None => "@" ++ n ++ simultaneous names values r
      end
  end.

(** Identifier characters. *)
Definition ident_char (a : ascii) : bool :=
  let n := nat_of_ascii a in
  ((48 <=? n) && (n <=? 57) || (65 <=? n) && (n <=? 90) || (97 <=? n) && (n <=? 122) || (n =? 95))%nat.
Fixpoint all_ident (s : string) : bool :=
  match s with EmptyString => true | String a r => ident_char a && all_ident r end.
Definition identifier (s : string) : Prop := s <> "" /\ all_ident s = true.

(** A body as the formatter writes it: no "@" in the other text, and after a
    reference comes the end or a character that cannot continue a name. *)
Fixpoint formatted (ps : list piece) : Prop :=
  match ps with
  | [] => True
  | Lit s :: r => has_char "@" s = false /\ formatted r
  | Ref n :: r => identifier n /\ formatted r /\
      match r with
      | [] => True
      | Lit (String a _) :: _ => ident_char a = false
      | _ => False
      end
  end.

Fixpoint proper_prefix (p s : string) : bool :=
  match p, s with
  | EmptyString, String _ _ => true
  | String a p', String b s' => Ascii.eqb a b && proper_prefix p' s'
  | _, EmptyString => false
  end.

(** No parameter name is a proper prefix of a later one. *)
Fixpoint prefix_free (names : list string) : Prop :=
  match names with
  | [] => True
  | n :: r => (forall m, In m r -> proper_prefix n m = false) /\ prefix_free r
  end.
