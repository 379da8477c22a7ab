(** Which tables `prefix*` names. *)
From Coq Require Import Ascii String List ZArith Lia Bool.
From Verif Require Import GoBase WildModel.
Import ListNotations.
Local Open Scope string_scope.

Definition is_prefix (p s : string) : Prop := exists r, s = p ++ r.
(** The prefix is written with dots, with the project or without it. *)
Definition named_by (prefix : string) (t : table) : Prop :=
  is_prefix prefix (full_name t) \/ exists project rest, path t = project :: rest /\ is_prefix prefix (join "." rest).

(** Characters without a meaning of their own in a regular expression, dots aside. *)
Definition plain_char (c : ascii) : bool := negb (has_char c "\+*?()|[]{}^$").
Fixpoint plain_name (s : string) : Prop :=
  match s with EmptyString => True | String c r => plain_char c = true /\ plain_name r end.
Definition no_dot (s : string) : Prop := has_char "." s = false.
(** n occurs in s, a dot of n standing for any character but a newline. *)
Inductive looks_like : string -> string -> Prop :=
| ll_nil : looks_like "" ""
| ll_dot : forall c n s, c <> newline -> looks_like n s -> looks_like (String "." n) (String c s)
| ll_same : forall c n s, c <> "."%char -> looks_like n s -> looks_like (String c n) (String c s).
Definition occurs (n s : string) : Prop := exists a b c, s = a ++ b ++ c /\ looks_like n b.

Definition is_newest (t : table) (among : table -> Prop) : Prop := among t /\ forall x, among x -> (created x <= created t)%Z.
