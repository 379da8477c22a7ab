(** What time zone names mean (BigQuery: "Time zones"). *)
From Coq Require Import Ascii String List ZArith Lia Bool.
From Verif Require Import DecModel ClockTextSpec.
Local Open Scope string_scope.
Open Scope Z_scope.

Inductive sign := Plus | Minus.
Definition sign_text (s : sign) : string := match s with Plus => "+" | Minus => "-" end.
Definition signed (s : sign) (n : Z) : Z := match s with Plus => n | Minus => - n end.
(** +HH:MM and +HH: so much east of UTC; -HH:MM and -HH: so much west. *)
Definition hours_minutes (s : sign) (h m : Z) : string := sign_text s ++ two h ++ ":" ++ two m.
Definition hours (s : sign) (h : Z) : string := sign_text s ++ two h.
Definition seconds_east (s : sign) (h m : Z) : Z := signed s (h * 3600 + m * 60).
(** Strings without a sign character. *)
Fixpoint no_sign (s : string) : bool :=
  match s with
  | EmptyString => true
  | String c r => negb (Ascii.eqb c "+") && negb (Ascii.eqb c "-") && no_sign r
  end.
