(** Independent vocabulary for the name properties. *)
From Coq Require Import Ascii String List ZArith.
From Verif Require Import GoBase.
Import ListNotations.
Open Scope Z_scope.

(** A reference is written as components; a dot inside a component separates too. *)
Definition dot_free (s : string) : Prop := ~ exists a b, s = (a ++ "." ++ b)%string.

(** [written_as ref parts]: [parts] are the dot-separated pieces of the
    components of [ref], in order. *)
Inductive pieces : string -> list string -> Prop :=
| pieces_one s : dot_free s -> pieces s [s]
| pieces_dot s rest ps : dot_free s -> pieces rest ps ->
    pieces (s ++ "." ++ rest)%string (s :: ps).

Inductive written_as : list string -> list string -> Prop :=
| written_nil : written_as [] []
| written_cons c ref ps parts :
    pieces c ps -> written_as ref parts -> written_as (c :: ref) (ps ++ parts).

(** The reference goes below INFORMATION_SCHEMA: a component other than the last
    spells it, ignoring ASCII case. *)
Definition below_info_schema (parts : list string) : Prop :=
  exists a c b, parts = a ++ c :: b /\ b <> [] /\ lower c = "information_schema"%string.
