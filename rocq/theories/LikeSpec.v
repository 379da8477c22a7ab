(** The language of LIKE patterns: % is any string, _ any one character, every other
    character itself. *)
From Coq Require Import List ZArith.
Import ListNotations.
Open Scope Z_scope.

Inductive in_language : list Z -> list Z -> Prop :=
| il_nil : in_language [] []
| il_percent : forall p run s, in_language p s -> in_language (37 :: p) (run ++ s)
| il_underscore : forall p c s, in_language p s -> in_language (95 :: p) (c :: s)
| il_self : forall p c s, c <> 37 -> c <> 95 -> in_language p s -> in_language (c :: p) (c :: s).
