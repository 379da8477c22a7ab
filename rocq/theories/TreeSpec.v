(** Independent vocabulary for look-ups of qualified names (C08). *)
From Coq Require Import Ascii String List ZArith.
From Verif Require Import GoBase NameSpec.
Import ListNotations.

(** Names are compared without regard to ASCII case. *)
Definition same_name (a b : string) : Prop := lower a = lower b.
Definition same_path (a b : list string) : Prop := Forall2 same_name a b.

(** [spelling path ref]: [ref] is a way to write [path] in a query: the components one by
    one, the last identifier possibly being a back-quoted dotted suffix of the path. *)
Definition spelling (path ref : list string) : Prop :=
  exists front back, path = front ++ back /\ back <> [] /\ ref = front ++ [join "." back].

(** The definition carried by the first element of [specs] whose path is [path]. *)
Inductive first_with {D} (path : list string) : list (list string * D) -> D -> Prop :=
| fw_here q d rest : same_path q path -> first_with path ((q, d) :: rest) d
| fw_later q d0 d rest : ~ same_path q path -> first_with path rest d -> first_with path ((q, d0) :: rest) d.
