(** How a type is written in SQL, as a grammar (ZetaSQL's lexical and type syntax, from its
    documentation; the parser is not in /repo).  Simplified: only names in back quotes, only the
    escapes backslash-backslash, backslash-backquote and backslash-n, no optional white space. *)
From Coq Require Import Ascii String List Arith Bool.
From Verif Require Import TmplModel.
Import ListNotations.
Local Open Scope string_scope.

Definition backquote : ascii := "`".
Definition backslash : ascii := "\".
Definition newline : ascii := "010".

(** Letters, digits and the underscore. *)
Definition word_char (c : ascii) : bool :=
  let n := nat_of_ascii c in
  ((48 <=? n) && (n <=? 57) || (65 <=? n) && (n <=? 90) || (97 <=? n) && (n <=? 122) || (n =? 95))%nat.
Fixpoint word_chars (s : string) : bool := match s with EmptyString => true | String c r => word_char c && word_chars r end.
Definition is_word (s : string) : Prop := s <> "" /\ word_chars s = true.

(** [quoted n q]: between back quotes [q] is the name [n]. *)
Inductive quoted : string -> string -> Prop :=
  | q_nil : quoted "" ""
  | q_char c n q : c <> backquote -> c <> backslash -> c <> newline -> quoted n q -> quoted (String c n) (String c q)
  | q_backquote n q : quoted n q -> quoted (String backquote n) (String backslash (String backquote q))
  | q_backslash n q : quoted n q -> quoted (String backslash n) (String backslash (String backslash q))
  | q_newline n q : quoted n q -> quoted (String newline n) (String backslash (String "n" q)).

(** [written t s]: the text [s] is the type [t]. *)
Inductive written : ty -> string -> Prop :=
  | w_scalar k : is_word k -> written (Scalar k) k
  | w_array t s : written t s -> written (Array t) ("ARRAY<" ++ s ++ ">")
  | w_struct fs s : written_fields fs s -> written (Struct fs) ("STRUCT<" ++ s ++ ">")
with written_fields : list (string * ty) -> string -> Prop :=
  | w_nil : written_fields [] ""
  | w_one f s : written_field f s -> written_fields [f] s
  | w_more f s g gs r : written_field f s -> written_fields (g :: gs) r -> written_fields (f :: g :: gs) (s ++ "," ++ r)
with written_field : string * ty -> string -> Prop :=
  | w_named n q t s : n <> "" -> quoted n q -> written t s -> written_field (n, t) ("`" ++ q ++ "` " ++ s)
  | w_anonymous t s : written t s -> written_field ("", t) s.

(** A name that needs no escapes. *)
Fixpoint plain_name (s : string) : Prop :=
  match s with EmptyString => True | String c r => c <> backquote /\ c <> backslash /\ c <> newline /\ plain_name r end.
(** Every field of a type has a name, and one that needs no escapes. *)
Inductive plain : ty -> Prop :=
  | p_scalar k : is_word k -> plain (Scalar k)
  | p_array t : plain t -> plain (Array t)
  | p_struct fs : Forall (fun f => fst f <> "" /\ plain_name (fst f) /\ plain (snd f)) fs -> plain (Struct fs).

(** An analyser that works on types: [sem] is given the types that the texts are. *)
Definition reader (analyze : list (string * string) -> string -> option ty) (sem : list (string * ty) -> string -> option ty) : Prop :=
  forall names types texts code, Forall2 written types texts -> analyze (combine names texts) code = sem (combine names types) code.
