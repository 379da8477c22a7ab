(** What CHR, ASCII, UPPER and so on should do, in terms of characters. *)
From Coq Require Import Ascii String List ZArith Lia Bool.
From Verif Require Import Utf8Model.
Import ListNotations.
Open Scope Z_scope.

(** A Unicode code point that is not a surrogate. *)
Definition code_point (n : Z) : Prop := 0 <= n < 55296 \/ 57344 <= n < 1114112.
(** The text of some characters. *)
Definition text_of (rs : list Z) (s : string) : Prop := Forall code_point rs /\ list_ascii_of_string s = encode rs.
(** Byte by byte the upper (lower) case: the letters a to z (A to Z) only. *)
Definition code (c : ascii) : Z := Z.of_nat (nat_of_ascii c).
Definition upper_byte (c d : ascii) : Prop := code d = if (97 <=? code c) && (code c <=? 122) then code c - 32 else code c.
Definition lower_byte (c d : ascii) : Prop := code d = if (65 <=? code c) && (code c <=? 90) then code c + 32 else code c.
Definition bytewise (R : ascii -> ascii -> Prop) (s t : string) : Prop := Forall2 R (list_ascii_of_string s) (list_ascii_of_string t).
Definition ascii_text (s : string) : Prop := Forall (fun c => code c < 128) (list_ascii_of_string s).
(** No ASCII letter. *)
Definition letter (c : ascii) : Prop := 65 <= code c <= 90 \/ 97 <= code c <= 122.
Definition no_letter (s : string) : Prop := Forall (fun c => ~ letter c) (list_ascii_of_string s).
(** p occurs in s. *)
Definition contains (s p : string) : Prop := exists a b, s = (a ++ p ++ b)%string.
