(** Specifications of the string functions, on plain lists of characters (for
    STRING: the code points a text consists of) or bytes. *)
From Coq Require Import Ascii String List ZArith Lia Bool.
Import ListNotations.
Open Scope Z_scope.

(** SUBSTR: at most [len] elements from position [pos]; 1 is the first one, 0 means 1,
    a negative position counts from the end and is clipped at the first. *)
Definition sub_list {A} (l : list A) (pos : Z) (len : option Z) : list A :=
  let n := Z.of_nat (length l) in
  let start := if pos =? 0 then 0 else if 0 <? pos then pos - 1 else Z.max 0 (n + pos) in
  let rest := skipn (Z.to_nat start) l in
  match len with None => rest | Some k => firstn (Z.to_nat k) rest end.

(** [p] is the beginning of pat pat pat ... *)
Definition cycled {A} (pat p : list A) : Prop :=
  forall i, (i < length p)%nat -> nth_error p i = nth_error pat (i mod length pat).
(** LPAD ([left]) and RPAD. *)
Definition padded {A} (left : bool) (l pat : list A) (n : Z) (out : list A) : Prop :=
  Z.of_nat (length out) = n /\
  (n <= Z.of_nat (length l) -> exists rest, l = out ++ rest) /\
  (Z.of_nat (length l) < n ->
   exists p, cycled pat p /\ out = if left then p ++ l else l ++ p).

(** TRANSLATE: one simultaneous pass; [None]: delete. *)
Fixpoint target {A} (eqb : A -> A -> bool) (src tgt : list A) (c : A) : option A :=
  match src with
  | [] => Some c
  | s :: src' => if eqb s c then (match tgt with t :: _ => Some t | [] => None end)
                 else target eqb src' (tl tgt) c
  end.
Definition translated {A} (eqb : A -> A -> bool) (src tgt l : list A) : list A :=
  flat_map (fun c => match target eqb src tgt c with Some d => [d] | None => [] end) l.

(** [sub] occurs in [l] at offset [i]. *)
Definition occurs {A} (sub l : list A) (i : nat) : Prop :=
  exists a b, l = a ++ sub ++ b /\ length a = i.
Definition first_occurrence {A} (sub l : list A) (i : nat) : Prop :=
  occurs sub l i /\ forall j, (j < i)%nat -> ~ occurs sub l j.

(** [l] cut at the occurrences of [d], each time at the leftmost one. *)
Inductive pieces {A} (d : list A) : list A -> list (list A) -> Prop :=
| pieces_last l : (forall i, ~ occurs d l i) -> pieces d l [l]
| pieces_cut a b r : first_occurrence d (a ++ d ++ b) (length a) ->
    pieces d b r -> pieces d (a ++ d ++ b) (a :: r).
Fixpoint glue {A} (d : list A) (ps : list (list A)) : list A :=
  match ps with
  | [] => []
  | [p] => p
  | p :: r => p ++ d ++ glue d r
  end.

(** The offsets from [from] on at which [sub] occurs in [l], in order. *)
Definition offsets {A} (sub l : list A) (from : nat) (os : list nat) : Prop :=
  (forall i, In i os <-> (from <= i < length l)%nat /\ occurs sub l i) /\
  (forall x a b, os = a ++ x :: b -> forall y, In y b -> (x < y)%nat).
