(** What users expect of goroutines that share a database. *)
From Coq Require Import Ascii String List Bool Arith.
From Verif Require Import RaceModel.
Import ListNotations.
Local Open Scope string_scope.

(** The effect of an operation on the set of names *)
Definition effect (o : op) (l : list string) : list string :=
  match o with
  | OSync rows => (l ++ rows)%list
  | OCreate n => (l ++ [n])%list
  | ODrop n | OClean n => remove string_dec n l
  | ODropFn _ | OFind _ | OWild => l
  end.
Definition changes (o : op) : bool := match o with OFind _ | OWild => false | _ => true end.
Definition removes (o : op) : bool := match o with ODrop _ | OClean _ | ODropFn _ => true | _ => false end.
(** One order of the operations of all goroutines that keeps the order of each *)
Definition of_thread (i : nat) (log : list (nat * op)) : list op := map snd (filter (fun p => Nat.eqb (fst p) i) log).
Definition merges (progs : list (list op)) (log : list (nat * op)) : Prop :=
  forall i, of_thread i log = filter changes (nth i progs []).
Definition after (log : list (nat * op)) (l : list string) : list string := fold_left (fun l p => effect (snd p) l) log l.

Definition same (a b : list string) : Prop := forall n, In n a <-> In n b.
(** The catalog's parts agree. *)
Definition consistent (c : cat) : Prop := same (c_tables c) (c_map c) /\ same (c_tables c) (c_found c).
Definition finished (s : state) : Prop := s_dead s = false /\ forall t, In t (s_threads s) -> t_ops t = [].
