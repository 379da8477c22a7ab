(** What the clauses should do. *)
From Coq Require Import Ascii String List ZArith QArith Bool.
From Verif Require Import GoBase ValueModel ScanModel TextSpec.
Import ListNotations.
Open Scope Z_scope.

(** HAVING MAX k, HAVING MIN k: only the rows with the greatest (least) k.  A row is a value and
    its k. *)
Definition having (max : bool) (rows : list (Z * Z)) : list (Z * Z) :=
  filter (fun r => forallb (fun q => if max then snd q <=? snd r else snd r <=? snd q) rows) rows.
Definition total (rows : list (Z * Z)) : Z := fold_right Z.add 0 (map fst rows).
(** The values an aggregate sees: with IGNORE NULLS no NULL, with DISTINCT only the first of
    equal values. *)
Fixpoint firsts (seen l : list (option Z)) : list (option Z) :=
  match l with
  | [] => []
  | v :: r => if in_dec (fun a b : option Z => ltac:(decide equality; apply Z.eq_dec)) v seen then firsts seen r else v :: firsts (v :: seen) r
  end.
Definition seen_by (dist ign : bool) (l : list (option Z)) : list (option Z) :=
  let m := if ign then filter (fun v => match v with Some _ => true | None => false end) l else l in
  if dist then firsts [] m else m.
(** Does the row with a NULL key come first? *)
Definition null_first (n : null_order) (desc : bool) : bool :=
  match n with NullsFirst => true | NullsLast => false | NullsDefault => negb desc end.
(** A text of at most n characters *)
Definition fits (n : nat) (s : string) : Prop := exists rs, text_of rs s /\ (List.length rs <= n)%nat.
(** A number with at most n decimals *)
Definition decimals (n : nat) (q : Q) : Prop := exists z, (q == z # Pos.of_nat (10 ^ n))%Q.
(** With COLLATE 'und:ci' texts that differ in case only are equal. *)
Definition capital (c : ascii) : Prop := 65 <= code c <= 90.
Definition small (c : ascii) : Prop := 97 <= code c <= 122.
Definition small_text (s : string) : Prop := Forall small (list_ascii_of_string s).
Definition ci_equal (s t : string) : Prop := lower s = lower t.
Definition ci_before (s t : string) : Prop := bytes_compare (lower s) (lower t) = Lt.
