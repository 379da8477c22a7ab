(** Shared vocabulary: the parts of the Go language and standard library that
    several models use.  Nothing here models a file of /repo; each definition
    states the Go construct it stands for. *)
From Coq Require Import Ascii String List ZArith Lia Bool.
Import ListNotations.
Open Scope Z_scope.

(** Go int64 arithmetic: results are reduced to the representative in
    [-2^63, 2^63) (Go spec, "Integer overflow"). *)
Definition two63 : Z := 9223372036854775808.
Definition two64 : Z := 18446744073709551616.
Definition wrap64 (z : Z) : Z := (z + two63) mod two64 - two63.
Definition in64 (z : Z) : Prop := - two63 <= z < two63.
Definition in64b (z : Z) : bool := (- two63 <=? z) && (z <? two63).

(** Conversion to int32. *)
Definition two31 : Z := 2147483648.
Definition two32 : Z := 4294967296.
Definition wrap32 (z : Z) : Z := (z + two31) mod two32 - two31.
Definition in32 (z : Z) : Prop := - two31 <= z < two31.

(** Result of a Go call returning (value, error); [GoPanic] is a run-time panic. *)
Inductive res (A : Type) : Type :=
| Ok (a : A)
| Err
| GoPanic.
Arguments Ok {A} a.
Arguments Err {A}.
Arguments GoPanic {A}.

Definition bind {A B} (r : res A) (f : A -> res B) : res B :=
  match r with Ok a => f a | Err => Err | GoPanic => GoPanic end.

(** len() of a slice as a Go int. *)
Definition zlen {A} (l : list A) : Z := Z.of_nat (length l).

(** strings.Join *)
Fixpoint join (sep : string) (l : list string) : string :=
  match l with
  | [] => EmptyString
  | [x] => x
  | x :: r => (x ++ sep ++ join sep r)%string
  end.

(** strings.Split for a separator of one byte. *)
Fixpoint split1 (c : ascii) (s : string) : list string :=
  match s with
  | EmptyString => [EmptyString]
  | String a r =>
      if Ascii.eqb a c then EmptyString :: split1 c r
      else match split1 c r with
           | [] => [String a EmptyString]
           | h :: t => String a h :: t
           end
  end.

(** Does the byte occur in the string. *)
Fixpoint has_char (c : ascii) (s : string) : bool :=
  match s with
  | EmptyString => false
  | String a r => Ascii.eqb a c || has_char c r
  end.

(** strings.ToLower / strings.EqualFold restricted to ASCII letters. *)
Definition lower_ascii (a : ascii) : ascii :=
  let n := nat_of_ascii a in
  if ((65 <=? n) && (n <=? 90))%nat then ascii_of_nat (n + 32) else a.
Fixpoint lower (s : string) : string :=
  match s with
  | EmptyString => EmptyString
  | String a r => String (lower_ascii a) (lower r)
  end.

(** strings.HasPrefix and strings.Contains. *)
Fixpoint has_prefix (p s : string) : bool :=
  match p, s with
  | EmptyString, _ => true
  | String a p', String b s' => Ascii.eqb a b && has_prefix p' s'
  | String _ _, EmptyString => false
  end.
Fixpoint contains (s sub : string) : bool :=
  has_prefix sub s ||
  match s with EmptyString => false | String _ r => contains r sub end.

(** Association lists as Go maps with string keys (last write wins, one entry per key). *)
Section AMap.
  Context {V : Type}.
  Definition amap := list (string * V).
  Fixpoint aget (m : amap) (k : string) : option V :=
    match m with
    | [] => None
    | (k', v) :: r => if String.eqb k' k then Some v else aget r k
    end.
  Fixpoint aset (m : amap) (k : string) (v : V) : amap :=
    match m with
    | [] => [(k, v)]
    | (k', v') :: r => if String.eqb k' k then (k, v) :: r else (k', v') :: aset r k v
    end.
  Fixpoint adel (m : amap) (k : string) : amap :=
    match m with
    | [] => []
    | (k', v') :: r => if String.eqb k' k then adel r k else (k', v') :: adel r k
    end.
End AMap.
Arguments amap V : clear implicits.
