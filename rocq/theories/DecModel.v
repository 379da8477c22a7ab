(** Decimal numbers as Go prints and reads them (strconv.FormatInt, fmt.Sprint of an
    int64, strconv.ParseInt with base 10, fmt.Sprintf "%0nd"). *)
From Coq Require Import Ascii String List ZArith Lia Bool.
From Verif Require Import GoBase.
Local Open Scope string_scope.
Open Scope Z_scope.

Definition digit (d : Z) : ascii := ascii_of_nat (48 + Z.to_nat d).
Definition digit_val (c : ascii) : option Z :=
  let n := Z.of_nat (nat_of_ascii c) in
  if (48 <=? n) && (n <=? 57) then Some (n - 48) else None.

(** The digits of n, before [acc]; fuel bounds their number. *)
Fixpoint digits (fuel : nat) (n : Z) (acc : string) : string :=
  match fuel with
  | O => acc
  | S f =>
      let acc' := String (digit (n mod 10)) acc in
      if n <? 10 then acc' else digits f (n / 10) acc'
  end.
Definition udec (n : Z) : string := digits (S (Z.to_nat (Z.log2 n))) n "".
Definition dec (z : Z) : string := if z <? 0 then String "-" (udec (- z)) else udec z.

(** Reading digits. *)
Fixpoint read_digits (s : string) (acc : Z) : option Z :=
  match s with
  | EmptyString => Some acc
  | String c r => match digit_val c with Some d => read_digits r (10 * acc + d) | None => None end
  end.
Definition read_nat (s : string) : option Z := match s with EmptyString => None | _ => read_digits s 0 end.
(** strconv.ParseInt(s, 10, 64): [None] stands for an error. *)
Definition parse_int (s : string) : option Z :=
  let '(neg, body) := match s with
    | String c r => if Ascii.eqb c "-" then (true, r) else if Ascii.eqb c "+" then (false, r) else (false, s)
    | EmptyString => (false, s)
    end in
  match read_nat body with
  | Some n => let v := if neg then - n else n in if in64b v then Some v else None
  | None => None
  end.

(** "%0wd" of a non-negative number. *)
Fixpoint zeros (n : nat) (s : string) : string := match n with O => s | S k => String "0" (zeros k s) end.
Definition pad (w : nat) (n : Z) : string := let s := udec n in zeros (w - String.length s) s.
