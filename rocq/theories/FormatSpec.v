(** What FORMAT should print, independently of the model. *)
From Coq Require Import Ascii String List ZArith Bool.
From Verif Require Import GoBase DecModel ValueModel.
Import ListNotations.
Local Open Scope string_scope.
Open Scope Z_scope.

(** ** Numbers *)
Definition digit_char (up : bool) (d : Z) : ascii :=
  match String.get (Z.to_nat d) (if up then "0123456789ABCDEF" else "0123456789abcdef") with Some c => c | None => " "%char end.
(** The numeral of a number in a base, without leading zeros *)
Inductive in_base (b : Z) (up : bool) : string -> Z -> Prop :=
| in_base_one : forall d, 0 <= d < b -> in_base b up (String (digit_char up d) "") d
| in_base_more : forall s n d, in_base b up s n -> 0 < n -> 0 <= d < b -> in_base b up (s ++ String (digit_char up d) "") (b * n + d).
Definition base (x : ascii) : option (Z * bool) :=
  match x with
  | "d"%char | "i"%char => Some (10, false) | "o"%char => Some (8, false)
  | "x"%char => Some (16, false) | "X"%char => Some (16, true) | _ => None
  end.
Fixpoint copies (c : ascii) (n : nat) : string := match n with O => "" | S k => String c (copies c k) end.
(** Right-aligned in at least [width] characters; zeros go between the sign and the digits. *)
Definition aligned (zero : bool) (width : Z) (sign a s : string) : Prop :=
  exists k, Z.of_nat k = Z.max 0 (width - Z.of_nat (String.length (sign ++ a))) /\
    s = if zero then sign ++ copies "0" k ++ a else copies " " k ++ sign ++ a.
Definition int_text (zero : bool) (width : Z) (x : ascii) (v : Z) (s : string) : Prop :=
  exists b up a, base x = Some (b, up) /\ in_base b up a (Z.abs v) /\ aligned zero width (if v <? 0 then "-" else "") a s.
(** Groups of three digits, from the right *)
Inductive grouped : string -> string -> Prop :=
| grouped_short : forall s, (1 <= String.length s <= 3)%nat -> grouped s s
| grouped_more : forall a g b, grouped a g -> String.length b = 3%nat -> grouped (a ++ b) (g ++ "," ++ b).
Definition grouped_int (v : Z) (s : string) : Prop :=
  exists a g, in_base 10 false a (Z.abs v) /\ grouped a g /\ s = (if v <? 0 then "-" else "") ++ g.
Fixpoint no_commas (s : string) : string :=
  match s with EmptyString => "" | String c r => if Ascii.eqb c "," then no_commas r else String c (no_commas r) end.

(** ** Formats *)
Inductive fwidth := Plain | W (n : Z) | Star.
(** A character, %%, an integer with its zero flag, width and letter, %s, and %t *)
Inductive piece := Ch (c : ascii) | Pct | Int (zero : bool) (w : fwidth) (x : ascii) | Str | Show.
Definition width_text (w : fwidth) : string := match w with Plain => "" | W n => dec n | Star => "*" end.
Definition written (p : piece) : string :=
  match p with
  | Ch c => String c "" | Pct => "%%" | Str => "%s" | Show => "%t"
  | Int z w x => "%" ++ (if z then "0" else "") ++ width_text w ++ String x ""
  end.
Fixpoint pattern (ps : list piece) : string := match ps with [] => "" | p :: r => written p ++ pattern r end.
(** Widths as fmt takes them: what precedes the last digit is at most 1000000 *)
Definition proper (p : piece) : Prop :=
  match p with
  | Ch c => c <> "%"%char
  | Int _ w x => base x <> None /\ match w with W n => 1 <= n <= 10000009 | _ => True end
  | _ => True
  end.
(** The arguments a piece takes and what it prints of them *)
Inductive prints : piece -> list val -> string -> Prop :=
| prints_char : forall c, prints (Ch c) [] (String c "")
| prints_percent : prints Pct [] "%"
| prints_string : forall s, prints Str [VStr s] s
| prints_show_int : forall n, prints Show [VInt n] (dec n)
| prints_show_string : forall s, prints Show [VStr s] s
| prints_plain : forall z x v s, int_text z 0 x v s -> (x = "d" \/ x = "i" \/ 0 <= v)%char -> prints (Int z Plain x) [VInt v] s
| prints_width : forall z w x v s, int_text z w x v s -> (x = "d" \/ x = "i" \/ 0 <= v)%char -> prints (Int z (W w) x) [VInt v] s
| prints_star : forall z w x v s, w <= 10000009 -> int_text z (Z.max 0 w) x v s -> (x = "d" \/ x = "i" \/ 0 <= v)%char ->
    prints (Int z Star x) [VInt w; VInt v] s.
Inductive says : list piece -> list val -> string -> Prop :=
| says_end : says [] [] ""
| says_piece : forall p a s ps args t, prints p a s -> says ps args t -> says (p :: ps) (a ++ args) (s ++ t).
(** The types of the arguments a piece takes *)
Inductive takes : piece -> list val -> Prop :=
| takes_char : forall c, takes (Ch c) []
| takes_percent : takes Pct []
| takes_string : forall s, takes Str [VStr s]
| takes_int : forall z w x v, w <> Star -> (x = "d" \/ x = "i" \/ 0 <= v)%char -> takes (Int z w x) [VInt v]
| takes_star : forall z x w v, (x = "d" \/ x = "i" \/ 0 <= v)%char -> takes (Int z Star x) [VInt w; VInt v].
(** At least the arguments the pieces take, in order *)
Inductive fits : list piece -> list val -> Prop :=
| fits_end : forall extra, fits [] extra
| fits_piece : forall p a ps args, takes p a -> fits ps args -> fits (p :: ps) (a ++ args).

(** ** Flags *)
(** The number with its sign; [plus] stands before numbers that are not negative. *)
Definition signed_text (plus : string) (width : Z) (v : Z) (s : string) : Prop :=
  exists a, in_base 10 false a (Z.abs v) /\ aligned false width (if v <? 0 then "-" else plus) a s.
Definition width_value (w : fwidth) : Z := match w with W n => n | _ => 0 end.
Definition fixed_width (w : fwidth) : Prop := match w with Plain => True | W n => 1 <= n <= 10000009 | Star => False end.
