(** Packed DATETIME and TIME literals, and TIMESTAMP columns as text. *)
From Coq Require Import Ascii String List ZArith Lia Bool.
From Verif Require Import GoBase CalendarModel InstantModel DecModel.
Import ListNotations.
Local Open Scope string_scope.
Open Scope Z_scope.

(** internal/encoder.go:232-246: shifts and masks *)
Definition field (b mask_bits shift : Z) : Z :=
  Z.shiftr (Z.land b (Z.shiftl (Z.ones mask_bits) shift)) shift.
(** internal/encoder.go:248-268 datetimeValueFromLiteral *)
Definition datetime_of_literal (bit : Z) : Z :=
  let b := Z.shiftr bit 20 in
  let y := field b 14 26 in
  let mo := field b 4 22 in
  let d := field b 5 17 in
  let h := field b 5 12 in
  let mi := field b 6 6 in
  let s := field b 6 0 in
  let us := Z.shiftr (Z.land bit (Z.ones 20)) 0 in
  go_time y mo d h mi s (us * 1000).
(** internal/encoder.go:270-278 timeValueFromLiteral *)
Definition time_of_literal (bit : Z) : Z :=
  let b := Z.shiftr bit 20 in
  let h := field b 5 12 in
  let mi := field b 6 6 in
  let s := field b 6 0 in
  let us := Z.shiftr (Z.land bit (Z.ones 20)) 0 in
  go_time 0 0 0 h mi s (us * 1000).

(** internal/rows.go:273-281 *)
Definition timestamp_text (t : Z) : string :=
  let u := unix_micro t in
  let sec := Z.quot u 1000000 in
  let frac := u - sec * 1000000 in
  (dec sec ++ "." ++ dec frac)%string.
(** timestamp.go:12-37.  The padded copy of the fraction is not used. *)
Definition time_from_text (v : string) : res Z :=
  match split1 "." v with
  | [a] => match parse_int a with Some s => Ok (from_unix s 0) | None => Err end
  | [a; b] =>
      match parse_int a with
      | Some s => match parse_int b with Some us => Ok (from_unix s (wrap64 (us * 1000))) | None => Err end
      | None => Err
      end
  | _ => Err
  end.
