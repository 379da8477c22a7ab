(** The NET functions on addresses: internal/function_net.go:31-79 and 160-166, with the
    parts of Go's packages net, net/netip and encoding/binary they call.  A byte is an
    integer from 0 to 255; arguments are non-NULL. *)
From Coq Require Import Ascii String List ZArith Lia Bool.
From Verif Require Import GoBase DecModel.
Import ListNotations.
Local Open Scope string_scope.
Open Scope Z_scope.

(** internal/function_net.go:69-73: uint32(v), big-endian *)
Definition ipv4_from_int64 (v : Z) : list Z :=
  let u := v mod 2 ^ 32 in
  [u / 2 ^ 24 mod 256; u / 2 ^ 16 mod 256; u / 2 ^ 8 mod 256; u mod 256].
(** internal/function_net.go:75-80 *)
Definition ipv4_to_int64 (b : list Z) : res Z :=
  match b with
  | [a; b; c; d] => Ok (a * 2 ^ 24 + b * 2 ^ 16 + c * 2 ^ 8 + d)
  | _ => Err
  end.

(** net.CIDRMask; [None] is the nil mask *)
Fixpoint mask_loop (bytes : nat) (n : Z) : list Z :=
  match bytes with
  | O => []
  | S k => if 8 <=? n then 255 :: mask_loop k (n - 8) else (255 - Z.shiftr 255 n) :: mask_loop k 0
  end.
Definition cidr_mask (ones bits : Z) : option (list Z) :=
  if negb ((bits =? 32) || (bits =? 128)) then None
  else if (ones <? 0) || (bits <? ones) then None
  else Some (mask_loop (Z.to_nat (bits / 8)) ones).
(** internal/function_net.go:39-48 *)
Definition ip_net_mask (output prefix : Z) : res (list Z) :=
  let result := cidr_mask prefix (output * 8) in
  if negb (output =? 4) && negb (output =? 16) then Err
  else if (prefix <? 0) || (output * 8 <? prefix) then Err
  else Ok (match result with Some m => m | None => [] end).
(** net.IP.Mask when mask and address have the same length, which is the only case here;
    otherwise the result is nil. *)
Fixpoint and_all (a m : list Z) : list Z :=
  match a, m with x :: a', y :: m' => Z.land x y :: and_all a' m' | _, _ => [] end.
Definition ip_mask (ip m : list Z) : list Z := if Nat.eqb (List.length ip) (List.length m) then and_all ip m else [].
(** internal/function_net.go:58-68 *)
Definition ip_trunc (v : list Z) (n : Z) : res (list Z) :=
  let len := zlen v in
  if negb (len =? 4) && negb (len =? 16) then Err
  else if (n <? 0) || (len * 8 <? n) then Err
  else Ok (ip_mask v (match cidr_mask n (len * 8) with Some m => m | None => [] end)).

(** netip.Addr.String of a 4-byte address (function_net.go:50-56) *)
Definition ipv4_text (b : list Z) : option string :=
  match b with
  | [a; b; c; d] => Some (udec a ++ "." ++ udec b ++ "." ++ udec c ++ "." ++ udec d)
  | _ => None
  end.
(** netip.parseIPv4.  [val] and [len] are the value and number of digits of the current
    field; len = 0 exactly at the start and after a point. *)
Fixpoint parse4 (s : string) (val len : Z) (fields : list Z) : option (list Z) :=
  match s with
  | EmptyString => if zlen fields <? 3 then None else Some (fields ++ [val])%list
  | String c r =>
      match digit_val c with
      | Some d =>
          if (len =? 1) && (val =? 0) then None
          else let v := val * 10 + d in
               if 255 <? v then None else parse4 r v (len + 1) fields
      | None =>
          if Ascii.eqb c "." then
            if (len =? 0) || (match r with EmptyString => true | _ => false end) then None
            else if zlen fields =? 3 then None
            else parse4 r 0 0 (fields ++ [val])%list
          else None
      end
  end.
(** netip.ParseAddr: the first of ".", ":", "%" decides; only IPv4 texts are modelled and
    [None] is everything else. *)
Fixpoint is_v4 (s : string) : bool :=
  match s with
  | EmptyString => false
  | String c r => if Ascii.eqb c "." then true else if Ascii.eqb c ":" || Ascii.eqb c "%" then false else is_v4 r
  end.
(** internal/function_net.go:31-37, 160-166 *)
Definition ipv4_from_text (s : string) : option (list Z) := if is_v4 s then parse4 s 0 0 [] else None.
