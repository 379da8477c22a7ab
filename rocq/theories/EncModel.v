(** TO_HEX / FROM_HEX, TO_BASE64 / FROM_BASE64, TO_BASE32 / FROM_BASE32,
    TO_CODE_POINTS / CODE_POINTS_TO_STRING / CODE_POINTS_TO_BYTES:
    internal/function_string.go with the codecs of Go's encoding/hex,
    encoding/base64 and encoding/base32 they call. *)
From Coq Require Import Ascii String List ZArith Lia Bool.
From Verif Require Import GoBase Utf8Model StrModel.
Import ListNotations.
Open Scope Z_scope.

(** Big-endian digits. *)
Fixpoint digits_be (base : Z) (m : nat) (v : Z) : list Z :=
  match m with O => [] | S k => digits_be base k (v / base) ++ [v mod base] end.
Definition be_val (base : Z) (ds : list Z) : Z := fold_left (fun a d => a * base + d) ds 0.

(** An alphabet and the position of a character in it. *)
Fixpoint position (c : ascii) (alpha : bytes) (i : Z) : option Z :=
  match alpha with
  | [] => None
  | a :: r => if Ascii.eqb a c then Some i else position c r (i + 1)
  end.
Definition symbol (alpha : bytes) (d : Z) : ascii := nth (Z.to_nat d) alpha "="%char.

Definition alpha16 : bytes := ascii_text "0123456789abcdef".
Definition alpha64 : bytes := ascii_text "ABCDEFGHIJKLMNOPQRSTUVWXYZabcdefghijklmnopqrstuvwxyz0123456789+/".
Definition alpha32 : bytes := ascii_text "ABCDEFGHIJKLMNOPQRSTUVWXYZ234567".

(** hex.EncodeToString; function_string.go:1144-1146 *)
Definition to_hex (b : bytes) : bytes :=
  flat_map (fun a => [symbol alpha16 (b2z a / 16); symbol alpha16 (b2z a mod 16)]) b.
(** hex.DecodeString accepts both cases. *)
Definition hex_val (c : ascii) : option Z := position (lower_ascii c) alpha16 0.
Fixpoint unhex (s : bytes) : res bytes :=
  match s with
  | [] => Ok []
  | a :: b :: r =>
      match hex_val a, hex_val b with
      | Some x, Some y => bind (unhex r) (fun t => Ok (z2b (16 * x + y) :: t))
      | _, _ => Err
      end
  | [_] => Err
  end.
(** function_string.go:164-173 *)
Definition from_hex (s : bytes) : res bytes :=
  unhex (if Nat.even (length s) then s else "0"%char :: s).

(** A block code: [n] bytes are [m] digits of [bits] bits. *)
Record code := Code { c_alpha : bytes; c_bits : Z; c_n : nat; c_m : nat }.
Definition base64 : code := Code alpha64 6 3 4.
Definition base32 : code := Code alpha32 5 5 8.
Definition c_base (k : code) : Z := 2 ^ c_bits k.
(** Digits needed for [r] bytes, bytes held by [j] digits. *)
Definition need (k : code) (r : nat) : nat := Z.to_nat ((8 * Z.of_nat r + c_bits k - 1) / c_bits k).
Definition held (k : code) (j : nat) : nat := Z.to_nat (c_bits k * Z.of_nat j / 8).
(** EncodeToString: blocks of n bytes; the last one is filled with zero bits and its
    unused digits are written "=". *)
Definition block (k : code) (bs : bytes) : bytes :=
  let r := length bs in
  let v := be_val 256 (map b2z bs ++ repeat 0 (c_n k - r)) in
  map (symbol (c_alpha k)) (firstn (need k r) (digits_be (c_base k) (c_m k) v))
    ++ repeat "="%char (c_m k - need k r).
Fixpoint encode_blocks (k : code) (fuel : nat) (s : bytes) : bytes :=
  match fuel, s with
  | O, _ | _, [] => []
  | S f, _ => block k (firstn (c_n k) s) ++ encode_blocks k f (skipn (c_n k) s)
  end.
Definition encode_with (k : code) (s : bytes) : bytes := encode_blocks k (length s) s.

(** Decoding reads digits up to a full block, a "=" or the end. *)
Fixpoint take_digits (alpha : bytes) (m : nat) (s : bytes) : res (list Z * bytes) :=
  match m, s with
  | O, _ | _, [] => Ok ([], s)
  | S j, c :: r =>
      if Ascii.eqb c "="%char then Ok ([], s)
      else match position c alpha 0 with
           | None => Err
           | Some d => bind (take_digits alpha j r) (fun '((ds, rest) : list Z * bytes) => Ok (d :: ds, rest))
           end
  end.
Definition unblock (k : code) (ds : list Z) : bytes :=
  let v := be_val (c_base k) (ds ++ repeat 0 (c_m k - length ds)) in
  map z2b (firstn (held k (length ds)) (digits_be 256 (c_n k) v)).
(** How a short block may end: base64.decodeQuantum wants exactly the missing "=" and
    nothing behind; base32.decode wants at least the missing "=" and ignores fewer than
    eight bytes from the first "=" on. *)
Definition all_pad (s : bytes) : bool := forallb (Ascii.eqb "="%char) s.
Definition ends64 (j : nat) (rest : bytes) : bool :=
  ((j =? 2) || (j =? 3))%nat && (length rest =? 4 - j)%nat && all_pad rest.
Definition ends32 (j : nat) (rest : bytes) : bool :=
  ((j =? 2) || (j =? 4) || (j =? 5) || (j =? 7))%nat && (8 - j <=? length rest)%nat &&
  (length rest <=? 8)%nat && all_pad (firstn (8 - j) rest).
Fixpoint decode_blocks (k : code) (ends : nat -> bytes -> bool) (fuel : nat) (s : bytes) : res bytes :=
  match s with
  | [] => Ok []
  | _ =>
      match fuel with
      | O => Err
      | S f =>
          bind (take_digits (c_alpha k) (c_m k) s) (fun '((ds, rest) : list Z * bytes) =>
            if (length ds =? c_m k)%nat
            then bind (decode_blocks k ends f rest) (fun t => Ok (unblock k ds ++ t))
            else if ends (length ds) rest then Ok (unblock k ds) else Err)
      end
  end.
(** Both decoders skip carriage returns and line feeds. *)
Definition newline (c : ascii) : bool := Ascii.eqb c "010"%char || Ascii.eqb c "013"%char.
Definition decode_with (k : code) (ends : nat -> bytes -> bool) (s : bytes) : res bytes :=
  let s' := filter (fun c => negb (newline c)) s in decode_blocks k ends (length s') s'.
(** function_string.go:1110-1116, 148-162 *)
Definition to_base64 : bytes -> bytes := encode_with base64.
Definition from_base64 : bytes -> res bytes := decode_with base64 ends64.
Definition to_base32 : bytes -> bytes := encode_with base32.
Definition from_base32 : bytes -> res bytes := decode_with base32 ends32.

(** TO_CODE_POINTS: function_string.go:1118-1142 *)
Definition to_code_points (v : sb) : list Z :=
  match v with Str s => decode s | Byt b => map b2z b end.
(** CODE_POINTS_TO_STRING: function_string.go:51-68.  An element is an optional INT64;
    rune(i64) keeps 32 bits. *)
Fixpoint code_points_loop (l : list (option Z)) (acc : list Z) : option (list Z) :=
  match l with
  | [] => Some acc
  | None :: _ => None
  | Some i :: r => code_points_loop r (if i =? 0 then acc else acc ++ [wrap32 i])
  end.
(** [None]: NULL *)
Definition code_points_to_string (l : list (option Z)) : option bytes :=
  option_map encode (code_points_loop l []).
(** CODE_POINTS_TO_BYTES: function_string.go:39-49, on non-NULL elements *)
Definition code_points_to_bytes (l : list Z) : bytes := map z2b l.
(** SAFE_CONVERT_BYTES_TO_STRING: function_string.go:889-897 *)
Definition safe_convert (b : bytes) : bytes := encode (decode b).
