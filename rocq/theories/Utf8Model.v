(** Go strings as byte sequences, their UTF-8 decoding into runes and the
    searching functions of packages strings and bytes.  Nothing here models a file
    of /repo; each definition states the Go construct it stands for. *)
From Coq Require Import Ascii String List ZArith Lia Bool.
From Verif Require Import GoBase.
Import ListNotations.
Open Scope Z_scope.

Definition bytes := list ascii.

(** A byte as an integer and back; the conversion byte(x) keeps the low 8 bits. *)
Definition b2z (a : ascii) : Z := Z.of_N (N_of_ascii a).
Definition z2b (z : Z) : ascii := ascii_of_N (Z.to_N (z mod 256)).

Definition between (lo hi x : Z) : bool := (lo <=? x) && (x <=? hi).
(** utf8.RuneError *)
Definition rune_error : Z := 65533.
(** A Unicode scalar value: what a rune of a well-formed string can be. *)
Definition scalar (r : Z) : Prop := 0 <= r <= 1114111 /\ ~ 55296 <= r <= 57343.
Definition scalarb (r : Z) : bool := between 0 1114111 r && negb (between 55296 57343 r).

(** utf8.EncodeRune: anything that is not a scalar value is written as U+FFFD. *)
Definition encode_scalar (r : Z) : bytes :=
  if r <=? 127 then [z2b r]
  else if r <=? 2047 then [z2b (192 + r / 64); z2b (128 + r mod 64)]
  else if r <=? 65535 then
    [z2b (224 + r / 4096); z2b (128 + r / 64 mod 64); z2b (128 + r mod 64)]
  else [z2b (240 + r / 262144); z2b (128 + r / 4096 mod 64);
        z2b (128 + r / 64 mod 64); z2b (128 + r mod 64)].
Definition encode_rune (r : Z) : bytes :=
  encode_scalar (if scalarb r then r else rune_error).
(** string(runes) *)
Definition encode (rs : list Z) : bytes := flat_map encode_rune rs.

(** utf8.DecodeRune: tables "first" and "acceptRanges" of package unicode/utf8. *)
Definition cont (b : Z) : bool := between 128 191 b.
Definition two_ok (a b : Z) : bool := between 194 223 a && cont b.
Definition three_ok (a b c : Z) : bool :=
  between 224 239 a && between (if a =? 224 then 160 else 128) (if a =? 237 then 159 else 191) b && cont c.
Definition four_ok (a b c d : Z) : bool :=
  between 240 244 a && between (if a =? 240 then 144 else 128) (if a =? 244 then 143 else 191) b &&
  cont c && cont d.

(** []rune(s), and the runes "for _, r := range s" visits: a byte that starts no
    well-formed sequence yields U+FFFD and the decoder moves one byte on. *)
Fixpoint decode (s : bytes) : list Z :=
  match s with
  | [] => []
  | a :: r =>
      if b2z a <? 128 then b2z a :: decode r
      else match r with
           | b :: r1 =>
               if two_ok (b2z a) (b2z b) then (b2z a - 192) * 64 + (b2z b - 128) :: decode r1
               else match r1 with
                    | c :: r2 =>
                        if three_ok (b2z a) (b2z b) (b2z c)
                        then ((b2z a - 224) * 64 + (b2z b - 128)) * 64 + (b2z c - 128) :: decode r2
                        else match r2 with
                             | d :: r3 =>
                                 if four_ok (b2z a) (b2z b) (b2z c) (b2z d)
                                 then (((b2z a - 240) * 64 + (b2z b - 128)) * 64 + (b2z c - 128)) * 64
                                        + (b2z d - 128) :: decode r3
                                 else rune_error :: decode r
                             | [] => rune_error :: decode r
                             end
                    | [] => rune_error :: decode r
                    end
           | [] => rune_error :: decode r
           end
  end.

(** A well-formed string: the encoding of some sequence of characters. *)
Definition well_formed (s : bytes) : Prop := exists rs, Forall scalar rs /\ s = encode rs.

(** strings.HasPrefix, HasSuffix. *)
Fixpoint prefixb (p s : bytes) : bool :=
  match p, s with
  | [], _ => true
  | a :: p', b :: s' => Ascii.eqb a b && prefixb p' s'
  | _ :: _, [] => false
  end.
Definition suffixb (p s : bytes) : bool := prefixb (rev p) (rev s).
(** strings.Index; None stands for -1. *)
Fixpoint index_of (sub s : bytes) : option nat :=
  if prefixb sub s then Some O
  else match s with
       | [] => None
       | _ :: r => option_map S (index_of sub r)
       end.
(** strings.Split for a non-empty separator: cut at the leftmost occurrence, go on
    behind it.  The fuel is the length of the string. *)
Fixpoint split_loop (fuel : nat) (d s : bytes) : list bytes :=
  match fuel with
  | O => [s]
  | S f => match index_of d s with
           | None => [s]
           | Some i => firstn i s :: split_loop f d (skipn (i + length d) s)
           end
  end.
(** strings.Split: an empty separator cuts after every character.  Simplified for
    strings that are not well formed, whose bad bytes read as U+FFFD here. *)
Definition split (d s : bytes) : list bytes :=
  match d with
  | [] => map encode_rune (decode s)
  | _ => split_loop (length s) d s
  end.
(** strings.Join *)
Fixpoint joinb (d : bytes) (l : list bytes) : bytes :=
  match l with
  | [] => []
  | [x] => x
  | x :: r => x ++ d ++ joinb d r
  end.
(** strings.ReplaceAll for a non-empty old part. *)
Fixpoint replace_loop (fuel : nat) (old new s : bytes) : bytes :=
  match fuel with
  | O => s
  | S f => match index_of old s with
           | None => s
           | Some i => firstn i s ++ new ++ replace_loop f old new (skipn (i + length old) s)
           end
  end.
(** With an empty old part the new one is put before every character and at the end. *)
Definition replace_all (old new s : bytes) : bytes :=
  match old with
  | [] => flat_map (fun r => new ++ encode_rune r) (decode s) ++ new
  | _ => replace_loop (length s) old new s
  end.
