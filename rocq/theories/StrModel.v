(** STRING and BYTES functions: internal/function_string.go, with the binders of
    internal/function_bind.go.  Arguments are non-NULL here (the binders of these
    functions return NULL as soon as one argument is NULL: existsNull,
    function_bind.go:31-38); integer arguments are the int64 that ToInt64 gave. *)
From Coq Require Import Ascii String List ZArith Lia Bool.
From Verif Require Import GoBase Utf8Model.
Import ListNotations.
Open Scope Z_scope.

(** A StringValue or a BytesValue. *)
Inductive sb := Str (s : bytes) | Byt (b : bytes).
Definition ascii_text (s : string) : bytes := list_ascii_of_string s.

(** Slicing l[i:j] of Go: out-of-range bounds panic.  (The capacity of the slices
    met here is their length, or the slice is nil.) *)
Definition slice {A} (l : list A) (i j : Z) : res (list A) :=
  if (0 <=? i) && (i <=? j) && (j <=? zlen l)
  then Ok (firstn (Z.to_nat (j - i)) (skipn (Z.to_nat i) l)) else GoPanic.

(** function_string.go:1042-1054 *)
Definition substr_pos (pos strlen : Z) : Z :=
  if (pos =? 0) || (pos <? - strlen) then 0
  else if strlen <? pos then strlen
  else if 0 <? pos then pos - 1
  else strlen + pos.
(** function_string.go:1056-1067 *)
Definition substr_len (len : option Z) (strlen : Z) : res Z :=
  match len with
  | None => Ok strlen
  | Some l => if l <? 0 then Err else if strlen <? l then Ok strlen else Ok l
  end.
(** function_string.go:1069-1108.  [unit_len] is the length the arithmetic uses: the
    number of runes for STRING, of bytes for BYTES; the slice is taken on the bytes in
    both cases (line 1087 slices v, not runes). *)
Definition substr_at (v : bytes) (unit_len pos : Z) (len : option Z) : res bytes :=
  let p := substr_pos pos unit_len in
  bind (substr_len len unit_len) (fun l =>
    let e := if unit_len <? p + l then unit_len else p + l in
    slice v p e).
Definition substr (v : sb) (pos : Z) (len : option Z) : res sb :=
  match v with
  | Str s => bind (substr_at s (zlen (decode s)) pos len) (fun r => Ok (Str r))
  | Byt b => bind (substr_at b (zlen b) pos len) (fun r => Ok (Byt r))
  end.

(** strings.Repeat, bytes.Repeat: a negative count panics.  (So does a result too
    large for the address space, which is not modelled.) *)
Fixpoint times {A} (n : nat) (l : list A) : list A :=
  match n with O => [] | S k => l ++ times k l end.
Definition go_repeat {A} (l : list A) (n : Z) : res (list A) :=
  if n <? 0 then GoPanic else Ok (times (Z.to_nat n) l).

(** LPAD and RPAD: function_string.go:364-414, 814-866.  [remain] > 0 whenever the
    pattern is computed.  The pattern of the STRING case, in runes: *)
Definition pad_runes (remain : Z) (pattern : option bytes) : res (list Z) :=
  match pattern with
  | None => bind (go_repeat [" "%char] remain) (fun b => Ok (decode b))
  | Some p =>
      let pat := decode p in
      if 0 <? remain - zlen pat then
        if zlen pat =? 0 then GoPanic                 (* division by zero *)
        else bind (go_repeat (encode pat) ((remain - zlen pat) ÷ zlen pat + 2))
                  (fun b => Ok (decode b))
      else Ok pat
  end.
(** The pattern of the BYTES case: pat stays nil when the given pattern is long
    enough (the else branch of the STRING case has no counterpart here). *)
Definition pad_bytes (remain : Z) (pattern : option bytes) : res bytes :=
  match pattern with
  | None => go_repeat [" "%char] remain
  | Some p =>
      if 0 <? remain - zlen p then
        if zlen p =? 0 then GoPanic
        else go_repeat p ((remain - zlen p) ÷ zlen p + 2)
      else Ok []
  end.
Definition pad (left : bool) (v : sb) (n : Z) (pattern : option bytes) : res sb :=
  match v with
  | Str s =>
      let runes := decode s in
      if n <=? zlen runes then bind (slice runes 0 n) (fun r => Ok (Str (encode r)))
      else bind (pad_runes (n - zlen runes) pattern) (fun pat =>
           bind (slice pat 0 (n - zlen runes)) (fun p =>
           Ok (Str (if left then encode p ++ s else s ++ encode p))))
  | Byt b =>
      if n <=? zlen b then bind (slice b 0 n) (fun r => Ok (Byt r))
      else bind (pad_bytes (n - zlen b) pattern) (fun pat =>
           bind (slice pat 0 (n - zlen b)) (fun p =>
           Ok (Byt (if left then p ++ b else b ++ p))))
  end.
Definition lpad : sb -> Z -> option bytes -> res sb := pad true.
(** function_string.go:815-817: RPAD alone checks the sign. *)
Definition rpad (v : sb) (n : Z) (pattern : option bytes) : res sb :=
  if n <? 0 then Err else pad false v n pattern.

(** TRANSLATE: function_string.go:1148-1216.  [unit c] is the text searched for byte
    [c]: string(s[i]) converts the byte to a rune and encodes it (STRING), []byte{s[i]}
    is the byte itself (BYTES). *)
Fixpoint translate_loop (unit : ascii -> bytes) (src tgt : bytes) (seen : list ascii) (e : bytes)
  : res bytes :=
  match src with
  | [] => Ok e
  | c :: src' =>
      if existsb (Ascii.eqb c) seen then Err
      else translate_loop unit src' (tl tgt) (c :: seen)
             (replace_all (unit c) (match tgt with d :: _ => unit d | [] => [] end) e)
  end.
Definition byte_as_rune (c : ascii) : bytes := encode_rune (b2z c).
Definition translate (v src tgt : sb) : res sb :=
  match v, src, tgt with
  | Str e, Str s, Str t => bind (translate_loop byte_as_rune s t [] e) (fun r => Ok (Str r))
  | Byt e, Byt s, Byt t => bind (translate_loop (fun c => [c]) s t [] e) (fun r => Ok (Byt r))
  | _, _, _ => Err
  end.

(** SPLIT: function_string.go:947-987. *)
Definition go_split (v : sb) (delim : option sb) : res (list sb) :=
  match v, delim with
  | Str s, None => Ok (map Str (split [","%char] s))
  | Str s, Some (Str d) => Ok (map Str (split d s))
  | Byt b, Some (Byt d) => Ok (map Byt (split d b))
  | _, _ => Err
  end.
(** ARRAY_TO_STRING on non-NULL STRING elements: function_array.go:24-38 (Format('t')
    of a StringValue is the string, value.go:316-324). *)
Fixpoint array_to_string (l : list sb) (d : bytes) (acc : list bytes) : res sb :=
  match l with
  | [] => Ok (Str (joinb d acc))
  | Str s :: r => array_to_string r d (acc ++ [s])
  | Byt _ :: _ => Err
  end.

(** function_string.go:989-1040, 115-137 *)
Definition starts_with (v p : sb) : res bool :=
  match v, p with
  | Str v, Str p => Ok (prefixb p v)
  | Byt v, Byt p => Ok (prefixb p v)
  | _, _ => Err
  end.
Definition ends_with (v p : sb) : res bool :=
  match v, p with
  | Str v, Str p => Ok (suffixb p v)
  | Byt v, Byt p => Ok (suffixb p v)
  | _, _ => Err
  end.
Definition go_index (sub s : bytes) : Z :=
  match index_of sub s with Some i => Z.of_nat i | None => -1 end.
Definition strpos (v p : sb) : res Z :=
  match v, p with
  | Str v, Str p => Ok (go_index p v + 1)
  | Byt v, Byt p => Ok (go_index p v + 1)
  | _, _ => Err
  end.

(** INSTR: function_string.go:227-306.  The loop at byte index [i] of the shortened
    source (the conversion through float64 of line 234 is exact for positions up to 2^53
    and not modelled beyond); [fuel] bounds the number of iterations by the length of the source.  The
    answer is the index of the byte reached when the count is complete. *)
Fixpoint instr_loop (fuel : nat) (src sub : bytes) (i : nat) (found occ : Z) : option nat :=
  match fuel with
  | O => None
  | S f =>
      if (length src <=? i)%nat then None
      else match index_of sub (skipn i src) with
           | Some k => if found + 1 =? occ then Some (i + k)%nat
                       else instr_loop f src sub (i + k + 1) (found + 1) occ
           | None => if found =? occ then Some i else instr_loop f src sub (i + 1) found occ
           end
  end.
Definition instr_at (src sub : bytes) (position occ : Z) : res Z :=
  if position =? 0 then Err
  else if occ <=? 0 then Err
  else
    let pos := Z.abs position in
    if zlen src <=? pos then Err
    else
      let src' := if position <? 0 then firstn (Z.to_nat (zlen src - pos + 1)) src
                  else skipn (Z.to_nat (pos - 1)) src in
      match instr_loop (length src') src' sub 0 0 occ with
      | None => Ok 0
      | Some i => Ok (if position <? 0 then zlen src - Z.of_nat i - 1 else pos + Z.of_nat i)
      end.
(** function_bind.go (bindInstr): the default position is 0. *)
Definition instr (v p : sb) (position occ : option Z) : res Z :=
  let position := match position with Some z => z | None => 0 end in
  let occ := match occ with Some z => z | None => 1 end in
  match v, p with
  | Str v, Str p => instr_at v p position occ
  | Byt v, Byt p => instr_at v p position occ
  | _, _ => Err
  end.

(** REVERSE: function_string.go:758-783 (the swapping loop of the STRING case is
    written as list reversal). *)
Definition reverse (v : sb) : sb :=
  match v with Str s => Str (encode (rev (decode s))) | Byt b => Byt (rev b) end.
(** LENGTH: function_string.go:346-362 *)
Definition length_of (v : sb) : Z :=
  match v with Str s => zlen (decode s) | Byt b => zlen b end.
(** LEFT, RIGHT: function_string.go:318-344, 785-812 *)
Definition left_of (v : sb) (n : Z) : res sb :=
  if n <? 0 then Err
  else match v with
       | Str s => if zlen (decode s) <=? n then Ok v
                  else bind (slice (decode s) 0 n) (fun r => Ok (Str (encode r)))
       | Byt b => if zlen b <=? n then Ok v else bind (slice b 0 n) (fun r => Ok (Byt r))
       end.
Definition right_of (v : sb) (n : Z) : res sb :=
  if n <? 0 then Err
  else match v with
       | Str s => if zlen (decode s) <=? n then Ok v
                  else bind (slice (decode s) (zlen (decode s) - n) (zlen (decode s)))
                            (fun r => Ok (Str (encode r)))
       | Byt b => if zlen b <=? n then Ok v
                  else bind (slice b (zlen b - n) (zlen b)) (fun r => Ok (Byt r))
       end.
(** REPLACE, REPEAT: function_string.go:706-756 *)
Definition replace (v old new : sb) : res sb :=
  match v, old, new with
  | Str v, Str o, Str n => Ok (Str (replace_all o n v))
  | Byt v, Byt o, Byt n => Ok (Byt (replace_all o n v))
  | _, _, _ => Err
  end.
Definition repeat_of (v : sb) (n : Z) : res sb :=
  match v with
  | Str s => bind (go_repeat s n) (fun r => Ok (Str r))
  | Byt b => bind (go_repeat b n) (fun r => Ok (Byt r))
  end.
(** CONCAT: function_string.go:88-108.  The analyzer gives all arguments one type. *)
Definition sb_bytes (v : sb) : bytes := match v with Str s => s | Byt b => b end.
Definition concat_of (args : list sb) : res sb :=
  match args with
  | [] => Err
  | Str _ :: _ => Ok (Str (List.concat (map sb_bytes args)))
  | Byt _ :: _ => Ok (Byt (List.concat (map sb_bytes args)))
  end.
(** BYTE_LENGTH: function_string.go:24-26 *)
Definition byte_length (v : sb) : Z := zlen (sb_bytes v).
