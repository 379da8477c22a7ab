(** REGEXP_CONTAINS, REGEXP_EXTRACT, REGEXP_EXTRACT_ALL, REGEXP_INSTR, REGEXP_REPLACE:
    internal/function_string.go:485-704 with their binders, internal/function_bind.go:1051-1142
    (arguments that are not NULL).  INITCAP, function_string.go:175-227, and SOUNDEX,
    function_string.go:899-947. *)
From Coq Require Import Ascii String List ZArith Lia Bool.
From Verif Require Import GoBase Utf8Model StrModel EncModel.
Import ListNotations.
Open Scope Z_scope.

(** A submatch: where it starts and ends, in bytes; None stands for -1, -1. *)
Definition group : Type := option (nat * nat).
Definition between_bytes (s : bytes) (i j : nat) : bytes := firstn (j - i) (skipn i s).
Definition group_text (s : bytes) (g : group) : bytes :=
  match g with Some (i, j) => between_bytes s i j | None => [] end.

(** Value.ToString, value.go:255-257 for STRING, 399-401 for BYTES (base64). *)
Definition arg_string (v : sb) : bytes := match v with Str s => s | Byt b => to_base64 b end.
(** Value.ToBytes, value.go:259-261 and 403-405. *)
Definition arg_bytes (v : sb) : bytes := match v with Str s => s | Byt b => b end.

Definition digit (c : ascii) : bool := between 48 57 (b2z c).
Definition digit19 (c : ascii) : bool := between 49 57 (b2z c).
Fixpoint span (p : ascii -> bool) (s : bytes) : bytes * bytes :=
  match s with
  | c :: r => if p c then let (a, b) := span p r in (c :: a, b) else ([], s)
  | [] => ([], [])
  end.

(** normalizeReplacement, function_string.go:633-662.  A group number that reaches the end of the
    text gets no closing brace, and its digits after the first are read again (the loop of lines
    643-652 ends without lines 649 and 650).  [fuel] is any number not below the length. *)
Fixpoint normalize (fuel : nat) (t : bytes) : res bytes :=
  match fuel with
  | O => Ok []
  | S fuel =>
      match t with
      | [] => Ok []
      | c :: t1 =>
          if Ascii.eqb c "\" then
            match t1 with
            | [] => GoPanic                                     (* line 640: repl[i] *)
            | d :: t2 =>
                if digit19 d then
                  let (ds, rest) := span digit t2 in
                  match rest with
                  | [] => bind (normalize fuel t2) (fun n => Ok ("$"%char :: "{"%char :: d :: ds ++ n))
                  | _ => bind (normalize fuel rest) (fun n => Ok ("$"%char :: "{"%char :: d :: ds ++ "}"%char :: n))
                  end
                else bind (normalize fuel t2) (fun n => Ok (c :: d :: n))
            end
          else bind (normalize fuel t1) (fun n => Ok (c :: n))
      end
  end.
Definition normalize_replacement (t : bytes) : res bytes := normalize (length t) t.

(** Go's regexp.expand and extract (regexp.go of the library).  [word] are the bytes of names:
    letters, digits and the underscore (a letter of several bytes counts as its bytes, which the
    parameter leaves open). *)
Section Engine.
Variable regex : Type.
Variable compile : bytes -> option regex.
(** FindAllSubmatchIndex(s, -1): for each match the whole match and then its groups. *)
Variable find_all : regex -> bytes -> list (list group).
(** The text a $name stands for. *)
Variable named : regex -> bytes -> bytes -> list group -> bytes.
Variable word : ascii -> bool.

(** Parse number: regexp.extract. *)
Fixpoint name_num (num : Z) (name : bytes) : option Z :=
  match name with
  | [] => Some num
  | c :: r => if digit c && (num <? 100000000) then name_num (num * 10 + (b2z c - 48)) r else None
  end.
Definition name_number (name : bytes) : option Z :=
  match name with
  | c :: _ :: _ => if Ascii.eqb c "0" then None else name_num 0 name
  | _ => name_num 0 name
  end.
(** The name after a $ and what follows it; None when it is malformed. *)
Definition extract (t : bytes) : option (bytes * bytes) :=
  match t with
  | [] => None
  | c :: r =>
      if Ascii.eqb c "{" then
        let (name, rest) := span word r in
        match name, rest with
        | _ :: _, e :: rest' => if Ascii.eqb e "}" then Some (name, rest') else None
        | _, _ => None
        end
      else
        let (name, rest) := span word t in
        match name with _ :: _ => Some (name, rest) | [] => None end
  end.
Fixpoint expand (fuel : nat) (re : regex) (s : bytes) (m : list group) (t : bytes) : bytes :=
  match fuel with
  | O => []
  | S fuel =>
      match t with
      | [] => []
      | c :: t1 =>
          if Ascii.eqb c "$" then
            match t1 with
            | "$"%char :: t2 => "$"%char :: expand fuel re s m t2
            | _ =>
                match extract t1 with
                | None => "$"%char :: expand fuel re s m t1
                | Some (name, rest) =>
                    (match name_number name with
                     | Some k => group_text s (nth (Z.to_nat k) m None)
                     | None => named re name s m
                     end ++ expand fuel re s m rest)%list
                end
            end
          else c :: expand fuel re s m t1
      end
  end.
Definition expand_template (re : regex) (s : bytes) (m : list group) (t : bytes) : bytes := expand (length t) re s m t.

(** Regexp.ReplaceAll: the text between the matches of FindAll is kept. *)
Fixpoint replace_from (re : regex) (t s : bytes) (last : nat) (ms : list (list group)) : bytes :=
  match ms with
  | [] => skipn last s
  | m :: ms' =>
      match m with
      | Some (i, j) :: _ => (between_bytes s last i ++ expand_template re s m t ++ replace_from re t s j ms')%list
      | _ => replace_from re t s last ms'
      end
  end.
Definition replace_all_matches (re : regex) (t s : bytes) : bytes := replace_from re t s 0 (find_all re s).

(** FindAll...(s, n) for n > 0: the first n of all matches. *)
Definition find_n (re : regex) (s : bytes) (n : Z) : list (list group) := firstn (Z.to_nat n) (find_all re s).

(** match[len(match)-1], lines 519, 533, 552, 563. *)
Definition last_group (s : bytes) (m : list group) : res bytes :=
  match rev m with g :: _ => Ok (group_text s g) | [] => GoPanic end.

(** function_string.go:485-491, function_bind.go:1051-1064 (both arguments by ToString). *)
Definition regexp_contains (v e : sb) : res bool :=
  match compile (arg_string e) with
  | None => Err
  | Some re => Ok (negb (match find_all re (arg_string v) with [] => true | _ => false end))
  end.

Definition like (v : sb) (b : bytes) : sb := match v with Str _ => Str b | Byt _ => Byt b end.
(** The length that a position is compared with, lines 511 and 525. *)
Definition units (v : sb) : Z := match v with Str s => zlen (decode s) | Byt b => zlen b end.

(** function_string.go:493-536, function_bind.go:1066-1091.  The position counts characters in line
    511 and bytes in line 514. *)
Definition regexp_extract (v e : sb) (position occurrence : Z) : res (option sb) :=
  if position <=? 0 then Err
  else if occurrence <=? 0 then Err
  else
    match compile (arg_string e) with
    | None => Err
    | Some re =>
        let pos := position - 1 in
        if units v <=? pos then Ok None
        else
          bind (slice (arg_bytes v) pos (zlen (arg_bytes v))) (fun s =>
          let ms := find_n re s occurrence in
          if zlen ms <? occurrence then Ok None
          else bind (last_group s (nth (Z.to_nat (occurrence - 1)) ms [])) (fun t => Ok (Some (like v t))))
    end.

(** function_string.go:538-568, function_bind.go:1093-1102. *)
Fixpoint last_groups (v : sb) (s : bytes) (ms : list (list group)) : res (list sb) :=
  match ms with
  | [] => Ok []
  | m :: ms' => bind (last_group s m) (fun t => bind (last_groups v s ms') (fun l => Ok (like v t :: l)))
  end.
Definition regexp_extract_all (v e : sb) : res (list sb) :=
  match compile (arg_string e) with
  | None => Err
  | Some re => last_groups v (arg_bytes v) (find_all re (arg_bytes v))
  end.

(** function_string.go:570-631, function_bind.go:1104-1135.  The match is the list of the ends of
    its groups. *)
Definition ends (m : list group) : list Z :=
  flat_map (fun g : group => match g with Some (i, j) => [Z.of_nat i; Z.of_nat j] | None => [-1; -1] end) m.
Definition regexp_instr (v e : sb) (position occurrence opos : Z) : res Z :=
  if position <=? 0 then Err
  else if occurrence <=? 0 then Err
  else
    let pos := position - 1 in
    match compile (match v with Str _ => arg_string e | Byt _ => arg_bytes e end) with
    | None => Err
    | Some re =>
        if units v <=? pos then Ok 0
        else
          bind (slice (arg_bytes v) pos (zlen (arg_bytes v))) (fun s =>
          let ms := find_n re s occurrence in
          if zlen ms <? occurrence then Ok 0
          else
            let m := ends (nth (Z.to_nat (occurrence - 1)) ms []) in
            if zlen m <=? opos then Ok 0
            else if opos <? 0 then GoPanic
            else Ok (pos + nth (Z.to_nat opos) m 0 + 1))
    end.

(** function_string.go:664-704, function_bind.go:1137-1142. *)
Definition regexp_replace (v e r : sb) : res sb :=
  let text := match v with Str _ => arg_string | Byt _ => arg_bytes end in
  match compile (text e) with
  | None => Err
  | Some re => bind (normalize_replacement (text r)) (fun t => Ok (like v (replace_all_matches re t (text v))))
  end.
End Engine.

(** INITCAP, function_string.go:192-227.  [up] and [low] are strings.ToUpper and strings.ToLower on
    one character. *)
Section Initcap.
Variable up low : Z -> Z.
Definition is_delim (delims : list Z) (r : Z) : bool := existsb (Z.eqb r) delims.
Fixpoint initcap_loop (delims : list Z) (first : bool) (src : list Z) : list Z :=
  match src with
  | [] => []
  | r :: rest =>
      let cur := is_delim delims r in
      let out := if first then up r else if cur then r else low r in
      match rest with
      | [] => [out]
      | n :: rest' =>
          if is_delim delims n then out :: initcap_loop delims false rest
          else if cur then out :: up n :: initcap_loop delims false rest'
          else out :: initcap_loop delims false rest
      end
  end.
(** function_string.go:176-180 *)
Definition default_delimiters : list Z :=
  map b2z (ascii_text " [](){}/|\<>!?@"  ++ [z2b 34] ++ ascii_text "^#$&~_,.:;*%+-").
(** function_bind.go:884-907: without a second argument the delimiters are nil, with one they are
    its characters. *)
Definition initcap (v : bytes) (delims : option bytes) : bytes :=
  encode (initcap_loop (match delims with Some d => decode d | None => default_delimiters end) true (decode v)).
End Initcap.

(** SOUNDEX, function_string.go:899-947.  A character is looked at if unicode.IsLetter and one byte
    long: an ASCII letter.  The codes are those of lines 899-907. *)
Definition letter (r : Z) : bool := between 65 90 r || between 97 122 r.
Definition upper_z (r : Z) : Z := if between 97 122 r then r - 32 else r.
Definition soundex_code (r : Z) : Z :=
  b2z (nth (Z.to_nat (upper_z r - 65)) (ascii_text "01230120022455012623010202") "0"%char).
(** The loop of lines 916-940 after the first letter: [n] more digits are wanted. *)
Fixpoint soundex_loop (n : nat) (prev : Z) (rs : list Z) : list Z :=
  match rs with
  | [] => []
  | r :: rs' =>
      if letter r then
        let code := soundex_code r in
        if (code =? prev) || (code =? 48) then soundex_loop n prev rs'
        else match n with
             | O => []
             | S O => [code]
             | S n' => code :: soundex_loop n' code rs'
             end
      else soundex_loop n prev rs'
  end.
Fixpoint soundex_runes (rs : list Z) : list Z :=
  match rs with
  | [] => []
  | r :: rs' =>
      if letter r then
        let ds := soundex_loop 3 (soundex_code r) rs' in
        r :: ds ++ repeat 48 (3 - length ds)
      else soundex_runes rs'
  end.
Definition soundex (v : bytes) : bytes := map z2b (soundex_runes (decode v)).
