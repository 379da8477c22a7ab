(** JSON texts and what they denote: RFC 8259, independent of the code.

    A number denotes the rational it writes, in lowest terms; a string the UTF-8 bytes of
    its characters; an object its members in the order written. *)
From Coq Require Import Ascii String List ZArith QArith Lia Bool.
From Verif Require Import GoBase Utf8Model.
Import ListNotations.
Open Scope Z_scope.

Inductive json : Type :=
| JNull
| JBool (b : bool)
| JNum (q : Q)
| JStr (s : bytes)
| JArr (l : list json)
| JObj (l : list (bytes * json)).

Definition quote_c : ascii := ascii_of_nat 34.
Definition bslash_c : ascii := ascii_of_nat 92.

(** Section 2: insignificant white space. *)
Definition space (c : ascii) : bool := existsb (Z.eqb (b2z c)) [32; 9; 10; 13].
Fixpoint skip (s : bytes) : bytes := match s with c :: r => if space c then skip r else s | [] => [] end.

(** Section 7: strings. *)
Definition escaped (c : ascii) : option ascii :=
  if Ascii.eqb c quote_c || Ascii.eqb c bslash_c || Ascii.eqb c "/" then Some c
  else if Ascii.eqb c "b" then Some (z2b 8)
  else if Ascii.eqb c "f" then Some (z2b 12)
  else if Ascii.eqb c "n" then Some (z2b 10)
  else if Ascii.eqb c "r" then Some (z2b 13)
  else if Ascii.eqb c "t" then Some (z2b 9)
  else None.
Definition hex_val (c : ascii) : option Z :=
  let z := b2z c in
  if between 48 57 z then Some (z - 48) else if between 97 102 z then Some (z - 87) else if between 65 70 z then Some (z - 55) else None.
Definition hex4 (a b c d : ascii) : option Z :=
  match hex_val a, hex_val b, hex_val c, hex_val d with
  | Some a, Some b, Some c, Some d => Some (((a * 16 + b) * 16 + c) * 16 + d)
  | _, _, _, _ => None
  end.
Definition onto (p : bytes) (o : option (bytes * bytes)) : option (bytes * bytes) :=
  match o with Some (s, r) => Some ((p ++ s)%list, r) | None => None end.
(** The characters up to the closing quotation mark, and what follows it.  A character
    above U+FFFF may be written as a surrogate pair; a lone surrogate denotes nothing. *)
Fixpoint chars (s : bytes) : option (bytes * bytes) :=
  match s with
  | [] => None
  | c :: r =>
      if Ascii.eqb c quote_c then Some ([], r)
      else if Ascii.eqb c bslash_c then
        match r with
        | [] => None
        | e :: r1 =>
            match escaped e with
            | Some x => onto [x] (chars r1)
            | None =>
                if Ascii.eqb e "u" then
                  match r1 with
                  | h1 :: h2 :: h3 :: h4 :: r2 =>
                      match hex4 h1 h2 h3 h4 with
                      | Some z =>
                          if scalarb z then onto (encode_scalar z) (chars r2)
                          else match r2 with
                               | b :: u :: g1 :: g2 :: g3 :: g4 :: r3 =>
                                   match hex4 g1 g2 g3 g4 with
                                   | Some y =>
                                       if Ascii.eqb b bslash_c && Ascii.eqb u "u" && between 55296 56319 z && between 56320 57343 y
                                       then onto (encode_scalar (65536 + (z - 55296) * 1024 + (y - 56320))) (chars r3)
                                       else None
                                   | None => None
                                   end
                               | _ => None
                               end
                      | None => None
                      end
                  | _ => None
                  end
                else None
            end
        end
      else if b2z c <? 32 then None
      else onto [c] (chars r)
  end.

(** Section 6: numbers. *)
Definition num_char (c : ascii) : option Z := if between 48 57 (b2z c) then Some (b2z c - 48) else None.
Fixpoint span (s : bytes) : list Z * bytes :=
  match s with
  | c :: r => match num_char c with Some d => let (ds, t) := span r in (d :: ds, t) | None => ([], s) end
  | [] => ([], [])
  end.
Definition positional (ds : list Z) : Z := fold_left (fun a d => 10 * a + d) ds 0.
Definition scaled (m e : Z) : Q := Qred (if 0 <=? e then inject_Z (m * 10 ^ e) else m # Z.to_pos (10 ^ (- e))).
Definition exponent (neg : bool) (ds : list Z) (k : Z) (s : bytes) : option (Q * bytes) :=
  let value e := scaled (if neg then - positional ds else positional ds) (e - k) in
  match s with
  | c :: r =>
      if Ascii.eqb c "e" || Ascii.eqb c "E" then
        let (minus, r1) := match r with
          | x :: t => if Ascii.eqb x "-" then (true, t) else if Ascii.eqb x "+" then (false, t) else (false, r)
          | [] => (false, r)
          end in
        let (es, r2) := span r1 in
        match es with
        | [] => None
        | _ => Some (value (if minus then - positional es else positional es), r2)
        end
      else Some (value 0, s)
  | [] => Some (value 0, [])
  end.
Definition fraction (neg : bool) (ds : list Z) (s : bytes) : option (Q * bytes) :=
  match s with
  | c :: r =>
      if Ascii.eqb c "." then
        let (fs, r1) := span r in
        match fs with [] => None | _ => exponent neg (ds ++ fs)%list (zlen fs) r1 end
      else exponent neg ds 0 s
  | [] => exponent neg ds 0 s
  end.
Definition number (s : bytes) : option (Q * bytes) :=
  let (neg, s1) := match s with c :: r => if Ascii.eqb c "-" then (true, r) else (false, s) | [] => (false, s) end in
  match s1 with
  | c :: r =>
      match num_char c with
      | Some 0 => fraction neg [0] r
      | Some _ => let (ds, t) := span s1 in fraction neg ds t
      | None => None
      end
  | [] => None
  end.

(** Section 3: literal names. *)
Fixpoint after (w s : bytes) : option bytes :=
  match w, s with
  | [], _ => Some s
  | a :: w', b :: s' => if Ascii.eqb a b then after w' s' else None
  | _ :: _, [] => None
  end.
Definition word (w : string) : bytes := list_ascii_of_string w.

(** Sections 3 to 5: values.  [n] bounds the depth of the calls. *)
Fixpoint value (n : nat) (s : bytes) : option (json * bytes) :=
  match n with
  | O => None
  | S n =>
      match skip s with
      | [] => None
      | c :: r =>
          if Ascii.eqb c quote_c then match chars r with Some (x, t) => Some (JStr x, t) | None => None end
          else if Ascii.eqb c "[" then
            match skip r with
            | x :: t => if Ascii.eqb x "]" then Some (JArr [], t)
                        else match elements n r with Some (l, t) => Some (JArr l, t) | None => None end
            | [] => None
            end
          else if Ascii.eqb c "{" then
            match skip r with
            | x :: t => if Ascii.eqb x "}" then Some (JObj [], t)
                        else match members n r with Some (l, t) => Some (JObj l, t) | None => None end
            | [] => None
            end
          else match after (word "true") (c :: r), after (word "false") (c :: r), after (word "null") (c :: r) with
               | Some t, _, _ => Some (JBool true, t)
               | _, Some t, _ => Some (JBool false, t)
               | _, _, Some t => Some (JNull, t)
               | _, _, _ => match number (c :: r) with Some (q, t) => Some (JNum q, t) | None => None end
               end
      end
  end
with elements (n : nat) (s : bytes) : option (list json * bytes) :=
  match n with
  | O => None
  | S n =>
      match value n s with
      | Some (j, r) =>
          match skip r with
          | c :: t =>
              if Ascii.eqb c "]" then Some ([j], t)
              else if Ascii.eqb c "," then match elements n t with Some (l, t') => Some (j :: l, t') | None => None end
              else None
          | [] => None
          end
      | None => None
      end
  end
with members (n : nat) (s : bytes) : option (list (bytes * json) * bytes) :=
  match n with
  | O => None
  | S n =>
      match skip s with
      | c :: r =>
          if Ascii.eqb c quote_c then
            match chars r with
            | Some (k, r1) =>
                match skip r1 with
                | d :: r2 =>
                    if Ascii.eqb d ":" then
                      match value n r2 with
                      | Some (j, r3) =>
                          match skip r3 with
                          | e :: t =>
                              if Ascii.eqb e "}" then Some ([(k, j)], t)
                              else if Ascii.eqb e "," then match members n t with Some (l, t') => Some ((k, j) :: l, t') | None => None end
                              else None
                          | [] => None
                          end
                      | None => None
                      end
                    else None
                | [] => None
                end
            | None => None
            end
          else None
      | [] => None
      end
  end.

(** A JSON text is a value with white space around it.  The bound is always enough
    (JsonProofs, [enough]). *)
Definition denotes (s : bytes) : option json :=
  match value (2 * List.length s + 2) s with
  | Some (j, r) => match skip r with [] => Some j | _ => None end
  | None => None
  end.

Example denotes_1 : denotes (word " {""a"" : [1, -2.50e1, null], ""b"":""xé\n""} ") =
  Some (JObj [(word "a", JArr [JNum 1; JNum (-25); JNull]); (word "b", JStr (word "x" ++ encode_scalar 233 ++ [z2b 10]))]).
Proof. reflexivity. Qed.
Example denotes_2 : denotes (word "01") = None /\ denotes (word "[1,]") = None /\ denotes (word "'a'") = None /\ denotes (word "1 2") = None.
Proof. repeat split; reflexivity. Qed.
