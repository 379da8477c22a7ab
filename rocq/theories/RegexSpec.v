(** What the REGEXP functions, INITCAP and SOUNDEX are documented to do. *)
From Coq Require Import Ascii String List ZArith Bool.
From Verif Require Import GoBase Utf8Model RegexModel.
Import ListNotations.
Open Scope Z_scope.

(** Every match of a regular expression is a stretch of the text, with its groups after it. *)
Definition a_match (s : bytes) (m : list group) : Prop :=
  exists i j (gs : list group), m = Some (i, j) :: gs /\ (i <= j)%nat /\ (j <= length s)%nat.
Definition well_behaved {regex} (find_all : regex -> bytes -> list (list group)) : Prop :=
  forall re s, Forall (a_match s) (find_all re s).

(** A replacement: text and references to groups. *)
Inductive item := Lit (c : ascii) | Ref (d : ascii).
(** How BigQuery reads one: a backslash and a digit is a reference, two backslashes are one. *)
Inductive reads : bytes -> list item -> Prop :=
| reads_nil : reads [] []
| reads_lit c t its : c <> "\"%char -> reads t its -> reads (c :: t) (Lit c :: its)
| reads_bs t its : reads t its -> reads ("\"%char :: "\"%char :: t) (Lit "\" :: its)
| reads_ref d t its : 48 <= b2z d <= 57 -> reads t its -> reads ("\"%char :: d :: t) (Ref d :: its).
Definition render (s : bytes) (m : list group) (its : list item) : bytes :=
  flat_map (fun it => match it with Lit c => [c] | Ref d => group_text s (nth (Z.to_nat (b2z d - 48)) m None) end) its.
(** The text with every match replaced. *)
Fixpoint replaced (its : list item) (s : bytes) (last : nat) (ms : list (list group)) : bytes :=
  match ms with
  | [] => skipn last s
  | m :: ms' =>
      match m with
      | Some (i, j) :: _ => (firstn (i - last) (skipn last s) ++ render s m its ++ replaced its s j ms')%list
      | _ => replaced its s last ms'
      end
  end.

(** Replacements that are read as documented when the text [u] comes after them: without $ and
    double backslashes, no \0, and every reference with something that is not a digit after it. *)
Inductive plain (u : bytes) : bytes -> list item -> Prop :=
| plain_nil : plain u [] []
| plain_lit c t its : c <> "\"%char -> c <> "$"%char -> plain u t its -> plain u (c :: t) (Lit c :: its)
| plain_ref d t its : 49 <= b2z d <= 57 ->
    (exists c r, (t ++ u)%list = c :: r /\ ~ 48 <= b2z c <= 57) ->
    plain u t its -> plain u ("\"%char :: d :: t) (Ref d :: its).

(** INITCAP, character by character: [prev] is the character before. *)
Definition capped (up low : Z -> Z) (delim : Z -> Prop) (prev : option Z) (r out : Z) : Prop :=
  match prev with
  | None => out = up r
  | Some p => (delim r -> out = r) /\ (~ delim r -> delim p -> out = up r) /\ (~ delim r -> ~ delim p -> out = low r)
  end.
Definition before (rs : list Z) (i : nat) : option Z := match i with O => None | S k => nth_error rs k end.

(** The documented delimiters of INITCAP without its second argument: [ ] ( ) { } / | \ < > ! ? @
    (the double quote) ^ # $ & ~ _ , . : ; * % + - and white space. *)
Definition marks : list Z := [91; 93; 40; 41; 123; 125; 47; 124; 92; 60; 62; 33; 63; 64; 34; 94; 35; 36; 38; 126; 95; 44; 46; 58; 59; 42; 37; 43; 45].
Definition white_space : list Z := [32; 9; 10; 11; 12; 13].

(** SOUNDEX: the digit of a letter, 0 for vowels, h, w and y. *)
Inductive has_code : Z -> Z -> Prop :=
| code_of l d : In (l, d) [("A","0");("E","0");("I","0");("O","0");("U","0");("H","0");("W","0");("Y","0");
    ("B","1");("F","1");("P","1");("V","1");("C","2");("G","2");("J","2");("K","2");("Q","2");("S","2");("X","2");("Z","2");
    ("D","3");("T","3");("L","4");("M","5");("N","5");("R","6")]%char -> has_code (b2z l) (b2z d)
| code_low l d : 97 <= l <= 122 -> has_code (l - 32) d -> has_code l d.
(** Equal neighbours are one. *)
Fixpoint squeeze (l : list Z) : list Z :=
  match l with
  | a :: ((b :: _) as r) => if a =? b then squeeze r else a :: squeeze r
  | _ => l
  end.
