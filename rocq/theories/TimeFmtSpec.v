(** What the elements of a format stand for, independently of the model. *)
From Coq Require Import Ascii String List ZArith Lia Bool.
From Verif Require Import GoBase CalendarModel CalendarFacts DecModel ClockTextSpec TimeFmtModel.
Import ListNotations.
Local Open Scope string_scope.
Open Scope Z_scope.

(** A format: elements %x, and characters other than '%'. *)
Inductive piece := El (e : ascii) | Ch (c : ascii).
Definition written (p : piece) : string := match p with El e => String "%" (String e "") | Ch c => String c "" end.
Fixpoint joined (f : piece -> string) (ps : list piece) : string :=
  match ps with [] => "" | p :: r => f p ++ joined f r end.
Definition pattern (ps : list piece) : string := joined written ps.

(** A civil time. *)
Record civil_time := Civil { cy : Z; cm : Z; cd : Z; ch : Z; cmi : Z; cs : Z; cns : Z }.
Definition good_time (v : civil_time) : Prop :=
  valid_date (cy v) (cm v) (cd v) /\ 0 <= ch v <= 23 /\ 0 <= cmi v <= 59 /\ 0 <= cs v <= 59 /\ 0 <= cns v <= 999999999.
(** In nanoseconds since 1970-01-01 00:00:00 *)
Definition wall_at (v : civil_time) : Z :=
  days_of (cy v) (cm v) (cd v) * 86400000000000 + (ch v * 3600 + cmi v * 60 + cs v) * 1000000000 + cns v.

(** ** The documented text of each element
    (%c and %Z are outside: they are texts of Go's time package.) *)
Definition day_name (i : Z) : string :=
  match i with 0 => "Sunday" | 1 => "Monday" | 2 => "Tuesday" | 3 => "Wednesday" | 4 => "Thursday" | 5 => "Friday" | _ => "Saturday" end.
Definition month_name (m : Z) : string :=
  match m with
  | 1 => "January" | 2 => "February" | 3 => "March" | 4 => "April" | 5 => "May" | 6 => "June" | 7 => "July"
  | 8 => "August" | 9 => "September" | 10 => "October" | 11 => "November" | _ => "December"
  end.
Definition three_letters (s : string) : string :=
  match s with String a (String b (String c _)) => String a (String b (String c "")) | _ => s end.
Definition three (n : Z) : string := String (digit (n / 100)) (two (n mod 100)).
(** A space in place of a leading zero *)
Definition blank_two (n : Z) : string := if n <? 10 then String " " (String (digit n) "") else two n.
Definition hour12 (h : Z) : Z := (h + 11) mod 12 + 1.
Definition day_of (v : civil_time) : Z := days_of (cy v) (cm v) (cd v).
(** 0 is Sunday; 1970-01-01 was a Thursday *)
Definition weekday_of (v : civil_time) : Z := (day_of v + 4) mod 7.
Definition yearday_of (v : civil_time) : Z := day_of v - days_of (cy v) 1 1 + 1.
(** The ISO year and week are those of the week's Thursday. *)
Definition thursday_of (v : civil_time) : Z := day_of v - (weekday_of v + 6) mod 7 + 3.
Definition isoyear_of (v : civil_time) : Z := year (thursday_of v).
Definition isoweek_of (v : civil_time) : Z := (thursday_of v - days_of (isoyear_of v) 1 1) / 7 + 1.
(** The first day of the ISO year: the Monday of the week of January 4th *)
Definition isostart_of (v : civil_time) : Z := let j := days_of (isoyear_of v) 1 4 in j - (j + 3) mod 7.
(** [off]: seconds east of UTC *)
Definition zone_digits (colon : string) (off : Z) : string :=
  (if off <? 0 then "-" else "+") ++ two (Z.abs off / 3600) ++ colon ++ two (Z.abs off / 60 mod 60).
Definition documented (e : ascii) (v : civil_time) (off : Z) : option string :=
  let ampm a p := if ch v <? 12 then a else p in
  match e with
  | "A"%char => Some (day_name (weekday_of v))
  | "a"%char => Some (three_letters (day_name (weekday_of v)))
  | "B"%char => Some (month_name (cm v))
  | "b"%char | "h"%char => Some (three_letters (month_name (cm v)))
  | "C"%char => Some (two (cy v / 100))
  | "D"%char | "x"%char => Some (two (cm v) ++ "/" ++ two (cd v) ++ "/" ++ two (cy v mod 100))
  | "d"%char => Some (two (cd v))
  | "e"%char => Some (blank_two (cd v))
  | "F"%char => Some (ymd (cy v) (cm v) (cd v))
  | "G"%char => Some (four (isoyear_of v))
  | "g"%char => Some (two (isoyear_of v mod 100))
  | "H"%char => Some (two (ch v))
  | "I"%char => Some (two (hour12 (ch v)))
  | "J"%char => Some (three (day_of v - isostart_of v + 1))
  | "j"%char => Some (three (yearday_of v))
  | "k"%char => Some (blank_two (ch v))
  | "l"%char => Some (blank_two (hour12 (ch v)))
  | "M"%char => Some (two (cmi v))
  | "m"%char => Some (two (cm v))
  | "n"%char => Some (String "010" "")
  | "P"%char => Some (ampm "am" "pm")
  | "p"%char => Some (ampm "AM" "PM")
  | "Q"%char => Some (String (digit ((cm v + 2) / 3)) "")
  | "R"%char => Some (two (ch v) ++ ":" ++ two (cmi v))
  | "S"%char => Some (two (cs v))
  | "s"%char => Some (dec (wall_at v / 1000000000 - off))
  | "T"%char | "X"%char => Some (hms (ch v) (cmi v) (cs v))
  | "t"%char => Some (String "009" "")
  | "U"%char => Some (two ((yearday_of v + 6 - weekday_of v) / 7))
  | "u"%char => Some (String (digit ((weekday_of v + 6) mod 7 + 1)) "")
  | "V"%char => Some (two (isoweek_of v))
  | "W"%char => Some (two ((yearday_of v + 6 - (weekday_of v + 6) mod 7) / 7))
  | "w"%char => Some (String (digit (weekday_of v)) "")
  | "Y"%char => Some (four (cy v))
  | "y"%char => Some (two (cy v mod 100))
  | "z"%char => Some (zone_digits "" off)
  | "%"%char => Some "%"
  | _ => None
  end.
(** The elements each type has *)
Definition date_elements : list ascii :=
  ["A"; "a"; "B"; "b"; "C"; "D"; "d"; "e"; "F"; "G"; "g"; "h"; "J"; "j"; "m"; "Q"; "U"; "u"; "V"; "W"; "w"; "x"; "Y"; "y"]%char.
Definition clock_elements : list ascii := ["H"; "I"; "k"; "l"; "M"; "P"; "p"; "R"; "S"; "s"; "T"; "X"]%char.
Definition other_elements : list ascii := ["n"; "t"; "%"]%char.
Definition has_element (k : kind) (e : ascii) : Prop :=
  In e other_elements \/
  match k with
  | KDate => In e date_elements
  | KTime => In e clock_elements
  | KDatetime => In e date_elements \/ In e clock_elements
  | KTimestamp => In e date_elements \/ In e clock_elements \/ e = "z"%char
  end.
Definition plain_piece (p : piece) : Prop := match p with Ch c => c <> "%"%char | El _ => True end.

(** ** Reading a text along a format *)
(** A number of at most k digits with a text behind it: all the digits there are, up to k. *)
Definition begins_digit (s : string) : Prop := exists d r, 0 <= d < 10 /\ s = String (digit d) r.
Definition numeral (k : nat) (word : string) (v : Z) (behind : string) : Prop :=
  digits_value word v /\ (1 <= String.length word <= k)%nat /\ (String.length word = k \/ ~ begins_digit behind).
(** The month of a day number, and the day in it, as numbers of the calendar *)
Definition is_date (n y m d : Z) : Prop := valid_date y m d /\ n = days_of y m d.
(** One field of a wall clock replaced.  A day beyond the end of its month is counted on into
    the next month: days_of y m d is d - 1 days after the first of the month. *)
Inductive put : ascii -> Z -> Z -> Z -> Prop :=
| put_Y : forall x n y m d c, is_date n y m d -> 0 <= c < 86400000000000 ->
    put "Y" x (n * 86400000000000 + c) (days_of x m d * 86400000000000 + c)
| put_m : forall x n y m d c, is_date n y m d -> 0 <= c < 86400000000000 ->
    put "m" x (n * 86400000000000 + c) (days_of y x d * 86400000000000 + c)
| put_d : forall x n y m d c, is_date n y m d -> 0 <= c < 86400000000000 ->
    put "d" x (n * 86400000000000 + c) (days_of y m x * 86400000000000 + c)
| put_H : forall e x n h c, e = "H"%char \/ e = "I"%char -> 0 <= h <= 23 -> 0 <= c < 3600000000000 ->
    put e x (n * 86400000000000 + h * 3600000000000 + c) (n * 86400000000000 + x * 3600000000000 + c)
| put_M : forall x n mi c, 0 <= mi <= 59 -> 0 <= c < 60000000000 ->
    put "M" x (n * 3600000000000 + mi * 60000000000 + c) (n * 3600000000000 + x * 60000000000 + c)
| put_S : forall x n s c, 0 <= s <= 59 -> 0 <= c < 1000000000 ->
    put "S" x (n * 60000000000 + s * 1000000000 + c) (n * 60000000000 + x * 1000000000 + c).
(** The numbers a field takes, and how many digits *)
Definition range (e : ascii) : option (Z * Z * nat) :=
  match e with
  | "Y"%char => Some (1, 9999, 4%nat) | "m"%char => Some (1, 12, 2%nat) | "d"%char => Some (1, 31, 2%nat)
  | "H"%char => Some (0, 23, 2%nat) | "I"%char => Some (1, 12, 2%nat) | "M"%char | "S"%char => Some (0, 59, 2%nat)
  | _ => None
  end.
(** [reads ps s w h tail w' h']: along ps, from the wall clock w with the half of the day h
    read so far (true: PM), the text s up to [tail] is read, with the outcome w' and h'. *)
Definition letter (up low c : ascii) : Prop := c = up \/ c = low.
Inductive reads : list piece -> string -> Z -> option bool -> string -> Z -> option bool -> Prop :=
| reads_end : forall s w h, reads [] s w h s w h
| reads_char : forall c x ps s w h t w' h', c <> " "%char -> reads ps s w h t w' h' ->
    reads (Ch c :: ps) (String x s) w h t w' h'
| reads_blanks : forall k ps s w h t w' h', (forall r, s <> String " " r) -> reads ps s w h t w' h' ->
    reads (Ch " " :: ps) (blanks k ++ s) w h t w' h'
| reads_number : forall e lo hi k word v ps s w w1 h t w' h', range e = Some (lo, hi, k) -> numeral k word v s ->
    lo <= v <= hi -> put e v w w1 -> reads ps s w1 h t w' h' -> reads (El e :: ps) (word ++ s) w h t w' h'
| reads_half : forall (pm : bool) a b ps s w h t w' h', (if pm then letter "P" "p" a else letter "A" "a" a) -> letter "M" "m" b ->
    reads ps s w (Some pm) t w' h' -> reads (El "p" :: ps) (String a (String b s)) w h t w' h'.
(** The half of the day counts when there is an hour from 1 to 12 and none from 0 to 23. *)
Inductive settled (ps : list piece) : option bool -> Z -> Z -> Prop :=
| settled_none : forall w, settled ps None w w
| settled_24 : forall b w, In (El "H") ps \/ ~ In (El "I") ps -> settled ps (Some b) w w
| settled_12 : forall (pm : bool) n h c, ~ In (El "H") ps -> In (El "I") ps -> 0 <= h <= 23 -> 0 <= c < 3600000000000 ->
    settled ps (Some pm) (n * 86400000000000 + h * 3600000000000 + c)
      (n * 86400000000000 + (if pm then if h <? 12 then h + 12 else h else h mod 12) * 3600000000000 + c).
(** The elements considered, and which type has them *)
Definition readable (k : kind) (p : piece) : Prop :=
  match p with
  | Ch c => c <> "%"%char
  | El e => (k <> KTime /\ In e ["Y"; "m"; "d"]%char) \/ (k <> KDate /\ In e ["H"; "I"; "M"; "S"; "p"]%char)
  end.

(** The text of a civil time along such a format, years without leading zeros *)
Definition year_text (y : Z) : string :=
  if y <? 10 then String (digit y) "" else if y <? 100 then two y else if y <? 1000 then three y else four y.
Definition shown (v : civil_time) (p : piece) : string :=
  match p with
  | Ch c => String c ""
  | El "Y"%char => year_text (cy v) | El "m"%char => two (cm v) | El "d"%char => two (cd v)
  | El "H"%char => two (ch v) | El "I"%char => two (hour12 (ch v)) | El "M"%char => two (cmi v) | El "S"%char => two (cs v)
  | El "p"%char => if ch v <? 12 then "AM" else "PM"
  | El _ => ""
  end.
(** No year with fewer than four digits stands before a digit. *)
Fixpoint year_ends (ps : list piece) : Prop :=
  match ps with
  | [] => True
  | El "Y"%char :: r => match r with [] => True | Ch c :: _ => ~ begins_digit (String c "") | El _ :: _ => False end /\ year_ends r
  | _ :: r => year_ends r
  end.
(** Where the year stands *)
Definition once (p : piece) (ps : list piece) : Prop := exists a b, ps = (a ++ p :: b)%list /\ ~ In p a /\ ~ In p b.
Definition year_first (ps : list piece) : Prop := exists a b, ps = (a ++ El "Y" :: b)%list /\ ~ (In (El "m") a /\ In (El "d") a).
Definition year_last (ps : list piece) : Prop := exists a b, ps = (a ++ El "Y" :: b)%list /\ In (El "m") a /\ In (El "d") a.
Definition dated (ps : list piece) : Prop := In (El "Y") ps /\ In (El "m") ps /\ In (El "d") ps.
Definition timed (ps : list piece) : Prop := In (El "H") ps /\ In (El "M") ps /\ In (El "S") ps.
(** The documented texts of the elements with %E, and the types that have them *)
Inductive combo : kind -> string -> civil_time -> Z -> string -> Prop :=
| combo_year : forall k v off, k <> KTime -> combo k "4Y" v off (four (cy v))
| combo_zone : forall v off, combo KTimestamp "z" v off (zone_digits ":" off)
| combo_seconds : forall k n v off ds, k <> KDate -> 1 <= n <= 6 -> digits_value ds (cns v / 10 ^ (9 - n)) -> String.length ds = Z.to_nat n ->
    combo k (String (digit n) "S") v off (two (cs v) ++ "." ++ ds).
(** Most of the elements *)
Definition right_elements : list ascii :=
  ["A"; "a"; "B"; "b"; "h"; "C"; "D"; "x"; "d"; "F"; "G"; "H"; "k"; "M"; "m"; "n"; "P"; "p"; "R"; "S"; "s"; "T"; "X"; "t"; "Y"; "y"; "%"]%char.
(** The text of a format *)
Definition text (v : civil_time) (off : Z) (p : piece) : string :=
  match p with Ch c => String c "" | El e => match documented e v off with Some s => s | None => "" end end.
(** When the text printed for the other elements is the documented one *)
Definition agreement (e : ascii) (v : civil_time) : option Prop :=
  match e with
  | "I"%char => Some (1 <= ch v <= 12)
  | "l"%char => Some (ch v mod 12 <> 0)
  | "e"%char => Some (10 <= cd v)
  | "j"%char => Some (100 <= yearday_of v)
  | "V"%char => Some (10 <= isoweek_of v)
  | "u"%char => Some (isoweek_of v = (weekday_of v + 6) mod 7 + 1)
  | "w"%char => Some (isoweek_of v - 1 = weekday_of v)
  | "U"%char => Some (10 <= isoweek_of v /\ isoweek_of v = (yearday_of v + 6 - weekday_of v) / 7)
  | "W"%char => Some (10 <= isoweek_of v /\ isoweek_of v = (yearday_of v + 6 - (weekday_of v + 6) mod 7) / 7)
  | "g"%char | "J"%char => Some False
  | "Q"%char => Some (~ (cm v = 3 /\ 90 <= yearday_of v) /\ ~ (cm v = 6 /\ 180 <= yearday_of v) /\ ~ (cm v = 9 /\ 270 <= yearday_of v))
  | _ => None
  end.
