(** FORMAT_DATE, FORMAT_DATETIME, FORMAT_TIME, FORMAT_TIMESTAMP and the PARSE functions:
    internal/function_time_parser.go.

    Formats and texts are ASCII, so that runes are bytes.  A time.Time is an instant and its
    location; see PartModel for both. *)
From Coq Require Import Ascii String List ZArith Lia Bool.
From Verif Require Import GoBase CalendarModel InstantModel DecModel PartModel.
Import ListNotations.
Local Open Scope string_scope.
Open Scope Z_scope.

Record tm := Tm { at_ : Z; place : loc }.
(** The wall clock, and time.Date with some of the fields of t replaced *)
Definition wall_of (t : tm) : Z := wall (place t) (at_ t).
Definition date_in (t : tm) (y m d h mi s ns : Z) : tm := Tm (from_wall (place t) (go_time y m d h mi s ns)) (place t).
Definition t_year (t : tm) : Z := year (day_no (wall_of t)).
Definition t_month (t : tm) : Z := month (day_no (wall_of t)).
Definition t_day (t : tm) : Z := day (day_no (wall_of t)).
Definition t_hour (t : tm) : Z := hour (wall_of t).
Definition t_minute (t : tm) : Z := minute (wall_of t).
Definition t_second (t : tm) : Z := second (wall_of t).
Definition t_nano (t : tm) : Z := nanosecond (wall_of t).
Definition set_year (y : Z) (t : tm) : tm := date_in t y (t_month t) (t_day t) (t_hour t) (t_minute t) (t_second t) (t_nano t).
Definition set_month (m : Z) (t : tm) : tm := date_in t (t_year t) m (t_day t) (t_hour t) (t_minute t) (t_second t) (t_nano t).
Definition set_day (d : Z) (t : tm) : tm := date_in t (t_year t) (t_month t) d (t_hour t) (t_minute t) (t_second t) (t_nano t).
Definition set_hour (h : Z) (t : tm) : tm := date_in t (t_year t) (t_month t) (t_day t) h (t_minute t) (t_second t) (t_nano t).
Definition set_minute (mi : Z) (t : tm) : tm := date_in t (t_year t) (t_month t) (t_day t) (t_hour t) mi (t_second t) (t_nano t).
Definition set_second (s : Z) (t : tm) : tm := date_in t (t_year t) (t_month t) (t_day t) (t_hour t) (t_minute t) s (t_nano t).

(** function_time_parser.go:11-64 *)
Definition day_names : list string := ["Sunday"; "Monday"; "Tuesday"; "Wednesday"; "Thursday"; "Friday"; "Saturday"].
Definition month_names : list string :=
  ["January"; "February"; "March"; "April"; "May"; "June"; "July"; "August"; "September"; "October"; "November"; "December"].
Definition short (s : string) : string := substring 0 3 s.
(** s[n:], n not beyond the end *)
Fixpoint drop (n : nat) (s : string) : string :=
  match n, s with O, _ => s | _, EmptyString => EmptyString | S k, String _ r => drop k r end.

(** function_time_parser.go:66-109 *)
Inductive kind := KDate | KDatetime | KTime | KTimestamp.
Definition kind_eqb (a b : kind) : bool :=
  match a, b with KDate, KDate | KDatetime, KDatetime | KTime, KTime | KTimestamp, KTimestamp => true | _, _ => false end.
(** A ParseFunction: the number of characters read and the new time; [None] is an error. *)
Definition parser := string -> tm -> option (nat * tm).
Definition formatter := tm -> res string.
Record info := Info { kinds : list kind; parse_ : parser; format_ : formatter }.

(** ** Parsers *)
(** 425-433 createStaticTextParser *)
Definition static (p : string) : parser := fun text t =>
  if has_prefix p text then Some (String.length p, t) else None.
(** 439-450 composeParseFunctions *)
Fixpoint compose (ps : list parser) (text : string) (t : tm) : option (nat * tm) :=
  match ps with
  | [] => Some (O, t)
  | p :: r =>
      match p text t with
      | Some (k, t') => match compose r (drop k text) t' with Some (j, t'') => Some ((k + j)%nat, t'') | None => None end
      | None => None
      end
  end.
(** Parsers that are not implemented *)
Definition no_parser : parser := fun _ _ => None.
(** The first of the names that begins the text, in either case, with its number *)
Fixpoint find_name (i : Z) (names : list string) (text : string) : option (Z * nat) :=
  match names with
  | [] => None
  | n :: r => if has_prefix (lower n) (lower text) then Some (i, String.length n) else find_name (i + 1) r text
  end.
(** 452-464, 470-484 weekOfDayParser, shortWeekOfDayParser: the day is checked and not used *)
Definition names_only (names : list string) : parser := fun text t =>
  match find_name 0 names text with Some (_, k) => Some (k, t) | None => None end.
(** 491-513, 520-535 monthParser, shortMonthParser *)
Definition names_month (names : list string) : parser := fun text t =>
  match find_name 0 names text with Some (i, k) => Some (k, set_month (i + 1) t) | None => None end.
(** 795-845 parseDigitRespectingOptionalPlaces: as many digits as the maximum has, or fewer *)
Fixpoint lead (n : nat) (s : string) : string :=
  match n, s with
  | S k, String c r => match digit_val c with Some _ => String c (lead k r) | None => EmptyString end
  | _, _ => EmptyString
  end.
Definition number (lo hi : Z) (text : string) : option (nat * Z) :=
  let ds := lead (String.length (dec hi)) text in
  match read_nat ds with
  | Some v => if (lo <=? v) && (v <=? hi) then Some (String.length ds, v) else None
  | None => None
  end.
Definition numeric (lo hi : Z) (set : Z -> tm -> tm) : parser := fun text t =>
  match number lo hi text with Some (k, v) => Some (k, set v t) | None => None end.
(** 543-566 centuryParser *)
Definition century : parser := fun text t =>
  if (String.length text <? 2)%nat then None
  else match parse_int (substring 0 2 text) with
       | Some c => if c <? 0 then None else Some (2%nat, set_year (c * 100 - 99) t)
       | None => None
       end.
(** 572-593 yearWithoutCenturyParser *)
Definition short_year : parser := numeric 0 99 (fun y => set_year (if 69 <=? y then y + 1900 else y + 2000)).
(** 847-863, 633-649, 1069-1085, 677-693, 726-742, 773-789, 971-987 *)
Definition p_month : parser := numeric 1 12 set_month.
Definition p_day : parser := numeric 1 31 set_day.
Definition p_year : parser := numeric 1 9999 set_year.
Definition p_hour : parser := numeric 0 23 set_hour.
Definition p_hour12 : parser := numeric 1 12 set_hour.
Definition p_minute : parser := numeric 0 59 set_minute.
Definition p_second : parser := numeric 0 59 set_second.
(** 695-704 leadingSpaceAllowedParser *)
Definition blank : parser := fun text t =>
  if (String.length text <? 2)%nat then None
  else Some (match text with String " " _ => 1%nat | _ => 0%nat end, t).
(** 748-767 dayOfYearParser *)
Definition p_yearday : parser := numeric 1 366 (fun d t =>
  let stub := godate (t_year t) 1 1 + (d - 1) in
  date_in t (t_year t) (month stub) (day stub) (t_hour t) (t_minute t) (t_second t) (t_nano t)).
(** 888-900 largeAMPMParser *)
Definition p_ampm : parser := fun text t =>
  let w := lower (substring 0 2 text) in
  if String.eqb w "am" || String.eqb w "pm" then Some (2%nat, t) else None.
(** 1355-1413 timeZoneRFC3339Parser *)
Definition in_zone (off : Z) (t : tm) : tm :=
  date_in (Tm (at_ t) (fixed off)) (t_year t) (t_month t) (t_day t) (t_hour t) (t_minute t) (t_second t) (t_nano t).
Definition p_offset : parser := fun text t =>
  match text with
  | String "Z" _ => Some (1%nat, in_zone 0 t)
  | String c r =>
      if Ascii.eqb c "+" || Ascii.eqb c "-" then
        if (String.length r =? 5)%nat then
          match split1 ":" r with
          | [a; b] =>
              if (String.length a =? 2)%nat && (String.length b =? 2)%nat then
                match parse_int a, parse_int b with
                | Some h, Some m =>
                    let hs := h * 60 * 60 + m * 60 in
                    Some (6%nat, in_zone (if Ascii.eqb c "-" then - hs else hs) t)
                | _, _ => None
                end
              else None
          | _ => None
          end
        else None
      else None
  | EmptyString => None
  end.
(** 1419-1457 timePrecisionParser: the leftmost match of \d{2}\.?\d*, anywhere in the text *)
Fixpoint digits_of (s : string) : string :=
  match s with String c r => match digit_val c with Some _ => String c (digits_of r) | None => EmptyString end | EmptyString => EmptyString end.
Definition seconds_at (s : string) : option (string * option string) :=
  match s with
  | String a (String b r) =>
      match digit_val a, digit_val b with
      | Some _, Some _ =>
          match r with
          | String "." r' => Some (String a (String b ""), Some (digits_of r'))
          | _ => Some (String a (String b (digits_of r)), None)
          end
      | _, _ => None
      end
  | _ => None
  end.
Fixpoint find_seconds (s : string) : option (string * option string) :=
  match seconds_at s with
  | Some x => Some x
  | None => match s with EmptyString => None | String _ r => find_seconds r end
  end.
Definition p_precision (p : nat) : parser := fun text t =>
  match find_seconds text with
  | None => None
  | Some (sec, frac) =>
      let len := (String.length sec + match frac with Some f => 1 + String.length f | None => 0 end)%nat in
      let ns := match frac with
                | Some f => let g := substring 0 p f in parse_int (g ++ zeros (9 - String.length g) "")
                | None => Some (t_nano t)
                end in
      match parse_int sec, ns with
      | Some s, Some n => Some (len, date_in t (t_year t) (t_month t) (t_day t) (t_hour t) (t_minute t) s n)
      | _, _ => None
      end
  end.

(** ** Formatters *)
Definition two_digits (f : tm -> Z) : formatter := fun t => Ok (pad 2 (f t)).
Definition plain (f : tm -> Z) : formatter := fun t => Ok (dec (f t)).
Definition constant (s : string) : formatter := fun _ => Ok s.
Definition name_of (names : list string) (i : Z) : string := nth (Z.to_nat i) names "".
Definition f_weekday : formatter := fun t => Ok (name_of day_names (weekday (day_no (wall_of t)))).
Definition f_short_weekday : formatter := fun t => Ok (short (name_of day_names (weekday (day_no (wall_of t))))).
Definition f_month_name : formatter := fun t => Ok (name_of month_names (t_month t - 1)).
Definition f_short_month : formatter := fun t => Ok (short (name_of month_names (t_month t - 1))).
(** s[:n] and s[n:] of a Go string panic beyond its length. *)
Definition cut_to (n : nat) (s : string) : res string := if (n <=? String.length s)%nat then Ok (substring 0 n s) else GoPanic.
Definition cut_from (n : nat) (s : string) : res string := if (n <=? String.length s)%nat then Ok (drop n s) else GoPanic.
(** 568-570 centuryFormatter *)
Definition f_century : formatter := fun t => cut_to 2 (dec (t_year t)).
(** 595-598: Format("2006"), exact for years 0 to 9999 *)
Definition f_short_year : formatter := fun t => let y := pad 4 (t_year t) in Ok (drop (String.length y - 2) y).
(** 621-631 monthDayYearFormatter *)
Definition f_mdy : formatter := fun t =>
  bind (cut_from 2 (dec (t_year t))) (fun y => Ok (pad 2 (t_month t) ++ "/" ++ pad 2 (t_day t) ++ "/" ++ y)).
Definition f_ymd : formatter := fun t => Ok (pad 4 (t_year t) ++ "-" ++ pad 2 (t_month t) ++ "-" ++ pad 2 (t_day t)).
Definition t_iso_year (t : tm) : Z := iso_year (day_no (wall_of t)).
Definition t_iso_week (t : tm) : Z := iso_week (day_no (wall_of t)).
(** 706-720: a space before a single digit *)
Definition spaced (f : tm -> Z) : formatter := fun t =>
  let h := dec (f t) in Ok (if (String.length h =? 1)%nat then String " " h else h).
(** 881-886, 943-948 *)
Definition f_ampm (am pm : string) : formatter := fun t => Ok (if t_hour t <? 12 then am else pm).
(** 954-965 quarterFormatter *)
Definition f_quarter : formatter := fun t =>
  let d := yearday (day_no (wall_of t)) in
  Ok (if d <? 90 then "1" else if d <? 180 then "2" else if d <? 270 then "3" else "4").
Definition f_hm : formatter := fun t => Ok (pad 2 (t_hour t) ++ ":" ++ pad 2 (t_minute t)).
Definition f_hms : formatter := fun t => Ok (pad 2 (t_hour t) ++ ":" ++ pad 2 (t_minute t) ++ ":" ++ pad 2 (t_second t)).
Definition t_offset (t : tm) : Z := place t (unix (at_ t)).
(** 1415-1417: Format("-07:00") *)
Definition f_offset : formatter := fun t =>
  let z := Z.quot (t_offset t) 60 in
  let a := Z.abs z in
  Ok ((if z <? 0 then "-" else "+") ++ pad 2 (a / 60) ++ ":" ++ pad 2 (a mod 60)).
(** 1459-1461: Format("05.000"), with p digits *)
Definition f_precision (p : nat) : formatter := fun t =>
  Ok (pad 2 (t_second t) ++ "." ++ pad p (t_nano t / 10 ^ (9 - Z.of_nat p))).

Definition dates : list kind := [KDate; KDatetime; KTimestamp].
Definition clocks : list kind := [KTime; KDatetime; KTimestamp].
Definition all_kinds : list kind := [KDate; KDatetime; KTime; KTimestamp].

Section Format.
  (** The location of the process, time.Parse and Format with ANSIC-like layouts
      ("Mon Jan 02 15:04:05 2006", outside /repo), and Time.Zone's name *)
  Variable local : loc.
  Variable read_ansic : string -> option Z.
  Variable ansic_text : Z -> string.
  Variable zone_name : tm -> string.

  (** 600-607 ansicParser *)
  Definition p_ansic : parser := fun text t =>
    match read_ansic text with Some v => Some (String.length text, Tm v utc) | None => None end.
  (** 993-1007 unixtimeSecondsParser *)
  Definition p_unix : parser := fun text t =>
    if (String.length text <? 10)%nat then None
    else match parse_int (substring 0 10 text) with
         | Some u => if u <? 0 then None else Some (10%nat, Tm (from_unix u 0) local)
         | None => None
         end.

  (** 111-416 formatPatternMap *)
  Definition elements : list (ascii * info) := [
    ("A"%char, Info dates (names_only day_names) f_weekday);
    ("a"%char, Info dates (names_only (map short day_names)) f_short_weekday);
    ("B"%char, Info dates (names_month month_names) f_month_name);
    ("b"%char, Info dates (names_month (map short month_names)) f_short_month);
    ("C"%char, Info dates century f_century);
    ("c"%char, Info [KDatetime; KTimestamp] p_ansic (fun t => Ok (ansic_text (wall_of t))));
    ("D"%char, Info dates (compose [p_month; static "/"; p_day; static "/"; short_year]) f_mdy);
    ("d"%char, Info dates p_day (two_digits t_day));
    ("e"%char, Info dates (compose [blank; p_day]) (two_digits t_day));
    ("F"%char, Info dates (compose [p_year; static "-"; p_month; static "-"; p_day]) f_ymd);
    ("G"%char, Info dates no_parser (plain t_iso_year));
    ("g"%char, Info dates no_parser (plain t_iso_year));
    ("H"%char, Info clocks p_hour (two_digits t_hour));
    ("h"%char, Info dates (names_month (map short month_names)) f_short_month);
    ("I"%char, Info clocks p_hour12 (two_digits t_hour));
    ("J"%char, Info dates no_parser (plain t_iso_year));
    ("j"%char, Info dates p_yearday (plain (fun t => yearday (day_no (wall_of t)))));
    ("k"%char, Info clocks (compose [blank; p_hour]) (spaced t_hour));
    ("l"%char, Info clocks (compose [blank; p_hour12]) (spaced (fun t => t_hour t mod 12)));
    ("M"%char, Info clocks p_minute (two_digits t_minute));
    ("m"%char, Info dates p_month (two_digits t_month));
    ("n"%char, Info all_kinds no_parser (constant (String "010" "")));
    ("P"%char, Info clocks no_parser (f_ampm "am" "pm"));
    ("p"%char, Info clocks p_ampm (f_ampm "AM" "PM"));
    ("Q"%char, Info dates no_parser f_quarter);
    ("R"%char, Info clocks (compose [p_hour; static ":"; p_minute]) f_hm);
    ("S"%char, Info clocks p_second (two_digits t_second));
    ("s"%char, Info clocks p_unix (plain (fun t => unix (at_ t))));
    ("T"%char, Info clocks (compose [p_hour; static ":"; p_minute; static ":"; p_second]) f_hms);
    ("t"%char, Info all_kinds no_parser (constant (String "009" "")));
    ("U"%char, Info dates no_parser (plain t_iso_week));
    ("u"%char, Info dates no_parser (plain t_iso_week));
    ("V"%char, Info dates no_parser (plain t_iso_week));
    ("W"%char, Info dates no_parser (plain t_iso_week));
    ("w"%char, Info dates no_parser (plain (fun t => t_iso_week t - 1)));
    ("X"%char, Info clocks (compose [p_hour; static ":"; p_minute; static ":"; p_second]) f_hms);
    ("x"%char, Info dates (compose [p_month; static "/"; p_day; static "/"; short_year]) f_mdy);
    ("Y"%char, Info dates p_year (plain t_year));
    ("y"%char, Info dates short_year f_short_year);
    ("Z"%char, Info [KTimestamp] no_parser (fun t => Ok (zone_name t)));
    ("z"%char, Info [KTimestamp] no_parser (plain t_offset));
    ("%"%char, Info all_kinds no_parser (constant "%"))].
  Definition element (c : ascii) : option info :=
    match find (fun p => Ascii.eqb (fst p) c) elements with Some p => Some (snd p) | None => None end.
  (** 1279-1341 combinationPatternInfo: the information and the number of characters *)
  Definition combination (f : string) : option (info * nat) :=
    match f with
    | String "z" _ => Some (Info [KTimestamp] p_offset f_offset, 1%nat)
    | String c (String "S" _) =>
        match digit_val c with
        | Some d => if (1 <=? d) && (d <=? 6) then Some (Info clocks (p_precision (Z.to_nat d)) (f_precision (Z.to_nat d)), 2%nat) else None
        | None => if Ascii.eqb c "*" then Some (Info clocks (p_precision 6) (f_precision 6), 2%nat) else None
        end
    | String "4" (String "Y" _) => Some (Info dates p_year (fun t => Ok (pad 4 (t_year t))), 2%nat)
    | _ => None
    end.

  (** The two loops read the format in the same way, except that formatTime passes over one
      character more behind a combination (1244-1245: i is moved on by the length and then
      by the loop).  Read first, it is a list of items; the errors the loops find on the way
      are [Bad]. *)
  Inductive item := Lit (c : ascii) | Elem (c : ascii) (i : info) | Bad.
  Fixpoint items (fuel : nat) (more : nat) (f : string) : list item :=
    match fuel, f with
    | S n, String c r =>
        if Ascii.eqb c "%" then
          match r with
          | EmptyString => [Bad]
          | String e r' =>
              if Ascii.eqb e "E" then
                match combination r' with Some (i, k) => Elem e i :: items n more (drop (k + more) r') | None => [Bad] end
              else match element e with Some i => Elem e i :: items n more r' | None => [Bad] end
          end
        else Lit c :: items n more r
    | _, _ => []
    end.
  Definition available (k : kind) (i : info) : bool := existsb (kind_eqb k) (kinds i).

  (** 1214-1262 formatTime *)
  Fixpoint format_items (k : kind) (l : list item) (t : tm) : res string :=
    match l with
    | [] => Ok ""
    | Lit c :: r => bind (format_items k r t) (fun s => Ok (String c s))
    | Elem _ i :: r =>
        if available k i then bind (format_ i t) (fun a => bind (format_items k r t) (fun s => Ok (a ++ s))) else Err
    | Bad :: _ => Err
    end.
  Definition format_time (k : kind) (f : string) (t : tm) : res string :=
    format_items k (items (String.length f) 1 f) t.

  (** 1117-1193: the loop of parseTimeFormat.  [rest] is target[targetIdx:], [None] when
      targetIdx is beyond the end of the text; the tokens are kept with the text they
      read. *)
  Fixpoint skip_blanks (s : string) : string := match s with String " " r => skip_blanks r | _ => s end.
  Fixpoint parse_items (k : kind) (l : list item) (rest : option string) (t : tm) (toks : list (ascii * string)) :
      option (option string * tm * list (ascii * string)) :=
    match l with
    | [] => Some (rest, t, toks)
    | Lit c :: r =>
        if Ascii.eqb c " " then parse_items k r (option_map skip_blanks rest) t toks
        else parse_items k r (match rest with Some (String _ s) => Some s | _ => None end) t toks
    | Elem c i :: r =>
        if available k i then
          match rest with
          | Some (String a s) =>
              match parse_ i (String a s) t with
              | Some (n, t') => parse_items k r (Some (drop n (String a s))) t' ((c, substring 0 n (String a s)) :: toks)
              | None => None
              end
          | _ => None
          end
        else None
    | Bad :: _ => None
    end.
  (** 416-423, 902-941: the only deferred token is %p *)
  Definition has_tok (toks : list (ascii * string)) (c : ascii) : bool := existsb (fun p => Ascii.eqb (fst p) c) toks.
  Definition wants_ampm (toks : list (ascii * string)) : bool :=
    negb (existsb (has_tok toks) ["X"; "T"; "R"; "k"; "H"]%char) && existsb (has_tok toks) ["l"; "I"]%char.
  Definition ampm (text : string) (t : tm) : tm :=
    let morning := String.eqb (lower text) "am" in
    let h := t_hour t in
    let h := if morning then h mod 12 else h in
    set_hour (if negb morning && (h <? 12) then h + 12 else h) t.
  (** 1117-1212 parseTimeFormat; target[targetIdx:] in the message of 1193-1195 panics when
      targetIdx is beyond the end. *)
  Definition parse_time_format (k : kind) (f s : string) : res tm :=
    match parse_items k (items (String.length f) 0 f) (Some s) (Tm 0 utc) [] with
    | None => Err
    | Some (None, _, _) => GoPanic
    | Some (Some (String _ _), _, _) => Err
    | Some (Some EmptyString, t, toks) =>
        Ok (match find (fun p => Ascii.eqb (fst p) "p") toks with
            | Some (_, w) => if wants_ampm toks then ampm w t else t
            | None => t
            end)
    end.

  (** ** The SQL functions.  A DATE is a day number, a DATETIME or TIME its wall clock as an
      instant in UTC (its value in the process has the location UTC), a TIMESTAMP an
      instant. *)
  (** function_date.go:241-247, 279-285 *)
  Definition format_date (f : string) (n : Z) : res string := format_time KDate f (Tm (n * ns_per_day) utc).
  Definition parse_date_f (f s : string) : res Z := bind (parse_time_format KDate f s) (fun t => Ok (day_no (wall_of t))).
  (** function_datetime.go:276-290 *)
  Definition format_datetime (f : string) (w : Z) : res string := format_time KDatetime f (Tm w utc).
  Definition parse_datetime_f (f s : string) : res Z := bind (parse_time_format KDatetime f s) (fun t => Ok (wall_of t)).
  (** function_time.go:174-188; only the time of day of the result is used *)
  Definition format_time_f (f : string) (w : Z) : res string := format_time KTime f (Tm w utc).
  Definition parse_time_f (f s : string) : res Z := bind (parse_time_format KTime f s) (fun t => Ok (wall_of t)).
  (** function_timestamp.go:194-229; modifyTimeZone (util.go:76-80) reads the wall clock
      again in the location *)
  Definition format_timestamp (f : string) (t : Z) (zone : loc) : res string := format_time KTimestamp f (Tm t zone).
  Definition parse_timestamp_f (f s : string) : res Z := bind (parse_time_format KTimestamp f s) (fun t => Ok (at_ t)).
  Definition parse_timestamp_zone (f s : string) (zone : loc) : res Z :=
    bind (parse_time_format KTimestamp f s) (fun t => Ok (from_wall zone (wall_of t))).
End Format.
