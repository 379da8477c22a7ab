(** JSON functions: internal/function_json.go, the ToJSON methods and JsonValue of
    internal/value.go, and their binders in internal/function_bind.go.

    Texts are lists of bytes.  github.com/goccy/go-json is outside /repo: its Unmarshal
    is taken to read the texts of RFC 8259 (JsonSpec); its Compact, and what a JSON path
    finds in a text, are variables of the section [Path]. *)
From Coq Require Import Ascii String List ZArith QArith Lia Bool SpecFloat.
From Verif Require Import GoBase DecModel Utf8Model EncModel CalendarModel InstantModel ClockTextModel CastModel ValueModel CodecModel JsonSpec.
Import ListNotations.
Open Scope Z_scope.

Definition text_of (s : string) : bytes := list_ascii_of_string s.
Definition string_of (s : bytes) : string := string_of_list_ascii s.

(** ** strconv.Quote *)
Definition hex_digit (d : Z) : ascii := z2b (if d <? 10 then 48 + d else 87 + d).
Fixpoint hex (n : nat) (z : Z) : bytes := match n with O => [] | S k => (hex k (z / 16) ++ [hex_digit (z mod 16)])%list end.

Section Text.
  (** unicode.IsPrint for characters above ASCII. *)
  Variable printable : Z -> bool.
  (** fmt.Sprint of a finite float64, and the text of an INTERVAL (value.go:2106-2111). *)
  Variable float_text : float -> bytes.
  Variable interval_text : Z -> Z -> Z -> bytes.

  Definition is_print (r : Z) : bool := if r <? 128 then between 32 126 r else printable r.
  (** strconv/quote.go appendEscapedRune with a double quote, ASCIIonly = graphicOnly = false.
      Simplified: the string is well-formed UTF-8 (a byte that is not is written \xNN). *)
  Definition quote_rune (r : Z) : bytes :=
    if (r =? 34) || (r =? 92) then [bslash_c; z2b r]
    else if is_print r then encode_rune r
    else if r =? 7 then bslash_c :: word "a"
    else if r =? 8 then bslash_c :: word "b"
    else if r =? 12 then bslash_c :: word "f"
    else if r =? 10 then bslash_c :: word "n"
    else if r =? 13 then bslash_c :: word "r"
    else if r =? 9 then bslash_c :: word "t"
    else if r =? 11 then bslash_c :: word "v"
    else if (r <? 32) || (r =? 127) then bslash_c :: "x"%char :: hex 2 r
    else if r <? 65536 then bslash_c :: "u"%char :: hex 4 r
    else bslash_c :: "U"%char :: hex 8 r.
  Definition quote (s : bytes) : bytes := (quote_c :: flat_map quote_rune (decode s) ++ [quote_c])%list.

  (** ** ToJSON *)
  (** value.go:735-746 NumericValue.toString (not BIGNUMERIC): FloatString(9) without
      trailing zeros and point.  The sign is that of the number before rounding. *)
  Definition numeric_text (q : Q) : bytes :=
    let b := Z.abs (billionths q) in
    let f := strip_zeros (pad 9 (b mod 1000000000)) in
    ((if Qnum q <? 0 then ["-"%char] else []) ++ text_of (udec (b / 1000000000)) ++
     match f with EmptyString => [] | _ => "."%char :: text_of f end)%list.
  (** fmt.Sprint of a float64 that is not finite. *)
  Definition sprint_float (f : float) : bytes :=
    match f with
    | S754_nan => word "NaN"
    | S754_infinity s => word (if s then "-Inf" else "+Inf")
    | _ => float_text f
    end.
  (** value.go:155, 291, 429, 608, 778, 874, 966, 1201 (with 1161-1175), 1411 (with
      1363-1388), 1598, 1750, 1867, 2034, 2137.  TIMESTAMP (2006-2008, RFC3339Nano) is
      simplified to times in UTC and to microseconds. *)
  Fixpoint to_json (v : val) : bytes :=
    match v with
    | VInt z => text_of (dec z)
    | VStr s => quote (text_of s)
    | VBytes s => quote (text_of (base64_text s))
    | VFloat f => sprint_float f
    | VNum q => numeric_text q
    | VBool b => word (if b then "true" else "false")
    | VJson s => text_of s
    | VArray l =>
        ("["%char :: joinb [","%char] ((fix go (l : list (option val)) : list bytes :=
           match l with [] => [] | None :: r => word "null" :: go r | Some x :: r => to_json x :: go r end) l) ++ ["]"%char])%list
    | VStruct l =>
        ("{"%char :: joinb [","%char] ((fix go (l : list (string * option val)) : list bytes :=
           match l with
           | [] => []
           | (k, None) :: r => (quote (text_of k) ++ ":"%char :: word "null")%list :: go r
           | (k, Some x) :: r => (quote (text_of k) ++ ":"%char :: to_json x)%list :: go r
           end) l) ++ ["}"%char])%list
    | VDate ns => text_of (date_text (day_no ns))
    | VDatetime ns => text_of (datetime_text ns)
    | VTime ns => text_of (clock_text ns)
    | VTimestamp ns => (text_of (datetime_text ns) ++ ["Z"%char])%list
    | VInterval m d ns => quote (interval_text m d ns)
    end.

  (** function_json.go:319-333 with function_bind.go:1519-1550.  The second argument, when
      given, is converted with ToBool - a call on nil for NULL - and then not used. *)
  Definition flag (o : option (option bool)) : res unit := match o with Some None => GoPanic | _ => Ok tt end.
  Definition fn_to_json (v : option val) (wide : option (option bool)) : res (option val) :=
    match v, wide with
    | None, _ | _, Some None => Ok None
    | Some x, _ => Ok (Some (VJson (string_of (to_json x))))
    end.
  Definition fn_to_json_string (v : option val) (pretty : option (option bool)) : res (option val) :=
    bind (flag pretty) (fun _ =>
    match v with None => GoPanic | Some x => Ok (Some (VStr (string_of (to_json x)))) end).
End Text.

(** ** Reading JSON *)
(** json.Unmarshal into an interface{}. *)
Definition unmarshal : bytes -> option json := denotes.
(** function_json.go:311-317, function_bind.go:1504-1517 *)
Definition parse_json (v mode : option bytes) : res (option val) :=
  match v, mode with
  | Some s, Some _ => match unmarshal s with Some _ => Ok (Some (VJson (string_of s))) | None => Err end
  | _, _ => Ok None
  end.
(** value.go:988-1022 JsonValue.Interface, Type; function_json.go:335-337,
    function_bind.go:1583-1592.  [Interface] is nil for a text that is not JSON and for
    null; reflect.ValueOf(nil).Type() panics.  [None] in the type is the nil interface. *)
Definition interface (s : bytes) : json := match unmarshal s with Some j => j | None => JNull end.
Definition kind (j : json) : string :=
  match j with
  | JNull => "null" | JBool _ => "boolean" | JNum _ => "number" | JStr _ => "string" | JArr _ => "array" | JObj _ => "object"
  end.
Definition json_type (v : option val) : res (option val) :=
  match v with
  | Some (VJson s) =>
      if String.eqb s "null" then Ok (Some (VStr "null"))
      else match interface (text_of s) with JNull => GoPanic | j => Ok (Some (VStr (kind j))) end
  | _ => Err
  end.
(** function_bind.go:1552-1581: BOOL, INT64 and FLOAT64 of a JSON value return it. *)
Definition bool_of_json (v : option val) : res (option val) := Ok v.
Definition int64_of_json (v : option val) : res (option val) := Ok v.
Definition float64_of_json (v : option val) (mode : option string) : res (option val) :=
  match mode with
  | None => GoPanic
  | Some m => if String.eqb m "exact" || String.eqb m "round" then Ok v else Err
  end.

Section Print.
  (** fmt.Sprint of a float64 that is not a whole number below 2^53, and of a Go slice or map. *)
  Variable other_number : Q -> bytes.
  Variable composite : json -> bytes.

  (** fmt.Sprint of a float64 that is a whole number z, |z| < 2^53: strconv.FormatFloat(f, 'g',
      -1, 64) writes the digits when there are at most six before the point would move, and
      the form d.ddde+XX for larger ones (strconv/ftoa.go formatDigits, eprec = 6). *)
  Definition mantissa (ds : string) : string :=
    match ds with
    | String c r => match strip_zeros r with EmptyString => String c EmptyString | t => String c (String "." t) end
    | EmptyString => EmptyString
    end.
  Definition whole_text (z : Z) : bytes :=
    let ds := udec (Z.abs z) in
    ((if z <? 0 then ["-"%char] else []) ++
     (if (String.length ds <=? 6)%nat then text_of ds
      else text_of (mantissa ds) ++ word "e+" ++ text_of (pad 2 (Z.of_nat (String.length ds) - 1))))%list.
  Definition number_text (q : Q) : bytes :=
    match Qden q with
    | xH => if Z.abs (Qnum q) <? 9007199254740992 then whole_text (Qnum q) else other_number q
    | _ => other_number q
    end.
  (** fmt.Sprint of what Unmarshal puts into an interface{}. *)
  Definition sprint (j : json) : bytes :=
    match j with
    | JNull => word "<nil>"
    | JBool b => word (if b then "true" else "false")
    | JNum q => number_text q
    | JStr s => s
    | _ => composite j
    end.
  (** function_bind.go:2462-2475, the JSON case of STRING. *)
  Definition string_of_json (v : option val) : res (option val) :=
    match v with
    | None => Ok None
    | Some (VJson s) => Ok (Some (VStr (string_of (sprint (interface (text_of s))))))
    | Some _ => Err
    end.

  (** ** Paths *)
  Section Path.
    (** json.CreatePath: an error, or whether the path uses single and double quotes. *)
    Variable create : bytes -> res (bool * bool).
    (** What Path.Unmarshal finds in a text. *)
    Variable located : bytes -> bytes -> res (list json).
    (** What Path.Extract finds in a text, and json.Compact. *)
    Variable extracted : bytes -> bytes -> res (list bytes).
    Variable compact : bytes -> res bytes.
    (** The elements of the text of an array (json.Unmarshal into []json.RawMessage). *)
    Variable raw_elements : bytes -> res (list bytes).

    Inductive family := Legacy | Standard.
    (** The JSON_EXTRACT functions refuse double quotes, the others single quotes
        (65-67, 91-93, 114-116, 150-152, 189-191, 215-217, 241-243, 277-279). *)
    Definition refused (f : family) (u : bool * bool) : bool := match f with Legacy => snd u | Standard => fst u end.
    Definition with_path {A} (f : family) (p : bytes) (k : res A) : res A :=
      bind (create p) (fun u => if refused f u then Err else k).

    (** function_json.go:60-84, 184-208 JSON_EXTRACT, JSON_QUERY *)
    Definition json_query (f : family) (v p : bytes) : res (option val) :=
      with_path f p (bind (extracted v p) (fun l =>
        match l with
        | [] => Ok None
        | x :: _ => bind (compact x) (fun y => if list_eq_dec ascii_dec y (word "null") then Ok None else Ok (Some (VJson (string_of y))))
        end)).
    (** function_json.go:86-107, 210-234 JSON_EXTRACT_SCALAR, JSON_VALUE.  Only the second
        looks at IsValid before asking for the type. *)
    Definition json_value (f : family) (v p : bytes) : res (option val) :=
      with_path f p (bind (located v p) (fun l =>
        match l with
        | [] => Ok None
        | JNull :: _ => match f with Legacy => GoPanic | Standard => Ok None end
        | (JArr _ | JObj _) :: _ => Ok None
        | j :: _ => Ok (Some (VStr (string_of (sprint j))))
        end)).
    (** function_json.go:109-143, 236-270 JSON_EXTRACT_ARRAY, JSON_QUERY_ARRAY *)
    Fixpoint trim_left (s : bytes) : bytes := match s with c :: r => if Ascii.eqb c " " then trim_left r else s | [] => [] end.
    Definition starts_bracket (s : bytes) : bool :=
      match s with [] => true | c :: _ => Ascii.eqb c "[" end.
    Definition json_query_array (f : family) (v p : bytes) : res (option val) :=
      with_path f p (bind (extracted v p) (fun l =>
        match l with
        | [] => Ok None
        | x :: _ =>
            if starts_bracket (trim_left x) then
              bind (raw_elements (trim_left x)) (fun es =>
              Ok (Some (VArray (map (fun e => if list_eq_dec ascii_dec e (word "null") then None else Some (VJson (string_of e))) es))))
            else Ok None
        end)).
    (** function_json.go:145-182, 272-309 JSON_EXTRACT_STRING_ARRAY, JSON_VALUE_ARRAY *)
    Fixpoint scalars (l : list json) (acc : list (option val)) : res (option val) :=
      match l with
      | [] => Ok (Some (VArray (rev acc)))
      | JNull :: _ => GoPanic
      | (JArr _ | JObj _) :: _ => Ok None
      | j :: r =>
          let t := sprint j in
          scalars r ((if list_eq_dec ascii_dec t (word "null") then None else Some (VStr (string_of t))) :: acc)
      end.
    Definition json_value_array (f : family) (v p : bytes) : res (option val) :=
      with_path f p (match located v p with
        | Ok (JArr l :: _) => scalars l []
        | GoPanic => GoPanic
        | _ => Ok None
        end).
  End Path.
End Print.
