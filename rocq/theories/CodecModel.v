(** How values are handed to SQLite and read back: internal/encoder.go (EncodeValue,
    valueLayoutFromValue, LiteralFromValue) and internal/decoder.go (DecodeValue,
    decodeFromValueLayout).

    The JSON document inside the text of a value is kept as a tree.  What
    Unmarshal after Marshal (github.com/goccy/go-json, outside /repo) does to its leaves
    is written out: a string keeps its characters, a byte that is not UTF-8 becoming
    U+FFFD; a number read into an interface{} becomes the nearest float64; a NaN or an
    infinity makes Marshal fail; null, true and false are kept.  The base64 around the
    document is that of EncModel and loses nothing (C53). *)
From Coq Require Import Ascii String List ZArith QArith Lia Bool SpecFloat.
From Verif Require Import GoBase CalendarModel InstantModel DecModel ValueModel Utf8Model EncModel ClockTextModel.
Import ListNotations.
Local Open Scope string_scope.
Open Scope Z_scope.

(** internal/codec.go:3-21; INTERVAL is not modelled. *)
Inductive header := HString | HBytes | HNumeric | HDate | HDatetime | HTime | HTimestamp | HJson.
(** What EncodeValue returns: nil, int64, float64, bool, or the text of a layout
    (internal/codec.go:23-31), whose body is a text, a list or a struct layout. *)
Inductive enc :=
| ENull
| EInt (z : Z)
| EFloat (f : float)
| EBool (b : bool)
| EText (h : header) (body : string)
| EArray (l : list enc)
| EStruct (keys : list string) (l : list enc).

Definition sanitize (s : string) : string := string_of_list_ascii (encode (decode (list_ascii_of_string s))).
Definition base64_text (s : string) : string := string_of_list_ascii (to_base64 (list_ascii_of_string s)).
Definition base64_read (s : string) : res string := bind (from_base64 (list_ascii_of_string s)) (fun b => Ok (string_of_list_ascii b)).
Definition finite (f : float) : bool := match f with S754_nan | S754_infinity _ => false | _ => true end.

(** big.Rat.MarshalText: numerator, and the denominator unless it is one. *)
Definition rat_text (q : Q) : string :=
  let r := Qred q in
  if (Zpos (Qden r) =? 1) then dec (Qnum r) else dec (Qnum r) ++ String "/" (udec (Zpos (Qden r))).
(** big.Rat.SetString on such texts (other syntaxes it accepts do not occur here); a
    failure leaves the number zero, for the error is ignored: decoder.go:49-56. *)
Definition read_int (s : string) : option Z :=
  match s with
  | String c r => if Ascii.eqb c "-" then option_map Z.opp (read_nat r) else read_nat s
  | EmptyString => None
  end.
Definition rat_read (s : string) : Q :=
  match split1 "/" s with
  | [a] => match read_int a with Some n => n # 1 | None => 0 end
  | [a; b] =>
      match read_int a, read_nat b with
      | Some n, Some (Zpos d) => Qred (n # d)
      | _, _ => 0
      end
  | _ => 0
  end%Q.

(** json.Marshal of the elements of an array or struct: encoder.go:689, 706 *)
Definition marshal (e : enc) : res enc :=
  match e with EFloat f => if finite f then Ok e else Err | _ => Ok e end.
(** internal/encoder.go:68-91 EncodeValue with 603-719 valueLayoutFromValue *)
Fixpoint encode_value (v : val) : res enc :=
  let elems := fix elems (l : list (option val)) : res (list enc) :=
    match l with
    | [] => Ok []
    | o :: r =>
        bind (match o with Some x => encode_value x | None => Ok ENull end) (fun e =>
        bind (marshal e) (fun e' => bind (elems r) (fun es => Ok (e' :: es))))
    end in
  let fields := fix fields (l : list (string * option val)) : res (list enc) :=
    match l with
    | [] => Ok []
    | (_, o) :: r =>
        bind (match o with Some x => encode_value x | None => Ok ENull end) (fun e =>
        bind (marshal e) (fun e' => bind (fields r) (fun es => Ok (e' :: es))))
    end in
  match v with
  | VInt z => Ok (EInt z)
  | VFloat f => Ok (EFloat f)
  | VBool b => Ok (EBool b)
  | VStr s => Ok (EText HString (sanitize s))
  | VBytes s => Ok (EText HBytes (sanitize (base64_text s)))
  | VNum q => Ok (EText HNumeric (sanitize (rat_text q)))
  | VJson s => Ok (EText HJson (sanitize s))
  | VDate t => Ok (EText HDate (date_text (day_no t)))
  | VDatetime t => Ok (EText HDatetime (datetime_text t))
  | VTime t => Ok (EText HTime (clock_text t))
  | VTimestamp t => Ok (EText HTimestamp (dec (unix_micro t)))
  | VInterval _ _ _ => Err
  | VArray l => bind (elems l) (fun es => Ok (EArray es))
  | VStruct l => bind (fields l) (fun es => Ok (EStruct (map (fun p => sanitize (fst p)) l) es))
  end.
Definition encode_opt (o : option val) : res enc := match o with Some v => encode_value v | None => Ok ENull end.

(** What SQLite does to a bound value or a function result: a NaN becomes NULL, a bool an
    integer (go-sqlite3); everything else is kept. *)
Definition through_engine (e : enc) : enc :=
  match e with
  | EFloat S754_nan => ENull
  | EBool b => EInt (if b then 1 else 0)
  | _ => e
  end.

(** internal/decoder.go:76-84 *)
Definition read_timestamp (s : string) : option Z :=
  option_map (fun us => let sec := Z.quot us 1000000 in from_unix sec ((us - sec * 1000000) * 1000)) (parse_int s).
Definition lift {A} (f : A -> val) (o : option A) : res (option val) :=
  match o with Some a => Ok (Some (f a)) | None => Err end.
(** internal/decoder.go:39-127 decodeFromValueLayout, a text body *)
Definition decode_text (h : header) (b : string) : res (option val) :=
  match h with
  | HString => Ok (Some (VStr b))
  | HBytes => bind (base64_read b) (fun s => Ok (Some (VBytes s)))
  | HNumeric => Ok (Some (VNum (rat_read b)))
  | HDate => lift (fun n => VDate (n * ns_per_day)) (parse_date b)
  | HDatetime => lift VDatetime (parse_datetime b)
  | HTime => lift VTime (parse_time b)
  | HTimestamp => lift VTimestamp (read_timestamp b)
  | HJson => Ok (Some (VJson b))
  end.
(** internal/decoder.go:13-37 DecodeValue.  The elements of arrays and structs come out of
    json.Unmarshal into []interface{} (decoder.go:92, 108), where numbers are float64. *)
Fixpoint decode_value (e : enc) : res (option val) :=
  let elems := fix elems (l : list enc) : res (list (option val)) :=
    match l with
    | [] => Ok []
    | x :: r =>
        bind (match x with EInt z => Ok (Some (VFloat (float_of_int z))) | _ => decode_value x end) (fun v =>
        bind (elems r) (fun vs => Ok (v :: vs)))
    end in
  match e with
  | ENull => Ok None
  | EInt z => Ok (Some (VInt z))
  | EFloat f => Ok (Some (VFloat f))
  | EBool b => Ok (Some (VBool b))
  | EText h b => decode_text h b
  | EArray l => bind (elems l) (fun vs => Ok (Some (VArray vs)))
  | EStruct keys l =>
      bind (elems l) (fun vs =>
        if (List.length l <=? List.length keys)%nat then Ok (Some (VStruct (combine keys vs))) else GoPanic)
  end.
(** A value handed to SQLite and read back. *)
Definition round_trip (o : option val) : res (option val) :=
  bind (encode_opt o) (fun e => decode_value (through_engine e)).

(** ** Literals: internal/encoder.go:93-133 LiteralFromValue *)
Definition quote_char : ascii := """"%char.
Definition backslash : ascii := "092"%char.
(** strconv.Quote (fmt "%q"), for ASCII bytes; every byte that is not printable ASCII is
    written as an escape here. *)
Definition quote_byte (c : ascii) : bytes :=
  if Ascii.eqb c quote_char || Ascii.eqb c backslash then [backslash; c]
  else if (32 <=? b2z c) && (b2z c <=? 126) then [c]
  else backslash :: "x"%char :: to_hex [c].
Definition go_quote (s : bytes) : bytes := (quote_char :: flat_map quote_byte s ++ [quote_char])%list.
(** The literal for a value whose layout is the JSON text j (strings, bytes, numerics,
    dates, times, arrays, structs: encoder.go:124-132) *)
Definition text_literal (j : bytes) : bytes := go_quote (to_base64 j).
