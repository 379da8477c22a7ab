(** CAST and SAFE_CAST between all kinds: internal/function.go:513-537 CAST,
    internal/encoder.go:356-506 CastValue (the cases of RowsModel) and the To... methods of
    internal/value.go. *)
From Coq Require Import Ascii String List ZArith QArith Lia Bool SpecFloat.
From Verif Require Import GoBase CalendarModel InstantModel DecModel ValueModel CastModel CastSpec Utf8Model EncModel ClockTextModel CodecModel TimeTextModel JsonSpec JsonModel RowsModel.
Import ListNotations.
Local Open Scope string_scope.
Open Scope Z_scope.

(** ** The shapes of texts: internal/value.go:2332-2349 *)
Fixpoint shape (p s : string) : option string :=
  match p, s with
  | EmptyString, _ => Some s
  | String x p', String c s' =>
      if Ascii.eqb x "d" then match digit_val c with Some _ => shape p' s' | None => None end
      else if Ascii.eqb x "s" then
        (* the class [T\s]: T, tab, line feed, form feed, carriage return, space *)
        if Ascii.eqb c "T" || existsb (Nat.eqb (nat_of_ascii c)) [9; 10; 12; 13; 32]%nat then shape p' s' else None
      else if Ascii.eqb x c then shape p' s' else None
  | String _ _, EmptyString => None
  end.
Definition whole (p s : string) : bool := match shape p s with Some EmptyString => true | _ => false end.
Definition is_date (s : string) : bool := whole "dddd-dd-dd" s.
Definition is_datetime (s : string) : bool := whole "dddd-dd-ddsdd:dd:dd" s.
Definition is_time (s : string) : bool := match shape "dd:dd:dd" s with Some _ => true | None => false end.

(** A plain decimal number: an optional sign, digits, an optional point and digits. *)
Definition unsigned_decimal (s : string) : option Q :=
  let (a, r) := span_digits s in
  match r with
  | EmptyString => match a with EmptyString => None | _ => option_map inject_Z (read_digits a 0) end
  | String c b =>
      if Ascii.eqb c "." then
        match a with
        | EmptyString => None
        | _ =>
            match b, read_digits (a ++ b) 0 with
            | EmptyString, _ => None
            | _, Some v => Some (v # Z.to_pos (10 ^ Z.of_nat (String.length b)))
            | _, None => None
            end
        end
      else None
  end.
Definition plain_decimal (s : string) : option Q :=
  match s with
  | String c r => if Ascii.eqb c "-" then option_map Qopp (unsigned_decimal r) else if Ascii.eqb c "+" then unsigned_decimal r else unsigned_decimal s
  | EmptyString => None
  end.

Section Convert.
  (** Offset of the machine's time zone at an instant, in seconds. *)
  Variable offset : Z -> Z.
  (** Offset in seconds written after a time of day other than as Z or +09:00 (the layouts -07
      and MST): any. *)
  Variable zone_offset : string -> option Z.
  (** big.Rat.SetString on texts that are not plain decimals: whatever number it leaves. *)
  Variable other_rat : string -> Q.
  (** fmt.Sprint of a float64, strconv.ParseFloat, big.Rat.Float64, ParseInt(s, 0, 64), ParseBool on JSON texts *)
  Variable float_text : float -> string.
  Variable float_read : string -> option float.
  Variable rat_float : Q -> float.
  Variable int_read : string -> option Z.
  (** ToString of arrays, structs and intervals, ToJSON of everything but JSON,
      TimestampFromFloatValue (value.go:2418-2422) *)
  Variable doc_text : val -> string.
  Variable json_text : val -> string.
  Variable float_time : float -> Z.

  Definition local (t : Z) : Z := t + offset t * ns_per_sec.
  (** time.Time.Format(time.RFC3339Nano) after the date: up to nine decimals, then Z or the
      offset in hours and minutes *)
  Definition zone_text (o : Z) : string :=
    if o =? 0 then "Z"
    else let m := Z.quot o 60 in
         String (if m <? 0 then "-"%char else "+"%char) (pad 2 (Z.abs m / 60) ++ ":" ++ pad 2 (Z.abs m mod 60)).
  Definition nano_text (ns : Z) : string :=
    match strip_zeros (pad 9 ns) with EmptyString => EmptyString | s => String "." s end.
  Definition rfc3339 (t : Z) : string :=
    let w := local t in
    date_text (day_no w) ++ "T" ++ pad 2 (hour w) ++ ":" ++ pad 2 (minute w) ++ ":" ++ pad 2 (second w) ++
    nano_text (nanosecond w) ++ zone_text (offset t).
  (** time.Parse, the layouts Z07:00 and -07:00 *)
  Definition read_zone (s : string) : option Z :=
    if String.eqb s "Z" then Some 0
    else match s with
    | String c r =>
        if Ascii.eqb c "+" || Ascii.eqb c "-" then
          match num2 r with
          | Some (h, r1) =>
              match lit ":" r1 with
              | Some r2 =>
                  match num2 r2 with
                  | Some (m, EmptyString) =>
                      if between 0 24 h && between 0 59 m then Some ((if Ascii.eqb c "-" then -1 else 1) * (h * 3600 + m * 60)) else zone_offset s
                  | _ => zone_offset s
                  end
              | None => zone_offset s
              end
          | None => zone_offset s
          end
        else zone_offset s
    | EmptyString => None
    end.
  (** internal/value.go:2377-2412 parseTimestamp in UTC: instant, and wall clock in its zone. *)
  Definition zoned (sep : string -> option string) (s : string) : option (Z * Z) :=
    match read_ymd s with Some (n, r) =>
    match sep r with Some r' =>
    match read_hms r' with Some (c, ns, r'') =>
      let wall := (n * 86400 + c) * ns_per_sec + ns in
      match r'' with
      | EmptyString => Some (wall, wall)
      | _ => match read_zone r'' with Some o => Some (wall - o * ns_per_sec, wall) | None => None end
      end
    | None => None end | None => None end | None => None end.
  Definition parse_timestamp (s : string) : option (Z * Z) :=
    match zoned (lit "T") s with
    | Some p => Some p
    | None => match zoned skip_space s with
              | Some p => Some p
              | None => option_map (fun n => (n * ns_per_day, n * ns_per_day)) (parse_date s)
              end
    end.
  Definition utc (o : option Z) : res (Z * Z) := match o with Some t => Ok (t, t) | None => Err end.
  (** internal/value.go:297-310, 439-452 *)
  Definition string_time (s : string) : res (Z * Z) :=
    if is_date s then utc (option_map (fun n => n * ns_per_day) (parse_date s))
    else if is_datetime s then utc (parse_datetime s)
    else if is_time s then utc (parse_time s)
    else match parse_timestamp s with Some p => Ok p | None => Err end.
  (** internal/value.go:312-316, 454-458: the failure of SetString is ignored *)
  Definition string_rat (s : string) : Q := match plain_decimal s with Some q => q | None => other_rat s end.

  (** The To... methods, by kind: value.go 120-170, 240-316, 393-458, 574-616, 731-788, 839-886,
      942-980, 1157-1208, 1359-1420, 1566-1609, 1718-1761, 1834-1878, 2003-2046, 2098-2150.
      A time is an instant and its wall clock. *)
  Definition to_int64 (v : val) : res Z :=
    match v with
    | VInt z => Ok z
    | VStr s => cast_string_int64 s
    | VBytes s => if String.eqb s "" then Ok 0 else match parse_int s with Some z => Ok z | None => Err end
    | VFloat f => Ok (int_of_float f)
    | VNum q => Ok (cast_numeric_int64 q)
    | VBool b => Ok (if b then 1 else 0)
    | VJson s => match int_read s with Some z => Ok z | None => Err end
    | VDate t | VDatetime t | VTime t | VTimestamp t => Ok (unix t)
    | VArray _ | VStruct _ | VInterval _ _ _ => Err
    end.
  Definition to_string (v : val) : string :=
    match v with
    | VInt z => dec z
    | VStr s | VJson s => s
    | VBytes s => base64_text s
    | VFloat f => float_text f
    | VNum q => string_of (numeric_text q)
    | VBool b => cast_bool_string b
    | VDate t => date_text (day_no t)
    | VDatetime t => datetime_text t
    | VTime t => clock_text t
    | VTimestamp t => rfc3339 t
    | VArray _ | VStruct _ | VInterval _ _ _ => doc_text v
    end.
  Definition to_bytes (v : val) : string := match v with VBytes s => s | _ => to_string v end.
  Definition to_float (v : val) : res float :=
    match v with
    | VInt z => Ok (float_of_int z)
    | VStr s | VBytes s => if String.eqb s "" then Ok (S754_zero false) else match float_read s with Some f => Ok f | None => Err end
    | VFloat f => Ok f
    | VNum q => Ok (rat_float q)
    | VBool b => Ok (float_of_int (if b then 1 else 0))
    | VJson s => match float_read s with Some f => Ok f | None => Err end
    | VDate t | VDatetime t | VTime t | VTimestamp t => Ok (float_of_int (unix t))
    | VArray _ | VStruct _ | VInterval _ _ _ => Err
    end.
  Definition to_bool (v : val) : res bool :=
    match v with
    | VInt z => cast_int64_bool z
    | VStr s | VBytes s => cast_string_bool s
    | VFloat f => if String.eqb (float_text f) "1" then Ok true else if String.eqb (float_text f) "0" then Ok false else Err
    | VNum q => let n := cast_numeric_int64 q in if n =? 1 then Ok true else if n =? 0 then Ok false else Err
    | VBool b => Ok b
    | VJson s => if String.eqb s "" then Err else cast_string_bool s
    | _ => Err
    end.
  Definition to_time (v : val) : res (Z * Z) :=
    match v with
    | VInt z =>
        if 0 <? z then let t := from_unix (Z.quot z 1000000) ((z - Z.quot z 1000000 * 1000000) * 1000000) in Ok (t, t)
        else let t := wrap64 (z * ns_per_day) in Ok (t, local t)
    | VStr s | VBytes s => string_time s
    | VFloat f => Ok (float_time f, float_time f)
    | VDate t | VDatetime t | VTime t => Ok (t, t)
    | VTimestamp t => Ok (t, local t)
    | _ => Err
    end.
  Definition to_rat (v : val) : res Q :=
    match v with
    | VInt z => Ok (inject_Z z)
    | VStr s | VBytes s => Ok (string_rat s)
    | VFloat f => Ok (match float_val f with Some q => q | None => 0%Q end)
    | VNum q => Ok q
    | VBool b => Ok (inject_Z (if b then 1 else 0))
    | VJson s => match int_read s with Some z => Ok (inject_Z z) | None => Err end
    | _ => Err
    end.
  Definition some {A} (f : A -> val) (r : res A) : res (option val) := bind r (fun a => Ok (Some (f a))).
  (** encoder.go:437-451: a STRUCT from an array of structs *)
  Fixpoint joined (l : list (option val)) : res (list (string * option val)) :=
    match l with
    | [] => Ok []
    | None :: _ => GoPanic
    | Some (VStruct m) :: r => bind (joined r) (fun k => Ok (m ++ k)%list)
    | Some (VStr "") :: _ => GoPanic
    | Some _ :: _ => Err
    end.
  (** The cases of CastValue that RowsModel leaves open. *)
  Definition convert (t : ty) (v : val) : res (option val) :=
    match t with
    | TInt => some VInt (to_int64 v)
    | TBool => some VBool (to_bool v)
    | TFloat => some VFloat (to_float v)
    | TStr => Ok (Some (VStr (to_string v)))
    | TBytes => Ok (Some (VBytes (to_bytes v)))
    | TNum => some VNum (to_rat v)
    | TDate => some (fun p => VDate (snd p)) (to_time v)
    | TDatetime => some (fun p => VDatetime (snd p)) (to_time v)
    | TTime => some (fun p => VTime (snd p)) (to_time v)
    | TTimestamp => some (fun p => VTimestamp (fst p)) (to_time v)
    | TJson => Ok (Some (VJson (match v with VJson s => s | _ => json_text v end)))
    | TArray _ => match v with VStr "" => GoPanic | _ => Err end
    | TStruct _ => match v with VArray l => some VStruct (joined l) | VStr "" => GoPanic | _ => Err end
    end.
  Definition cast_to : ty -> option val -> res (option val) := cast_opt convert (fun l => doc_text (VStruct l)).
  (** function.go:513-537 *)
  Definition sql_cast (safe : bool) (from to : ty) (o : option val) : res (option val) :=
    match bind (cast_to from o) (cast_to to) with
    | Err => if safe then Ok None else Err
    | r => r
    end.
  (** The result goes through SQLite before anything else sees it. *)
  Definition cast_seen (safe : bool) (from to : ty) (o : option val) : res (option val) :=
    bind (sql_cast safe from to o) round_trip.
End Convert.
