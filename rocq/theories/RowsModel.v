(** What Rows.Next puts into the caller's row and what becomes of a Go value given as an
    argument: internal/rows.go:69-322, internal/encoder.go:56-66 and 356-590, the Interface methods of
    internal/value.go. *)
From Coq Require Import Ascii String List ZArith QArith Lia Bool SpecFloat.
From Verif Require Import GoBase CalendarModel InstantModel DecModel ValueModel Utf8Model EncModel ClockTextModel CodecModel TimeTextModel JsonSpec JsonModel.
Import ListNotations.
Local Open Scope string_scope.
Open Scope Z_scope.

(** The column types.  INT32, UINT32, UINT64, FLOAT, ENUM, BIGNUMERIC, INTERVAL and GEOGRAPHY
    are left out. *)
Inductive ty :=
| TInt | TBool | TFloat | TStr | TBytes | TNum | TDate | TDatetime | TTime | TTimestamp | TJson
| TArray (t : ty)
| TStruct (fs : list (string * ty)).

(** Go values in a row: nil, int64, bool, float64, string, []byte, []interface{},
    []map[string]interface{} with one key each, and what json.Unmarshal gives. *)
Inductive go :=
| GNil
| GInt (z : Z)
| GBool (b : bool)
| GFloat (f : float)
| GText (s : string)
| GBytes (s : string)
| GList (l : list go)
| GMaps (l : list (string * go))
| GJson (j : json).

(** A Go map from strings: the last entry for a key counts (StructValue.m). *)
Fixpoint find_last {A} (k : string) (m : list (string * A)) : option A :=
  match m with
  | [] => None
  | (k', a) :: r => match find_last k r with Some x => Some x | None => if String.eqb k' k then Some a else None end
  end.
(** encoder.go:457-465: no field has a name *)
Fixpoint anonymous {A} (l : list (string * A)) : bool :=
  match l with [] => true | (k, _) :: r => String.eqb k "" && anonymous r end.

Section Rows.
  (** Conversions to a type from values of another kind that are not modelled here
      (ToInt64, ToString, ... of value.go): any. *)
  Variable other : ty -> val -> res (option val).
  (** StructValue.ToString, value.go:1363-1385: any text (failures of its elements are left
      out) *)
  Variable struct_text : list (string * option val) -> string.
  (** time.Time.Format(time.RFC3339), value.go:2058-2060: any text for each second *)
  Variable stamp_text : Z -> string.
  (** IntervalValue.Interface: any *)
  Variable interval_go : Z -> Z -> Z -> go.

  (** encoder.go:356-506 CastValue.  Its NULL is [None].  Structs are converted field by field
      of the type, by name, through the map that the value shares with the result, unless no
      field of the value has a name. *)
  Fixpoint cast_value (t : ty) (v : val) {struct t} : res (option val) :=
    match t with
    | TInt => match v with VInt z => Ok (Some (VInt z)) | VFloat f => Ok (Some (VInt (int_of_float f))) | VStruct _ => Err | _ => other t v end
    | TBool =>
        match v with
        | VBool b => Ok (Some (VBool b))
        | VInt z => if z =? 0 then Ok (Some (VBool false)) else if z =? 1 then Ok (Some (VBool true)) else Err
        | VStruct _ => Err
        | _ => other t v
        end
    | TFloat => match v with VFloat f => Ok (Some (VFloat f)) | VInt z => Ok (Some (VFloat (float_of_int z))) | VStruct _ => Err | _ => other t v end
    | TStr => match v with VStr s => Ok (Some (VStr s)) | VStruct l => Ok (Some (VStr (struct_text l))) | _ => other t v end
    | TBytes => match v with VBytes s => Ok (Some (VBytes s)) | _ => other t v end
    | TNum => match v with VNum q => Ok (Some (VNum q)) | _ => other t v end
    | TDate => match v with VDate n => Ok (Some (VDate n)) | _ => other t v end
    | TDatetime => match v with VDatetime n => Ok (Some (VDatetime n)) | _ => other t v end
    | TTime => match v with VTime n => Ok (Some (VTime n)) | _ => other t v end
    | TTimestamp => match v with VTimestamp n => Ok (Some (VTimestamp n)) | _ => other t v end
    | TJson => match v with VJson s => Ok (Some (VJson s)) | _ => other t v end
    | TArray e =>
        match v with
        | VArray l =>
            bind ((fix go (l : list (option val)) : res (list (option val)) :=
                     match l with
                     | [] => Ok []
                     | o :: r => bind (match o with Some x => cast_value e x | None => Ok None end) (fun c => bind (go r) (fun cs => Ok (c :: cs)))
                     end) l) (fun cs => Ok (Some (VArray cs)))
        | _ => other t v
        end
    | TStruct fs =>
        match v with
        | VStruct l =>
            if anonymous l then Ok (Some v)
            else bind ((fix go (fs : list (string * ty)) (m : list (string * option val)) : res (list (string * option val)) :=
                          match fs with
                          | [] => Ok []
                          | (k, t') :: r =>
                              match find_last k m with
                              | None => bind (go r m) (fun xs => Ok ((k, None) :: xs))
                              | Some o =>
                                  bind (match o with Some x => cast_value t' x | None => Ok None end) (fun c =>
                                  bind (go r (m ++ [(k, c)])%list) (fun xs => Ok ((k, c) :: xs)))
                              end
                          end) fs l) (fun xs => Ok (Some (VStruct xs)))
        | _ => other t v
        end
    end.
  Definition cast_opt (t : ty) (o : option val) : res (option val) := match o with Some x => cast_value t x | None => Ok None end.

  (** value.go:177, 326, 493, 626, 794, 896, 988, 1225, 1435, 1621, 1773, 1890, 2058.
      big.Rat.String writes the denominator also when it is one. *)
  Fixpoint iface (v : val) : go :=
    match v with
    | VInt z => GInt z
    | VStr s => GText s
    | VBytes s => GBytes s
    | VFloat f => GFloat f
    | VNum q => let r := Qred q in GText (dec (Qnum r) ++ "/" ++ udec (Zpos (Qden r)))
    | VBool b => GBool b
    | VJson s => GJson (interface (text_of s))
    | VArray l => GList ((fix go (l : list (option val)) := match l with [] => [] | None :: r => GNil :: go r | Some x :: r => iface x :: go r end) l)
    | VStruct l => GMaps ((fix go (l : list (string * option val)) :=
        match l with [] => [] | (k, None) :: r => (k, GNil) :: go r | (k, Some x) :: r => (k, iface x) :: go r end) l)
    | VDate t => GText (date_text (day_no t))
    | VDatetime t => GText (datetime_text t)
    | VTime t => GText (clock_text t)
    | VTimestamp t => GText (stamp_text (unix t))
    | VInterval m d n => interval_go m d n
    end.
  (** rows.go:211-322 assignInterfaceValue.  After CastValue the value is of the kind of the
      column; other combinations are Err here. *)
  Fixpoint assign (t : ty) (v : val) {struct t} : res go :=
    match t, v with
    | TInt, VInt z => Ok (GInt z)
    | TBool, VBool b => Ok (GBool b)
    | TFloat, VFloat f => Ok (GFloat f)
    | TBytes, VBytes s => Ok (GText (base64_text s))
    | TStr, VStr s => Ok (GText s)
    | TNum, VNum q => Ok (GText (string_of (numeric_text q)))
    | TDate, VDate n => Ok (GText (date_text (day_no n)))
    | TDatetime, VDatetime n => Ok (GText (datetime_text n))
    | TTime, VTime n => Ok (GText (clock_text n))
    | TTimestamp, VTimestamp n => Ok (GText (timestamp_text n))
    | TJson, VJson s => Ok (GText s)
    | TStruct _, VStruct _ => Ok (iface v)
    | TArray e, VArray l =>
        bind ((fix go (l : list (option val)) : res (list go) :=
                 match l with
                 | [] => Ok []
                 | None :: r => bind (go r) (fun gs => Ok (GNil :: gs))
                 | Some x :: r => bind (assign e x) (fun g => bind (go r) (fun gs => Ok (g :: gs)))
                 end) l) (fun gs => Ok (GList gs))
    | _, _ => Err
    end.
  (** rows.go:100-118 and 203-204: the destination of Rows.Next is always an interface{}. *)
  Definition row_value (t : ty) (e : enc) : res go :=
    match e with
    | ENull => Ok GNil
    | _ => bind (decode_value e) (fun o => bind (cast_opt t o) (fun c => match c with Some v => assign t v | None => GoPanic end))
    end.
  (** A value of a column as the caller of Rows.Next sees it. *)
  Definition result (t : ty) (o : option val) : res go := bind (encode_opt o) (fun e => row_value t (through_engine e)).

  (** ** Arguments *)
  (** Go values given as arguments.  Integer types that are signed, and those that are not; a
      map or a struct is its entries, a map in any order.  Other kinds (functions, channels,
      complex numbers), maps whose keys are not strings and fields that are not exported are left
      out. *)
  Inductive arg :=
  | ANil
  | AInt (z : Z)
  | AUint (z : Z)
  | AFloat (f : float)
  | ABool (b : bool)
  | AStr (s : string)
  | ABytes (s : string)
  | ANilBytes
  | AByteArray (s : string)
  | ATime (t : Z)
  | APtr (p : option arg)
  | ASlice (l : list arg)
  | AMap (l : list (string * arg))
  | AGoStruct (l : list (string * arg)).
  (** encoder.go:508-590 ValueFromGoValue, valueFromGoReflectValue, and value.go:2445-2456
      isNullValue.  A nil and a nil []byte are NULL when given as they are or in an interface{}
      (ANil, ANilBytes; a nil []byte in a [][]byte is ABytes of nothing); a nil pointer is not,
      and reflect.Value.Type of what it points to panics.  reflect.Value.Bytes panics for an array that
      is not addressable, as none here is.  Map keys are strings. *)
  Fixpoint from_go (a : arg) : res (option val) :=
    match a with
    | ANil | ANilBytes => Ok None
    | AInt z => Ok (Some (VInt z))
    | AUint z => Ok (Some (VInt (wrap64 z)))
    | AFloat f => Ok (Some (VFloat f))
    | ABool b => Ok (Some (VBool b))
    | AStr s => Ok (Some (VStr s))
    | ABytes s => Ok (Some (VBytes s))
    | AByteArray _ => GoPanic
    | ATime t => Ok (Some (VTimestamp t))
    | APtr None => GoPanic
    | APtr (Some b) => from_go b
    | ASlice l => bind ((fix go (l : list arg) : res (list (option val)) :=
        match l with [] => Ok [] | x :: r => bind (from_go x) (fun v => bind (go r) (fun vs => Ok (v :: vs))) end) l)
        (fun vs => Ok (Some (VArray vs)))
    | AMap l | AGoStruct l => bind ((fix go (l : list (string * arg)) : res (list (string * option val)) :=
        match l with [] => Ok [] | (k, x) :: r => bind (from_go x) (fun v => bind (go r) (fun vs => Ok ((k, v) :: vs))) end) l)
        (fun vs => Ok (Some (VStruct vs)))
    end.
  (** encoder.go:56-66 EncodeGoValue *)
  Definition bound (t : ty) (a : arg) : res enc := bind (from_go a) (fun o => bind (cast_opt t o) encode_opt).
  (** SELECT of a parameter *)
  Definition selected (t : ty) (a : arg) : res go := bind (bound t a) (fun e => row_value t (through_engine e)).
End Rows.
