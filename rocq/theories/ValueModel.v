(** SQL values as the Go code holds them, and their comparison and arithmetic
    methods: internal/value.go.

    A Go [Value] interface is an [option val]: [None] is the nil interface, which
    stands for SQL NULL.  A method call on nil, or one that converts a nil
    argument, is a run-time panic. *)
From Coq Require Import Ascii String List ZArith QArith Lia Bool SpecFloat.
From Verif Require Import GoBase.
Import ListNotations.
Local Open Scope string_scope.
Open Scope Z_scope.

(** float64: IEEE binary64 of the standard library. *)
Definition prec64 : Z := 53.
Definition emax64 : Z := 1024.
Definition float := spec_float.
Definition fadd : float -> float -> float := SFadd prec64 emax64.
Definition fsub : float -> float -> float := SFsub prec64 emax64.
Definition fmul : float -> float -> float := SFmul prec64 emax64.
Definition fdiv : float -> float -> float := SFdiv prec64 emax64.
Definition fzero : float := S754_zero false.
Definition is_nan (f : float) : bool := match f with S754_nan => true | _ => false end.

(** The Go conversion float64(i) of an int64 (nearest, ties to even), and
    int64(f): truncation; what Go leaves to the implementation - NaN and values
    outside the int64 range - is -2^63, as on amd64. *)
Definition float_of_int (z : Z) : float := binary_normalize prec64 emax64 z 0 false.
Definition trunc_float (f : float) : option Z :=
  match f with
  | S754_zero _ => Some 0
  | S754_finite s m e =>
      let a := if 0 <=? e then Zpos m * 2 ^ e else Zpos m / 2 ^ (- e) in
      Some (if s then - a else a)
  | _ => None
  end.
Definition int_of_float (f : float) : Z :=
  match trunc_float f with
  | Some z => if in64b z then z else - two63
  | None => - two63
  end.

(** internal/value.go: IntValue (43), StringValue (178), BytesValue (330), FloatValue
    (497), NumericValue (630), BoolValue (798), JsonValue (900), ArrayValue (1024),
    StructValue (1237), DateValue (1453), DatetimeValue (1629), TimeValue (1777),
    TimestampValue (1890), IntervalValue (2062).  A time.Time is its instant in
    nanoseconds since 1970-01-01 UTC.  A struct is its list of fields in order.
    SafeValue (2169) and the interval's fields are not represented. *)
Inductive val : Type :=
| VInt (z : Z)
| VStr (s : string)
| VBytes (s : string)
| VFloat (f : float)
| VNum (q : Q)
| VBool (b : bool)
| VJson (s : string)
| VArray (l : list (option val))
| VStruct (l : list (string * option val))
| VDate (ns : Z)
| VDatetime (ns : Z)
| VTime (ns : Z)
| VTimestamp (ns : Z)
| VInterval (months days ns : Z).

Inductive cmpop := EQ | GT | GTE | LT | LTE.

(** The Go operators ==, >, >=, <, <= given how the operands compare; an absent
    comparison is a NaN operand, for which all five are false. *)
Definition decide (op : cmpop) (c : option comparison) : bool :=
  match c, op with
  | Some Eq, (EQ | GTE | LTE) => true
  | Some Gt, (GT | GTE) => true
  | Some Lt, (LT | LTE) => true
  | _, _ => false
  end.

(** Go's comparison of strings and of byte slices is bytewise. *)
Fixpoint bytes_compare (a b : string) : comparison :=
  match a, b with
  | EmptyString, EmptyString => Eq
  | EmptyString, String _ _ => Lt
  | String _ _, EmptyString => Gt
  | String x a', String y b' =>
      match N.compare (N_of_ascii x) (N_of_ascii y) with
      | Eq => bytes_compare a' b'
      | c => c
      end
  end.

(** The comparison of two scalars, the receiver first.  Values of different types
    meet only where the code itself changes a type: a BOOL or INT64 passed to a
    function arrives as IntValue, while the elements of an array that went through
    SQLite have become FloatValue and BoolValue (decoder.go:13-39).  Other pairs of
    types do not arise from analyzed queries; the model makes them an error. *)
Definition scalar_compare (a b : val) : option (option comparison) :=
  match a, b with
  | VInt x, VInt y => Some (Some (x ?= y))              (* value.go:77-115 *)
  | VStr x, VStr y => Some (Some (bytes_compare x y))   (* value.go:200-238 *)
  | VBytes x, VBytes y => Some (Some (bytes_compare x y)) (* value.go:352-390 *)
  | VFloat x, VFloat y => Some (SFcompare x y)          (* value.go:534-572 *)
  | VInt x, VFloat y => Some (Some (x ?= int_of_float y))
  | VFloat x, VInt y => Some (SFcompare x (float_of_int y))
  | VInt x, VBool y => Some (Some (x ?= (if y then 1 else 0)))
  | VNum x, VNum y => Some (Some (Qcompare x y))        (* value.go:686-729 *)
  | VDate x, VDate y => Some (Some (x ?= y))            (* value.go:1526-1564 *)
  | VDatetime x, VDatetime y => Some (Some (x ?= y))    (* value.go:1678-1716 *)
  | VTime x, VTime y => Some (Some (x ?= y))            (* value.go:1795-1833 *)
  | VTimestamp x, VTimestamp y => Some (Some (x ?= y))  (* value.go:1962-2000 *)
  | _, _ => None
  end.

(** A method that reports "unsupported" without looking at its argument:
    value.go:824-838 (BOOL), 918-936 (JSON), 2082-2100 (INTERVAL). *)
Definition refuses (op : cmpop) (a : val) : bool :=
  match a, op with
  | VBool _, EQ => false
  | VBool _, _ => true
  | VJson _, _ => true
  | VInterval _ _ _, _ => true
  | _, _ => false
  end.

Definition scalar_op (op : cmpop) (a b : val) : res bool :=
  if refuses op a then Err
  else match a, b with
       | VBool x, VBool y => Ok (Bool.eqb x y)          (* value.go:816-822 *)
       | VBool x, VInt y =>                             (* value.go:136-145 *)
           if y =? 0 then Ok (Bool.eqb x false) else if y =? 1 then Ok (Bool.eqb x true) else Err
       | _, _ => match scalar_compare a b with
                 | Some c => Ok (decide op c)
                 | None => Err
                 end
       end.

(** The fields of StructValue.m (function.go:398-418): one per name, the last
    value given for it. *)
Fixpoint field_map (l : list (string * option val)) (acc : list (string * option val)) : list (string * option val) :=
  match l with
  | [] => acc
  | (k, v) :: r => field_map r (aset acc k v)
  end.

(** One element of the loops below.  x comes from the receiver of the whole
    comparison, y from its argument; the code calls y.op(x).  With [sw] the roles
    of the whole comparison are exchanged, and the call is x.op(y). *)
Definition elem_op (rec : bool -> val -> val -> res bool) (op : cmpop) (sw : bool) (x y : option val) : res bool :=
  match x, y with
  | Some x', Some y' => rec (negb sw) x' y'
  | None, None => GoPanic
  | Some x', None => if sw then if refuses op x' then Err else GoPanic else GoPanic
  | None, Some y' => if sw then GoPanic else if refuses op y' then Err else GoPanic
  end.

(** [cmp_sw op false a b] is a.op(b), [cmp_sw op true a b] is b.op(a).

    Arrays (value.go:1057-1155): false on different lengths, otherwise the
    elements are compared left to right with receiver and argument exchanged,
    stopping at the first that is not true.  Structs (value.go:1259-1357): the same
    over the name-to-value maps, a name missing from the other map giving nil.  Go
    iterates the map in an unspecified order, the model in order of last
    occurrence. *)
Fixpoint cmp_sw (op : cmpop) (sw : bool) (a b : val) {struct a} : res bool :=
  match a, b with
  | VArray l, VArray l' =>
      if negb (Nat.eqb (length l) (length l')) then Ok false
      else (fix go (l l' : list (option val)) : res bool :=
              match l, l' with
              | x :: r, y :: r' =>
                  match elem_op (cmp_sw op) op sw x y with
                  | Ok true => go r r'
                  | o => o
                  end
              | _, _ => Ok true
              end) l l'
  | VStruct l, VStruct l' =>
      let m' := field_map l' [] in
      if negb (Nat.eqb (length (field_map l [])) (length m')) then Ok false
      else (fix go (l : list (string * option val)) : res bool :=
              match l with
              | [] => Ok true
              | (k, x) :: r =>
                  if existsb (fun kv => String.eqb (fst kv) k) r then go r
                  else
                    let y := match aget m' k with Some y => y | None => None end in
                    match elem_op (cmp_sw op) op sw x y with
                    | Ok true => go r
                    | o => o
                    end
              end) l
  | _, _ => if sw then scalar_op op b a else scalar_op op a b
  end.

Definition cmp (op : cmpop) (a b : val) : res bool := cmp_sw op false a b.

(** The collation SQLite uses to order text: internal/function_register.go:458-470;
    errors are ignored.  SQLite calls it for two values stored as text. *)
Definition collate (a b : val) : Z :=
  match cmp EQ a b with
  | Ok true => 0
  | _ => match cmp GT a b with Ok true => 1 | _ => -1 end
  end.

(** internal/value.go: Add (45), Sub (53), Mul (61), Div (69) of IntValue. *)
Definition int_add (a b : Z) : res Z := Ok (wrap64 (a + b)).
Definition int_sub (a b : Z) : res Z := Ok (wrap64 (a - b)).
Definition int_mul (a b : Z) : res Z := Ok (wrap64 (a * b)).
(** Go's division truncates, and the quotient -2^63 / -1 wraps (Go spec, "Integer
    operators"). *)
Definition int_div (a b : Z) : res Z := if b =? 0 then Err else Ok (wrap64 (Z.quot a b)).
(** internal/function_math.go:189-202 DIV, on INT64 *)
Definition fn_div (a b : Z) : res Z := if b =? 0 then Err else Ok (wrap64 (Z.quot a b)).
