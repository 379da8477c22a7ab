(** When a value that was read back is the one that was stored. *)
From Coq Require Import Ascii String List ZArith QArith Lia Bool SpecFloat.
From Verif Require Import GoBase CalendarModel InstantModel ValueModel Utf8Model.
Import ListNotations.
Open Scope Z_scope.

(** The float is exactly the integer z. *)
Definition float_is (f : float) (z : Z) : Prop :=
  match f with
  | S754_zero _ => z = 0
  | S754_finite s m e => exists a, (if s then - a else a) = z /\ (if 0 <=? e then a = Zpos m * 2 ^ e else a * 2 ^ (- e) = Zpos m)
  | _ => False
  end.
(** The same number, truth value, text, time or structure.  An INT64 may come back as the
    FLOAT64 that is exactly that integer, and a BOOL as 0 or 1; a TIME has no day. *)
Fixpoint same (v w : val) {struct v} : Prop :=
  let elems := fix elems (l l' : list (option val)) {struct l} : Prop :=
    match l, l' with
    | [], [] => True
    | o :: r, o' :: r' =>
        match o, o' with None, None => True | Some x, Some y => same x y | _, _ => False end /\ elems r r'
    | _, _ => False
    end in
  let fields := fix fields (l l' : list (string * option val)) {struct l} : Prop :=
    match l, l' with
    | [], [] => True
    | (k, o) :: r, (k', o') :: r' =>
        k = k' /\ match o, o' with None, None => True | Some x, Some y => same x y | _, _ => False end /\ fields r r'
    | _, _ => False
    end in
  match v, w with
  | VInt z, VInt z' => z = z'
  | VInt z, VFloat f => float_is f z
  | VBool b, VBool b' => b = b'
  | VBool b, VInt z => z = (if b then 1 else 0)
  | VFloat f, VFloat g => f = g
  | VStr s, VStr t | VBytes s, VBytes t | VJson s, VJson t => s = t
  | VNum p, VNum q => Qeq p q
  | VDate a, VDate b | VDatetime a, VDatetime b | VTimestamp a, VTimestamp b => a = b
  | VTime a, VTime b => clock a = clock b /\ nanosecond a = nanosecond b
  | VArray l, VArray l' => elems l l'
  | VStruct l, VStruct l' => fields l l'
  | _, _ => False
  end.
Definition same_opt (o o' : option val) : Prop :=
  match o, o' with None, None => True | Some x, Some y => same x y | _, _ => False end.

(** Values for which the round trip is claimed.  Everything holds but: a NaN; an infinity
    or an integer of 2^53 or more inside an array or struct; text that is not UTF-8; dates
    outside the years 0 to 9999; parts below a microsecond; INTERVAL (not modelled). *)
Definition text_ok (s : string) : Prop := well_formed (list_ascii_of_string s).
Fixpoint storable (nested : bool) (v : val) {struct v} : Prop :=
  let elems := fix elems (l : list (option val)) : Prop :=
    match l with [] => True | o :: r => match o with None => True | Some x => storable true x end /\ elems r end in
  let fields := fix fields (l : list (string * option val)) : Prop :=
    match l with
    | [] => True
    | (k, o) :: r => text_ok k /\ match o with None => True | Some x => storable true x end /\ fields r
    end in
  match v with
  | VInt z => if nested then Z.abs z < 2 ^ 53 else True
  | VBool _ | VBytes _ | VNum _ => True
  | VFloat f => match f with S754_nan => False | S754_infinity _ => nested = false | _ => True end
  | VStr s | VJson s => text_ok s
  | VDate t => t mod ns_per_day = 0 /\ 0 <= year (day_no t) <= 9999
  | VDatetime t => t mod 1000 = 0 /\ 0 <= year (day_no t) <= 9999
  | VTime t => t mod 1000 = 0
  | VTimestamp t => t mod 1000 = 0 /\ - 2 ^ 63 <= t / 1000 < 2 ^ 63
  | VInterval _ _ _ => False
  | VArray l => elems l
  | VStruct l => fields l
  end.

(** How SQLite reads a token that starts with a double quote: up to the next double quote
    that is not doubled; its content and what follows. *)
Fixpoint in_quotes (s : bytes) : option (bytes * bytes) :=
  match s with
  | [] => None
  | c :: r =>
      if Ascii.eqb c """"%char then
        match r with
        | c' :: r' => if Ascii.eqb c' """"%char then match in_quotes r' with Some (t, q) => Some (c :: t, q) | None => None end else Some ([], r)
        | [] => Some ([], [])
        end
      else match in_quotes r with Some (t, q) => Some (c :: t, q) | None => None end
  end.
Definition quoted_token (s : bytes) : option (bytes * bytes) :=
  match s with c :: r => if Ascii.eqb c """"%char then in_quotes r else None | [] => None end.
