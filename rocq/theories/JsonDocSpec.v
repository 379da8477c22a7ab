(** What TO_JSON documents for a value, and which values are in reach of the theorems. *)
From Coq Require Import Ascii String List ZArith QArith Lia Bool.
From Verif Require Import GoBase Utf8Model EncModel CalendarModel InstantModel ClockTextModel ValueModel JsonSpec.
Import ListNotations.
Open Scope Z_scope.

(** The documented JSON of a value: INT64 and NUMERIC numbers, STRING its characters, BYTES
    their base64 text, DATE, DATETIME, TIME and TIMESTAMP (at UTC) their texts, NULL in an
    array or a struct null.  FLOAT64 and INTERVAL are not covered. *)
Fixpoint json_of (v : val) : json :=
  match v with
  | VInt z => JNum (inject_Z z)
  | VNum q => JNum (Qred q)
  | VStr s => JStr (word s)
  | VBytes s => JStr (to_base64 (word s))
  | VBool b => JBool b
  | VJson s => match denotes (word s) with Some j => j | None => JNull end
  | VArray l => JArr ((fix go (l : list (option val)) : list json :=
      match l with [] => [] | None :: r => JNull :: go r | Some x :: r => json_of x :: go r end) l)
  | VStruct l => JObj ((fix go (l : list (string * option val)) : list (bytes * json) :=
      match l with [] => [] | (k, None) :: r => (word k, JNull) :: go r | (k, Some x) :: r => (word k, json_of x) :: go r end) l)
  | VDate ns => JStr (word (date_text (day_no ns)))
  | VDatetime ns => JStr (word (datetime_text ns))
  | VTime ns => JStr (word (clock_text ns))
  | VTimestamp ns => JStr (word (datetime_text ns ++ "Z"))
  | VFloat _ | VInterval _ _ _ => JNull
  end.

(** Characters: those from the space on except DEL, backspace, tab, line feed, form feed and
    carriage return; above U+FFFF the printable ones. *)
Definition plain_char (printable : Z -> bool) (r : Z) : Prop :=
  32 <= r <= 126 \/ In r [8; 9; 10; 12; 13] \/ 128 <= r <= 65535 \/ 65536 <= r /\ printable r = true.
Definition plain_text (printable : Z -> bool) (s : string) : Prop :=
  well_formed (word s) /\ Forall (plain_char printable) (decode (word s)).
(** A NUMERIC: at most nine digits after the point. *)
Definition nine (q : Q) : Prop := exists z, q == z # 1000000000.

(** Values built from BOOL, INT64, NUMERIC, BYTES, plain STRING and valid JSON, in arrays and
    structs to any depth, with NULL anywhere inside. *)
Fixpoint plain (printable : Z -> bool) (v : val) : Prop :=
  match v with
  | VInt _ | VBool _ | VBytes _ => True
  | VNum q => nine q
  | VStr s => plain_text printable s
  | VJson s => denotes (word s) <> None
  | VArray l => (fix go (l : list (option val)) : Prop :=
      match l with [] => True | None :: r => go r | Some x :: r => plain printable x /\ go r end) l
  | VStruct l => (fix go (l : list (string * option val)) : Prop :=
      match l with [] => True | (k, None) :: r => plain_text printable k /\ go r | (k, Some x) :: r => plain_text printable k /\ plain printable x /\ go r end) l
  | _ => False
  end.

(** TO_JSON_STRING (and TO_JSON with stringify_wide_numbers): a number that is not whole, or
    is below -2^53 or above 2^53, is a string.  [num_text] is the text of a NUMERIC. *)
Definition safe (z : Z) : bool := (- 9007199254740992 <=? z) && (z <=? 9007199254740992).
Definition whole (q : Q) : bool := match Qden (Qred q) with xH => safe (Qnum (Qred q)) | _ => false end.
Fixpoint wide_json (num_text : Q -> bytes) (v : val) : json :=
  match v with
  | VInt z => if safe z then JNum (inject_Z z) else JStr (word (DecModel.dec z))
  | VNum q => if whole q then JNum (Qred q) else JStr (num_text q)
  | VArray l => JArr ((fix go (l : list (option val)) : list json :=
      match l with [] => [] | None :: r => JNull :: go r | Some x :: r => wide_json num_text x :: go r end) l)
  | VStruct l => JObj ((fix go (l : list (string * option val)) : list (bytes * json) :=
      match l with [] => [] | (k, None) :: r => (word k, JNull) :: go r | (k, Some x) :: r => (word k, wide_json num_text x) :: go r end) l)
  | _ => json_of v
  end.
(** No number inside has to be a string. *)
Fixpoint narrow (v : val) : Prop :=
  match v with
  | VInt z => - 2 ^ 53 <= z <= 2 ^ 53
  | VNum q => exists z, - 2 ^ 53 <= z <= 2 ^ 53 /\ q == inject_Z z
  | VArray l => (fix go (l : list (option val)) : Prop := match l with [] => True | None :: r => go r | Some x :: r => narrow x /\ go r end) l
  | VStruct l => (fix go (l : list (string * option val)) : Prop := match l with [] => True | (_, None) :: r => go r | (_, Some x) :: r => narrow x /\ go r end) l
  | _ => True
  end.

(** The documented text of a scalar for JSON_VALUE: strings their characters, TRUE and FALSE,
    whole numbers their digits; NULL for null, arrays and objects. *)
Definition scalar_text (j : json) : option bytes :=
  match j with
  | JStr s => Some s
  | JBool b => Some (word (if b then "true" else "false"))
  | JNum q => match Qden q with xH => Some (word (DecModel.dec (Qnum q))) | _ => None end
  | _ => None
  end.
