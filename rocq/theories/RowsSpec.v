(** What a row should hold for a value of a column, and what a Go argument stands for. *)
From Coq Require Import Ascii String List ZArith QArith Lia Bool SpecFloat.
From Verif Require Import GoBase CalendarModel InstantModel ValueModel Utf8Model EncModel ClockTextSpec TimeTextSpec JsonSpec JsonDocSpec CodecSpec RowsModel.
Import ListNotations.
Local Open Scope string_scope.
Open Scope Z_scope.

(** The value is of the type. *)
Inductive typed : ty -> val -> Prop :=
| ty_int z : typed TInt (VInt z)
| ty_bool b : typed TBool (VBool b)
| ty_float f : typed TFloat (VFloat f)
| ty_str s : typed TStr (VStr s)
| ty_bytes s : typed TBytes (VBytes s)
| ty_num q : typed TNum (VNum q)
| ty_date n : typed TDate (VDate n)
| ty_datetime n : typed TDatetime (VDatetime n)
| ty_time n : typed TTime (VTime n)
| ty_timestamp n : typed TTimestamp (VTimestamp n)
| ty_json s : typed TJson (VJson s)
| ty_array t l : Forall (typed_opt t) l -> typed (TArray t) (VArray l)
| ty_struct fs l : Forall2 (fun f p => fst f = fst p /\ typed_opt (snd f) (snd p)) fs l -> typed (TStruct fs) (VStruct l)
with typed_opt : ty -> option val -> Prop :=
| ty_null t : typed_opt t None
| ty_some t v : typed t v -> typed_opt t (Some v).

(** What the caller should find: numbers, truth values and texts as they are; BYTES in base64;
    NUMERIC as a decimal number; dates and times as the texts that name them; a TIMESTAMP as
    the seconds since 1970, a decimal fraction; a JSON value as its text; arrays element by
    element and structs field by field, in order, with the names. *)
Inductive shows : val -> go -> Prop :=
| sh_int z : shows (VInt z) (GInt z)
| sh_bool b : shows (VBool b) (GBool b)
| sh_float f : shows (VFloat f) (GFloat f)
| sh_str s : shows (VStr s) (GText s)
| sh_bytes s t : from_base64 (word t) = Ok (word s) -> shows (VBytes s) (GText t)
| sh_num q t : denotes (word t) = Some (JNum (Qred q)) -> shows (VNum q) (GText t)
| sh_date n t : names_day t (day_no n) -> shows (VDate n) (GText t)
| sh_datetime n t : names_datetime t (day_no n) (clock n) (nanosecond n) -> shows (VDatetime n) (GText t)
| sh_time n t : names_clock t (clock n) (nanosecond n) -> shows (VTime n) (GText t)
| sh_timestamp n t : reads_as t (n / 1000) -> shows (VTimestamp n) (GText t)
| sh_json s : shows (VJson s) (GText s)
| sh_array l gs : Forall2 shows_opt l gs -> shows (VArray l) (GList gs)
| sh_struct l gs : Forall2 (fun p g => fst p = fst g /\ shows_opt (snd p) (snd g)) l gs -> shows (VStruct l) (GMaps gs)
with shows_opt : option val -> go -> Prop :=
| sh_null : shows_opt None GNil
| sh_some v g : shows v g -> shows_opt (Some v) g.

(** Values for which that is claimed.  A TIMESTAMP is a whole second or has at least 100000
    microseconds (see C30); inside a STRUCT no NUMERIC, BYTES, TIMESTAMP or JSON (see C182); the
    fields of a STRUCT have different names and one of them is not empty (see C181, C183). *)
Inductive fine : bool -> val -> Prop :=
| fi_int b z : fine b (VInt z)
| fi_bool b x : fine b (VBool x)
| fi_float b f : fine b (VFloat f)
| fi_str b s : fine b (VStr s)
| fi_bytes s : fine false (VBytes s)
| fi_num q : nine q -> fine false (VNum q)
| fi_date b n : fine b (VDate n)
| fi_datetime b n : fine b (VDatetime n)
| fi_time b n : fine b (VTime n)
| fi_timestamp n : Z.rem (n / 1000) 1000000 = 0 \/ 100000 <= Z.rem (n / 1000) 1000000 -> fine false (VTimestamp n)
| fi_json s : fine false (VJson s)
| fi_array b l : Forall (fine_opt b) l -> fine b (VArray l)
| fi_struct b l : Forall (fun p => fine_opt true (snd p)) l -> NoDup (map fst l) -> l = [] \/ Exists (fun p => fst p <> "") l -> fine b (VStruct l)
with fine_opt : bool -> option val -> Prop :=
| fi_null b : fine_opt b None
| fi_some b v : fine b v -> fine_opt b (Some v).

(** The value of a type that a Go argument stands for.  A map or a Go struct stands for the
    STRUCT whose fields are its entries of those names, in whatever order they are. *)
Inductive stands : ty -> arg -> option val -> Prop :=
| st_nil t : stands t ANil None
| st_nil_bytes t : stands t ANilBytes None
| st_int z : stands TInt (AInt z) (Some (VInt z))
| st_uint z : 0 <= z < 2 ^ 63 -> stands TInt (AUint z) (Some (VInt z))
| st_float f : stands TFloat (AFloat f) (Some (VFloat f))
| st_bool b : stands TBool (ABool b) (Some (VBool b))
| st_str s : stands TStr (AStr s) (Some (VStr s))
| st_bytes s : stands TBytes (ABytes s) (Some (VBytes s))
| st_time n : stands TTimestamp (ATime n) (Some (VTimestamp n))
| st_ptr t a o : stands t a o -> stands t (APtr (Some a)) o
| st_slice t l os : stands_elems t l os -> stands (TArray t) (ASlice l) (Some (VArray os))
| st_map fs l os : stands_fields l fs os -> Exists (fun f => fst f <> "") fs -> NoDup (map fst l) -> NoDup (map fst fs) -> readable l ->
    stands (TStruct fs) (AMap l) (Some (VStruct os))
| st_struct fs l os : stands_fields l fs os -> Exists (fun f => fst f <> "") fs -> NoDup (map fst l) -> NoDup (map fst fs) -> readable l ->
    stands (TStruct fs) (AGoStruct l) (Some (VStruct os))
with stands_elems : ty -> list arg -> list (option val) -> Prop :=
| st_end t : stands_elems t [] []
| st_elem t a o l os : stands t a o -> stands_elems t l os -> stands_elems t (a :: l) (o :: os)
with stands_fields : list (string * arg) -> list (string * ty) -> list (string * option val) -> Prop :=
| st_none l : stands_fields l [] []
| st_field l k t fs a o os : In (k, a) l -> stands t a o -> stands_fields l fs os -> stands_fields l ((k, t) :: fs) ((k, o) :: os)
(** Entries that no field asks for do no harm if they stand for something themselves. *)
with readable : list (string * arg) -> Prop :=
| rd_nil : readable []
| rd_cons k a t o l : stands t a o -> readable l -> readable ((k, a) :: l).

(** The last field of that name. *)
Definition last_named {A} (k : string) (l : list (string * A)) (a : A) : Prop :=
  exists l1 l2, l = (l1 ++ (k, a) :: l2)%list /\ ~ In k (map fst l2).
