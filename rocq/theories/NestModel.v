(** Expressions that build arrays and structs and take them apart: every function is a SQLite
    function of its own (internal/function_register.go:495-528), so the values pass through SQLite
    between them.  internal/function.go:156-206 and 394-420, internal/function_bind.go:40-50
    (convertArgs), 278-287, 315-360, 2816-2825, internal/formatter.go:469-510. *)
From Coq Require Import Ascii String List ZArith QArith Lia Bool SpecFloat.
From Verif Require Import GoBase ValueModel CodecModel JsonModel TextModel ArrayFnModel RowsModel FormatModel.
Import ListNotations.
Open Scope Z_scope.

(** A value that is a literal, a parameter or a column; ARRAY [..]; STRUCT (..); the field of a
    number; [OFFSET(i)] (base 0) and [ORDINAL(i)] (base 1), and their SAFE_ forms.  The index is
    a literal here.  A literal ARRAY or STRUCT the analyser makes of constants is a value. *)
Inductive expr :=
| EValue (o : option val)
| EArray (l : exprs)
| EStruct (l : exprs)
| EField (e : expr) (i : nat)
| EAt (base : Z) (safe : bool) (e : expr) (i : Z)
with exprs :=
| XNil
| XCons (name : string) (e : expr) (r : exprs).

(** ToString of what is no STRING and ToInt64 of what is no INT64: names and numbers are literals of
    these types, so it does not matter. *)
Definition name_text (v : val) : res string := Err.
Definition number (v : val) : res Z := Err.

(** What the outermost function returns.  [arrive] is what the function around it gets:
    EncodeValue, SQLite, convertArgs. *)
Fixpoint eval (e : expr) : res (option val) :=
  match e with
  | EValue o => Ok o
  | EArray l => bind (eval_all l) (fun vs => Ok (Some (VArray (map snd vs))))
  | EStruct l => bind (eval_all l) (fun vs => bind_make_struct name_text (flat_map (fun p => [Some (VStr (fst p)); snd p]) vs))
  | EField e i => bind (bind (eval e) round_trip) (fun s => bind_struct_field number s (Some (VInt (Z.of_nat i))))
  | EAt base safe e i => bind (bind (eval e) round_trip) (fun a => subscript base safe a (Some (VInt i)))
  end
with eval_all (l : exprs) : res (list (string * option val)) :=
  match l with
  | XNil => Ok []
  | XCons n e r => bind (bind (eval e) round_trip) (fun v => bind (eval_all r) (fun vs => Ok ((sanitize n, v) :: vs)))
  end.
Definition arrive (e : expr) : res (option val) := bind (eval e) round_trip.

(** Functions over such expressions: TO_JSON, TO_JSON_STRING, FORMAT with one argument. *)
Section Calls.
  Variable printable : Z -> bool.
  Variable float_text : float -> Utf8Model.bytes.
  Variable interval_text : Z -> Z -> Z -> Utf8Model.bytes.
  Definition to_json_of (e : expr) : res (option val) := bind (arrive e) (fun v => fn_to_json printable float_text interval_text v None).
  Definition to_json_string_of (e : expr) : res (option val) := bind (arrive e) (fun v => fn_to_json_string printable float_text interval_text v None).
  Variable format_float : ascii -> Z -> val -> res string.
  Variable positive : val -> bool.
  Variable json_text : ascii -> string -> res string.
  Variable printed : ascii -> val -> res string.
  Definition format_of (f : string) (e : expr) : res (option string) :=
    bind (round_trip (Some (VStr f))) (fun f' => bind (arrive e) (fun v => bind_format format_float positive json_text printed [f'; v])).
End Calls.
