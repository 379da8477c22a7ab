(** JavaScript user-defined functions: internal/function_javascript.go, the "js" case of
    newFunctionSpec (internal/spec.go:350-383), bindEvalJavaScript
    (internal/function_bind.go:2933-2962).

    The JavaScript engine (github.com/dop251/goja, outside /repo) is a record of functions:
    running a program with some global variables, the conversions of ECMAScript and Export.
    A conversion that throws (an object with its own toString or valueOf) is left out. *)
From Coq Require Import Ascii String List ZArith QArith Lia Bool SpecFloat.
From Verif Require Import GoBase CalendarModel InstantModel DecModel ValueModel EncModel ClockTextModel CodecModel RowsModel ConvertModel UdfModel.
Import ListNotations.
Local Open Scope string_scope.
Open Scope Z_scope.

(** The values of JavaScript that a function may return.  [JOther]: anything else (functions,
    dates, Go values handed in as arguments). *)
Inductive js :=
| JUndefined
| JNull
| JBool (b : bool)
| JNumber (f : float)
| JString (s : string)
| JArray (l : list js)
| JObject (l : list (string * js))
| JOther (n : Z).

(** The Go value given to vm.Set: that of Value.Interface, or for a STRUCT its map from names
    to Values (function_javascript.go:15-23). *)
Inductive jarg := Plain (g : go) | Fields (m : list (string * option val)).

Record engine := Engine {
  (** vm.Set for each variable in turn, then vm.RunString; [Err] when it throws or does not
      parse.  On success the result is never a Go nil. *)
  run_program : string -> list (string * jarg) -> res js;
  (** ToInteger, ToBoolean, ToFloat, ToString().String(), ToNumber().String(), Export *)
  as_integer : js -> Z;
  as_boolean : js -> bool;
  as_float : js -> float;
  as_text : js -> string;
  number_text : js -> string;
  export : js -> arg }.

(** strings.Join(l, ",") *)
Fixpoint commas (l : list string) : string :=
  match l with [] => "" | [x] => x | x :: r => x ++ "," ++ commas r end.

(** internal/spec.go:364-383, the body of the function; [code], [ret] and [args] are the texts
    EncodeGoValue makes of the code, of the JSON of the return type and of the array of names. *)
Definition js_body (code ret args : string) (names : list string) : string :=
  match names with
  | [] => "zetasqlite_eval_javascript('" ++ code ++ "', '" ++ ret ++ "')"
  | _ => "zetasqlite_eval_javascript('" ++ code ++ "', '" ++ ret ++ "', '" ++ args ++ "', " ++
         commas (map (fun n => "@" ++ n) names) ++ ")"
  end.

Definition newline : string := String "010" "".
(** internal/function_javascript.go:32-35 *)
Definition program (code : string) : string :=
  newline ++ "function zetasqlite_javascript_func() { " ++ code ++ " }" ++ newline ++
  "zetasqlite_javascript_func();" ++ newline.

Section Js.
  (** See ConvertModel and RowsModel. *)
  Variable offset : Z -> Z.
  Variable zone_offset : string -> option Z.
  Variable other_rat : string -> Q.
  Variable float_text : float -> string.
  Variable float_read : string -> option float.
  Variable rat_float : Q -> float.
  Variable int_read : string -> option Z.
  Variable doc_text : val -> string.
  Variable json_text : val -> string.
  Variable float_time : float -> Z.
  Variable stamp_text : Z -> string.
  Variable interval_go : Z -> Z -> Z -> go.
  Variable E : engine.

  Definition js_cast : ty -> option val -> res (option val) :=
    cast_to offset zone_offset other_rat float_text float_read rat_float int_read doc_text json_text float_time.

  (** internal/function_javascript.go:15-23 *)
  Definition js_arg (o : option val) : jarg :=
    match o with
    | None => Plain GNil
    | Some (VStruct l) => Fields l
    | Some v => Plain (iface stamp_text interval_go v)
    end.
  (** internal/function_javascript.go:14-31.  argNames[i] past the end panics. *)
  Fixpoint set_args (names : list string) (args : list (option val)) {struct args} : res (list (string * jarg)) :=
    match args with
    | [] => Ok []
    | o :: r =>
        match names with
        | [] => GoPanic
        | n :: ns => bind (set_args ns r) (fun env => Ok ((n, js_arg o) :: env))
        end
    end.

  (** The elements of an ARRAY: function_javascript.go:104-114 *)
  Fixpoint js_elems (t : ty) (l : list arg) : res (list (option val)) :=
    match l with
    | [] => Ok []
    | a :: r => bind (from_go a) (fun b => bind (js_cast t b) (fun c => bind (js_elems t r) (fun cs => Ok (c :: cs))))
    end.
  (** internal/function_javascript.go:51-131 castJavaScriptValue; the failure of SetString is
      ignored (90, 94).  ENUM, BIGNUMERIC, INTERVAL and GEOGRAPHY are left out. *)
  Definition cast_js (t : ty) (v : js) : res (option val) :=
    match t with
    | TInt => Ok (Some (VInt (as_integer E v)))
    | TBool => Ok (Some (VBool (as_boolean E v)))
    | TFloat => Ok (Some (VFloat (as_float E v)))
    | TStr => Ok (Some (VStr (as_text E v)))
    | TBytes => Ok (Some (VBytes (as_text E v)))
    | TDate => lift (fun n => VDate (n * ns_per_day)) (parse_date (as_text E v))
    | TDatetime => lift VDatetime (parse_datetime (as_text E v))
    | TTime => lift VTime (parse_time (as_text E v))
    | TTimestamp => lift (fun p => VTimestamp (fst p)) (parse_timestamp zone_offset (as_text E v))
    | TNum => Ok (Some (VNum (string_rat other_rat (number_text E v))))
    | TJson => Ok (Some (VJson (as_text E v)))
    | TArray e => match export E v with ASlice l => bind (js_elems e l) (fun vs => Ok (Some (VArray vs))) | _ => GoPanic end
    | TStruct _ => bind (from_go (export E v)) (js_cast t)
    end.
  (** internal/function_javascript.go:12-49 EVAL_JAVASCRIPT, with the code, type and names that
      bindEvalJavaScript reads from its first three arguments. *)
  Definition js_call (code : string) (t : ty) (names : list string) (args : list (option val)) : res (option val) :=
    bind (set_args names args) (fun env => bind (run_program E (program code) env) (cast_js t)).
End Js.
