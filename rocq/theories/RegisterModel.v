(** Registration of the SQL functions with SQLite: internal/function_register.go. *)
From Coq Require Import Ascii String List ZArith Lia Bool SpecFloat.
From Verif Require Import GoBase ValueModel IntModel.
Import ListNotations.
Local Open Scope string_scope.

(** internal/function_register.go:11-290: the names in normalFuncs; "length" is listed
    twice with the same function. *)
Definition normal_funcs : list string := [
  "add"; "subtract"; "multiply"; "divide"; "equal"; "not_equal"; "greater"; "greater_or_equal"; "less";
  "less_or_equal"; "bitwise_not"; "bitwise_left_shift"; "bitwise_right_shift"; "bitwise_and"; "bitwise_or";
  "bitwise_xor"; "in_array"; "get_struct_field"; "get_json_field"; "subscript"; "array_at_offset";
  "array_at_ordinal"; "safe_array_at_offset"; "safe_array_at_ordinal"; "is_distinct_from";
  "is_not_distinct_from"; "session_user"; "generate_uuid"; "error"; "current_date"; "extract";
  "extract_date"; "date"; "date_add"; "date_sub"; "date_diff"; "date_trunc"; "date_from_unix_date";
  "format_date"; "last_day"; "parse_date"; "unix_date"; "current_datetime"; "datetime"; "datetime_add";
  "datetime_sub"; "datetime_diff"; "datetime_trunc"; "format_datetime"; "parse_datetime"; "current_time";
  "time"; "time_add"; "time_sub"; "time_diff"; "time_trunc"; "format_time"; "parse_time";
  "current_timestamp"; "string"; "timestamp"; "timestamp_add"; "timestamp_sub"; "timestamp_diff";
  "timestamp_trunc"; "format_timestamp"; "parse_timestamp"; "timestamp_seconds"; "timestamp_millis";
  "timestamp_micros"; "unix_seconds"; "unix_millis"; "unix_micros"; "like"; "between"; "in"; "is_null";
  "is_true"; "is_false"; "not"; "and"; "or"; "coalesce"; "if"; "ifnull"; "nullif"; "length"; "cast";
  "interval"; "make_interval"; "justify_days"; "justify_hours"; "justify_interval"; "parse_numeric";
  "parse_bignumeric"; "farm_fingerprint"; "md5"; "sha1"; "sha256"; "sha512"; "ascii"; "byte_length";
  "char_length"; "chr"; "code_points_to_bytes"; "code_points_to_string"; "collate"; "concat";
  "contains_substr"; "ends_with"; "format"; "from_base32"; "from_base64"; "from_hex"; "initcap"; "instr";
  "left"; "length"; "lpad"; "lower"; "ltrim"; "normalize"; "normalize_and_casefold"; "regexp_contains";
  "regexp_extract"; "regexp_extract_all"; "regexp_instr"; "regexp_replace"; "replace"; "repeat"; "reverse";
  "right"; "rpad"; "rtrim"; "safe_convert_bytes_to_string"; "soundex"; "split"; "starts_with"; "strpos";
  "substr"; "to_base32"; "to_base64"; "to_code_points"; "to_hex"; "translate"; "trim"; "unicode"; "upper";
  "json_extract"; "json_extract_scalar"; "json_extract_array"; "json_extract_string_array"; "json_query";
  "json_value"; "json_query_array"; "json_value_array"; "parse_json"; "to_json"; "to_json_string"; "bool";
  "int64"; "double"; "json_type"; "abs"; "sign"; "is_inf"; "is_nan"; "ieee_divide"; "rand"; "sqrt"; "pow";
  "power"; "exp"; "ln"; "log"; "log10"; "greatest"; "least"; "div"; "safe_divide"; "safe_multiply";
  "safe_negate"; "safe_add"; "safe_subtract"; "mod"; "round"; "trunc"; "ceil"; "ceiling"; "floor"; "cos";
  "cosh"; "acos"; "acosh"; "sin"; "sinh"; "asin"; "asinh"; "tan"; "tanh"; "atan"; "atanh"; "atan2";
  "range_bucket"; "array_concat"; "array_length"; "array_to_string"; "generate_array"; "generate_date_array";
  "generate_timestamp_array"; "array_reverse"; "make_array"; "make_struct"; "hll_count_extract"; "bit_count";
  "distinct"; "limit"; "order_by"; "ignore_nulls"; "window_frame_unit"; "window_partition";
  "window_boundary_start"; "window_boundary_end"; "window_rowid"; "window_order_by"; "eval_javascript";
  "net_host"; "net_ip_from_string"; "net_ip_net_mask"; "net_ip_to_string"; "net_ip_trunc";
  "net_ipv4_from_int64"; "net_ipv4_to_int64"; "net_public_suffix"; "net_reg_domain";
  "net_safe_ip_from_string"].

(** What a SQL name stands for: the function registered under a name, or the same function
    with its errors turned into NULL. *)
Inductive meaning := Plain (n : string) | Safe (n : string).
(** internal/function_register.go:498-529 setupNormalFuncMap: the two registrations of a
    name, in this order. *)
Definition registrations (n : string) : list (string * meaning) :=
  [("zetasqlite_" ++ n, Plain n); ("zetasqlite_safe_" ++ n, Safe n)].
(** internal/function_register.go:472-478: a range over the map normalFuncMap, so the order
    of the names is arbitrary at each start.  Registering a name again replaces the earlier
    registration (sqlite3_create_function with the same name and number of arguments).  The
    aggregate functions use other names and the window functions another prefix. *)
Fixpoint register_all (order : list string) (table : list (string * meaning)) : list (string * meaning) :=
  match order with
  | [] => table
  | n :: r => register_all r (fold_left (fun t p => aset t (fst p) (snd p)) (registrations n) table)
  end.
Definition sql_function (order : list string) (name : string) : option meaning := aget (register_all order []) name.

(** The functions behind two of the names, on INT64 arguments: ADD is IntValue.Add
    (value.go:48-54, wrapping), SAFE_ADD goes through float64 (function_math.go:239-249). *)
Definition call_add (x y : Z) : res (option Z) := Ok (Some (wrap64 (x + y))).
Definition call_safe_add (x y : Z) : res (option Z) := Ok (fn_safe_add x y).
Definition run (m : meaning) (x y : Z) : res (option Z) :=
  let call n := if String.eqb n "add" then call_add x y else if String.eqb n "safe_add" then call_safe_add x y else Err in
  match m with
  | Plain n => call n
  | Safe n => match call n with Err => Ok None | r => r end
  end.
