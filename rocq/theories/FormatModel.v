(** FORMAT: internal/function_format.go with its binder, internal/function_bind.go:825-840.

    Formats and texts are sequences of characters (runes); a character of the model is one
    byte, so non-ASCII characters are not covered. *)
From Coq Require Import Ascii String List ZArith Bool QArith.
From Verif Require Import GoBase DecModel ValueModel.
Import ListNotations.
Local Open Scope string_scope.
Open Scope Z_scope.

(** function_format.go:369-379 *)
Inductive flag := FNone | FMinus | FPlus | FSpace | FSharp | FZero | FQuote.
(** 381-384 FormatWidth and 403-406 FormatPrecision *)
Inductive count := Num (n : Z) | FromArg.
Record param := Param { fl : flag; wid : option count; prec : option count; spec : ascii }.

(** ** Reading the format *)
(** 483-505 parseFormatFlag *)
Definition parse_flag (s : string) : flag * string :=
  match s with
  | String c r =>
      match c with
      | "-"%char => (FMinus, r) | "+"%char => (FPlus, r) | " "%char => (FSpace, r) | "#"%char => (FSharp, r)
      | "0"%char => (FZero, r) | "'"%char => (FQuote, r) | _ => (FNone, s)
      end
  | EmptyString => (FNone, s)
  end.
Definition is_decimal (c : ascii) : bool := match digit_val c with Some _ => true | None => false end.
Fixpoint span_digits (s : string) : string * string :=
  match s with
  | String c r => if is_decimal c then let (a, b) := span_digits r in (String c a, b) else ("", s)
  | EmptyString => ("", "")
  end.
(** strconv.ParseInt of the digits read, nil when there are none *)
Definition number_of (ds rest : string) : res (option count * string) :=
  match ds with
  | EmptyString => Ok (None, rest)
  | _ => match parse_int ds with Some n => Ok (Some (Num n), rest) | None => Err end
  end.
(** 507-531 parseFormatWidth *)
Definition parse_width (s : string) : res (option count * string) :=
  let (ds, rest) := span_digits s in
  match rest with String "*" r => Ok (Some FromArg, r) | _ => number_of ds rest end.
(** 533-560 parseFormatPrecision; the '*' is not passed over *)
Definition parse_precision (s : string) : res (option count * string) :=
  match s with
  | String "." r =>
      let (ds, rest) := span_digits r in
      match rest with String "*" _ => Ok (Some FromArg, rest) | _ => number_of ds rest end
  | _ => Ok (None, s)
  end.
(** 17-86 formatSpecifierTable *)
Definition specifiers : list ascii :=
  ["d"; "i"; "o"; "x"; "X"; "f"; "F"; "e"; "E"; "g"; "G"; "p"; "P"; "s"; "t"; "T"; "%"]%char.
Definition among (l : list ascii) (c : ascii) : bool := existsb (Ascii.eqb c) l.

(** ** Arguments *)
(** 336-348 requiredArgNum *)
Definition from_arg (w : option count) : nat := match w with Some FromArg => 1 | _ => 0 end.
Definition required (p : param) : nat :=
  if Ascii.eqb (spec p) "%" then 0%nat else (1 + from_arg (wid p) + from_arg (prec p))%nat.
(** 386-401 FormatWidth.format *)
Definition width_of (w : option count) (args : list val) : Z * list val :=
  match w with
  | None => (0, args)
  | Some FromArg => match args with VInt n :: r => ((if n <=? 0 then 0 else n), r) | _ :: r => (0, r) | [] => (0, []) end
  | Some (Num n) => ((if n <=? 0 then 0 else n), args)
  end.
(** 408-423 FormatPrecision.format *)
Definition precision_of (w : option count) (args : list val) : Z * list val :=
  match w with
  | None => (6, args)
  | Some FromArg => match args with VInt n :: r => ((if n <=? 0 then -1 else n), r) | _ :: r => (-1, r) | [] => (-1, []) end
  | Some (Num n) => ((if n <=? 0 then -1 else n), args)
  end.

(** ** Integers *)
(** Digits in another base, as fmt prints them *)
Definition hexa (up : bool) (d : Z) : ascii :=
  if d <? 10 then digit d else ascii_of_nat ((if up then 65 else 97) + Z.to_nat (d - 10)).
Fixpoint base_digits (fuel : nat) (b : Z) (up : bool) (n : Z) (acc : string) : string :=
  match fuel with
  | O => acc
  | S k => let acc' := String (hexa up (n mod b)) acc in if n / b =? 0 then acc' else base_digits k b up (n / b) acc'
  end.
Definition unsigned (c : ascii) (n : Z) : string :=
  match c with
  | "o"%char => base_digits (S (Z.to_nat (Z.log2 n))) 8 false n ""
  | "x"%char => base_digits (S (Z.to_nat (Z.log2 n))) 16 false n ""
  | "X"%char => base_digits (S (Z.to_nat (Z.log2 n))) 16 true n ""
  | _ => udec n
  end.
Fixpoint spaces (n : nat) (s : string) : string := match n with O => s | S k => String " " (spaces k s) end.
(** fmt.Sprintf("%" ++ zero ++ width ++ c, v) (outside /repo).  A width whose digits but the
    last exceed 1e6 is not taken, and the rest of the format is passed over. *)
Definition sprintf (zero : bool) (width : Z) (c : ascii) (v : Z) : string :=
  if 1000000 <? width / 10 then "%!(NOVERB)%!(EXTRA int64=" ++ dec v ++ ")"
  else
    let a := unsigned c (Z.abs v) in
    let sign := if v <? 0 then "-" else "" in
    let w := Z.to_nat width in
    if zero then sign ++ zeros (w - String.length sign - String.length a) a
    else let s := sign ++ a in spaces (w - String.length s) s.
(** 198-217: the text with commas, filled in from the right; [target] is targetIdx + 1 and
    [acc] the runes from there on.  A write below 0 panics. *)
Fixpoint put_commas (back : list ascii) (target : nat) (done : nat) (acc : string) : res (nat * string) :=
  match back with
  | [] => Ok (target, acc)
  | c :: r =>
      match target with
      | O => GoPanic
      | S t =>
          let acc := String c acc in
          if (S done mod 3 =? 0)%nat then
            match t with
            | O => put_commas r O (S done) acc
            | S t' => put_commas r t' (S done) (String "," acc)
            end
          else put_commas r t (S done) acc
      end
  end.
Fixpoint nuls (n : nat) (s : string) : string := match n with O => s | S k => String "000" (nuls k s) end.
Definition with_commas (text : string) : res string :=
  let len := String.length text in
  let commas := (if (len mod 3 =? 0)%nat then len / 3 - 1 else len / 3)%nat in
  bind (put_commas (rev (list_ascii_of_string text)) (len + commas) 0 "") (fun r => Ok (nuls (fst r) (snd r))).
(** 173-230 parseInteger *)
Definition format_int (p : param) (args : list val) : res string :=
  let zero := match fl p with FZero => true | _ => false end in
  let (width, args) := width_of (wid p) args in
  match args with
  | VInt v :: _ =>
      let c := if Ascii.eqb (spec p) "i" then "d"%char else spec p in
      let plain := sprintf zero width c v in
      match fl p with
      | FPlus => Ok (if 0 <? v then String "+" plain else plain)
      | FSpace => Ok (String " " plain)
      | FQuote => if Ascii.eqb (spec p) "d" || Ascii.eqb (spec p) "i" then with_commas (dec v) else Err
      | FMinus | FSharp => Err
      | FNone | FZero => Ok plain
      end
  | [] => GoPanic
  | _ => Err
  end.

Section Format.
  (** strconv.FormatFloat of a FLOAT64 or NUMERIC argument, with the precision; whether the
      argument is above 0; json.Compact and json.Indent; Value.ToString and Value.Format
      (value.go) of the values other than INT64 and STRING. *)
  Variable float_text : ascii -> Z -> val -> res string.
  Variable positive : val -> bool.
  Variable json_text : ascii -> string -> res string.
  Variable printed : ascii -> val -> res string.

  (** 232-270 parseFloat.  strings.Repeat (outside /repo) panics when the slice it asks for is
      longer than the runtime allocates, 2^48 bytes on amd64; shorter ones the machine cannot
      hold are not covered. *)
  Definition format_float (p : param) (args : list val) : res string :=
    let (width, args) := width_of (wid p) args in
    let (precision, args) := precision_of (prec p) args in
    match args with
    | v :: _ =>
        bind (float_text (if Ascii.eqb (spec p) "F" then "f"%char else spec p) precision v) (fun s =>
        if 2 ^ 48 <? width - Z.of_nat (String.length s) then GoPanic else
        let n := (Z.to_nat width - String.length s)%nat in
        let s := match fl p with FZero => zeros n s | _ => spaces n s end in
        match fl p with
        | FPlus => Ok (if positive v then String "+" s else s)
        | FSpace => Ok (String " " s)
        | FMinus | FSharp | FQuote => Err
        | FNone | FZero => Ok s
        end)
    | [] => GoPanic
    end.
  (** value.go:173-175, 316-324; strconv.Quote is in [printed] *)
  Definition printable (c : ascii) (v : val) : res string :=
    match v with
    | VInt n => Ok (dec n)
    | VStr s => if Ascii.eqb c "t" then Ok s else printed c v
    | _ => printed c v
    end.

  (** 350-367 validateArgs and 88-171, the validate functions *)
  Definition is_int (v : val) : bool := match v with VInt _ => true | _ => false end.
  Definition valid (c : ascii) (v : val) : bool :=
    if among ["d"; "i"]%char c then is_int v
    else if among ["o"; "x"; "X"]%char c then match v with VInt n => 0 <=? n | _ => false end
    else if among ["f"; "F"; "e"; "E"; "g"; "G"]%char c then match v with VNum _ | VFloat _ => true | _ => false end
    else if among ["p"; "P"]%char c then match v with VJson _ => true | _ => false end
    else if Ascii.eqb c "s" then match v with VStr _ => true | _ => false end
    else match printable c v with Ok _ => true | _ => false end.
  Definition skip_arg (w : option count) (args : list val) : res (list val) :=
    match w with
    | Some FromArg => match args with v :: r => if is_int v then Ok r else Err | [] => GoPanic end
    | _ => Ok args
    end.
  Definition validate (p : param) (args : list val) : res unit :=
    if Ascii.eqb (spec p) "%" then Ok tt
    else bind (skip_arg (wid p) args) (fun a =>
         bind (skip_arg (prec p) a) (fun a =>
         match a with v :: _ => if valid (spec p) v then Ok tt else Err | [] => GoPanic end)).
  (** 17-86 and 272-310: the parse functions.  Those of %s, %t, %T, %p and %P take the first
      argument, whatever the width. *)
  Definition format_one (p : param) (args : list val) : res string :=
    if Ascii.eqb (spec p) "%" then Ok "%"
    else if among ["d"; "i"; "o"; "x"; "X"]%char (spec p) then format_int p args
    else if among ["f"; "F"; "e"; "E"; "g"; "G"]%char (spec p) then format_float p args
    else match args with
         | v :: _ =>
             if among ["p"; "P"]%char (spec p) then match v with VJson s => json_text (spec p) s | VStr s => json_text (spec p) s | VInt n => json_text (spec p) (dec n) | _ => Err end
             else if Ascii.eqb (spec p) "s" then match v with VStr s => Ok s | VInt n => Ok (dec n) | _ => Err end
             else printable (spec p) v
         | [] => GoPanic
         end.

  (** 425-481 parseFormat; every turn takes at least one character *)
  Fixpoint format_loop (fuel : nat) (f : string) (args : list val) : res string :=
    match fuel, f with
    | S n, String c r =>
        if Ascii.eqb c "%" then
          match r with
          | EmptyString => Err
          | _ =>
              let (g, r1) := parse_flag r in
              bind (parse_width r1) (fun w =>
              bind (parse_precision (snd w)) (fun q =>
              match snd q with
              | EmptyString => Err
              | String x rest =>
                  if among specifiers x then
                    let p := Param g (fst w) (fst q) x in
                    let num := required p in
                    if (List.length args <? num)%nat then Err
                    else
                      let mine := firstn num args in
                      bind (validate p mine) (fun _ =>
                      bind (format_one p mine) (fun text =>
                      bind (format_loop n rest (skipn num args)) (fun s => Ok (text ++ s))))
                  else Err
              end))
          end
        else bind (format_loop n r args) (fun s => Ok (String c s))
    | _, _ => Ok ""
    end.
  Definition format_text (f : string) (args : list val) : res string := format_loop (String.length f) f args.
  (** function_bind.go:825-840 with existsNull (31-38) *)
  Fixpoint not_null (l : list (option val)) : option (list val) :=
    match l with
    | [] => Some []
    | Some v :: r => match not_null r with Some r' => Some (v :: r') | None => None end
    | None :: _ => None
    end.
  Definition bind_format (args : list (option val)) : res (option string) :=
    match not_null args with
    | None => Ok None
    | Some (VStr f :: r) => bind (format_text f r) (fun s => Ok (Some s))
    | Some _ => Err
    end.
End Format.
