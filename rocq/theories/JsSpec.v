(** What JavaScript functions should do, independently of the model. *)
From Coq Require Import Ascii String List ZArith QArith Lia Bool SpecFloat.
From Verif Require Import GoBase CalendarModel InstantModel DecModel ValueModel FormatSpec Utf8Model CodecSpec ClockTextSpec RowsModel JsModel.
Import ListNotations.
Local Open Scope string_scope.
Open Scope Z_scope.

(** A text literal of SQL at the beginning of a text: its contents and what follows; a quote
    inside is written twice. *)
Definition quote : ascii := "'"%char.
Fixpoint literal_rest (s : string) : option (string * string) :=
  match s with
  | EmptyString => None
  | String a r =>
      if Ascii.eqb a quote then
        match r with
        | String b r' => if Ascii.eqb b quote then option_map (fun p => (String quote (fst p), snd p)) (literal_rest r') else Some ("", r)
        | EmptyString => Some ("", "")
        end
      else option_map (fun p => (String a (fst p), snd p)) (literal_rest r)
  end.
Definition sql_literal (s : string) : option (string * string) :=
  match s with String a r => if Ascii.eqb a quote then literal_rest r else None | EmptyString => None end.

(** How often a character occurs. *)
Fixpoint occurrences (c : ascii) (s : string) : Z :=
  match s with EmptyString => 0 | String a r => (if Ascii.eqb a c then 1 else 0) + occurrences c r end.
(** A JavaScript text without its comments of the form // up to the end of the line; for texts
    without literals and other comments. *)
Fixpoint uncommented (inside : bool) (s : string) : string :=
  match s with
  | EmptyString => ""
  | String a r =>
      if inside then (if Ascii.eqb a "010" then String a (uncommented false r) else uncommented true r)
      else match r with
           | String b _ => if Ascii.eqb a "/" && Ascii.eqb b "/" then uncommented true r else String a (uncommented false r)
           | EmptyString => String a ""
           end
  end.
(** As many opening as closing braces. *)
Definition braces (s : string) : Z := occurrences "{" s - occurrences "}" s.

(** What ECMAScript says of the conversions used here. *)
Record ecmascript (E : engine) : Prop := {
  integer_of_number : forall f n, trunc_float f = Some n -> in64 n -> as_integer E (JNumber f) = n;
  boolean_of_boolean : forall b, as_boolean E (JBool b) = b;
  float_of_number : forall f, as_float E (JNumber f) = f;
  text_of_string : forall s, as_text E (JString s) = s;
  (** a text that is not a number is NaN *)
  number_of_string : forall s, has_char "/" s = true -> number_text E (JString s) = "NaN" }.
(** The JavaScript value that a Go value becomes: every number is a double. *)
Inductive seen : go -> js -> Prop :=
| seen_nil : seen GNil JNull
| seen_int z : seen (GInt z) (JNumber (float_of_int z))
| seen_bool b : seen (GBool b) (JBool b)
| seen_float f : seen (GFloat f) (JNumber f)
| seen_text s : text_ok s -> seen (GText s) (JString s).
(** The program that returns its variable n returns what the variable holds. *)
Definition returns_variable (E : engine) (n : string) : Prop :=
  forall g j, seen g j -> run_program E (program ("return " ++ n)) [(n, Plain g)] = Ok j.

(** The whole numbers a double holds, and arguments that should come back from such a function. *)
Inductive carried : ty -> val -> Prop :=
| ca_int z : Z.abs z < 2 ^ 53 -> carried TInt (VInt z)
| ca_bool b : carried TBool (VBool b)
| ca_float f : carried TFloat (VFloat f)
| ca_str s : text_ok s -> carried TStr (VStr s)
| ca_date t : t mod ns_per_day = 0 -> 0 <= year (day_no t) <= 9999 -> carried TDate (VDate t)
| ca_datetime t : t mod 1000 = 0 -> 0 <= year (day_no t) <= 9999 -> carried TDatetime (VDatetime t).

(** The value of a property. *)
Fixpoint property (k : string) (l : list (string * arg)) : option arg :=
  match l with [] => None | (k', a) :: r => if String.eqb k k' then Some a else property k r end.
(** [means t a o]: the exported JavaScript value a, taken as a t, is o: null is NULL, numbers,
    texts and booleans are themselves, arrays go element by element, objects property by property
    in the order of the type; what is missing is NULL, what is too much is ignored.  Field names
    are distinct, and an object has a property with a name. *)
Fixpoint means (t : ty) (a : arg) (o : option val) {struct t} : Prop :=
  match a with
  | ANil => o = None
  | _ =>
    match t with
    | TInt => exists z, a = AInt z /\ o = Some (VInt z)
    | TBool => exists b, a = ABool b /\ o = Some (VBool b)
    | TFloat => (exists f, a = AFloat f /\ o = Some (VFloat f)) \/ (exists z, a = AInt z /\ o = Some (VFloat (float_of_int z)))
    | TStr => exists s, a = AStr s /\ o = Some (VStr s)
    | TArray e => exists l vs, a = ASlice l /\ o = Some (VArray vs) /\ Forall2 (means e) l vs
    | TStruct fs =>
        exists l xs, a = AMap l /\ o = Some (VStruct xs) /\ NoDup (map fst l) /\ NoDup (map fst fs) /\
          (exists k, In k (map fst l) /\ k <> "") /\
          (fix fields (fs : list (string * ty)) (xs : list (string * option val)) : Prop :=
             match fs, xs with
             | [], [] => True
             | (k, t') :: fs', (k', o') :: xs' =>
                 k' = k /\ match property k l with Some a' => means t' a' o' | None => o' = None end /\ fields fs' xs'
             | _, _ => False
             end) fs xs
    | _ => False
    end
  end.
(** What Export gives for plain JavaScript values: no Go structs, pointers or byte arrays. *)
Fixpoint plain_arg (a : arg) : Prop :=
  match a with
  | AByteArray _ | APtr _ | AGoStruct _ => False
  | ASlice l => (fix go (l : list arg) := match l with [] => True | x :: r => plain_arg x /\ go r end) l
  | AMap l => (fix go (l : list (string * arg)) := match l with [] => True | (_, x) :: r => plain_arg x /\ go r end) l
  | _ => True
  end.
