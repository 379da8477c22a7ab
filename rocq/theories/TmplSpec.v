(** What calls of functions with ANY TYPE arguments should be. *)
From Coq Require Import Ascii String List ZArith Lia Bool.
From Verif Require Import GoBase TmplModel.
Import ListNotations.
Local Open Scope string_scope.

(** How a type is written in SQL: a field without a name is written by its type only. *)
Fixpoint sql_type (t : ty) : string :=
  match t with
  | Scalar k => k
  | Array e => "ARRAY<" ++ sql_type e ++ ">"
  | Struct fs => "STRUCT<" ++ String.concat "," (map (fun f => match fst f with "" => sql_type (snd f) | n => "`" ++ n ++ "` " ++ sql_type (snd f) end) fs) ++ ">"
  end.
(** All fields of a type have names. *)
Inductive named : ty -> Prop :=
  | n_scalar k : named (Scalar k)
  | n_array t : named t -> named (Array t)
  | n_struct fs : Forall (fun f => fst f <> "" /\ named (snd f)) fs -> named (Struct fs).

(** The types that are tried for a definition. *)
Definition tried : list ty :=
  [Scalar "INT64"; Scalar "DOUBLE"; Scalar "BOOL"; Scalar "STRING"; Scalar "BYTES"; Scalar "JSON"; Scalar "DATE"; Scalar "DATETIME"; Scalar "TIME";
   Scalar "TIMESTAMP"; Scalar "INTERVAL"; Scalar "GEOGRAPHY"; Struct []].

(** [body analyze c ts] is the type that the analyser gives the body of [c] for arguments of types [ts]. *)
Definition body (analyze : list (string * string) -> string -> option ty) (c : stmt) (ts : list ty) : option ty :=
  analyze (combine (map f_name (c_args c)) (map sql_type ts)) (c_code c).
(** [ts] are types for the arguments: what is declared has its type. *)
Definition fits (c : stmt) (ts : list ty) : Prop :=
  Forall2 (fun f t => match f_ty f with Some u => t = u | None => True end) (c_args c) ts.
(** All ANY TYPE arguments have the type [t]. *)
Definition all_any (c : stmt) (t : ty) : list ty := map (fun f => match f_ty f with Some u => u | None => t end) (c_args c).
(** A function with ANY TYPE arguments and no RETURNS. *)
Definition any_type (c : stmt) : Prop :=
  c_returns c = None /\ (exists f, In f (c_args c) /\ f_ty f = None) /\ forall f t, In f (c_args c) -> f_ty f = Some t -> named t.
(** Two ANY TYPE arguments have different types. *)
Definition differ (c : stmt) (ts : list ty) : Prop :=
  exists i j f g t u, nth_error (c_args c) i = Some f /\ nth_error (c_args c) j = Some g /\ f_ty f = None /\ f_ty g = None /\
    nth_error ts i = Some t /\ nth_error ts j = Some u /\ t <> u.
(** The text [s] holds the text [p]. *)
Fixpoint contains (p s : string) : bool :=
  String.prefix p s || match s with EmptyString => false | String _ r => contains p r end.
