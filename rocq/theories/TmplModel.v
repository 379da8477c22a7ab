(** SQL functions with ANY TYPE arguments: internal/analyzer.go:247-262, 344-369, 372-443,
    internal/spec.go:20-34, 68-103, 186-199, 263-275, 330-345, 406-475, internal/catalog.go:521-539.

    The ZetaSQL analyser is not in /repo.  It is a parameter that is given the declarations of the
    arguments (name and type as they are written into the CREATE FUNCTION text) and the code of
    the body, and answers with the type of the body or refuses.  The text itself, which only puts
    these between fixed words, is not assembled.  How ZetaSQL matches a call against a signature
    in the catalog is modelled after its documentation, without coercions. *)
From Coq Require Import Ascii String List ZArith Lia Bool.
From Verif Require Import GoBase.
Import ListNotations.
Local Open Scope string_scope.

(** types.Type as newType (spec.go:577-600) reads it: kinds other than ARRAY and STRUCT are
    represented by what types.TypeKind.String() prints. *)
Inductive ty := Scalar (k : string) | Array (t : ty) | Struct (fs : list (string * ty)).

(** spec.go:263-275 Type.FormatType *)
Fixpoint format_type (t : ty) : string :=
  match t with
  | Scalar k => k
  | Array e => "ARRAY<" ++ format_type e ++ ">"
  | Struct fs => "STRUCT<" ++ String.concat "," (map (fun f => "`" ++ fst f ++ "` " ++ format_type (snd f)) fs) ++ ">"
  end.

(** Equality of types, as ZetaSQL's Type::Equals. *)
Fixpoint ty_eqb (a b : ty) : bool :=
  match a, b with
  | Scalar x, Scalar y => (x =? y)%string
  | Array x, Array y => ty_eqb x y
  | Struct fs, Struct gs =>
      (fix go fs gs := match fs, gs with
                       | [], [] => true
                       | (n, x) :: fs, (m, y) :: gs => (n =? m)%string && ty_eqb x y && go fs gs
                       | _, _ => false
                       end) fs gs
  | _, _ => false
  end.

(** An argument of CREATE FUNCTION; ANY TYPE is [None]. *)
Record formal := { f_name : string; f_ty : option ty }.
Record stmt := { c_args : list formal; c_returns : option ty; c_code : string }.

(** Type.SignatureKind of a FunctionSpec: ArgTypeFixed, ArgTypeAny1, ArgArrayTypeAny1,
    ArgTypeArbitrary. *)
Inductive stype := Fixed (t : ty) | Any1 | ArrayAny1 | Arbitrary.
Record fspec := { s_args : list (string * stype); s_ret : stype; s_code : string }.

(** analyzer.go:379-384 inferTypes *)
Definition inferTypes : list string :=
  ["INT64"; "DOUBLE"; "BOOL"; "STRING"; "BYTES"; "JSON"; "DATE"; "DATETIME"; "TIME"; "TIMESTAMP"; "INTERVAL"; "GEOGRAPHY"; "STRUCT<>"].

Definition templated (f : formal) : bool := match f_ty f with None => true | Some _ => false end.
(** analyzer.go:408-417, 425-434: the declarations with one type for all ANY TYPE arguments *)
Definition decls (real : string) (fs : list formal) : list (string * string) :=
  map (fun f => (f_name f, match f_ty f with None => real | Some t => format_type t end)) fs.

Section Analyze.
  Variable analyze : list (string * string) -> string -> option ty.

  (** analyzer.go:388-393, 397-402: the types of the body for the types that are accepted *)
  Fixpoint accepted (fs : list formal) (code : string) (reals : list string) : list ty :=
    match reals with
    | [] => []
    | r :: rs => match analyze (decls r fs) code with Some t => t :: accepted fs code rs | None => accepted fs code rs end
    end.
  (** analyzer.go:386-406 inferTemplatedTypeByRealType; the flag tells that the arguments are arrays *)
  Definition infer (fs : list formal) (code : string) : res (bool * list ty) :=
    match accepted fs code inferTypes with
    | [] => match accepted fs code (map (fun r => "ARRAY<" ++ r ++ ">") inferTypes) with
            | [] => Err
            | l => Ok (true, l)
            end
    | l => Ok (false, l)
    end.

  (** spec.go:406-414 newTypeFromFunctionArgumentTypeByRealType for a templated type *)
  Definition by_real (array : bool) : stype := if array then ArrayAny1 else Any1.
  Definition is_array (t : ty) : bool := match t with Array _ => true | _ => false end.
  (** spec.go:416-475 newTemplatedFunctionSpec; the body is "" as the expression of a templated
      function is not resolved *)
  Definition templated_spec (c : stmt) (array : bool) (reals : list ty) : res fspec :=
    match reals with
    | [] => GoPanic
    | r :: _ =>
        Ok {| s_args := map (fun f => (f_name f, match f_ty f with None => by_real array | Some t => Fixed t end)) (c_args c);
              s_ret := if forallb (fun t => (format_type t =? format_type r)%string) reals then Fixed r else by_real (is_array r);
              s_code := c_code c |}
    end.
  (** spec.go:330-345, 390-400 newFunctionSpec, for a function with RETURNS *)
  Definition plain_spec (c : stmt) (ret : ty) : fspec :=
    {| s_args := map (fun f => (f_name f, match f_ty f with None => Arbitrary | Some t => Fixed t end)) (c_args c);
       s_ret := Fixed ret;
       s_code := c_code c |}.
  (** analyzer.go:344-369, 372-377 newCreateFunctionStmtAction, for a statement with an ANY TYPE
      argument: the result is templated if there is no RETURNS. *)
  Definition create (c : stmt) : res fspec :=
    match c_returns c with
    | None => bind (infer (c_args c) (c_code c)) (fun r => templated_spec c (fst r) (snd r))
    | Some t => Ok (plain_spec c t)
    end.

  (** ** A call *)
  (** The type that ANY_TYPE_1 stands for, after each argument. *)
  Definition bind_one (bound : option ty) (t : ty) : option (option ty) :=
    match bound with
    | None => Some (Some t)
    | Some u => if ty_eqb u t then Some (Some u) else None
    end.
  Definition match_arg (bound : option ty) (s : stype) (t : ty) : option (option ty) :=
    match s with
    | Fixed u => if ty_eqb u t then Some bound else None
    | Arbitrary => Some bound
    | Any1 => bind_one bound t
    | ArrayAny1 => match t with Array e => bind_one bound e | _ => None end
    end.
  Fixpoint match_args (bound : option ty) (ss : list (string * stype)) (ts : list ty) : option (option ty) :=
    match ss, ts with
    | [], [] => Some bound
    | s :: ss, t :: ts => match match_arg bound (snd s) t with Some b => match_args b ss ts | None => None end
    | _, _ => None
    end.
  (** The type of a call by the signature that catalog.go:525-539 registers. *)
  Definition signature (f : fspec) (ts : list ty) : option ty :=
    match match_args None (s_args f) ts with
    | None => None
    | Some b => match s_ret f with
                | Fixed t => Some t
                | Any1 => b
                | ArrayAny1 => option_map Array b
                | Arbitrary => None
                end
    end.
  (** spec.go:68-96 CallSQL: the function is analysed again with the types of the arguments (and
      without RETURNS).  The result is the type of the call in the query and the type of the
      expression that takes its place. *)
  Definition call (f : fspec) (ts : list ty) : res (ty * ty) :=
    match signature f ts with
    | None => Err
    | Some d =>
        match analyze (combine (map fst (s_args f)) (map format_type ts)) (s_code f) with
        | None => Err
        | Some a => Ok (d, a)
        end
    end.
  (** CREATE FUNCTION and a call of it. *)
  Definition run (c : stmt) (ts : list ty) : res (ty * ty) := bind (create c) (fun f => call f ts).
End Analyze.
