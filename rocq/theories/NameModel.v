(** Model of internal/name_path.go: how table and function references are
    resolved against a connection's name path. *)
From Coq Require Import Ascii String List ZArith Bool.
From Verif Require Import GoBase.
Import ListNotations.
Open Scope Z_scope.

(** internal/name_path.go:8-11 [NamePath]; [maxNum] is a Go int, kept as Z. *)
Record name_path := NP { np_path : list string; np_max : Z }.

(** internal/analyzer.go:28-32 [NewAnalyzer]: [namePath: &NamePath{}]. *)
Definition np_init : name_path := NP [] 0.

(** internal/name_path.go:13-24 [isInformationSchema].
    Simplification: strings.EqualFold folds Unicode, [lower] folds ASCII only. *)
Definition is_information_schema (path : list string) : bool :=
  match path with
  | [] => false
  | _ => existsb (fun s => String.eqb (lower s) "information_schema") (removelast path)
  end.

(** internal/name_path.go:26-30 [setMaxNum]. *)
Definition set_max_num (p : name_path) (num : Z) : name_path :=
  if 0 <? num then NP (np_path p) num else p.

(** internal/name_path.go:32-42 [getMaxNum]. *)
Definition get_max_num (p : name_path) (path : list string) : Z :=
  if np_max p =? 0 then 0
  else if is_information_schema path then np_max p + 1
  else np_max p.

(** internal/name_path.go:44-51 [normalizePath]: every component is split at ".". *)
Definition normalize_path (path : list string) : list string :=
  flat_map (fun s => split1 "." s) path.

(** internal/name_path.go:62-71: the loop of [mergePath]; [path0] is path[0],
    [plen] is len(path). *)
Fixpoint merge_loop (base : list string) (path0 : string) (plen maxNum : Z)
         (merged : list string) : list string :=
  match base with
  | [] => merged
  | b :: rest =>
      if String.eqb path0 b then merged
      else if (0 <? maxNum) && (maxNum <=? zlen merged + plen) then merged
      else merge_loop rest path0 plen maxNum (merged ++ [b])
  end.

(** internal/name_path.go:53-73 [mergePath]. *)
Definition merge_path (p : name_path) (path : list string) : list string :=
  let path := normalize_path path in
  let maxNum := get_max_num p path in
  if (0 <? maxNum) && (zlen path =? maxNum) then path
  else match path with
       | [] => np_path p
       | path0 :: _ => merge_loop (np_path p) path0 (zlen path) maxNum [] ++ path
       end.

(** internal/name_path.go:79-81 [formatPath]; also spec.go:48-50 [FuncName],
    spec.go:126-128 [TableName], catalog.go:150-152 [formatNamePath]. *)
Definition format_path (path : list string) : string := join "_" path.

(** internal/name_path.go:75-77 [format]. *)
Definition np_format (p : name_path) (path : list string) : string :=
  format_path (merge_path p path).

(** internal/name_path.go:83-91 [setPath]; returns the new state and whether an
    error was returned. *)
Definition set_path (p : name_path) (path : list string) : name_path * bool :=
  let normalized := normalize_path path in
  let maxNum := get_max_num p path in
  if (0 <? maxNum) && (maxNum <? zlen normalized) then (p, true)
  else (NP normalized (np_max p), false).

(** internal/name_path.go:93-107 [addPath]. *)
Definition add_path (p : name_path) (path : string) : name_path * bool :=
  let normalized := normalize_path [path] in
  let total := zlen (np_path p) + zlen normalized in
  let maxNum := get_max_num p normalized in
  if (0 <? maxNum) && (maxNum <? total) then (p, true)
  else (NP (np_path p ++ normalized) (np_max p), false).

(** driver.go:107-134 SetMaxNamePath, SetNamePath, AddNamePath: the calls a user can make. *)
Inductive np_call :=
| SetMax (n : Z)
| SetPath (path : list string)
| AddPath (path : string).

Definition np_step (p : name_path) (c : np_call) : name_path :=
  match c with
  | SetMax n => set_max_num p n
  | SetPath path => fst (set_path p path)
  | AddPath path => fst (add_path p path)
  end.

(** Name paths reachable by any call sequence from a new connection. *)
Definition np_run (cs : list np_call) : name_path := fold_left np_step cs np_init.
