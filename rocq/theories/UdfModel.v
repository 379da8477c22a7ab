(** Calling a SQL user-defined function: textual substitution of its arguments. *)
From Coq Require Import Ascii String List ZArith Lia Bool.
From Verif Require Import GoBase.
Import ListNotations.
Local Open Scope string_scope.

(** strings.Replace(s, old, new, -1) for a non-empty [old]: leftmost matches,
    not overlapping, the replacement is not scanned again.  [skip] counts the
    bytes of a match still to be dropped. *)
Fixpoint replace_from (old new s : string) (skip : nat) : string :=
  match s with
  | EmptyString => EmptyString
  | String a r =>
      match skip with
      | S k => replace_from old new r k
      | O => if has_prefix old s then new ++ replace_from old new r (String.length old - 1)
             else String a (replace_from old new r 0)
      end
  end.
Definition replace_all (s old new : string) : string := replace_from old new s 0.

(** internal/spec.go:97-102, the loop of FunctionSpec.CallSQL:
    [for i := 0; i < len(s.Args); i++ { body = strings.Replace(body, "@"+s.Args[i].Name, argValues[i], -1) }].
    Indexing argValues past its end is a panic. *)
Fixpoint substitute (names values : list string) (body : string) : res string :=
  match names with
  | [] => Ok body
  | n :: ns =>
      match values with
      | [] => GoPanic
      | v :: vs => substitute ns vs (replace_all body ("@" ++ n) v)
      end
  end.

(** internal/spec.go:68-103 FunctionSpec.CallSQL for a function with a formatted
    body (for a templated one the body first comes from analysing the function
    again with the argument types; the substitution is the same). *)
Definition call_sql (names values : list string) (body : string) : res string :=
  bind (substitute names values body) (fun b => Ok ("( " ++ b ++ " )")).

(** What a formatted body is made of: SQL text, and parameter references, which
    ArgumentRefNode.FormatSQL (internal/formatter.go:1868-1873) writes "@name". *)
Inductive piece := Lit (s : string) | Ref (n : string).
Fixpoint render (ps : list piece) : string :=
  match ps with
  | [] => ""
  | Lit s :: r => s ++ render r
  | Ref n :: r => "@" ++ n ++ render r
  end.
