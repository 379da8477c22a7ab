(** LIKE: internal/function.go:208-224 and internal/function_bind.go:427-432.

    Strings are well-formed UTF-8, given as their lists of characters. *)
From Coq Require Import List ZArith Lia Bool.
From Verif Require Import GoBase.
Import ListNotations.
Open Scope Z_scope.

Definition percent : Z := 37.
Definition underscore : Z := 95.
Definition newline : Z := 10.
(** The expression after regexp.QuoteMeta and strings.Replace of "%": ".*" for each "%"
    and each other character for itself (quoted if it is special; "%" is not). *)
Inductive item := Lit (c : Z) | AnyRun.
Definition compile (pattern : list Z) : list item :=
  map (fun c => if c =? percent then AnyRun else Lit c) pattern.
(** re.MatchString with "^...$": the whole text.  Go's "." does not match a newline unless
    the flag s is set. *)
Fixpoint matches (p : list item) (s : list Z) {struct p} : bool :=
  match p with
  | [] => match s with [] => true | _ => false end
  | Lit c :: p' => match s with x :: s' => (x =? c) && matches p' s' | [] => false end
  | AnyRun :: p' =>
      (fix go (s : list Z) : bool :=
         matches p' s || match s with x :: s' => negb (x =? newline) && go s' | [] => false end) s
  end.
Definition like (s pattern : list Z) : bool := matches (compile pattern) s.
(** function_bind.go:427-432: the answer when an argument is NULL is FALSE. *)
Definition bind_like (s pattern : option (list Z)) : option bool :=
  match s, pattern with
  | Some a, Some b => Some (like a b)
  | _, _ => Some false
  end.
