(** NUMERIC values as pointers.  NumericValue.Add, Sub, Mul and Div
    (internal/value.go:635-684) store the result in their receiver and return it, so a
    Go function that keeps a NUMERIC value sees it change when the value is an operand
    of an operation.  Cells are named by their index in the heap. *)
From Coq Require Import List ZArith QArith Lia Bool.
From Verif Require Import GoBase CastModel.
Import ListNotations.
Open Scope Z_scope.

Definition heap := list Q.
Definition addr := nat.
Definition get (h : heap) (a : addr) : Q := nth a h 0%Q.
Fixpoint put (h : heap) (a : addr) (q : Q) : heap :=
  match h, a with
  | [], _ => []
  | _ :: r, O => q :: r
  | x :: r, S b => x :: put r b q
  end.
(** decoder.go:49-56: every decoded argument is a new cell *)
Definition decode (h : heap) (q : Q) : heap * addr := ((h ++ [q])%list, length h).

Inductive nop := NAdd | NSub | NMul | NDiv.
Definition apply_op (o : nop) (x y : Q) : res Q :=
  match o with
  | NAdd => Ok (num_add x y)
  | NSub => Ok (num_sub x y)
  | NMul => Ok (num_mul x y)
  | NDiv => num_div x y
  end.
(** value.go:635-684: the receiver [a] is overwritten and returned *)
Definition heap_op (h : heap) (o : nop) (a : addr) (y : Q) : res (heap * addr) :=
  bind (apply_op o (get h a) y) (fun r => Ok (put h a r, a)).

(** ** Calls of scalar functions
    function.go:12-26 through the registered functions: both arguments are decoded, the
    operation runs, the result is encoded as text. *)
Inductive nexpr := NCol (i : nat) | NLit (q : Q) | NBin (o : nop) (a b : nexpr).
Fixpoint evalh (env : list Q) (h : heap) (e : nexpr) : res (Q * heap) :=
  match e with
  | NCol i => Ok (nth i env 0%Q, h)
  | NLit q => Ok (q, h)
  | NBin o a b =>
      bind (evalh env h a) (fun '(x, h1) =>
      bind (evalh env h1 b) (fun '(y, h2) =>
      let '(h3, p) := decode h2 x in
      let '(h4, q) := decode h3 y in
      bind (heap_op h4 o p (get h4 q)) (fun '(h5, r) => Ok (get h5 r, h5))))
  end.

(** ** Aggregate functions
    function_aggregate.go:511-533 SUM (and 144-170 AVG) keeps the first value's pointer
    and adds to it; ARRAY_AGG, MAX and the others keep the pointers they are given.  One
    instance per aggregate call and group; each step decodes its own argument. *)
Inductive akind := ASum | AKeep.
Definition astate := list (nat * list addr).
Definition held (s : astate) (i : nat) : list addr :=
  match find (fun p => Nat.eqb (fst p) i) s with Some p => snd p | None => [] end.
Fixpoint hold (s : astate) (i : nat) (l : list addr) : astate :=
  match s with
  | [] => [(i, l)]
  | p :: r => if Nat.eqb (fst p) i then (i, l) :: r else p :: hold r i l
  end.
Definition agg_step (kind : nat -> akind) (st : heap * astate) (ev : nat * Q) : heap * astate :=
  let '(h, s) := st in
  let '(i, q) := ev in
  let '(h1, p) := decode h q in
  match kind i, held s i with
  | ASum, a :: _ => (put h1 a (num_add (get h1 a) (get h1 p)), s)
  | ASum, [] => (h1, hold s i [p])
  | AKeep, l => (h1, hold s i (l ++ [p])%list)
  end.
Definition agg_run (kind : nat -> akind) (evs : list (nat * Q)) : heap * astate := fold_left (agg_step kind) evs ([], []).

(** ** GENERATE_ARRAY
    function_array.go:125-172 on NUMERIC arguments: cur.Add(step) is cur itself. *)
Fixpoint num_loop (fuel : nat) (h : heap) (cur : addr) (step stop : Q) (up : bool) : option (heap * list addr) :=
  match fuel with
  | O => None
  | S f =>
      let h1 := put h cur (num_add (get h cur) step) in
      let after := get h1 cur in
      if (if up then Qle_bool after stop else Qle_bool stop after)
      then option_map (fun '(h2, l) => (h2, cur :: l)) (num_loop f h1 cur step stop up)
      else Some (h1, [cur])
  end.
Definition generate_numeric (fuel : nat) (start stop step : Q) : option (list Q) :=
  let '(h, p) := decode [] start in
  let up := Qle_bool start stop in
  let pos := negb (Qle_bool step 0) in
  if up && negb pos then Some []
  else if negb up && pos then Some []
  else option_map (fun '(h2, l) => map (get h2) l) (num_loop fuel h p step stop up).

(** ** RANGE frames
    function_window_option.go:540-633 with a NUMERIC order key: the bounds are computed
    by Sub and Add on the current row's key, which is one of the cells the search then
    looks at.  [keys]: the cells of the order keys in sorted order. *)
Definition last_index (P : addr -> bool) (keys : list addr) : Z :=
  fst (fold_left (fun '((best, i) : Z * Z) (a : addr) => (if P a then i else best, i + 1)) keys (-1, 0)).
Definition first_index (P : addr -> bool) (keys : list addr) : Z :=
  let n := zlen keys in
  let j := last_index P (rev keys) in if j =? -1 then -1 else n - 1 - j.
Definition lookup_min (h : heap) (keys : list addr) (v : Q) : Z :=
  first_index (fun a => Qle_bool v (get h a)) keys.
Definition lookup_max (h : heap) (keys : list addr) (v : Q) : Z :=
  last_index (fun a => Qle_bool (get h a) v) keys.
Definition range_frame (h : heap) (keys : list addr) (cur : addr) (before after : Q) : Z * Z :=
  let h1 := put h cur (num_sub (get h cur) before) in
  let start := lookup_min h1 keys (get h1 cur) in
  let h2 := put h1 cur (num_add (get h1 cur) after) in
  (start, lookup_max h2 keys (get h2 cur)).
