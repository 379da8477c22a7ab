(** Statistical and approximate aggregates: internal/function_aggregate.go:535-1018, with
    their binders in internal/function_bind.go:3346-3625.  The handling of the options
    around them is [call] of AggModel. *)
From Coq Require Import Ascii String List ZArith QArith Lia Bool Permutation SpecFloat.
From Verif Require Import GoBase ValueModel AggModel.
Import ListNotations.
Local Open Scope string_scope.
Open Scope Z_scope.

(** ** STDDEV, VAR, CORR and COVAR
    The functions of gonum.org/v1/gonum/stat are not in /repo: each aggregate takes the one
    it calls as a parameter.  ToFloat64 is modelled for INT64 and FLOAT64 arguments
    (AggModel.to_float). *)
(** Step of STDDEV_POP, STDDEV_SAMP, VAR_POP and VAR_SAMP (function_aggregate.go:623-718),
    with args[0] of the binders (function_bind.go:3388-3470) *)
Definition one_step (s : list float) (args : list (option val)) (o : aopt) : res (list float) :=
  unary (fun s v => bind (to_float v) (fun f => Ok (s ++ [f])%list)) s args o.
(** Done of the same: NULL without values *)
Definition agg_one (stat : list float -> float) : agg := {|
  St := list float; init := []; step := one_step;
  done := exactly (fun s => match s with [] => Ok None | _ => Ok (Some (VFloat (stat s))) end) |}.
(** 623-646: the standard deviation of PopMeanStdDev *)
Definition agg_stddev_pop (popMeanStdDev : list float -> float * float) : agg := agg_one (fun s => snd (popMeanStdDev s)).
(** 648-671; STDDEV is the same type (671) *)
Definition agg_stddev_samp (stdDev : list float -> float) : agg := agg_one stdDev.
(** 673-696 *)
Definition agg_var_pop (popMeanVariance : list float -> float * float) : agg := agg_one (fun s => snd (popMeanVariance s)).
(** 698-718; VARIANCE is the same type *)
Definition agg_var_samp (variance : list float -> float) : agg := agg_one variance.

(** Step of CORR, COVAR_POP and COVAR_SAMP (540-556, 570-586, 600-616) *)
Definition pair_step (s : list (float * float)) (args : list (option val)) (o : aopt) : res (list (float * float)) :=
  match args with
  | x :: y :: _ =>
      match x, y with
      | Some a, Some b => bind (to_float a) (fun fa => bind (to_float b) (fun fb => Ok (s ++ [(fa, fb)])%list))
      | _, _ => Ok s
      end
  | _ => GoPanic
  end.
Definition agg_pair (stat : list (float * float) -> float) : agg := {|
  St := list (float * float); init := []; step := pair_step;
  done := exactly (fun s => match s with [] => Ok None | _ => Ok (Some (VFloat (stat s))) end) |}.
(** 535-563: stat.Correlation *)
Definition agg_corr (correlation : list (float * float) -> float) : agg := agg_pair correlation.
(** 565-593: stat.Covariance *)
Definition agg_covar_pop (covariance : list (float * float) -> float) : agg := agg_pair covariance.
(** 595-623: stat.Covariance too *)
Definition agg_covar_samp (covariance : list (float * float) -> float) : agg := agg_pair covariance.

(** ** APPROX_COUNT_DISTINCT, function_aggregate.go:720-740
    The keys of valueMap. *)
Definition agg_count_distinct (text : val -> res string) : agg := {|
  St := list string; init := [];
  step := unary (fun s v => bind (text v) (fun t => Ok (if existsb (String.eqb t) s then s else t :: s)));
  done := exactly (fun s => Ok (Some (VInt (zlen s)))) |}.

(** ** APPROX_QUANTILES, function_aggregate.go:742-783, function_bind.go:3486-3505 *)
Record quant := { q_num : option Z; q_vals : list (option val) }.
Definition keep_first (s : option Z) (n : Z) : option Z := match s with None => Some n | Some m => Some m end.
Definition quant_step (s : quant) (args : list (option val)) (o : aopt) : res quant :=
  match args with
  | v :: n :: _ =>
      match n with
      | None => Err
      | Some n => bind (to_int n) (fun n => Ok {| q_num := keep_first (q_num s) n; q_vals := (q_vals s ++ [v])%list |})
      end
  | _ => GoPanic
  end.
Definition hundred : float := float_of_int 100.
Definition flt (a b : float) : bool := match SFcompare a b with Some Lt => true | _ => false end.
(** values[k], a panic outside the slice *)
Definition index {A} (l : list A) (k : Z) : res A :=
  if k <? 0 then GoPanic else match nth_error l (Z.to_nat k) with Some x => Ok x | None => GoPanic end.
(** 766-777: the position for the percentage i *)
Definition quant_pick (vs : list (option val)) (i : float) : res (option val) :=
  let fIdx := fmul (float_of_int (zlen vs)) (fdiv i hundred) in
  let idx := int_of_float fIdx in
  let idx := if flt (float_of_int idx) fIdx then wrap64 (idx + 1) else idx in
  if 0 <? idx then index vs (idx - 1) else index vs idx.
(** 765-778: the loop from i on; without a result when it does not end *)
Inductive quant_loop (vs : list (option val)) (ratio : float) : float -> res (list (option val)) -> Prop :=
| ql_end : forall i, flt i hundred = false -> quant_loop vs ratio i (Ok [])
| ql_next : forall i q r, flt i hundred = true -> quant_pick vs i = Ok q -> quant_loop vs ratio (fadd i ratio) r ->
    quant_loop vs ratio i (bind r (fun l => Ok (q :: l)))
| ql_panic : forall i, flt i hundred = true -> quant_pick vs i = GoPanic -> quant_loop vs ratio i GoPanic.
Definition quant_done (s : quant) (r : res (option val)) : Prop :=
  match q_vals s, q_num s with
  | [], _ => r = Ok None
  | v :: l, n =>
      let n := match n with Some n => n | None => 0 end in
      let back := last l v in
      if n =? 0 then r = Ok (Some (VArray [v]))
      else if n =? 1 then r = Ok (Some (VArray [v; back]))
      else exists body, quant_loop (v :: l) (fdiv hundred (float_of_int n)) fzero body /\
             r = bind body (fun q => Ok (Some (VArray (q ++ [back])%list)))
  end.
Definition agg_quantiles : agg := {| St := quant; init := {| q_num := None; q_vals := [] |}; step := quant_step; done := quant_done |}.

(** ** APPROX_TOP_COUNT and APPROX_TOP_SUM, function_aggregate.go:785-902,
    function_bind.go:3507-3547 *)
(** The keys of valueMap are Go interface values: == on the types of value.go.  A BYTES
    value is a []byte, which Go cannot hash.  NUMERIC, ARRAY, STRUCT and INTERVAL are
    pointers, and each argument is decoded anew (function_bind.go:40-50), so no two are
    equal.  The types built on time.Time are taken to be equal when the instants are. *)
Definition unhashable (v : option val) : bool := match v with Some (VBytes _) => true | _ => false end.
Definition go_eq (a b : option val) : bool :=
  match a, b with
  | None, None => true
  | Some (VInt x), Some (VInt y) => x =? y
  | Some (VStr x), Some (VStr y) => String.eqb x y
  | Some (VJson x), Some (VJson y) => String.eqb x y
  | Some (VBool x), Some (VBool y) => Bool.eqb x y
  | Some (VFloat x), Some (VFloat y) => SFeqb x y
  | Some (VDate x), Some (VDate y) | Some (VDatetime x), Some (VDatetime y)
  | Some (VTime x), Some (VTime y) | Some (VTimestamp x), Some (VTimestamp y) => x =? y
  | _, _ => false
  end.
(** The entries of valueMap: value and count, or value and sum. *)
Definition entry : Type := option val * option val.
Record top := { t_num : option Z; t_map : list entry }.
(** The entry of a key is changed by [f]; [None] when there is none. *)
Fixpoint change (k : option val) (f : option val -> res (option val)) (m : list entry) : option (res (list entry)) :=
  match m with
  | [] => None
  | (v, p) :: r =>
      if go_eq v k then Some (bind (f p) (fun p' => Ok ((v, p') :: r)))
      else match change k f r with
           | None => None
           | Some r' => Some (bind r' (fun r' => Ok ((v, p) :: r')))
           end
  end.
Definition put (k : option val) (f : option val -> res (option val)) (new : option val) (s : top) (n : Z) : res top :=
  if unhashable k then GoPanic
  else match change k f (t_map s) with
       | Some m => bind m (fun m => Ok {| t_num := keep_first (t_num s) n; t_map := m |})
       | None => Ok {| t_num := keep_first (t_num s) n; t_map := (t_map s ++ [(k, new)])%list |}
       end.
(** 791-813 *)
Definition count_up (p : option val) : res (option val) :=
  match p with Some (VInt z) => Ok (Some (VInt (wrap64 (z + 1)))) | _ => Err end.
Definition top_count_step (s : top) (args : list (option val)) (o : aopt) : res top :=
  match args with
  | v :: n :: _ =>
      match n with None => Err | Some n => bind (to_int n) (put v count_up (Some (VInt 1)) s) end
  | _ => GoPanic
  end.
(** 842-873 *)
Definition sum_up (weight : option val) (p : option val) : res (option val) :=
  match weight, p with
  | None, _ => Ok p
  | Some w, None => Ok (Some w)
  | Some w, Some t => bind (add t w) (fun u => Ok (Some u))
  end.
Definition top_sum_step (s : top) (args : list (option val)) (o : aopt) : res top :=
  match args with
  | v :: w :: n :: _ =>
      match n with None => Err | Some n => bind (to_int n) (put v (sum_up w) w s) end
  | _ => GoPanic
  end.
(** The comparison of the sorts: 825-828 never sees a NULL, 885-894 puts it last. *)
Definition more (a b : entry) : bool :=
  match snd a, snd b with
  | None, _ => false
  | Some _, None => true
  | Some x, Some y => holds (cmp GT x y)
  end.
Definition entry_struct (name : string) (e : entry) : option val := Some (VStruct [("value", fst e); (name, snd e)]).
(** 815-834, 875-902: the entries come out of the map in any order. *)
Definition top_done (name : string) (s : top) (r : res (option val)) : Prop :=
  match t_map s with
  | [] => r = Ok None
  | m =>
      let n := match t_num s with Some n => n | None => 0 end in
      if zlen m <? n then r = Err
      else exists l out, Permutation m l /\ go_sort more l out /\
             r = if n <? 0 then GoPanic else Ok (Some (VArray (map (entry_struct name) (firstn (Z.to_nat n) out))))
  end.
Definition agg_top_count : agg := {| St := top; init := {| t_num := None; t_map := [] |}; step := top_count_step; done := top_done "count" |}.
Definition agg_top_sum : agg := {| St := top; init := {| t_num := None; t_map := [] |}; step := top_sum_step; done := top_done "sum" |}.

(** ** HLL_COUNT, function_aggregate.go:904-1018, function_bind.go:3549-3625
    The library github.com/DataDog/go-hll and murmur3 are not in /repo. *)
Section Hll.
  Variable sketch : Type.
  (** hll.NewHll with Log2m; an error is [None] *)
  Variable new_hll : Z -> option sketch.
  (** what AddRaw makes of the zero Hll that comes with an error: the defaults of 904-911 *)
  Variable zero_hll : sketch.
  Variable add_raw : sketch -> Z -> sketch.
  Variable union : sketch -> sketch -> sketch.
  Variable cardinality : sketch -> Z.
  Variable to_bytes : sketch -> string.
  Variable from_bytes : string -> option sketch.
  (** murmur3.Sum64 *)
  Variable sum64 : string -> Z.
  (** NumericValue.ToBytes *)
  Variable num_bytes : Q -> string.

  (** 926-953; an INT64 is hashed by its text *)
  Definition hash_of (text : val -> res string) (v : option val) : res Z :=
    match v with
    | Some (VInt z) => bind (text (VInt z)) (fun t => Ok (sum64 t))
    | Some (VNum q) => Ok (sum64 (num_bytes q))
    | Some (VStr s) => bind (text (VStr s)) (fun t => Ok (sum64 t))
    | Some (VBytes s) => Ok (sum64 s)
    | _ => Ok 0
    end.
  (** 918-956: the error of NewHll is assigned to the result e, which the return nil at the
      end sets back. *)
  Definition hll_init_step (text : val -> res string) (s : option sketch) (args : list (option val)) (o : aopt) : res (option sketch) :=
    let go (v : option val) (p : Z) : res (option sketch) :=
      let h := match s with
               | Some h => h
               | None => match new_hll p with Some h => h | None => zero_hll end
               end in
      bind (hash_of text v) (fun z => Ok (Some (add_raw h z))) in
    match args with
    | [v; None] => Ok s
    | [v; Some p] => bind (to_int p) (go v)
    | v :: _ => go v 15
    | [] => GoPanic
    end.
  Definition agg_hll_init (text : val -> res string) : agg := {|
    St := option sketch; init := None; step := hll_init_step text;
    done := exactly (fun s => Ok (match s with None => None | Some h => Some (VBytes (to_bytes h)) end)) |}.
  (** 969-980, 993-1004; ToBytes of a BYTES argument *)
  Definition hll_merge_step (s : option sketch) (v : val) : res (option sketch) :=
    match v with
    | VBytes b => match from_bytes b with
                  | None => Err
                  | Some h => Ok (Some (match s with None => h | Some t => union t h end))
                  end
    | _ => Err
    end.
  (** 982-987 *)
  Definition agg_hll_merge : agg := {|
    St := option sketch; init := None; step := unary hll_merge_step;
    done := exactly (fun s => Ok (Some (VInt (match s with None => 0 | Some h => cardinality h end)))) |}.
  (** 1006-1011 *)
  Definition agg_hll_merge_partial : agg := {|
    St := option sketch; init := None; step := unary hll_merge_step;
    done := exactly (fun s => Ok (match s with None => None | Some h => Some (VBytes (to_bytes h)) end)) |}.
  (** 1013-1018, function_bind.go:3616-3625 *)
  Definition hll_extract (v : option val) : res (option val) :=
    match v with
    | None => Ok None
    | Some (VBytes b) => match from_bytes b with None => Err | Some h => Ok (Some (VInt (cardinality h))) end
    | Some _ => Err
    end.
End Hll.
