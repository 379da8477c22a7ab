(** Aggregate functions: internal/function_aggregate.go, internal/function_aggregate_option.go
    and Aggregator in internal/function_bind.go:52-117.

    SQLite makes one Aggregator per group, calls Step once per row and Done at the end; an
    error of Step is the error of the query. *)
From Coq Require Import Ascii String List ZArith QArith Lia Bool Permutation Sorting.Sorted.
From Verif Require Import GoBase ValueModel CastModel CodecModel DecModel ClockTextModel.
Import ListNotations.
Local Open Scope string_scope.
Open Scope Z_scope.

(** ** Options
    DISTINCT, IGNORE NULLS, LIMIT and ORDER BY are passed to the aggregate as extra
    arguments, the results of SQL functions (function_aggregate_option.go:52-113). *)
Inductive item :=
| IDistinct
| IIgnore
| ILimit (n : Z)
| IOrder (k : option val) (asc : bool).

(** function_aggregate_option.go:115-120 *)
Record aopt := { a_distinct : bool; a_ignore : bool; a_limit : option Z; a_order : list (option val * bool) }.
Definition no_opt : aopt := {| a_distinct := false; a_ignore := false; a_limit := None; a_order := [] |}.
(** function_aggregate_option.go:139-147 *)
Definition set_item (o : aopt) (i : item) : aopt :=
  match i with
  | IDistinct => {| a_distinct := true; a_ignore := a_ignore o; a_limit := a_limit o; a_order := a_order o |}
  | IIgnore => {| a_distinct := a_distinct o; a_ignore := true; a_limit := a_limit o; a_order := a_order o |}
  | ILimit n => {| a_distinct := a_distinct o; a_ignore := a_ignore o; a_limit := Some n; a_order := a_order o |}
  | IOrder k asc => {| a_distinct := a_distinct o; a_ignore := a_ignore o; a_limit := a_limit o; a_order := (a_order o ++ [(k, asc)])%list |}
  end.

(** big.Rat.MarshalText, which NumericValue (value.go:630-633) inherits *)
Definition rat_marshal (q : Q) : string :=
  match Qden q with xH => dec (Qnum q) | _ => rat_text q end.
(** The ORDER BY key goes through json.Marshal of the Value and ValueFromGoValue of what
    json.Unmarshal makes of it (function_aggregate_option.go:79-113, encoder.go:508-560):
    numbers come back as float64, []byte as its base64 text, a NUMERIC as its text, and the
    types built on time.Time and on structs without exported fields as an empty struct.
    Strings are taken to be valid UTF-8 and floats finite; an INTERVAL key is not
    modelled. *)
Definition json_key (k : option val) : option val :=
  match k with
  | None => None
  | Some (VInt z) => Some (VFloat (float_of_int z))
  | Some (VStr s) | Some (VJson s) => Some (VStr s)
  | Some (VBytes s) => Some (VStr (base64_text s))
  | Some (VNum q) => Some (VStr (rat_marshal q))
  | Some (VFloat f) => Some (VFloat f)
  | Some (VBool b) => Some (VBool b)
  | Some _ => Some (VStruct [])
  end.
Definition reread (i : item) : item := match i with IOrder k asc => IOrder (json_key k) asc | _ => i end.

(** The texts json.Marshal makes of the options without a key (52-77).  A LIMIT of the
    query is a non-negative INT64. *)
Definition option_text (i : item) : option string :=
  match i with
  | IDistinct => Some "{""type"":""aggregate_distinct"",""value"":null}"
  | IIgnore => Some "{""type"":""aggregate_ignore_nulls"",""value"":null}"
  | ILimit n => Some ("{""type"":""aggregate_limit"",""value"":" ++ dec n ++ "}")
  | IOrder _ _ => None
  end.
Definition json_space (c : ascii) : bool :=
  Ascii.eqb c " " || Ascii.eqb c "009" || Ascii.eqb c "010" || Ascii.eqb c "013".
Fixpoint starts_brace (s : string) : bool :=
  match s with
  | EmptyString => false
  | String c r => if json_space c then starts_brace r else Ascii.eqb c "{"
  end.

(** Value.ToString (value.go:124, 255, 399, 847, 942, 1570): what DISTINCT compares and
    parseAggregateOptions reads.  [other] is the text of the types not listed. *)
Definition val_text (other : val -> res string) (v : val) : res string :=
  match v with
  | VInt z => Ok (dec z)
  | VStr s | VJson s => Ok s
  | VBytes s => Ok (base64_text s)
  | VBool b => Ok (if b then "true" else "false")
  | _ => other v
  end.

(** An argument of the SQL call: a value, or the result of an option function. *)
Inductive arg := AVal (v : option val) | AOpt (i : item).

Section Call.
  Variable text : val -> res string.
  (** json.Unmarshal of a text into AggregatorFuncOption (13-41) when the text is a JSON
      object; [None] is an error or an unknown "type". *)
  Variable loose : string -> option item.

  Definition option_of (s : string) : option item :=
    if starts_brace s then loose s else None.

  (** function_aggregate_option.go:122-158 *)
  Fixpoint parse_args (args : list arg) (vs : list (option val)) (o : aopt) : list (option val) * aopt :=
    match args with
    | [] => (vs, o)
    | AOpt i :: r => parse_args r vs (set_item o (reread i))
    | AVal None :: r => parse_args r (vs ++ [None])%list o
    | AVal (Some v) :: r =>
        match text v with
        | Ok t => match option_of t with
                  | Some i => parse_args r vs (set_item o i)
                  | None => parse_args r (vs ++ [Some v])%list o
                  end
        | _ => parse_args r (vs ++ [Some v])%list o
        end
    end.

  (** ** Aggregator *)
  (** A function: its state, Step and Done.  Done is a relation because of sort.Slice. *)
  Record agg := { St : Type; init : St; step : St -> list (option val) -> aopt -> res St; done : St -> res (option val) -> Prop }.

  (** function_bind.go:52-57 *)
  Record dst := { d_map : list string; d_nil : bool }.
  Definition d_empty : dst := {| d_map := []; d_nil := false |}.

  Definition is_some {A} (o : option A) : bool := match o with Some _ => true | None => false end.
  (** function_bind.go:59-99; the first component of the result is the new distinctMap, the
      second the arguments passed to the function, if it is called. *)
  Definition admit_row (d : dst) (vs : list (option val)) (o : aopt) : res (dst * option (list (option val))) :=
    let vs1 := if a_ignore o then filter is_some vs else vs in
    if a_ignore o && Nat.eqb (List.length vs1) 0 then Ok (d, None)
    else if a_distinct o then
      match vs1 with
      | [] => Err
      | None :: _ => if d_nil d then Ok (d, None) else Ok ({| d_map := d_map d; d_nil := true |}, Some vs1)
      | Some v :: _ =>
          bind (text v) (fun k =>
            if existsb (String.eqb k) (d_map d) then Ok (d, None)
            else Ok ({| d_map := k :: d_map d; d_nil := d_nil d |}, Some vs1))
      end
    else Ok (d, Some vs1).
  Definition outer_step (a : agg) (st : dst * St a) (args : list arg) : res (dst * St a) :=
    let '(vs, o) := parse_args args [] no_opt in
    bind (admit_row (fst st) vs o) (fun '(d, go) =>
      match go with
      | None => Ok (d, snd st)
      | Some vs1 => bind (step a (snd st) vs1 o) (fun s => Ok (d, s))
      end).
  Fixpoint outer_steps (a : agg) (st : dst * St a) (rows : list (list arg)) : res (dst * St a) :=
    match rows with
    | [] => Ok st
    | r :: rs => bind (outer_step a st r) (fun st' => outer_steps a st' rs)
    end.
  (** The possible results of the aggregate over the rows of a group. *)
  Definition call (a : agg) (rows : list (list arg)) (r : res (option val)) : Prop :=
    match outer_steps a (d_empty, init a) rows with
    | Ok st => done a (snd st) r
    | Err => r = Err
    | GoPanic => r = GoPanic
    end.
End Call.
Definition exactly {S} (f : S -> res (option val)) (s : S) (r : res (option val)) : Prop := r = f s.

(** args[0] of the binders (function_bind.go:3094-3330): an index out of range panics *)
Definition arg0 (args : list (option val)) : res (option val) :=
  match args with [] => GoPanic | v :: _ => Ok v end.
Definition unary {S} (f : S -> val -> res S) (s : S) (args : list (option val)) (o : aopt) : res S :=
  bind (arg0 args) (fun v => match v with None => Ok s | Some x => f s x end).

(** ** The functions *)
(** Value.Add on two values of one type (value.go:45, 499, 635) *)
Definition add (x y : val) : res val :=
  match x, y with
  | VInt a, VInt b => Ok (VInt (wrap64 (a + b)))
  | VFloat a, VFloat b => Ok (VFloat (fadd a b))
  | VNum a, VNum b => Ok (VNum (num_add a b))
  | _, _ => Err
  end.
(** function_aggregate.go:511-533 *)
Definition agg_sum : agg := {|
  St := option val; init := None;
  step := unary (fun s v => match s with None => Ok (Some v) | Some t => bind (add t v) (fun u => Ok (Some u)) end);
  done := exactly (fun s => Ok s) |}.
(** function_aggregate.go:140-170.  ToFloat64 of an INT64 and a FLOAT64 sum; the others are
    not modelled. *)
Definition to_float (v : val) : res float :=
  match v with VInt z => Ok (float_of_int z) | VFloat f => Ok f | _ => Err end.
Definition agg_avg : agg := {|
  St := option val * Z; init := (None, 0);
  step := unary (fun (s : option val * Z) v =>
    bind (match fst s with None => Ok v | Some t => add t v end) (fun u => Ok (Some u, wrap64 (snd s + 1))));
  done := exactly (fun s => match fst s with
                   | None => Ok None
                   | Some t => bind (to_float t) (fun b => Ok (Some (VFloat (fdiv b (float_of_int (snd s))))))
                   end) |}.
(** function_aggregate.go:252-276 *)
Definition agg_count : agg := {|
  St := option Z; init := None;
  step := unary (fun s _ => Ok (match s with None => Some 1 | Some n => Some (wrap64 (n + 1)) end));
  done := exactly (fun s => Ok (Some (VInt (match s with None => 0 | Some n => n end)))) |}.
(** function_aggregate.go:278-289 *)
Definition agg_count_star : agg := {|
  St := Z; init := 0; step := fun s _ _ => Ok (wrap64 (s + 1)); done := exactly (fun s => Ok (Some (VInt s))) |}.
(** value.go:136-145, 861; a BOOL argument arrives as the INT64 0 or 1 *)
Definition to_bool (v : val) : res bool :=
  match v with
  | VBool b => Ok b
  | VInt z => if z =? 0 then Ok false else if z =? 1 then Ok true else Err
  | _ => Err
  end.
(** function_aggregate.go:291-323 *)
Definition agg_countif : agg := {|
  St := option Z; init := None;
  step := unary (fun s v => bind (to_bool v) (fun b =>
    Ok (if b then match s with None => Some 1 | Some n => Some (wrap64 (n + 1)) end else s)));
  done := exactly (fun s => Ok (Some (VInt (match s with None => 0 | Some n => n end)))) |}.
(** function_aggregate.go:325-371; the initial values are in function_bind.go:3257, 3270 *)
Definition agg_logical_and : agg := {|
  St := bool; init := true; step := unary (fun s v => bind (to_bool v) (fun b => Ok (if b then s else false)));
  done := exactly (fun s => Ok (Some (VBool s))) |}.
Definition agg_logical_or : agg := {|
  St := bool; init := false; step := unary (fun s v => bind (to_bool v) (fun b => Ok (if b then true else s)));
  done := exactly (fun s => Ok (Some (VBool s))) |}.
(** function_aggregate.go:373-429 *)
Definition agg_extreme (op : cmpop) : agg := {|
  St := option val; init := None;
  step := unary (fun s v => match s with
                            | None => Ok (Some v)
                            | Some m => bind (cmp op v m) (fun b => Ok (Some (if b then v else m)))
                            end);
  done := exactly (fun s => Ok s) |}.
Definition agg_max : agg := agg_extreme GT.
Definition agg_min : agg := agg_extreme LT.
(** function_aggregate.go:42-62 *)
Definition agg_any_value : agg := {|
  St := option val; init := None; step := unary (fun s v => Ok (match s with None => Some v | Some w => Some w end));
  done := exactly (fun s => Ok s) |}.
(** value.go:120: ToInt64 of an INT64 *)
Definition to_int (v : val) : res Z := match v with VInt z => Ok z | _ => Err end.
(** function_aggregate.go:172-250; initial values in function_bind.go:3201, 3215, 3229 *)
Definition agg_bit (f : Z -> Z -> Z) (start : Z) (replace : Z -> bool) : agg := {|
  St := Z; init := start;
  step := unary (fun s v => bind (to_int v) (fun z => Ok (if replace s then z else f s z)));
  done := exactly (fun s => Ok (Some (VInt s))) |}.
Definition agg_bit_and : agg := agg_bit Z.land (-1) (fun _ => false).
Definition agg_bit_or : agg := agg_bit Z.lor (-1) (Z.eqb (-1)).
Definition agg_bit_xor : agg := agg_bit Z.lxor 1 (Z.eqb 1).

(** ** ARRAY_AGG and STRING_AGG *)
Record ordered := { o_keys : list (option val * bool); o_val : val }.
(** The comparison of sort.Slice in sortAggregatedValues (function_aggregate.go:455-480).
    Errors are ignored.  The directions are read from the first row; all rows have the
    same. *)
Definition holds (r : res bool) : bool := match r with Ok b => b | _ => false end.
Fixpoint less_keys (ks js : list (option val * bool)) : bool :=
  match ks, js with
  | (k, asc) :: ks', (j, _) :: js' =>
      match k, j with
      | None, _ => asc
      | Some _, None => negb asc
      | Some a, Some b =>
          if holds (cmp EQ a b) then less_keys ks' js' else holds (cmp (if asc then LT else GT) a b)
      end
  | _, _ => false
  end.
Definition less (x y : ordered) : bool := less_keys (o_keys x) (o_keys y).

(** Go's sort.Slice: a permutation; sorted if the comparison is a strict weak order; and
    insertion sort, which it uses up to 12 elements. *)
Section Sort.
  Context {A : Type}.
  Variable lt : A -> A -> bool.
  Definition weak_order (l : list A) : Prop :=
    (forall x, In x l -> lt x x = false) /\
    (forall x y z, In x l -> In y l -> In z l -> lt x y = true -> lt y z = true -> lt x z = true) /\
    (forall x y z, In x l -> In y l -> In z l -> lt x y = false -> lt y z = false -> lt x z = false).
  Definition sorted_by (l : list A) : Prop := StronglySorted (fun a b => lt b a = false) l.
  (** [p] is the sorted part, last element first *)
  Fixpoint ins (x : A) (p : list A) : list A :=
    match p with
    | [] => [x]
    | y :: q => if lt x y then y :: ins x q else x :: p
    end.
  Definition insertion (l : list A) : list A := rev (fold_left (fun p x => ins x p) l []).
  Definition go_sort (l out : list A) : Prop :=
    Permutation l out /\ (weak_order l -> sorted_by out) /\ ((List.length l <= 12)%nat -> out = insertion l).
End Sort.

(** sortAggregatedValues, function_aggregate.go:450-482 *)
Definition sort_agg (vs : list ordered) (o : option aopt) (out : list ordered) : Prop :=
  match o with
  | Some {| a_order := [] |} => out = vs
  | _ => go_sort less vs out
  end.
(** The LIMIT of Done (function_aggregate.go:83-89): vs[:min]; a negative bound panics. *)
Definition take_limit {A} (o : option aopt) (vs : list A) : res (list A) :=
  match o with
  | Some {| a_limit := Some n |} =>
      if n <? 0 then GoPanic else Ok (firstn (Z.to_nat n) vs)
  | _ => Ok vs
  end.
(** The state of ARRAY_AGG and STRING_AGG: the values and the options of the first call
    (function_aggregate.go:64-79, 431-448).  [null] is what a NULL argument does. *)
Record collected := { c_vals : list ordered; c_opt : option aopt }.
Definition collect (s : collected) (v : val) (o : aopt) : collected :=
  {| c_vals := c_vals s ++ [{| o_keys := a_order o; o_val := v |}];
     c_opt := match c_opt s with None => Some o | Some p => Some p end |}.
Definition array_agg_step (s : collected) (args : list (option val)) (o : aopt) : res collected :=
  bind (arg0 args) (fun v => match v with None => Err | Some x => Ok (collect s x o) end).
(** function_aggregate.go:81-99; relational because of the sort *)
Definition array_agg_done (s : collected) (r : res (option val)) : Prop :=
  exists out, sort_agg (c_vals s) (c_opt s) out /\
    r = bind (take_limit (c_opt s) out) (fun l => Ok (Some (VArray (map (fun x => Some (o_val x)) l)))).
Definition agg_array_agg : agg := {| St := collected; init := {| c_vals := []; c_opt := None |}; step := array_agg_step; done := array_agg_done |}.
(** function_bind.go:3304-3326, function_aggregate.go:438-448, 484-509 *)
Record str_state := { s_col : collected; s_delim : option string }.
Definition string_agg_step (text : val -> res string) (s : str_state) (args : list (option val)) (o : aopt) : res str_state :=
  bind (match args with
        | [_] => Ok ""
        | _ :: Some d :: _ => text d
        | _ => GoPanic
        end) (fun delim =>
  bind (arg0 args) (fun v =>
    match v with
    | None => Ok s
    | Some x => Ok {| s_col := collect (s_col s) x o;
                      s_delim := match s_delim s with
                                 | None => Some (if String.eqb delim "" then "," else delim)
                                 | Some d => Some d
                                 end |}
    end)).
Fixpoint texts (text : val -> res string) (l : list ordered) : res (list string) :=
  match l with
  | [] => Ok []
  | x :: r => bind (text (o_val x)) (fun t => bind (texts text r) (fun ts => Ok (t :: ts)))
  end.
Definition string_agg_done (text : val -> res string) (s : str_state) (r : res (option val)) : Prop :=
  exists out, sort_agg (c_vals (s_col s)) (c_opt (s_col s)) out /\
    r = bind (take_limit (c_opt (s_col s)) out) (fun l =>
        bind (texts text l) (fun ts =>
          Ok (match ts with
              | [] => None
              | _ => Some (VStr (join (match s_delim s with Some d => d | None => "" end) ts))
              end))).
Definition agg_string_agg (text : val -> res string) : agg := {|
  St := str_state; init := {| s_col := {| c_vals := []; c_opt := None |}; s_delim := None |};
  step := string_agg_step text; done := string_agg_done text |}.
