(** Analytic (window) functions: internal/function_window.go,
    internal/function_window_option.go, WindowAggregator and the bindWindow functions in
    internal/function_bind.go, AnalyticFunctionCallNode.FormatSQL in internal/formatter.go.

    For every row of the result the generated SQL runs an aggregate over all rows of the
    input (formatter.go:394-406, 1184-1190); the number of the row the result is for comes
    with each call as an option.  The rows are taken to come in the same order each time.

    PERCENTILE_CONT and PERCENTILE_DISC are in WinAggModel; CORR, COVAR, STDDEV and VAR in
    WinStatModel. *)
From Coq Require Import Ascii String List ZArith QArith Lia Bool SpecFloat.
From Verif Require Import GoBase ValueModel CastModel CodecModel DecModel AggModel.
Import ListNotations.
Local Open Scope string_scope.
Open Scope Z_scope.

(** ** Options *)
(** function_window_option.go:81-103 *)
Inductive frame_unit := UNone | URows | URange.
Inductive bkind := BUnknown | UnboundedPreceding | OffsetPreceding | CurrentRow | OffsetFollowing | UnboundedFollowing.
Record bound := { b_kind : bkind; b_off : Z }.
Definition unit_eqb (a b : frame_unit) : bool :=
  match a, b with UNone, UNone | URows, URows | URange, URange => true | _, _ => false end.
Definition kind_eqb (a b : bkind) : bool :=
  match a, b with
  | BUnknown, BUnknown | UnboundedPreceding, UnboundedPreceding | OffsetPreceding, OffsetPreceding
  | CurrentRow, CurrentRow | OffsetFollowing, OffsetFollowing | UnboundedFollowing, UnboundedFollowing => true
  | _, _ => false
  end.
(** function_window_option.go:160-266 *)
Inductive witem :=
| WUnit (u : frame_unit)
| WStart (b : bound)
| WEnd (b : bound)
| WPart (k : option val)
| WRow (id : Z)
| WOrder (k : option val) (asc : bool).
(** A key inside an option: EncodeValue, json.Marshal, json.Unmarshal into an interface{}
    and DecodeValue (function_window_option.go:199-212, 225-266, 63-68): a number becomes a
    float64, one that is not finite makes Marshal fail. *)
Definition win_key (k : option val) : res (option val) :=
  match k with
  | None => Ok None
  | Some v =>
      bind (encode_value v) (fun e => bind (marshal e) (fun e =>
        match e with EInt z => Ok (Some (VFloat (float_of_int z))) | _ => decode_value e end))
  end.
Definition sent_item (i : witem) : res witem :=
  match i with
  | WPart k => bind (win_key k) (fun k' => Ok (WPart k'))
  | WOrder k asc => bind (win_key k) (fun k' => Ok (WOrder k' asc))
  | _ => Ok i
  end.
(** function_window_option.go:268-275 *)
Record wopt := { w_unit : frame_unit; w_start : option bound; w_end : option bound; w_parts : list val; w_row : Z; w_order : list (option val * bool) }.
Definition no_wopt : wopt := {| w_unit := UNone; w_start := None; w_end := None; w_parts := []; w_row := 0; w_order := [] |}.
(** function_window_option.go:309-325.  v.Value.(Value) panics on a NULL partition key. *)
Definition set_witem (o : wopt) (i : witem) : res wopt :=
  match i with
  | WUnit u => Ok {| w_unit := u; w_start := w_start o; w_end := w_end o; w_parts := w_parts o; w_row := w_row o; w_order := w_order o |}
  | WStart b => Ok {| w_unit := w_unit o; w_start := Some b; w_end := w_end o; w_parts := w_parts o; w_row := w_row o; w_order := w_order o |}
  | WEnd b => Ok {| w_unit := w_unit o; w_start := w_start o; w_end := Some b; w_parts := w_parts o; w_row := w_row o; w_order := w_order o |}
  | WPart None => GoPanic
  | WPart (Some k) => Ok {| w_unit := w_unit o; w_start := w_start o; w_end := w_end o; w_parts := (w_parts o ++ [k])%list; w_row := w_row o; w_order := w_order o |}
  | WRow id => Ok {| w_unit := w_unit o; w_start := w_start o; w_end := w_end o; w_parts := w_parts o; w_row := id; w_order := w_order o |}
  | WOrder k asc => Ok {| w_unit := w_unit o; w_start := w_start o; w_end := w_end o; w_parts := w_parts o; w_row := w_row o; w_order := (w_order o ++ [(k, asc)])%list |}
  end.

(** An argument of the SQL call: a value, or the result of an option function. *)
Inductive warg := PVal (v : option val) | PAgg (i : item) | PWin (i : witem).

(** ** The rows of a call *)
(** WindowOrderedValue with the place it has in WindowFuncAggregatedStatus.Values, which
    stands for its pointer, and the partition it was put in, if any
    (function_window_option.go:330-351). *)
Record ent := { e_id : nat; e_keys : list (option val * bool); e_val : option val; e_part : option string }.
(** The comparison of sort.Slice (function_window_option.go:409-434).  The directions are
    those of the first row; all rows have the same. *)
Fixpoint wless_keys (ks js : list (option val * bool)) : bool :=
  match ks, js with
  | (k, asc) :: ks', (j, _) :: js' =>
      match k, j with
      | None, _ => true
      | Some _, None => false
      | Some a, Some b =>
          if holds (cmp EQ a b) then wless_keys ks' js' else holds (cmp (if asc then LT else GT) a b)
      end
  | _, _ => false
  end.
Definition wless (x y : ent) : bool := wless_keys (e_keys x) (e_keys y).

(** What the first Step stores (function_window_option.go:360-365), and the rows. *)
Record wst := { s_first : option (wopt * aopt); s_ents : list ent }.
Definition wst0 : wst := {| s_first := None; s_ents := [] |}.

Definition has_part (x : ent) : bool := match e_part x with Some _ => true | None => false end.
(** PartitionedValues *)
Definition pvals (l : list ent) : list ent := filter has_part l.
Definition nth_row {A} (l : list A) (rid : Z) : res A :=
  if rid <? 1 then GoPanic else match nth_error l (Z.to_nat (rid - 1)) with Some x => Ok x | None => GoPanic end.
(** The row the result is for, function_window_option.go:515-538 *)
Definition current (l : list ent) (rid : Z) : res ent :=
  match pvals l with [] => nth_row l rid | p => nth_row p rid end.
(** FilteredValues and Partition, function_window_option.go:469-478 *)
Definition part_eqb (a b : option string) : bool :=
  match a, b with Some x, Some y => String.eqb x y | None, None => true | _, _ => false end.
Definition filtered (l : list ent) (rid : Z) : res (list ent) :=
  match pvals l with
  | [] => Ok l
  | p => bind (nth_row p rid) (fun c => Ok (filter (fun x => part_eqb (e_part x) (e_part c)) p))
  end.

(** ** Frames *)
(** function_window_option.go:521-526 *)
Fixpoint index_of (id : nat) (l : list ent) (i : Z) : res Z :=
  match l with
  | [] => Err
  | x :: r => if Nat.eqb (e_id x) id then Ok i else index_of id r (i + 1)
  end.
Definition cur_index (sorted : list ent) (cur : res ent) : res Z := bind cur (fun c => index_of (e_id c) sorted 0).
(** function_window_option.go:491-513; a nil boundary panics *)
Definition rows_index (sorted : list ent) (cur : res ent) (b : option bound) : res Z :=
  match b with
  | None => GoPanic
  | Some b =>
      match b_kind b with
      | UnboundedPreceding => Ok 0
      | CurrentRow => cur_index sorted cur
      | UnboundedFollowing => Ok (zlen sorted - 1)
      | OffsetPreceding => bind (cur_index sorted cur) (fun i => Ok (wrap64 (i - b_off b)))
      | OffsetFollowing => bind (cur_index sorted cur) (fun i => Ok (wrap64 (i + b_off b)))
      | BUnknown => Err
      end
  end.
(** The last ORDER BY key of a row *)
Definition last_key (x : ent) : option (option val * bool) :=
  match rev (e_keys x) with [] => None | k :: _ => Some k end.
(** rangeValue.op(target) with nil possible on both sides *)
Definition key_op (op : cmpop) (a b : option val) : res bool :=
  match a, b with
  | None, _ => GoPanic
  | Some x, None => if refuses op x then Err else GoPanic
  | Some x, Some y => cmp op x y
  end.
(** lookupMinIndexFromRangeValue and lookupMaxIndexFromRangeValue,
    function_window_option.go:597-633.  [found] is the index so far, [i] the index of the
    head of the list; the first walks from the end. *)
Fixpoint scan_keys (op : cmpop) (a : option val) (l : list (Z * ent)) (found : Z) : res Z :=
  match l with
  | [] => Ok found
  | (i, x) :: r =>
      match last_key x with
      | None => scan_keys op a r found
      | Some (k, _) => bind (key_op op a k) (fun b => scan_keys op a r (if b then i else found))
      end
  end.
Fixpoint numbered {A} (i : Z) (l : list A) : list (Z * A) :=
  match l with [] => [] | x :: r => (i, x) :: numbered (i + 1) r end.
Definition lookup_max (sorted : list ent) (a : option val) : res Z := scan_keys GTE a (numbered 0 sorted) (-1).
Definition lookup_min (sorted : list ent) (a : option val) : res Z := scan_keys LTE a (rev (numbered 0 sorted)) (-1).
(** value.Sub and value.Add of the key with IntValue(offset): FLOAT64 (value.go:499-515),
    NUMERIC (635-652); other types of key do not have offsets. *)
Definition shift_key (neg : bool) (k : option val) (off : Z) : res (option val) :=
  match k with
  | None => GoPanic
  | Some (VFloat f) => Ok (Some (VFloat (if neg then fsub f (float_of_int off) else fadd f (float_of_int off))))
  | Some (VNum q) => Ok (Some (VNum (if neg then num_sub q (inject_Z off) else num_add q (inject_Z off))))
  | Some _ => Err
  end.
(** function_window_option.go:540-595 *)
Definition range_index (sorted : list ent) (cur : res ent) (b : option bound) : res Z :=
  let key := bind cur (fun c => match last_key c with None => Err | Some (k, _) => Ok k end) in
  match b with
  | None => GoPanic
  | Some b =>
      match b_kind b with
      | UnboundedPreceding => Ok 0
      | UnboundedFollowing => Ok (zlen sorted - 1)
      | CurrentRow => bind key (fun k => lookup_max sorted k)
      | OffsetPreceding => bind key (fun k => bind (shift_key true k (b_off b)) (fun k => lookup_min sorted k))
      | OffsetFollowing => bind key (fun k => bind (shift_key false k (b_off b)) (fun k => lookup_max sorted k))
      | BUnknown => Err
      end
  end.
(** function_window_option.go:480-489 *)
Definition bound_index (u : frame_unit) (sorted : list ent) (cur : res ent) (b : option bound) : res Z :=
  match u with
  | URows => rows_index sorted cur b
  | URange => range_index sorted cur b
  | UNone => cur_index sorted cur
  end.
(** function_window_option.go:449-458: the frame, or none *)
Definition clamp (n s e : Z) : option (Z * Z) :=
  if (n <=? s) || (e <? 0) then None
  else Some (if s <? 0 then 0 else s, if n <=? e then n - 1 else e).
(** values[start : end+1] *)
Definition slice {A} (l : list A) (s e : Z) : res (list A) :=
  if e + 1 <? s then GoPanic else Ok (firstn (Z.to_nat (e + 1 - s)) (skipn (Z.to_nat s) l)).

(** ** A window function
    Step: what it keeps between calls, and the value it stores for the row, [None] if it
    stores nothing.  Done: the callback, given what was kept, the options of the first row,
    the sorted rows and the frame. *)
Record wfn := {
  Wst : Type; winit : Wst;
  wstep : Wst -> list (option val) -> res (Wst * option (option val));
  wdone : Wst -> aopt -> list ent -> option (Z * Z) -> res (option val) }.

Section Call.
  Variable text : val -> res string.
  (** json.Unmarshal of a user's text that is a JSON object into an aggregate or a window
      option; [None] if it is not one. *)
  Variable loose : string -> option item.
  Variable wloose : string -> option witem.
  (** sort.Slice *)
  Variable sort : (ent -> ent -> bool) -> list ent -> list ent.

  (** parseAggregateOptions (function_aggregate_option.go:122-158), then parseWindowOptions
      (function_window_option.go:289-328) on what it leaves; the two passes are one here. *)
  Fixpoint wparse (args : list warg) (vs : list (option val)) (a : aopt) (w : wopt) : res (list (option val) * aopt * wopt) :=
    match args with
    | [] => Ok (vs, a, w)
    | PAgg i :: r => wparse r vs (set_item a (reread i)) w
    | PWin i :: r => bind (sent_item i) (fun i' => bind (set_witem w i') (fun w' => wparse r vs a w'))
    | PVal None :: r => wparse r (vs ++ [None])%list a w
    | PVal (Some v) :: r =>
        match text v with
        | Ok t =>
            match option_of loose t with
            | Some i => wparse r vs (set_item a i) w
            | None =>
                match (if starts_brace t then wloose t else None) with
                | Some i => bind (set_witem w i) (fun w' => wparse r vs a w')
                | None => wparse r (vs ++ [Some v])%list a w
                end
            end
        | _ => wparse r (vs ++ [Some v])%list a w
        end
    end.

  (** WindowFuncStatus.Partition, function_window_option.go:277-287 *)
  Fixpoint part_texts (l : list val) : res (list string) :=
    match l with [] => Ok [] | k :: r => bind (text k) (fun t => bind (part_texts r) (fun ts => Ok (t :: ts))) end.
  Definition partition (l : list val) : res (option string) :=
    match l with [] => Ok None | _ => bind (part_texts l) (fun ts => Ok (Some (join "_" ts))) end.

  (** function_window_option.go:369-378 *)
  Definition same_kind (first now : option bound) : res unit :=
    match first with
    | None => Ok tt
    | Some b => match now with None => GoPanic | Some b' => if kind_eqb (b_kind b) (b_kind b') then Ok tt else Err end
    end.
  (** WindowFuncAggregatedStatus.Step, function_window_option.go:359-399; the options are
      stored by WindowAggregator.Step, function_bind.go:134-136. *)
  Definition agg_step (st : wst) (v : option val) (a : aopt) (w : wopt) : res wst :=
    let f := match s_first st with Some f => f | None => (w, a) end in
    if negb (unit_eqb (w_unit (fst f)) (w_unit w)) then Err
    else bind (same_kind (w_start (fst f)) (w_start w)) (fun _ =>
         bind (same_kind (w_end (fst f)) (w_end w)) (fun _ =>
         if negb (w_row (fst f) =? w_row w) then Err
         else bind (partition (w_parts w)) (fun p =>
           Ok {| s_first := Some f;
                 s_ents := (s_ents st ++ [{| e_id := List.length (s_ents st); e_keys := w_order w; e_val := v; e_part := p |}])%list |}))).
  (** WindowAggregator.Step, function_bind.go:127-138 *)
  Definition row_step (f : wfn) (st : Wst f * wst) (args : list warg) : res (Wst f * wst) :=
    bind (wparse args [] no_opt no_wopt) (fun '(vs, a, w) =>
    bind (wstep f (fst st) vs) (fun '(s, v) =>
      match v with
      | None => Ok (s, snd st)
      | Some v => bind (agg_step (snd st) v a w) (fun t => Ok (s, t))
      end)).
  Fixpoint row_steps (f : wfn) (st : Wst f * wst) (rows : list (list warg)) : res (Wst f * wst) :=
    match rows with
    | [] => Ok st
    | r :: rs => bind (row_step f st r) (fun st' => row_steps f st' rs)
    end.
  (** WindowFuncAggregatedStatus.Done, function_window_option.go:401-459.  The callback does
      not depend on rows outside the partition.  Without any row RowID is 0. *)
  Definition finish (f : wfn) (s : Wst f) (st : wst) : res (option val) :=
    match s_first st with
    | None => Err
    | Some (w, a) =>
        if w_row w <=? 0 then Err
        else bind (filtered (s_ents st) (w_row w)) (fun l =>
             let sorted := sort wless l in
             let cur := current (s_ents st) (w_row w) in
             bind (bound_index (w_unit w) sorted cur (w_start w)) (fun i =>
             bind (bound_index (w_unit w) sorted cur (w_end w)) (fun j =>
             wdone f s a sorted (clamp (zlen sorted) i j))))
    end.
  Definition wcall (f : wfn) (rows : list (list warg)) : res (option val) :=
    bind (row_steps f (winit f, wst0) rows) (fun st => finish f (fst st) (snd st)).

  (** AnalyticFunctionCallNode.FormatSQL, formatter.go:354-406: the arguments, DISTINCT,
      IGNORE NULLS unless RESPECT NULLS was written, PARTITION BY, ORDER BY - where the
      partition columns come first (formatter.go:1116-1148) - the frame, and the row. *)
  Record trow := { t_args : list (option val); t_part : list (option val); t_order : list (option val * bool) }.
  Record spec := { p_distinct : bool; p_respect : bool; p_frame : option (frame_unit * bound * bound) }.
  Definition call_args (p : spec) (rid : Z) (t : trow) : list warg :=
    (map PVal (t_args t)
     ++ (if p_distinct p then [PAgg IDistinct] else [])
     ++ (if p_respect p then [] else [PAgg IIgnore])
     ++ map (fun k => PWin (WPart k)) (t_part t)
     ++ map (fun k => PWin (WOrder k true)) (t_part t)
     ++ map (fun k => PWin (WOrder (fst k) (snd k))) (t_order t)
     ++ match p_frame p with Some (u, s, e) => [PWin (WUnit u); PWin (WStart s); PWin (WEnd e)] | None => [] end
     ++ [PWin (WRow rid)])%list.
  (** f(...) OVER (...) for the row number rid of the input, counted from 1. *)
  Definition over (f : wfn) (p : spec) (rows : list trow) (rid : Z) : res (option val) :=
    wcall f (map (call_args p rid) rows).

  (** ** The functions *)
  Definition vals (l : list ent) : list (option val) := map e_val l.
  (** The values of the frame; [none] if there is no frame *)
  Definition in_frame {B} (none : B) (sorted : list ent) (fr : option (Z * Z)) (k : list (option val) -> res B) : res B :=
    match fr with None => Ok none | Some (s, e) => bind (slice (vals sorted) s e) k end.
  (** Functions of one argument; args[0] panics when the argument was taken for an option. *)
  Definition store0 (s : unit) (args : list (option val)) : res (unit * option (option val)) :=
    bind (arg0 args) (fun v => Ok (tt, Some v)).
  (** Functions without argument: agg.Step(IntValue(1), opt) *)
  Definition store1 (s : unit) (args : list (option val)) : res (unit * option (option val)) :=
    Ok (tt, Some (Some (VInt 1))).
  Definition simple (step : unit -> list (option val) -> res (unit * option (option val))) (d : aopt -> list ent -> option (Z * Z) -> res (option val)) : wfn :=
    {| Wst := unit; winit := tt; wstep := step; wdone := fun _ => d |}.

  (** The values that are not NULL; with DISTINCT the first with each text
      (function_window.go:97-110 and alike).  The loops of the functions interleave this
      with their own work; every failure is an error either way. *)
  Fixpoint kept (dist : bool) (seen : list string) (l : list (option val)) : res (list val) :=
    match l with
    | [] => Ok []
    | None :: r => kept dist seen r
    | Some v :: r =>
        if dist then
          bind (text v) (fun t =>
            if existsb (String.eqb t) seen then kept dist seen r
            else bind (kept dist (t :: seen) r) (fun vs => Ok (v :: vs)))
        else bind (kept dist seen r) (fun vs => Ok (v :: vs))
    end.
  Fixpoint foldr {A B} (f : A -> B -> res A) (a : A) (l : list B) : res A :=
    match l with [] => Ok a | x :: r => bind (f a x) (fun a' => foldr f a' r) end.

  (** function_window.go:13-32 *)
  Definition w_any_value : wfn := simple store0 (fun a l fr =>
    match fr with None => Ok None | Some (s, _) => nth_row (vals l) (s + 1) end).
  (** function_window.go:34-78.  A NULL is an error in Step. *)
  Definition w_array_agg : wfn := simple
    (fun _ args => bind (arg0 args) (fun v => match v with None => Err | Some x => Ok (tt, Some (Some x)) end))
    (fun a l fr => in_frame (Some (VArray [])) l fr (fun vs =>
       bind (kept (a_distinct a) [] vs) (fun ks => Ok (Some (VArray (map Some ks)))))).
  (** function_window.go:80-138.  Value.Add of a FLOAT64 converts its argument. *)
  Definition avg_step (s : option float) (v : val) : res (option float) :=
    bind (to_float v) (fun f => Ok (Some (match s with None => f | Some t => fadd t f end))).
  Definition w_avg : wfn := simple store0 (fun a l fr =>
    in_frame None l fr (fun vs =>
      bind (kept (a_distinct a) [] vs) (fun ks =>
      bind (foldr avg_step None ks) (fun s =>
        Ok (option_map (fun f => VFloat (fdiv f (float_of_int (zlen vs)))) s))))).
  (** function_window.go:140-172 *)
  Definition w_count : wfn := simple store0 (fun a l fr =>
    in_frame (Some (VInt 0)) l fr (fun vs =>
      bind (kept (a_distinct a) [] vs) (fun ks => Ok (Some (VInt (zlen ks)))))).
  (** function_window.go:174-190 *)
  Definition w_count_star : wfn := simple store1 (fun a l fr =>
    in_frame (Some (VInt 0)) l fr (fun vs => Ok (Some (VInt (zlen vs))))).
  (** function_window.go:192-219 *)
  Definition countif_step (n : Z) (v : val) : res Z := bind (to_bool v) (fun b => Ok (if b then n + 1 else n)).
  Definition w_countif : wfn := simple store0 (fun a l fr =>
    in_frame (Some (VInt 0)) l fr (fun vs =>
      bind (kept false [] vs) (fun ks => bind (foldr countif_step 0 ks) (fun n => Ok (Some (VInt n)))))).
  (** function_window.go:221-289 *)
  Definition extreme_step (op : cmpop) (s : option val) (v : val) : res (option val) :=
    match s with None => Ok (Some v) | Some m => bind (cmp op v m) (fun b => Ok (Some (if b then v else m))) end.
  Definition w_extreme (op : cmpop) : wfn := simple store0 (fun a l fr =>
    in_frame None l fr (fun vs => bind (kept false [] vs) (fun ks => foldr (extreme_step op) None ks))).
  Definition w_max : wfn := w_extreme GT.
  Definition w_min : wfn := w_extreme LT.
  (** function_window.go:291-338, function_bind.go:3739-3759 *)
  Fixpoint texts_of (l : list val) : res (list string) :=
    match l with [] => Ok [] | v :: r => bind (text v) (fun t => bind (texts_of r) (fun ts => Ok (t :: ts))) end.
  Definition w_string_agg : wfn := {|
    Wst := option string; winit := None;
    wstep := fun s args =>
      bind (match args with [_] => Ok "" | _ :: Some d :: _ => text d | _ => GoPanic end) (fun d =>
      bind (arg0 args) (fun v => Ok (Some (match s with Some d0 => d0 | None => if String.eqb d "" then "," else d end), Some v)));
    wdone := fun s a l fr => in_frame None l fr (fun vs =>
      bind (kept (a_distinct a) [] vs) (fun ks => bind (texts_of ks) (fun ts =>
        Ok (match ts with [] => None | _ => Some (VStr (join (match s with Some d => d | None => "" end) ts)) end)))) |}.
  (** function_window.go:340-380 *)
  Definition sum_step (s : option val) (v : val) : res (option val) :=
    match s with None => Ok (Some v) | Some t => bind (add t v) (fun u => Ok (Some u)) end.
  Definition w_sum : wfn := simple store0 (fun a l fr =>
    in_frame None l fr (fun vs => bind (kept (a_distinct a) [] vs) (fun ks => foldr sum_step None ks))).

  (** The values FIRST_VALUE, LAST_VALUE and NTH_VALUE look at *)
  Definition visible (a : aopt) (vs : list (option val)) : list (option val) :=
    if a_ignore a then filter is_some vs else vs.
  (** function_window.go:382-413 *)
  Definition w_first_value : wfn := simple store0 (fun a l fr =>
    in_frame None l fr (fun vs => Ok (match visible a vs with [] => None | v :: _ => v end))).
  (** function_window.go:415-446 *)
  Definition w_last_value : wfn := simple store0 (fun a l fr =>
    in_frame None l fr (fun vs => Ok (match rev (visible a vs) with [] => None | v :: _ => v end))).
  (** function_window.go:448-487, function_bind.go:3929-3948.  The index is n-1 and the check
      is on n. *)
  Definition nth_at (n : Z) (vs : list (option val)) : res (option val) :=
    match vs with
    | [] => Ok None
    | _ => if (0 <=? n) && (n <? zlen vs) then nth_row vs n else Ok None
    end.
  Definition w_nth_value : wfn := {|
    Wst := option Z; winit := None;
    wstep := fun s args =>
      match args with
      | v :: Some n :: _ => bind (to_int n) (fun n => Ok (Some (match s with Some n0 => n0 | None => n end), Some v))
      | _ :: None :: _ => Err
      | _ => GoPanic
      end;
    wdone := fun s a l fr => in_frame None l fr (fun vs => nth_at (match s with Some n => n | None => 0 end) (visible a vs)) |}.
  (** function_bind.go:3950-4012: offset and default of LEAD and LAG *)
  Definition lead_args (args : list (option val)) : res (option val * Z * option val) :=
    match args with
    | [] => GoPanic
    | v :: r =>
        bind (match r with
              | [] => Ok 1
              | None :: _ => Err
              | Some n :: _ => to_int n
              end) (fun off =>
        if off <? 0 then Err
        else Ok (v, off, match r with [_; d] => d | _ => None end))
    end.
  (** function_window.go:489-555; the offset and default of the first row are kept.
      values[i] panics on a negative index. *)
  Definition value_at (vs : list (option val)) (i : Z) : res (option val) :=
    if i <? 0 then GoPanic else Ok (match nth_error vs (Z.to_nat i) with Some v => v | None => None end).
  Definition or_default (d : option val) (v : option val) : option val := match v with None => d | Some x => Some x end.
  Definition w_lead_lag (pick : Z -> Z -> list (option val) -> res (option val)) : wfn := {|
    Wst := option (Z * option val); winit := None;
    wstep := fun s args => bind (lead_args args) (fun '(v, off, d) => Ok (Some (match s with Some p => p | None => (off, d) end), Some v));
    wdone := fun s a l fr =>
      let '(off, d) := match s with Some p => p | None => (0, None) end in
      bind (match fr with None => Ok None | Some (i, _) => pick i off (vals l) end) (fun v => Ok (or_default d v)) |}.
  Definition w_lead : wfn := w_lead_lag (fun i off vs => let j := wrap64 (i + off) in if zlen vs <=? j then Ok None else value_at vs j).
  Definition w_lag : wfn := w_lead_lag (fun i off vs => let j := wrap64 (i - off) in if j <? 0 then Ok None else value_at vs j).

  (** ToInt64 of a key (value.go:243-263, 574, 840); [text] types other than these are not
      modelled and are an error. *)
  Definition key_int (k : option val) : res Z :=
    match k with
    | None => GoPanic
    | Some (VFloat f) => Ok (int_of_float f)
    | Some (VInt z) => Ok z
    | Some (VBool b) => Ok (if b then 1 else 0)
    | Some (VStr s) => cast_string_int64 s
    | Some _ => Err
    end.
  (** The loop of RANK and PERCENT_RANK, function_window.go:779-812: rank, sameRankNum,
      maxValue *)
  Definition rank_step (asc : bool) (st : Z * Z * Z) (k : option val) : res (Z * Z * Z) :=
    let '(rank, same, m) := st in
    bind (key_int k) (fun c =>
      if (if asc then m <? c else c <? m) then Ok (rank + same, 1, c) else Ok (rank, same + 1, m)).
  (** The loop of DENSE_RANK, function_window.go:853-880 *)
  Definition dense_step (asc : bool) (st : Z * Z) (k : option val) : res (Z * Z) :=
    let '(rank, m) := st in
    bind (key_int k) (fun c => if (if asc then m <? c else c <? m) then Ok (rank + 1, c) else Ok (rank, m)).
  (** math.MaxInt64 *)
  Definition rank_start (asc : bool) : Z := if asc then 0 else two63 - 1.
  (** orderByValues and isAsc; OrderBy[len-1] panics without ORDER BY *)
  Fixpoint last_keys (l : list ent) : res (list (option val * bool)) :=
    match l with
    | [] => Ok []
    | x :: r => match last_key x with None => GoPanic | Some k => bind (last_keys r) (fun ks => Ok (k :: ks)) end
    end.
  Definition first_asc (ks : list (option val * bool)) : bool := match ks with [] => true | k :: _ => snd k end.
  Definition rank_done (loop : bool -> list (option val) -> res Z) (l : list ent) (fr : option (Z * Z)) : res (option Z) :=
    match fr with
    | None => Ok None
    | Some (s, e) =>
        bind (last_keys l) (fun ks =>
        if negb (s =? e) then Err
        else bind (loop (first_asc ks) (firstn (Z.to_nat (s + 1)) (map fst ks))) (fun r => Ok (Some r)))
    end.
  Definition rank_loop (asc : bool) (ks : list (option val)) : res Z :=
    bind (foldr (rank_step asc) (0, 1, rank_start asc) ks) (fun '(r, _, _) => Ok r).
  Definition dense_loop (asc : bool) (ks : list (option val)) : res Z :=
    bind (foldr (dense_step asc) (0, rank_start asc) ks) (fun '(r, _) => Ok r).
  (** function_window.go:750-822 *)
  Definition w_rank : wfn := simple store1 (fun a l fr => bind (rank_done rank_loop l fr) (fun r => Ok (option_map VInt r))).
  (** function_window.go:824-889 *)
  Definition w_dense_rank : wfn := simple store1 (fun a l fr => bind (rank_done dense_loop l fr) (fun r => Ok (option_map VInt r))).
  (** function_window.go:891-970 *)
  Definition w_percent_rank : wfn := simple store1 (fun a l fr =>
    bind (rank_done rank_loop l fr) (fun r =>
      let '(rank, n) := match r with Some r => (r, zlen l) | None => (0, 0) end in
      Ok (Some (VFloat (if n =? 1 then fzero else fdiv (float_of_int (rank - 1)) (float_of_int (n - 1))))))).
  (** function_window.go:972-991 *)
  Definition w_cume_dist : wfn := simple store1 (fun a l fr =>
    Ok (Some (VFloat (match fr with None => fzero | Some (s, _) => fdiv (float_of_int (s + 1)) (float_of_int (zlen l)) end)))).
  (** function_window.go:993-1030, function_bind.go:4098-4120.  normalizeValues: every number
      once, the first [dup] of them twice; Go's / and % of a positive divisor and a
      non-negative dividend. *)
  Definition ntile_dup (len n : Z) : Z := let d := Z.quot len n - 1 in if 0 <? Z.rem len n then d + 1 else d.
  Fixpoint ntile_list (k : nat) (i : Z) (dup : Z) : list Z :=
    match k with
    | O => []
    | S k' => if 0 <? dup then i :: i :: ntile_list k' (i + 1) (dup - 1) else i :: ntile_list k' (i + 1) dup
    end.
  Definition w_ntile : wfn := {|
    Wst := option Z; winit := None;
    wstep := fun s args =>
      match args with
      | Some n :: _ => bind (to_int n) (fun n => if n <=? 0 then Err else Ok (Some (match s with Some n0 => n0 | None => n end), Some (Some (VInt 1))))
      | None :: _ => Err
      | [] => GoPanic
      end;
    wdone := fun s a l fr =>
      match fr with
      | None => Ok (Some (VInt 0))
      | Some (i, _) =>
          bind (nth_row (ntile_list (List.length l) 1 (ntile_dup (zlen l) (match s with Some n => n | None => 0 end))) (i + 1)) (fun t => Ok (Some (VInt t)))
      end |}.
  (** function_window.go:1032-1048 *)
  Definition w_row_number : wfn := simple store1 (fun a l fr =>
    Ok (option_map (fun f => VInt (fst f + 1)) fr)).
End Call.
