(** What a resolved query means: columns are found by id, whatever they are called. *)
From Coq Require Import Ascii String List ZArith Lia Bool.
From Verif Require Import GoBase QueryModel.
Import ListNotations.
Local Open Scope string_scope.

Definition binding := list (Z * val).
Definition col (c : Z) (b : binding) : option val :=
  match find (fun p => (fst p =? c)%Z) b with Some p => Some (snd p) | None => None end.
(** Each element of the list has a value by f, in order; or one has none. *)
Definition every {A B} (f : A -> option B) : list A -> option (list B) :=
  fold_right (fun x o => match f x, o with Some y, Some l => Some (y :: l) | _, _ => None end) (Some []).
Definition holds (v : val) : bool := match v with Some z => negb (z =? 0)%Z | None => false end.
Definition where_true {A} (l : list A) (vs : list val) : list A := map fst (filter (fun p => holds (snd p)) (combine l vs)).

(** The columns of a scan *)
Definition array_ids (elem : Z) (off : option Z) : list Z := elem :: match off with Some o => [o] | None => [] end.
Fixpoint out (s : scan) : list Z :=
  match s with
  | SSingle => []
  | STable _ cols => cols
  | SCross l r | SJoin _ l r _ => (out l ++ out r)%list
  | SFilter s _ => out s
  | SProject _ _ cols | SLimit _ _ _ cols | SOrder _ _ cols | SSet _ _ cols | SAgg _ _ _ cols => cols
  | SArray s _ elem off _ => (out s ++ array_ids elem off)%list
  end.
Definition pick (cols : list Z) (b : binding) : option binding :=
  every (fun c => match col c b with Some v => Some (c, v) | None => None end) cols.

Definition blank (cols : list Z) : binding := map (fun c => (c, None)) cols.
Definition keeps_left (k : jkind) : bool := match k with JLeft | JFull => true | _ => false end.
Definition keeps_right (k : jkind) : bool := match k with JRight | JFull => true | _ => false end.
Fixpoint comp_ids (cs : comps) : list Z := match cs with CNil => [] | CCons c _ r => c :: comp_ids r end.

(** ** Rows as values *)
Definition val_dec : forall a b : val, {a = b} + {a <> b}.
Proof. decide equality. apply Z.eq_dec. Defined.
Definition member (x : list val) (l : list (list val)) : bool := if in_dec (list_eq_dec val_dec) x l then true else false.
(** Each row once, where it is first *)
Definition firsts (l : list (list val)) : list (list val) := fold_left (fun acc x => if member x acc then acc else (acc ++ [x])%list) l [].
Definition set_result (op : setop) (l : list (list val)) (rest : list (list (list val))) : option (list (list val)) :=
  match op with
  | UnionAll => Some (concat (l :: rest))
  | UnionDistinct => Some (firsts (concat (l :: rest)))
  | IntersectDistinct => Some (firsts (filter (fun x => forallb (member x) rest) l))
  | ExceptDistinct => Some (firsts (filter (fun x => negb (existsb (member x) rest)) l))
  | IntersectAll | ExceptAll => None                 (* not stated here *)
  end.
(** ** ORDER BY: NULLs come first when ascending and last when descending, unless said otherwise. *)
Definition nulls_first (desc : bool) (m : nulls_mode) : bool := match m with NDefault => negb desc | NFirst => true | NLast => false end.
Definition order (desc : bool) (m : nulls_mode) (a b : val) : comparison :=
  match a, b with
  | None, None => Eq
  | None, Some _ => if nulls_first desc m then Lt else Gt
  | Some _, None => if nulls_first desc m then Gt else Lt
  | Some x, Some y => if desc then (y ?= x)%Z else (x ?= y)%Z
  end.
Fixpoint before (keys : list (Z * bool * nulls_mode)) (a b : binding) : bool :=
  match keys with
  | [] => true
  | (c, desc, m) :: r =>
      match col c a, col c b with
      | Some x, Some y => match order desc m x y with Lt => true | Gt => false | Eq => before r a b end
      | _, _ => true
      end
  end.
Fixpoint put (keys : list (Z * bool * nulls_mode)) (x : binding) (l : list binding) : list binding :=
  match l with [] => [x] | y :: r => if before keys x y then x :: y :: r else y :: put keys x r end.
Definition ordered (keys : list (Z * bool * nulls_mode)) (l : list binding) : list binding := fold_right (put keys) [] l.

(** ** Arrays: an element and, for WITH OFFSET, its position *)
Definition elements (fn : string -> list val -> val) (v : val) : list val :=
  match fn "array.length" [v] with
  | Some n => map (fun i => fn "array.at" [v; Some (Z.of_nat i)]) (seq 0 (Z.to_nat n))
  | None => []                                       (* a NULL array *)
  end.
Definition array_rows (elem : Z) (off : option Z) (l : list val) : list binding :=
  map (fun p => (elem, snd p) :: match off with Some o => [(o, Some (Z.of_nat (fst p)))] | None => [] end) (combine (seq 0 (length l)) l).

Section Meaning.
  Variable fn : string -> list val -> val.
  Variable db : string -> list frame.
  Variable names : Z -> string.

  Definition of_table (cols : list Z) (r : frame) : option binding :=
    every (fun c => match in_frame (names c) r with Some v => Some (c, v) | None => None end) cols.

  Fixpoint mean (env : binding) (e : expr) : option val :=
    match e with
    | ECol c => col c env
    | ELit v => Some v
    | ECall f a => match mean_list env a with Some l => Some (fn f l) | None => None end
    | EExists s => match mean_scan env s with
                   | Some l => Some (Some (match l with [] => 0%Z | _ => 1%Z end))
                   | None => None
                   end
    | EScalar s => match mean_scan env s with
                   | Some [] => Some None
                   | Some [r] => match r with (_, v) :: _ => Some v | [] => Some None end
                   | _ => None                      (* more than one row is an error *)
                   end
    end
  with mean_list (env : binding) (a : exprs) : option (list val) :=
    match a with
    | ENil => Some []
    | ECons e r => match mean env e, mean_list env r with Some v, Some l => Some (v :: l) | _, _ => None end
    end
  with mean_scan (env : binding) (s : scan) : option (list binding) :=
    match s with
    | SSingle => Some [[]]
    | STable t cols => every (of_table cols) (db t)
    | SCross l r =>
        match mean_scan env l, mean_scan env r with
        | Some a, Some b => Some (flat_map (fun x => map (fun y => (x ++ y)%list) b) a)
        | _, _ => None
        end
    | SJoin k l r on =>
        match mean_scan env l, mean_scan env r with
        | Some a, Some b =>
            match every (fun x =>
                    let xs := map (fun y => (x ++ y)%list) b in
                    match every (fun z => mean (z ++ env)%list on) xs with
                    | Some vs => Some (match where_true xs vs with
                                       | [] => if keeps_left k then [(x ++ blank (out r))%list] else []
                                       | m => m
                                       end)
                    | None => None
                    end) a,
                  every (fun y =>
                    match every (fun x => mean ((x ++ y) ++ env)%list on) a with
                    | Some vs => Some (if keeps_right k && negb (existsb holds vs) then [(blank (out l) ++ y)%list] else [])
                    | None => None
                    end) b with
            | Some ll, Some rr => Some (concat ll ++ concat rr)%list
            | _, _ => None
            end
        | _, _ => None
        end
    | SFilter s e =>
        match mean_scan env s with
        | Some l => match every (fun r => mean (r ++ env)%list e) l with Some vs => Some (where_true l vs) | None => None end
        | None => None
        end
    | SProject s cs cols =>
        match mean_scan env s with
        | Some l => every (fun r => match mean_comps (r ++ env)%list cs with
                                    | Some b => pick cols (b ++ r)%list
                                    | None => None
                                    end) l
        | None => None
        end
    | SLimit s n off cols =>
        match mean_scan env s with
        | Some l => match every (pick cols) l with
                    | Some l' => Some (firstn n (match off with Some k => skipn k l' | None => l' end))
                    | None => None
                    end
        | None => None
        end
    | SOrder s keys cols =>
        match mean_scan env s with
        | Some l => every (pick cols) (ordered keys l)
        | None => None
        end
    | SSet op l cols =>
        match mean_inputs env l with
        | Some (x :: r) => match set_result op x r with Some vs => Some (map (combine cols) vs) | None => None end
        | _ => None
        end
    | SAgg s groups aggs cols =>
        match mean_scan env s with
        | Some l =>
            match every (fun r => match mean_comps (r ++ env)%list groups with Some k => Some (map snd k, r) | None => None end) l with
            | Some keyed =>
                every (fun k =>
                  match mean_aggs env (map snd (filter (fun p => member k [fst p]) keyed)) aggs with
                  | Some v => pick cols (combine (comp_ids groups) k ++ v)%list
                  | None => None
                  end)
                  (match groups with CNil => [[]] | _ => firsts (map fst keyed) end)
            | None => None
            end
        | None => None
        end
    | SArray s a elem off j =>
        match mean_scan env s with
        | Some l =>
            match every (fun z =>
                    match mean (z ++ env)%list a with
                    | Some v =>
                        let xs := map (fun y => (z ++ y)%list) (array_rows elem off (elements fn v)) in
                        match j with
                        | JComma outer => Some (match xs with [] => if outer then [(z ++ blank (array_ids elem off))%list] else [] | _ => xs end)
                        | JOn outer e =>
                            match every (fun x => mean (x ++ env)%list e) xs with
                            | Some vs => Some (match where_true xs vs with
                                               | [] => if outer then [(z ++ blank (array_ids elem off))%list] else []
                                               | m => m
                                               end)
                            | None => None
                            end
                        end
                    | None => None
                    end) l with
            | Some ll => Some (concat ll)
            | None => None
            end
        | None => None
        end
    end
  with mean_inputs (env : binding) (l : inputs) : option (list (list (list val))) :=
    match l with
    | NNil => Some []
    | NCons s cols r =>
        match mean_scan env s, mean_inputs env r with
        | Some x, Some y => match every (pick cols) x with Some x' => Some (map (map snd) x' :: y) | None => None end
        | _, _ => None
        end
    end
  (** An aggregate is computed from the number of rows and its arguments in each of them. *)
  with mean_aggs (env : binding) (g : list binding) (l : acomps) : option binding :=
    match l with
    | ANil => Some []
    | ACons c f a r =>
        match every (fun x => mean_list (x ++ env)%list a) g, mean_aggs env g r with
        | Some vs, Some b => Some ((c, fn f (Some (Z.of_nat (length g)) :: concat vs)) :: b)
        | _, _ => None
        end
    end
  with mean_comps (env : binding) (cs : comps) : option binding :=
    match cs with
    | CNil => Some []
    | CCons c e r => match mean env e, mean_comps env r with Some v, Some b => Some ((c, v) :: b) | _, _ => None end
    end.

  (** A query gives the values of its output columns. *)
  Definition mean_query (s : scan) (cols : list Z) : option (list (list val)) :=
    match mean_scan [] s with
    | Some l => match every (pick cols) l with Some l' => Some (map (map snd) l') | None => None end
    | None => None
    end.
  (** DELETE leaves the rows for which the condition is not true. *)
  Definition mean_delete (t : string) (cols : list Z) (w : expr) : option (list frame) :=
    match every (of_table cols) (db t) with
    | Some l => match every (fun b => mean b w) l with
                | Some vs => Some (map fst (filter (fun p => negb (holds (snd p))) (combine (db t) vs)))
                | None => None
                end
    | None => None
    end.
  (** UPDATE: a row for which the condition is true gets the values, computed from the row as it
      was; with FROM, the condition picks one row of it. *)
  Definition set_cols (vals : list (Z * val)) (r : frame) : frame :=
    map (fun p => match find (fun q => same_name (names (fst q)) (fst p)) vals with
                  | Some q => (fst p, snd q)
                  | None => p
                  end) r.
  Definition values (b : binding) (l : list (Z * expr)) : option (list (Z * val)) :=
    every (fun p => match mean b (snd p) with Some v => Some (fst p, v) | None => None end) l.
  Definition mean_update (t : string) (cols : list Z) (l : list (Z * expr)) (w : expr) : option (list frame) :=
    every (fun r => match of_table cols r with
                    | Some b =>
                        match mean b w with
                        | Some v => if holds v then match values b l with Some vs => Some (set_cols vs r) | None => None end
                                    else Some r
                        | None => None
                        end
                    | None => None
                    end) (db t).
  Definition mean_update_from (t : string) (cols : list Z) (l : list (Z * expr)) (f : scan) (w : expr) : option (list frame) :=
    match mean_scan [] f with
    | Some fs =>
        every (fun r => match of_table cols r with
                        | Some b =>
                            let bs := map (fun y => (b ++ y)%list) fs in
                            match every (fun z => mean z w) bs with
                            | Some vs =>
                                match where_true bs vs with
                                | [] => Some r
                                | [z] => match values z l with Some vs => Some (set_cols vs r) | None => None end
                                | _ => None          (* an error *)
                                end
                            | None => None
                            end
                        | None => None
                        end) (db t)
    | None => None
    end.
End Meaning.

(** ** The trees ZetaSQL makes: every reference is to a visible column and every column defined
    has an id of its own.  [vis] are the columns visible from outside, [busy] other ids in use;
    D holds of all ids of the statement, and UN says whether it may have UNNEST. *)
Section WellFormed.
  Variable D : Z -> Prop.
  Variable UN : Prop.
  Definition fresh (vis busy cols : list Z) : Prop := forall c, In c cols -> D c /\ ~ In c vis /\ ~ In c busy.
  Fixpoint agg_ids (l : acomps) : list Z := match l with ANil => [] | ACons c _ _ r => c :: agg_ids r end.
  Definition apart (a b : list Z) : Prop := forall c, In c a -> ~ In c b.
  Definition is_join (s : scan) : bool := match s with SCross _ _ | SJoin _ _ _ _ => true | _ => false end.

  Fixpoint wf (vis busy : list Z) (e : expr) : Prop :=
    match e with
    | ECol c => In c vis
    | ELit _ => True
    | ECall _ a => wf_list vis busy a
    | EExists s | EScalar s => wf_scan vis busy s
    end
  with wf_list (vis busy : list Z) (a : exprs) : Prop :=
    match a with ENil => True | ECons e r => wf vis busy e /\ wf_list vis busy r end
  with wf_scan (vis busy : list Z) (s : scan) : Prop :=
    match s with
    | SSingle => True
    | STable _ cols => fresh vis busy cols /\ cols <> []
    | SCross l r => wf_scan vis busy l /\ wf_scan vis busy r /\ apart (out l) (out r) /\ is_join r = false
    | SJoin _ l r on =>
        wf_scan vis busy l /\ wf_scan vis busy r /\ apart (out l) (out r) /\ is_join r = false /\
        wf (out l ++ out r ++ vis)%list busy on
    | SFilter s e =>
        wf_scan vis busy s /\ wf (out s ++ vis)%list busy e /\
        match s with SAgg _ CNil _ _ => False | _ => True end  (* see C225 *)
    | SProject s cs cols =>
        wf_scan vis (comp_ids cs ++ busy)%list s /\ wf_comps (out s ++ vis)%list (comp_ids cs ++ busy)%list cs /\
        fresh vis busy (comp_ids cs) /\ NoDup (comp_ids cs) /\ apart (comp_ids cs) (out s) /\
        (forall c, In c (comp_ids cs) -> count_occ Z.eq_dec cols c = 1%nat) /\
        (forall c, In c cols -> In c (comp_ids cs) \/ In c (out s)) /\ cols <> []
    | SLimit s _ _ cols => wf_scan vis busy s /\ (forall c, In c cols -> In c (out s)) /\ cols <> []
    | SOrder s keys cols =>
        wf_scan vis busy s /\ (forall c, In c cols -> In c (out s)) /\ cols <> [] /\
        (forall k, In k keys -> In (fst (fst k)) (out s))
    | SSet op l cols =>
        wf_inputs vis busy (length cols) l /\ fresh vis busy cols /\ NoDup cols /\ cols <> [] /\
        match l with NCons _ c (NCons _ _ _) => NoDup c /\ apart cols c | _ => False end /\  (* see C224 *)
        match op with IntersectAll | ExceptAll => False | _ => True end              (* see C223 *)
    | SAgg s groups aggs cols =>
        let ids := (comp_ids groups ++ agg_ids aggs)%list in
        wf_scan vis (ids ++ busy)%list s /\ wf_comps (out s ++ vis)%list (ids ++ busy)%list groups /\
        wf_aggs (out s ++ vis)%list (ids ++ busy)%list aggs /\
        fresh vis busy ids /\ NoDup ids /\ apart ids (out s) /\
        (forall c, In c ids -> count_occ Z.eq_dec cols c = 1%nat) /\
        (forall c, In c cols -> In c ids) /\ cols <> []
    | SArray s a elem off j =>
        let ids := array_ids elem off in
        UN /\ wf_scan vis busy s /\ wf (out s ++ vis)%list busy a /\ fresh vis busy ids /\ NoDup ids /\ apart (out s) ids /\
        match j with
        | JComma outer => outer = false              (* see C245 *)
        | JOn _ e => s <> SSingle /\ wf ((out s ++ ids) ++ vis)%list busy e
        end
    end
  with wf_inputs (vis busy : list Z) (n : nat) (l : inputs) : Prop :=
    match l with
    | NNil => True
    | NCons s cols r =>
        wf_scan vis busy s /\ (forall c, In c cols -> In c (out s)) /\ length cols = n /\ wf_inputs vis busy n r
    end
  with wf_aggs (vis busy : list Z) (l : acomps) : Prop :=
    match l with ANil => True | ACons _ _ a r => wf_list vis busy a /\ wf_aggs vis busy r end
  with wf_comps (vis busy : list Z) (cs : comps) : Prop :=
    match cs with CNil => True | CCons _ e r => wf vis busy e /\ wf_comps vis busy r end.
End WellFormed.
