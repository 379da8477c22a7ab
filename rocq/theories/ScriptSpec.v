(** Independent vocabulary for statements about scripts. *)
From Coq Require Import Ascii String List ZArith Bool.
From Verif Require Import GoBase CatalogModel CatalogSpec ScriptModel.
Import ListNotations.

(** [runs w fs acts w' k]: starting from [w] every statement of [fs] is analysed and executed
    successfully, one after the other, each in the state its predecessor left; [acts] are the
    executed actions, [w'] the final state and [k] the outcome of the last statement ([k0] for none). *)
Inductive runs : world -> list afunc -> Z -> list action -> world -> Z -> Prop :=
| runs_nil w k : runs w [] k [] w k
| runs_cons w f fs a w1 k0 k1 acts w' k :
    f (w_cat w) (w_fmap w) = Some a -> action_exec w a = (w1, Ok k1) ->
    runs w1 fs k1 acts w' k -> runs w (f :: fs) k0 (a :: acts) w' k.

(** [fails w f acts w']: statement [f] fails in state [w]: its analysis fails (no action, no
    change), or its action fails, leaving [w']. *)
Inductive fails (w : world) (f : afunc) : list action -> world -> Prop :=
| fails_analysis : f (w_cat w) (w_fmap w) = None -> fails w f [] w
| fails_exec a w' r : f (w_cat w) (w_fmap w) = Some a -> action_exec w a = (w', r) ->
    (forall k, r <> Ok k) -> fails w f [a] w'.

(** [started w fs acts w']: [acts] are the actions of the script that began to execute, the
    failing one included, and [w'] is the state when no more is executed. *)
Definition started (w : world) (fs : list afunc) (acts : list action) (w' : world) : Prop :=
  (exists k, runs w fs 0 acts w' k) \/
  (exists done f rest acts1 w1 k acts2, fs = (done ++ f :: rest)%list /\ runs w done 0 acts1 w1 k /\ fails w1 f acts2 w' /\ acts = (acts1 ++ acts2)%list).

(** The catalog is one some history of catalog operations produces. *)
Definition reachable_cat (w : world) : Prop :=
  exists ops, Forall named ops /\ w_cat w = cat_run ops cat_new.

(** Every SQLite call from now on succeeds unless the statement itself is wrong. *)
Definition no_faults (w : world) : Prop := forall b, In b (w_faults w) -> b = false.

Definition is_table (d : db) (n : string) : Prop := exists rows, db_get d n = Some (OTable rows).
Definition is_view (d : db) (n : string) : Prop := db_get d n = Some OView.
Definition absent (d : db) (n : string) : Prop := db_get d n = None.

Definition in_catalog_t (w : world) (n : string) : Prop := In n (map ts_name (c_tables (w_cat w))).
Definition in_catalog_f (w : world) (n : string) : Prop := In n (map fs_name (c_functions (w_cat w))).

(** [temp_left w a]: something the temporary CREATE [a] made is still there in [w]. *)
Definition temp_left (w : world) (a : action) : Prop :=
  match a with
  | ACreateTable s _ _ _ => ts_temp s = true /\ (~ absent (w_db w) (ts_name s) \/ in_catalog_t w (ts_name s))
  | ACreateView s _ => ts_temp s = true /\ (~ absent (w_db w) (ts_name s) \/ in_catalog_t w (ts_name s))
  | ACreateFunction f => fs_temp f = true /\ in_catalog_f w (fs_name f)
  | _ => False
  end.

(** The name of a temporary table (view) is not held by a view (table). *)
Definition kind_kept (w : world) (a : action) : Prop :=
  match a with
  | ACreateTable s _ _ _ => ts_temp s = true -> ~ is_view (w_db w) (ts_name s)
  | ACreateView s _ => ts_temp s = true -> ~ is_table (w_db w) (ts_name s)
  | _ => True
  end.

(** Actions with non-empty names (all the analyzer produces). *)
Definition action_named (a : action) : Prop :=
  match a with
  | ACreateTable s _ _ _ | ACreateView s _ => ts_path s <> []
  | ACreateFunction f => fs_path f <> []
  | _ => True
  end.
Definition script_named (fs : list afunc) : Prop :=
  forall f c m a, In f fs -> f c m = Some a -> action_named a.

(** Statements that only create objects, and whose temporary or replacing ones use no name
    that exists in [w]. *)
Definition creates_only (w : world) (a : action) : Prop :=
  match a with
  | ACreateTable s m _ _ | ACreateView s m =>
      (ts_temp s = true \/ m = MOrReplace) -> absent (w_db w) (ts_name s)
  | ACreateFunction f => fs_temp f = true -> ~ in_catalog_f w (fs_name f)
  | _ => False
  end.

(** ** What a script reports as changed *)
(** The last thing the executed actions did to table (function) [n]: [Some true] created it,
    [Some false] dropped it. *)
Definition word_t (a : action) (n : string) : option bool :=
  match a with
  | ACreateTable s _ _ _ => if String.eqb (ts_name s) n then Some true else None
  | ADrop _ m _ => if String.eqb m n then Some false else None
  | _ => None
  end.
Definition word_f (a : action) (n : string) : option bool :=
  match a with
  | ACreateFunction f => if String.eqb (fs_name f) n then Some true else None
  | ADropFunction m _ => if String.eqb m n then Some false else None
  | _ => None
  end.
Fixpoint last_word (word : action -> string -> option bool) (rev_acts : list action) (n : string) : option bool :=
  match rev_acts with
  | [] => None
  | a :: r => match word a n with Some b => Some b | None => last_word word r n end
  end.

(** No view, no temporary object. *)
Definition plain (a : action) : Prop :=
  match a with
  | ACreateTable s _ _ _ => ts_temp s = false
  | ACreateView _ _ => False
  | ACreateFunction f => fs_temp f = false
  | _ => True
  end.
