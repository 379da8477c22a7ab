(** Vocabulary for statements about crashes. *)
From Coq Require Import Ascii String List ZArith Bool.
From Verif Require Import GoBase CatalogModel CatalogSpec PersistModel ScriptModel ScriptSpec.
Import ListNotations.

(** The database has an object of that name; its stored catalog lists it. *)
Definition exists_in (d : db) (n : string) : Prop := db_get d n <> None.
Definition listed (rows : list row) (n : string) : Prop := In n (map r_name rows).

(** [n] is there, in the stored catalog and in the catalog of the process, or in none of the
    three. *)
Definition in_step (w : world) (n : string) : Prop :=
  (listed (w_saved w) n <-> exists_in (w_db w) n) /\ (in_catalog_t w n <-> exists_in (w_db w) n).

(** The name of the table or view that a statement creates or drops. *)
Definition subject (a : action) : option string :=
  match a with
  | ACreateTable s _ _ _ | ACreateView s _ => Some (ts_name s)
  | ADrop _ n _ => Some n
  | _ => None
  end.

(** Statements that use names in [T] for tables and views, other names for functions, and nothing
    temporary; MERGE is left out. *)
Definition tame (T : string -> Prop) (a : action) : Prop :=
  match a with
  | ACreateTable s _ _ _ => T (ts_name s) /\ ts_path s <> [] /\ ts_temp s = false
  | ACreateView s _ => T (ts_name s) /\ ts_path s <> [] /\ ts_temp s = false
  | ADrop _ n _ => T n
  | ACreateFunction f => ~ T (fs_name f) /\ fs_path f <> [] /\ fs_temp f = false
  | ADropFunction n _ => ~ T n
  | AMerge _ => False
  | _ => True
  end.
Definition tame_script (T : string -> Prop) (fs : list afunc) : Prop :=
  forall f c m a, In f fs -> f c m = Some a -> tame T a.
(** Names for tables: in lower case, since SQLite does not tell the cases apart and the catalog
    does. *)
Definition table_names (T : string -> Prop) : Prop := forall n, T n -> lower n = n.

(** The stored catalog is one the statements above leave: one row per name, tables under names in
    [T], functions under others. *)
Record well_stored (T : string -> Prop) (rows : list row) : Prop := {
  ws_once : NoDup (map r_name rows);
  ws_tables : forall r s, In r rows -> r_spec r = PT s -> T (r_name r) /\ (r_kind r = KTable \/ r_kind r = KView) /\ ts_name s = r_name r /\ ts_path s <> [];
  ws_functions : forall r f, In r rows -> r_spec r = PF f -> ~ T (r_name r) /\ r_kind r = KFunction /\ fs_name f = r_name r /\ fs_path f <> []
}.
