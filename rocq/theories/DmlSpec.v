(** What tables and statements on them mean: columns are found by id. *)
From Coq Require Import Ascii String List ZArith Lia Bool.
From Verif Require Import GoBase QueryModel QuerySpec DmlModel EncModel CodecModel.
Import ListNotations.
Local Open Scope string_scope.

(** A column of the definition: its id, its type, NOT NULL and the L of STRING(L) *)
Record cdef := Cdef { k_id : Z; k_kind : kind; k_notnull : bool; k_param : option Z }.
(** CREATE TABLE with these columns, called as [names] says, and this key *)
Definition table_def (names : Z -> string) (cols : list cdef) (key : list Z) (q : option query) : tdef :=
  Tdef (map (fun c => Column (names (k_id c)) (k_kind c) (k_notnull c) (k_param c)) cols) (map names key) q.

(** Two rows with the same key, no part of which is NULL *)
Definition equal_keys (names : Z -> string) (key : list Z) (a b : frame) : Prop :=
  forall c, In c key -> exists z, in_frame (names c) a = Some (Some z) /\ in_frame (names c) b = Some (Some z).
(** NOT NULL and PRIMARY KEY *)
Definition lawful (names : Z -> string) (cols : list cdef) (key : list Z) (rows : list frame) : Prop :=
  (forall r c, In r rows -> In c cols -> k_notnull c = true -> exists z, in_frame (names (k_id c)) r = Some (Some z)) /\
  (key <> [] -> forall i j a b, i <> j -> nth_error rows i = Some a -> nth_error rows j = Some b -> ~ equal_keys names key a b).
(** Every row has the columns of the table. *)
Definition shaped (names : Z -> string) (cols : list cdef) (rows : list frame) : Prop :=
  forall r, In r rows -> map fst r = map (fun c => names (k_id c)) cols.

(** The row INSERT makes of the values for the columns listed: NULL in the others *)
Definition filled (names : Z -> string) (cols : list cdef) (listed : list Z) (vs : list val) : frame :=
  map (fun c => (names (k_id c), match col (k_id c) (combine listed vs) with Some v => v | None => None end)) cols.
(** Columns have no default values, so that DEFAULT is NULL. *)
Definition mean_value fn db names (v : dml_value) : option val :=
  match v with DExpr e => mean fn db names [] e | DDefault => Some None end.
Definition mean_source fn db names (s : source) : option (list (list val)) :=
  match s with
  | Values l => every (every (mean_value fn db names)) l
  | From s => option_map (map (map snd)) (mean_scan fn db names [] s)
  end.

(** Expressions without subqueries and columns *)
Fixpoint no_query (e : expr) : bool :=
  match e with ELit _ => true | ECall _ a => no_queries a | _ => false end
with no_queries (a : exprs) : bool := match a with ENil => true | ECons e r => no_query e && no_queries r end.
Definition simple (v : dml_value) : Prop := match v with DExpr e => no_query e = true | DDefault => False end.

(** ** What EncodeValue hands over for a value of a column of the type; texts are the base64
    of a JSON document that begins with its header (internal/codec.go:23-26). *)
Definition value_text (s : string) : Prop := exists rest, s = base64_text (String "{" (String """" (String "h" rest))).
Definition for_kind {F} (k : kind) (g : go F) : Prop :=
  match k, g with
  | _, GNil _ => True
  | (KInt32 | KInt64 | KUint32 | KUint64 | KEnum), GInt _ _ => True
  | KBool, GBool _ _ => True
  | (KFloat | KDouble), GFloat _ _ => True
  | (KInt32 | KInt64 | KUint32 | KUint64 | KEnum | KBool | KFloat | KDouble), _ => False
  | _, GText _ s => value_text s
  | _, _ => False
  end.
