(** What "the open transaction" means, from the user's side: calls and their results. *)
From Coq Require Import Ascii String List ZArith Bool.
From Verif Require Import GoBase CatalogModel ScriptModel TxModel.
Import ListNotations.

(** The transaction open after a history of (call, result) pairs, most recent first: the last
    one begun, unless a Commit or Rollback of it followed (whatever its result). *)
Fixpoint open_tx_rev (h : list (tx_event * tx_result)) : option nat :=
  match h with
  | [] => None
  | (EBegin _, RBegun id) :: _ => Some id
  | (ECommit id _, _) :: r | (ERollback id _, _) :: r =>
      match open_tx_rev r with Some j => if Nat.eqb j id then None else Some j | None => None end
  | _ :: r => open_tx_rev r
  end.
Definition open_tx (h : list (tx_event * tx_result)) : option nat := open_tx_rev (rev h).

(** Actions that are not DDL. *)
Definition not_ddl (a : action) : Prop :=
  match a with
  | ADml _ _ | AQuery _ | ABegin | ACommit | ATruncate _ => True
  | AMerge l => True
  | _ => False
  end.
