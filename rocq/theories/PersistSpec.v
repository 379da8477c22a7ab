(** Independent reading of a history with restarts. *)
From Coq Require Import Ascii String List ZArith Bool.
From Verif Require Import GoBase CatalogModel PersistModel.
Import ListNotations.

(** The last CREATE of a non-temporary table [n] since its last DROP, reading backwards. *)
Fixpoint saved_t_rev (h : list p_event) (n : string) : option tspec :=
  match h with
  | [] => None
  | PDdl _ (AddT s) :: r =>
      if (String.eqb (ts_name s) n && negb (ts_temp s))%bool then Some s else saved_t_rev r n
  | PDdl _ (DelT m) :: r => if String.eqb m n then None else saved_t_rev r n
  | _ :: r => saved_t_rev r n
  end.
Definition saved_t (h : list p_event) (n : string) : option tspec := saved_t_rev (rev h) n.

Fixpoint saved_f_rev (h : list p_event) (n : string) : option fspec :=
  match h with
  | [] => None
  | PDdl _ (AddF s) :: r =>
      if (String.eqb (fs_name s) n && negb (fs_temp s))%bool then Some s else saved_f_rev r n
  | PDdl _ (DelF m) :: r => if String.eqb m n then None else saved_f_rev r n
  | _ :: r => saved_f_rev r n
  end.
Definition saved_f (h : list p_event) (n : string) : option fspec := saved_f_rev (rev h) n.

(** Names are non-empty and no name is used both for a table and for a function. *)
Definition ev_named (e : p_event) : Prop :=
  match e with
  | PDdl _ (AddT s) => ts_path s <> []
  | PDdl _ (AddF f) => fs_path f <> []
  | _ => True
  end.
Definition kinds_disjoint (h : list p_event) : Prop :=
  forall t1 s t2 f, In (PDdl t1 (AddT s)) h -> In (PDdl t2 (AddF f)) h -> ts_name s <> fs_name f.

(** No sync query of the reader while the writer holds a stamped, uncommitted row. *)
Fixpoint calm (st : two) (h : list two_event) : Prop :=
  match h with
  | [] => True
  | e :: r =>
      match e with RQuery => w_pending st = [] | _ => True end /\ calm (two_step st e) r
  end.
Definition ev2_named (e : two_event) : Prop :=
  match e with WStamp s => ts_path s <> [] /\ ts_temp s = false | _ => True end.
