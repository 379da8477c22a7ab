(** Independent description of a DDL history: which objects are live, and what the last and
    the first CREATE since the last DROP said. *)
From Coq Require Import Ascii String List ZArith Bool.
From Verif Require Import GoBase NameSpec CatalogModel.
Import ListNotations.

(** What the history, read backwards from its end, says about table [n]: the definition of
    the last CREATE unless a DROP is met first. *)
Fixpoint last_t_rev (h : list cat_op) (n : string) : option tspec :=
  match h with
  | [] => None
  | AddT s :: r => if String.eqb (ts_name s) n then Some s else last_t_rev r n
  | DelT m :: r => if String.eqb m n then None else last_t_rev r n
  | _ :: r => last_t_rev r n
  end.
Definition last_t (h : list cat_op) (n : string) : option tspec := last_t_rev (rev h) n.

Fixpoint last_f_rev (h : list cat_op) (n : string) : option fspec :=
  match h with
  | [] => None
  | AddF s :: r => if String.eqb (fs_name s) n then Some s else last_f_rev r n
  | DelF m :: r => if String.eqb m n then None else last_f_rev r n
  | _ :: r => last_f_rev r n
  end.
Definition last_f (h : list cat_op) (n : string) : option fspec := last_f_rev (rev h) n.

(** The live tables in order of creation, each with the definition it was first created with. *)
Definition live_step (l : list tspec) (o : cat_op) : list tspec :=
  match o with
  | AddT s => if existsb (fun x => String.eqb (ts_name x) (ts_name s)) l then l else l ++ [s]
  | DelT n => filter (fun x => negb (String.eqb (ts_name x) n)) l
  | _ => l
  end.
Definition live (h : list cat_op) : list tspec := fold_left live_step h [].

Definition livef_step (l : list fspec) (o : cat_op) : list fspec :=
  match o with
  | AddF s => if existsb (fun x => String.eqb (fs_name x) (fs_name s)) l then l else l ++ [s]
  | DelF n => filter (fun x => negb (String.eqb (fs_name x) n)) l
  | _ => l
  end.
Definition livef (h : list cat_op) : list fspec := fold_left livef_step h [].

(** Every object has a non-empty name path (the parser cannot produce another). *)
Definition named (o : cat_op) : Prop :=
  match o with
  | AddT s => ts_path s <> []
  | AddF s => fs_path s <> []
  | _ => True
  end.

(** No CREATE of a name that is live at that point. *)
Fixpoint no_recreate (before after : list cat_op) : Prop :=
  match after with
  | [] => True
  | o :: r =>
      match o with
      | AddT s => last_t before (ts_name s) = None
      | AddF s => last_f before (fs_name s) = None
      | _ => True
      end /\ no_recreate (before ++ [o]) r
  end.
