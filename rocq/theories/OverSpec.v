(** The OVER each window function has in the query. *)
From Coq Require Import String List Bool.
From Verif Require Import OverModel.
Import ListNotations.

Definition listed {A} (o : option (list A)) : list A := match o with Some l => l | None => [] end.
(** Rows are ordered by the partition columns and within a partition by ORDER BY. *)
Definition has_over (p : option (list string)) (o : option (list okey)) (n : nat) : written :=
  Written n (listed p) (map (fun c => (c, true)) (listed p) ++ listed o).
(** The functions of a tree: those in the arguments of a function before it, those of the input
    before those of the scan. *)
Fixpoint own_call (p : option (list string)) (o : option (list okey)) (f : wcall) : list written :=
  match f with Call n args => own_scans args ++ [has_over p o n] end
with own_calls (p : option (list string)) (o : option (list okey)) (fs : wcalls) : list written :=
  match fs with CNone => [] | CMore f r => own_call p o f ++ own_calls p o r end
with own_group (g : wgroup) : list written := match g with Group p o fs => own_calls p o fs end
with own_groups (gs : wgroups) : list written := match gs with GNone => [] | GMore g r => own_group g ++ own_groups r end
with own_scan (s : wscan) : list written := match s with Scan input gs => own_scans input ++ own_groups gs end
with own_scans (l : wscans) : list written := match l with SNone => [] | SMore s r => own_scan s ++ own_scans r end.

(** No argument of a window function has a subquery with window functions. *)
Fixpoint flat_calls (fs : wcalls) : Prop := match fs with CNone => True | CMore (Call _ args) r => args = SNone /\ flat_calls r end.
Fixpoint flat_groups (gs : wgroups) : Prop := match gs with GNone => True | GMore (Group _ _ fs) r => flat_calls fs /\ flat_groups r end.
Fixpoint flat_scan (s : wscan) : Prop := match s with Scan input gs => flat_scans input /\ flat_groups gs end
with flat_scans (l : wscans) : Prop := match l with SNone => True | SMore s r => flat_scan s /\ flat_scans r end.
(** The function with its own partition, if it has one *)
Definition own_partition (a b : written) : Prop := w_name a = w_name b /\ (w_part b <> [] -> w_part a = w_part b).
