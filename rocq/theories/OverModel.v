(** Which PARTITION BY and ORDER BY a window function is written with: the loop of
    AnalyticScanNode.FormatSQL over the groups of functions (formatter.go:1099-1153),
    AnalyticFunctionGroupNode (1525-1539), and the part of AnalyticFunctionCallNode (354-406)
    that reads them from the context.

    The partition columns are a value of the context (context.go:108-120), so that they are seen
    below the node that sets them; the order columns are behind one pointer made for the whole
    statement (analyzer.go:242, context.go:96-106).  Of the other nodes of a tree only the scans
    with window functions below them, in the order they are formatted, are kept: those of the
    input, and those of subqueries in the arguments of a function. *)
From Coq Require Import String List Bool.
Import ListNotations.

(** An order column: its name and whether it is ascending *)
Definition okey : Type := string * bool.
(** A function: a name to tell it by, and the scans in its arguments.  A group: PARTITION BY,
    ORDER BY and the functions with that OVER.  A scan: those of its input, and its groups. *)
Inductive wcall := Call (name : nat) (args : wscans)
with wcalls := CNone | CMore (f : wcall) (r : wcalls)
with wgroup := Group (part : option (list string)) (order : option (list okey)) (fs : wcalls)
with wgroups := GNone | GMore (g : wgroup) (r : wgroups)
with wscan := Scan (input : wscans) (gs : wgroups)
with wscans := SNone | SMore (s : wscan) (r : wscans).

(** What a call is written with: zetasqlite_window_partition(c) for each partition column and
    zetasqlite_window_order_by(c, asc) for each order column, in order (375-380). *)
Record written := Written { w_name : nat; w_part : list string; w_order : list okey }.

(** [parts] are the partition columns of the context and [ord] what the pointer has; the result
    is what was written, and what the pointer has behind. *)
Fixpoint fmt_call (parts : list string) (ord : list okey) (f : wcall) : list written * list okey :=
  match f with
  | Call n args =>                                  (* 358-363: the order columns are read first *)
      let (l, ord') := fmt_scans parts ord args in
      ((l ++ [Written n parts ord])%list, ord')
  end
with fmt_calls (parts : list string) (ord : list okey) (fs : wcalls) : list written * list okey :=
  match fs with
  | CNone => ([], ord)
  | CMore f r =>                                    (* 1531-1537 *)
      let (a, o1) := fmt_call parts ord f in
      let (b, o2) := fmt_calls parts o1 r in ((a ++ b)%list, o2)
  end
with fmt_group (parts : list string) (ord : list okey) (g : wgroup) : list written * list okey :=
  match g with
  | Group p o fs =>
      let parts1 := match p with Some l => l | None => parts end in                       (* 1117-1133 *)
      let ord1 := (ord ++ match p with Some l => map (fun c => (c, true)) l | None => [] end)%list in
      let ord2 := (ord1 ++ match o with Some l => l | None => [] end)%list in             (* 1134-1145 *)
      fmt_calls parts1 ord2 fs
  end
with fmt_groups (parts : list string) (ord : list okey) (gs : wgroups) : list written * list okey :=
  match gs with
  | GNone => ([], [])                               (* 1186 *)
  | GMore g r =>                                    (* 1146-1153: both are cleared behind a group *)
      let (a, _) := fmt_group parts ord g in
      let (b, o) := fmt_groups [] [] r in ((a ++ b)%list, o)
  end
with fmt_scan (parts : list string) (ord : list okey) (s : wscan) : list written * list okey :=
  match s with
  | Scan input gs =>                                (* 1103: the input first *)
      let (a, o1) := fmt_scans parts ord input in
      let (b, o2) := fmt_groups parts o1 gs in ((a ++ b)%list, o2)
  end
with fmt_scans (parts : list string) (ord : list okey) (l : wscans) : list written * list okey :=
  match l with
  | SNone => ([], ord)
  | SMore s r =>
      let (a, o1) := fmt_scan parts ord s in
      let (b, o2) := fmt_scans parts o1 r in ((a ++ b)%list, o2)
  end.
(** A statement: its scans in the order they are formatted, with an empty context
    (analyzer.go:236-247). *)
Definition fmt_statement (l : wscans) : list written := fst (fmt_scans [] [] l).
