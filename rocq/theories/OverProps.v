(** C367-C368: the OVER of a window function. *)
From Coq Require Import String List Bool.
From Verif Require Import OverModel OverSpec OverProofs.
Import ListNotations.

(** Any number of functions and of different OVERs, in queries nested to any depth in FROM. *)
Theorem c367_own_over : forall l, flat_scans l -> fmt_statement l = own_scans l.
Proof. intros l F. unfold fmt_statement. now rewrite (scans_flat l F). Qed.
(** SELECT f1 OVER (PARTITION BY a ORDER BY b DESC), f2 OVER (), f3 OVER (ORDER BY b)
    FROM (SELECT f4 OVER (PARTITION BY c) ...) *)
Definition over_ex : wscans :=
  SMore (Scan (SMore (Scan SNone (GMore (Group (Some ["c"%string]) None (CMore (Call 4 SNone) CNone)) GNone)) SNone)
          (GMore (Group (Some ["a"%string]) (Some [("b"%string, false)]) (CMore (Call 1 SNone) CNone))
            (GMore (Group None None (CMore (Call 2 SNone) CNone))
              (GMore (Group None (Some [("b"%string, true)]) (CMore (Call 3 SNone) CNone)) GNone)))) SNone.
Example c367_example : flat_scans over_ex /\
  fmt_statement over_ex = [Written 4 ["c"%string] [("c"%string, true)]; Written 1 ["a"%string] [("a"%string, true); ("b"%string, false)];
                           Written 2 [] []; Written 3 [] [("b"%string, true)]].
Proof. split; [cbn; tauto|reflexivity]. Qed.

(** ** C368: a window function in an argument of another *)
(** f((SELECT g OVER () ...)) OVER (PARTITION BY p ORDER BY o), h OVER (PARTITION BY p ORDER BY o): h has
    lost the order and g has the OVER of f. *)
Theorem c368_argument_refuted : forall p o f g h,
  let l := SMore (Scan SNone (GMore (Group (Some p) (Some o)
             (CMore (Call f (SMore (Scan SNone (GMore (Group None None (CMore (Call g SNone) CNone)) GNone)) SNone)) (CMore (Call h SNone) CNone))) GNone)) SNone in
  let by_p_o := (map (fun c => (c, true)) p ++ o)%list in
  own_scans l = [Written g [] []; Written f p by_p_o; Written h p by_p_o] /\
  fmt_statement l = [Written g p by_p_o; Written f p by_p_o; Written h p []] /\
  (o <> [] -> fmt_statement l <> own_scans l).
Proof.
  intros p o f g h l by_p_o. split; [reflexivity|].
  assert (F : fmt_statement l = [Written g p by_p_o; Written f p by_p_o; Written h p []]).
  { unfold fmt_statement, l, by_p_o. cbn. now rewrite !app_nil_r. }
  split; [exact F|]. rewrite F. intros N E.
  assert (Y : last (map w_order [Written g p by_p_o; Written f p by_p_o; Written h p []]) [] = last (map w_order (own_scans l)) []) by (now rewrite E).
  change ([] = by_p_o) in Y. unfold by_p_o in Y. symmetry in Y. apply app_eq_nil in Y. now destruct Y.
Qed.
(** What holds of every statement: each function is written once, in order, and with its own
    PARTITION BY if it has one. *)
Theorem c368_once_partial : forall l, map w_name (fmt_statement l) = map w_name (own_scans l).
Proof. intros l. unfold fmt_statement. destruct names_all as (_ & _ & _ & _ & _ & N). exact (N l [] []). Qed.
Theorem c368_partition_partial : forall l, Forall2 own_partition (fmt_statement l) (own_scans l).
Proof. intros l. unfold fmt_statement. destruct partition_all as (_ & _ & _ & _ & _ & N). exact (N l [] []). Qed.
Example c368_example : let l := SMore (Scan SNone (GMore (Group (Some ["a"%string]) (Some [("b"%string, true)])
             (CMore (Call 1 (SMore (Scan SNone (GMore (Group None None (CMore (Call 2 SNone) CNone)) GNone)) SNone)) (CMore (Call 3 SNone) CNone))) GNone)) SNone in
  map w_name (fmt_statement l) = [2; 1; 3] /\ map w_order (fmt_statement l) = [[("a"%string, true); ("b"%string, true)]; [("a"%string, true); ("b"%string, true)]; []].
Proof. split; reflexivity. Qed.

Print Assumptions c367_own_over.
Print Assumptions c368_argument_refuted.
Print Assumptions c368_once_partial.
Print Assumptions c368_partition_partial.
