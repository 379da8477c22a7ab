(** Property theorems C01-C05 (names). *)
From Coq Require Import Ascii String List ZArith Lia.
From Verif Require Import GoBase NameModel NameSpec NameProofs.
Import ListNotations.
Open Scope Z_scope.
Open Scope string_scope.

(** C01: for every reachable name path, a reference resolves to a leading part of the
    name path followed by the reference (dot-separated pieces), and resolving the result
    changes nothing. *)
Theorem c01_resolution_idempotent : forall calls ref parts, written_as ref parts ->
  let p := np_run calls in
  (exists used unused, np_path p = (used ++ unused)%list /\ merge_path p ref = (used ++ parts)%list)
  /\ merge_path p (merge_path p ref) = merge_path p ref.
Proof. exact c01_lemma. Qed.
Print Assumptions c01_resolution_idempotent.

Example c01_example :
  written_as ["ds.t"] ["ds"; "t"] /\
  merge_path (np_run [SetMax 3; SetPath ["proj"]; AddPath "ds"]) ["ds.t"] = ["proj"; "ds"; "t"] /\
  merge_path (np_run [SetMax 3; SetPath ["proj"]; AddPath "ds"]) ["proj"; "ds"; "t"] = ["proj"; "ds"; "t"].
Proof. split; [apply written_iff; reflexivity | split; reflexivity]. Qed.

(** C02: the maximum bounds the resolved name; one more component is allowed below
    INFORMATION_SCHEMA, and a reference of exactly that many components is literal. *)
Theorem c02_max_name_path_bound : forall calls ref parts n,
  written_as ref parts -> parts <> nil -> np_max (np_run calls) = n -> 0 < n ->
  (~ below_info_schema parts ->
     (zlen parts <= n -> zlen (merge_path (np_run calls) ref) <= n) /\
     (zlen parts = n -> merge_path (np_run calls) ref = parts)) /\
  (below_info_schema parts ->
     (zlen parts <= n + 1 -> zlen (merge_path (np_run calls) ref) <= n + 1) /\
     (zlen parts = n + 1 -> merge_path (np_run calls) ref = parts)).
Proof. exact c02_lemma. Qed.
Print Assumptions c02_max_name_path_bound.

Example c02_example :
  np_max (np_run [SetMax 3; SetPath ["p"; "d"]]) = 3 /\
  ~ below_info_schema ["x"; "y"] /\ below_info_schema ["INFORMATION_SCHEMA"; "COLUMNS"] /\
  merge_path (np_run [SetMax 3; SetPath ["p"; "d"]]) ["x"; "y"] = ["p"; "x"; "y"] /\
  merge_path (np_run [SetMax 3; SetPath ["p"; "d"]]) ["INFORMATION_SCHEMA"; "COLUMNS"] = ["p"; "d"; "INFORMATION_SCHEMA"; "COLUMNS"].
Proof.
  repeat split.
  - intros H. apply info_schema_iff in H. discriminate.
  - apply info_schema_iff. reflexivity.
Qed.

(** C03: the setters are all-or-nothing; components never contain a dot; once a maximum
    is set (and INFORMATION_SCHEMA is not used in the calls) it bounds the name path. *)
Theorem c03_set_name_path_atomic : forall p path,
  (snd (set_path p path) = true -> fst (set_path p path) = p) /\
  (snd (set_path p path) = false ->
     written_as path (np_path (fst (set_path p path))) /\ np_max (fst (set_path p path)) = np_max p).
Proof. exact c03_lemma_set. Qed.
Print Assumptions c03_set_name_path_atomic.

Theorem c03_add_name_path_atomic : forall p path,
  (snd (add_path p path) = true -> fst (add_path p path) = p) /\
  (snd (add_path p path) = false ->
     exists ps, pieces path ps /\ np_path (fst (add_path p path)) = (np_path p ++ ps)%list
                /\ np_max (fst (add_path p path)) = np_max p).
Proof. exact c03_lemma_add. Qed.
Print Assumptions c03_add_name_path_atomic.

Theorem c03_name_path_bounded : forall n calls, 0 < n -> Forall no_info_call calls ->
  zlen (np_path (np_run (SetMax n :: calls))) <= n.
Proof. exact c03_lemma_bound. Qed.
Print Assumptions c03_name_path_bounded.

Theorem c03_name_path_dot_free : forall calls s, In s (np_path (np_run calls)) -> dot_free s.
Proof. exact c03_lemma_dots. Qed.
Print Assumptions c03_name_path_dot_free.

Example c03_example :
  Forall no_info_call [SetPath ["a.b"]; AddPath "c"; AddPath "d"] /\
  np_path (np_run [SetMax 3; SetPath ["a.b"]; AddPath "c"; AddPath "d"]) = ["a"; "b"; "c"] /\
  snd (add_path (np_run [SetMax 3; SetPath ["a.b"]; AddPath "c"]) "d") = true.
Proof.
  repeat split. repeat constructor; simpl; intros H; apply info_schema_iff in H; discriminate.
Qed.

(** C04 holds when the first component of the reference is not itself a component of the
    name path (and the whole fits the maximum).  Missing: references whose first component
    also occurs in the name path, see the refutation. *)
Theorem c04_unqualified_name_partial : forall p ref parts t,
  written_as ref parts -> hd_error parts = Some t -> ~ In t (np_path p) ->
  (0 < np_max p -> ~ below_info_schema parts /\ zlen (np_path p) + zlen parts <= np_max p) ->
  0 <= np_max p ->
  merge_path p ref = (np_path p ++ parts)%list.
Proof. exact c04_lemma. Qed.
Print Assumptions c04_unqualified_name_partial.

Example c04_example :
  ~ In "t" (np_path (np_run [SetMax 3; SetPath ["proj"; "ds"]])) /\
  merge_path (np_run [SetMax 3; SetPath ["proj"; "ds"]]) ["t"] = ["proj"; "ds"; "t"].
Proof. split; [simpl; intros [H|[H|[]]]; discriminate | reflexivity]. Qed.

(** C04 is false in general: a table named like the dataset resolves to the dataset's path. *)
Theorem c04_unqualified_name_refuted : exists project dataset t,
  merge_path (np_run [SetMax 3; SetPath [project; dataset]]) [t] <> [project; dataset; t].
Proof. exists "proj", "ds", "ds". discriminate. Qed.
Print Assumptions c04_unqualified_name_refuted.

(** C05 holds for names without underscores.  Missing: names with underscores, see below. *)
Theorem c05_distinct_names_partial : forall l r, l <> nil -> r <> nil ->
  (forall s, In s (l ++ r)%list -> ~ exists a b, s = a ++ "_" ++ b) ->
  format_path l = format_path r -> l = r.
Proof. exact c05_lemma. Qed.
Print Assumptions c05_distinct_names_partial.

Example c05_example :
  format_path ["proj"; "ds"; "t"] = "proj_ds_t" /\
  (forall s, In s (["proj"; "ds"; "t"] ++ ["ds"; "t"])%list -> ~ exists a b, s = a ++ "_" ++ b).
Proof.
  split; [reflexivity|]. intros s Hs H. apply has_char_underscore in H.
  simpl in Hs. repeat destruct Hs as [<-|Hs]; try discriminate. contradiction.
Qed.

Theorem c05_distinct_names_refuted : exists l r, l <> r /\ format_path l = format_path r.
Proof. exists ["a_b"; "c"], ["a"; "b_c"]. split; [discriminate|reflexivity]. Qed.
Print Assumptions c05_distinct_names_refuted.
