(** Property theorem C08 (fully qualified references). *)
From Coq Require Import Ascii String List ZArith Lia.
From Verif Require Import GoBase NameSpec NameProofs TreeModel TreeSpec TreeProofs.
Import ListNotations.
Local Open Scope string_scope.
Local Open Scope nat_scope.

(** C08: with equally long table paths, every spelling of a full path finds the first table
    created with that path and nothing else, for every creation order. *)
Theorem c08_full_path_finds_own_table : forall (D : Type) (specs : list (list string * D)) n path ref d,
  (forall q e, In (q, e) specs -> length q = n /\ forall s, In s q -> dot_free s) ->
  0 < n -> length path = n -> (forall s, In s path -> dot_free s) ->
  spelling path ref ->
  (tfind (add_all true specs empty_tree) ref = Some d <-> first_with path specs d).
Proof. exact @c08_lemma. Qed.
Print Assumptions c08_full_path_finds_own_table.

Example c08_example :
  let specs := [(["p"; "d"; "t"], 1); (["p"; "e"; "t"], 2); (["q"; "d"; "T"], 3)] in
  spelling ["p"; "e"; "t"] ["p"; "e.t"] /\ first_with ["p"; "e"; "t"] specs 2 /\
  tfind (add_all true specs empty_tree) ["p"; "e"; "t"] = Some 2 /\
  tfind (add_all true specs empty_tree) ["p"; "e.t"] = Some 2 /\
  tfind (add_all true specs empty_tree) ["p.e.t"] = Some 2 /\
  tfind (add_all true specs empty_tree) ["Q"; "d"; "t"] = Some 3 /\
  tfind (add_all true specs empty_tree) ["q"; "e"; "t"] = None.
Proof.
  split; [exists ["p"], ["e"; "t"]; repeat split; discriminate|].
  split; [|repeat split].
  apply fw_later; [|apply fw_here; apply map_lower_same; reflexivity].
  intros H. apply map_lower_same in H. discriminate.
Qed.

(** The equal-length condition cannot be dropped: with p.d.t created before p.t, the full
    name p.t denotes p.d.t. *)
Lemma unequal_lengths_shadow : exists (specs : list (list string * nat)) path d,
  In (path, d) specs /\ first_with path specs d /\
  tfind (add_all true specs empty_tree) path <> Some d.
Proof.
  exists [(["p"; "d"; "t"], 1); (["p"; "t"], 2)], ["p"; "t"], 2.
  split; [right; left; reflexivity|]. split.
  - apply fw_later; [|apply fw_here; apply map_lower_same; reflexivity].
    intros H. apply map_lower_same in H. discriminate.
  - discriminate.
Qed.
Print Assumptions unequal_lengths_shadow.
