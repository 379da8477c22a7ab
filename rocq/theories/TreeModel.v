(** Model of the ZetaSQL SimpleCatalog tree that internal/catalog.go fills, and of the
    look-up ZetaSQL performs in it.  One tree holds tables, another functions: in the code
    both live in one SimpleCatalog, whose two name spaces are independent and whose empty
    sub-catalogs are not observable by look-ups. *)
From Coq Require Import Ascii String List ZArith Bool.
From Verif Require Import GoBase.
Import ListNotations.

Section Tree.
  Context {D : Type}.

  (** types.SimpleCatalog (ZetaSQL): objects and sub-catalogs keyed by lower-cased name. *)
  Inductive tree := Node (objs : amap D) (subs : list (string * tree)).

  Definition t_objs (t : tree) := match t with Node o _ => o end.
  Definition t_subs (t : tree) := match t with Node _ s => s end.

  (** internal/catalog.go:68-72 [newSimpleCatalog].  Simplification: the built-in
      functions, which user functions never shadow in ZetaSQL, are left out. *)
  Definition empty_tree : tree := Node [] [].

  (** SimpleCatalog::GetCatalog, as used by catalog.go:444 and 501 [cat.Catalog]. *)
  Definition sub_get (t : tree) (name : string) : option tree := aget (t_subs t) (lower name).

  (** SimpleCatalog::AddCatalog (catalog.go:447, 504), and the in-place mutation of an
      existing sub-catalog reached through its pointer. *)
  Definition sub_set (t : tree) (name : string) (s : tree) : tree :=
    Node (t_objs t) (aset (t_subs t) (lower name) s).

  (** ZetaSQL Catalog::FindTable / FindFunction on a path: descend through the
      sub-catalogs, then look the last component up. *)
  Fixpoint tfind (t : tree) (path : list string) : option D :=
    match path with
    | [] => None
    | [name] => aget (t_objs t) (lower name)
    | p :: rest =>
        match sub_get t p with
        | Some s => tfind s rest
        | None => None
        end
    end.

  (** internal/catalog.go:543-551 [existsTable], [existsFunction]. *)
  Definition exists_obj (t : tree) (name : string) : bool :=
    match tfind t [name] with Some _ => true | None => false end.

  (** SimpleCatalog::AddTable / AddFunction of a name that is not there yet. *)
  Definition add_obj (t : tree) (name : string) (d : D) : tree :=
    Node (aset (t_objs t) (lower name) d) (t_subs t).

  Definition add_if_absent (t : tree) (name : string) (d : D) : tree :=
    if exists_obj t name then t else add_obj t name d.

  (** internal/catalog.go:441-482 [addTableSpecRecursive] ([dotted] = true) and
      498-541 [addFunctionSpecRecursive] ([dotted] = false, no dotted full name).
      [d] is the payload (columns, or signature) carried by [copyTableSpec] unchanged.
      The error for an empty path is reported by the caller's model. *)
  Fixpoint add_rec (dotted : bool) (path : list string) (d : D) (t : tree) : tree :=
    match path with
    | [] => t
    | [name] => add_if_absent t name d
    | p :: rest =>
        let t1 := match sub_get t p with Some _ => t | None => sub_set t p empty_tree end in
        let t2 := if dotted then add_if_absent t1 (join "." path) d else t1 in
        let t3 := add_rec dotted rest d t2 in
        match sub_get t3 p with
        | Some s => sub_set t3 p (add_rec dotted rest d s)
        | None => t3
        end
    end.

  (** The tree after adding specs in order (catalog.go:314-331, 427-439). *)
  Definition add_all (dotted : bool) (specs : list (list string * D)) (t : tree) : tree :=
    fold_left (fun t s => add_rec dotted (fst s) (snd s) t) specs t.
End Tree.
Arguments tree D : clear implicits.
