(** What is asked of types and specs: names and texts are well-formed UTF-8 (as every text of a
    statement the analyser accepts). *)
From Coq Require Import Ascii String List ZArith QArith Lia Bool.
From Verif Require Import GoBase DecModel Utf8Model JsonSpec QueryModel DmlModel SpecTextModel.
Import ListNotations.
Local Open Scope string_scope.
Open Scope Z_scope.

Fixpoint type_ok (t : typ) : Prop := match t with Typ n _ _ e f => well_formed n /\ elem_ok e /\ fields_ok f end
with elem_ok (e : etyp) : Prop := match e with ENone => True | ESome t => type_ok t end
with fields_ok (f : ftyp) : Prop := match f with FNil => True | FCons n t r => well_formed n /\ type_ok t /\ fields_ok r end.
Definition tab_ok (t : tabspec) : Prop :=
  Forall well_formed (b_path t) /\ Forall (fun c => well_formed (o_name c) /\ type_ok (o_type c)) (b_cols t) /\ Forall well_formed (b_key t) /\
  well_formed (b_query t) /\ well_formed (b_updated t) /\ well_formed (b_created t).
Definition fun_ok (f : funspec) : Prop :=
  Forall well_formed (f_path f) /\ well_formed (f_lang f) /\ fields_ok (f_args f) /\ type_ok (f_return f) /\
  well_formed (f_body f) /\ well_formed (f_code f) /\ well_formed (f_updated f) /\ well_formed (f_created f).

(** A history of what is saved: objects by name, the last text of each, in order of first saving *)
Inductive object_spec := OTab (t : tabspec) | OFun (f : funspec).
Definition spec_ok (o : object_spec) : Prop := match o with OTab t => tab_ok t | OFun f => fun_ok f end.
Definition same_kind (a b : object_spec) : Prop := match a, b with OTab s, OTab t => b_view s = b_view t | OFun _, OFun _ => True | _, _ => False end.
Inductive change := CSave (n : string) (o : object_spec) | CRemove (n : string).
Fixpoint put_object (n : string) (o : object_spec) (l : list (string * object_spec)) : list (string * object_spec) :=
  match l with [] => [(n, o)] | (m, p) :: r => if String.eqb m n then (n, o) :: r else (m, p) :: put_object n o r end.
Definition change_objects (l : list (string * object_spec)) (c : change) : list (string * object_spec) :=
  match c with CSave n o => put_object n o l | CRemove n => filter (fun p => negb (String.eqb (fst p) n)) l end.
(** No name is used for two kinds of objects (see C09). *)
Definition fits (l : list (string * object_spec)) (c : change) : Prop :=
  match c with CSave n o => spec_ok o /\ forall p, In (n, p) l -> same_kind p o | CRemove n => True end.
Fixpoint all_fit (l : list (string * object_spec)) (h : list change) : Prop :=
  match h with [] => True | c :: r => fits l c /\ all_fit (change_objects l c) r end.
(** Names SQLite does not take for a number: they begin with something else *)
Definition named (n : string) : Prop := number_like n = false.
Definition change_name (c : change) : string := match c with CSave n _ => n | CRemove n => n end.
Definition saved (o : object_spec) : loaded := match o with OTab t => LTab t | OFun f => LFun f end.
