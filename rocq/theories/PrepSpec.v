(** What users expect of Prepare, Exec and Query. *)
From Coq Require Import Ascii String List ZArith Lia Bool.
From Verif Require Import GoBase ParamModel PrepModel.
Import ListNotations.
Local Open Scope string_scope.

(** All arguments are positional. *)
Definition positional {V} (args : list (arg V)) : Prop := forall v, In v args -> a_name v = "".

(** The calls that a statement has to make, and those that remove what is temporary *)
Section Calls.
  Context {T W : Type}.
  Definition statement_calls (a : action (T := T)) (args : list (string * W)) : list (call (W := W)) :=
    match a with
    | ATable n schema _ replace _ indexes =>
        (if replace then [CExec ("DROP TABLE IF EXISTS `" ++ n ++ "`") []] else []) ++ [CExec schema args]
        ++ map (fun t => CExec t []) indexes ++ [CAddTable n]
    | AView n schema replace _ =>
        (if replace then [CExec ("DROP VIEW IF EXISTS `" ++ n ++ "`") []] else []) ++ [CExec schema []; CAddTable n]
    | AFunction n _ => [CAddFunction n]
    | ADrop fn n text _ => if fn then [CDelFunction n] else [CExec text args; CDelTable n]
    | ADml text _ | AQuery text _ _ => [CExec text args]
    | ABegin | ACommit => []
    | ATruncate text => [CExec text []]
    | AMerge texts => map (fun t => CExec t []) texts
    end%list.
  Definition cleanup_calls (a : action (T := T)) : list (call (W := W)) :=
    match a with
    | ATable n _ _ _ true _ => [CExec ("DROP TABLE IF EXISTS `" ++ n ++ "`") []; CDelTable n]
    | AView n _ _ true => [CExec ("DROP VIEW IF EXISTS `" ++ n ++ "`") []; CDelTable n]
    | AFunction n true => [CDelFunction n]
    | _ => []
    end%list.
End Calls.

(** One text is part of another. *)
Definition part_of (x s : string) : Prop := exists a b, s = a ++ x ++ b.

(** ** CREATE INDEX as SQLite reads it: an identifier without quotes has letters, digits,
    underscores, dollar signs and bytes above 127 *)
Definition id_char (c : ascii) : bool :=
  let n := nat_of_ascii c in
  ((48 <=? n) && (n <=? 57) || (65 <=? n) && (n <=? 90) || (97 <=? n) && (n <=? 122) || (n =? 95) || (n =? 36) || (128 <=? n))%nat.
Fixpoint every (f : ascii -> bool) (s : string) : bool := match s with EmptyString => true | String c r => f c && every f r end.
Definition no_backtick (s : string) : Prop := every (fun c => negb (Ascii.eqb c "`")) s = true.
Definition is_create_index (s : string) : Prop :=
  exists i t c, s = "CREATE INDEX IF NOT EXISTS " ++ i ++ " ON `" ++ t ++ "`(`" ++ c ++ "`)" /\
    every id_char i = true /\ no_backtick t /\ no_backtick c.
