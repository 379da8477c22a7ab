(** C362-C364: types and specs as texts *)
From Coq Require Import Ascii String List ZArith QArith Lia Bool SpecFloat.
From Verif Require Import GoBase GoBaseFacts DecModel Utf8Model Utf8Facts JsonSpec JsonModel JsonProofs QueryModel DmlModel SpecTextModel SpecTextSpec SpecTextProofs.
Import ListNotations.
Local Open Scope string_scope.
Open Scope Z_scope.

(** ** C362 *)
(** UnmarshalDatabaseTypeName gives the type DatabaseTypeName was made from. *)
Theorem c362_type : forall t, type_ok t -> unmarshal_type_name (database_type_name t) = Some t.
Proof.
  intros t O. unfold unmarshal_type_name, database_type_name. rewrite word_string, (reads_denotes _ _ (proj1 reads_all t O)). apply read_all.
Qed.
(** So different types have different names. *)
Theorem c362_different : forall s t, type_ok s -> type_ok t -> database_type_name s = database_type_name t -> s = t.
Proof. intros s t S T E. pose proof (c362_type s S) as A. rewrite E, (c362_type t T) in A. congruence. Qed.
Definition quoted_name := word "a""b<".
Definition nested_type : typ := Typ (word "ARRAY<STRUCT<...>>") 16 0 (ESome (Typ (word "STRUCT") 17 0 ENone (FCons quoted_name (Typ (word "INT64") 2 0 ENone FNil) (FCons [] (Typ (word "DATE") 10 0 ENone FNil) FNil)))) FNil.
Example c362_example : type_ok nested_type /\ unmarshal_type_name (database_type_name nested_type) = Some nested_type.
Proof.
  assert (O : type_ok nested_type) by (cbn [type_ok elem_ok fields_ok nested_type]; repeat split; apply well_formed_iff; vm_compute; reflexivity).
  split; [exact O|now apply c362_type].
Qed.

(** ** C363 *)
(** After any history of saved and removed definitions, reading the catalog table gives the last
    definition of every object, with all parts. *)
Theorem c363_history : forall F whole of_int number_text text_number same h, all_fit [] h -> Forall (fun c => named (change_name c)) h ->
  load_all F (fold_left (apply_change F whole of_int number_text text_number same) h []) = Some (map (fun p => saved (snd p)) (fold_left change_objects h [])).
Proof.
  intros F whole of_int number_text text_number same h A N.
  destruct (history_rows F whole of_int number_text text_number same h [] (Forall_nil _) A N) as [E O]. cbn [map] in E. rewrite E. now apply load_rows.
Qed.
Definition date_text := word "2020-01-01T00:00:00Z".
Definition some_tab (q : string) : tabspec := Tabspec false false [word "p"; word "t"] [Colspec quoted_name nested_type true] [quoted_name] 2 (word q) date_text date_text.
Definition some_fun : funspec := Funspec false [word "f"] (word "js") (FCons (word "x") nested_type FNil) nested_type (word "") (word "return x < 1 && ""a"";") date_text date_text.
Definition spec_history := [CSave "p_t" (OTab (some_tab "")); CSave "f" (OFun some_fun); CSave "u" (OTab (some_tab "SELECT")); CRemove "u"; CSave "p_t" (OTab (some_tab "SELECT 1"))].
Example c363_example : all_fit [] spec_history /\ Forall (fun c => named (change_name c)) spec_history /\
  fold_left change_objects spec_history [] = [("p_t", OTab (some_tab "SELECT 1")); ("f", OFun some_fun)].
Proof.
  assert (T : type_ok nested_type) by apply c362_example.
  assert (W : forall l, encode (decode l) = l -> well_formed l) by (intros l; apply well_formed_iff).
  assert (S : forall q, encode (decode (word q)) = word q -> tab_ok (some_tab q)).
  { intros q Q. unfold tab_ok, some_tab. cbn [b_path b_cols b_key b_query b_updated b_created o_name o_type].
    repeat split; repeat (apply Forall_cons || apply Forall_nil); try split; try exact T; apply W; try exact Q; vm_compute; reflexivity. }
  assert (F : fun_ok some_fun).
  { unfold fun_ok, some_fun. cbn [f_path f_lang f_args f_return f_body f_code f_updated f_created fields_ok].
    repeat split; repeat (apply Forall_cons || apply Forall_nil); try apply T; apply W; vm_compute; reflexivity. }
  split; [|split; [repeat constructor|reflexivity]].
  cbn -[some_tab some_fun tab_ok fun_ok].
  repeat match goal with |- _ /\ _ => split end; try exact I; try (apply S; vm_compute; reflexivity); try exact F; intros p H;
    repeat (destruct H as [H|H]; [|]); try contradiction; try congruence.
  assert (p = OTab (some_tab "")) by congruence. subst. reflexivity.
Qed.
(** The code of a function and the texts of types survive also when they hold characters that
    JSON escapes. *)
Theorem c363_function : forall f, fun_ok f -> obind (denotes (fun_text f)) read_fun = Some f.
Proof. intros f O. rewrite (reads_denotes _ _ (reads_fun f O)). apply read_fun_json. Qed.
Theorem c363_table : forall t, tab_ok t -> obind (denotes (tab_text t)) read_tab = Some t.
Proof. intros t O. rewrite (reads_denotes _ _ (reads_tab t O)). apply read_tab_json. Qed.

(** ** C364 *)
(** Two names that SQLite reads as the same integer share one row: saving the second takes the
    place of the first, which is gone after reopening. *)
Theorem c364_refuted : forall F whole of_int number_text text_number same n m z t u, tab_ok t -> tab_ok u -> b_view t = b_view u ->
  number_like n = true -> number_like m = true -> text_number n = Some (inl z) -> text_number m = Some (inl z) ->
  load_all F (fold_left (apply_change F whole of_int number_text text_number same) [CSave n (OTab t); CSave m (OTab u)] []) = Some [LTab u] /\
  load_all F (fold_left (apply_change F whole of_int number_text text_number same) [CSave n (OTab t); CSave m (OTab u); CRemove m] []) = Some [].
Proof.
  intros F whole of_int number_text text_number same n m z t u T U V Ln Lm Tn Tm.
  assert (Cn : string_cell F whole of_int number_text text_number n = CInt F z).
  { unfold string_cell. cbn [given]. change (affinity_of "STRING") with ANumeric. cbn [store]. unfold read_number. now rewrite Ln, Tn. }
  assert (Cm : string_cell F whole of_int number_text text_number m = CInt F z).
  { unfold string_cell. cbn [given]. change (affinity_of "STRING") with ANumeric. cbn [store]. unfold read_number. now rewrite Lm, Tm. }
  assert (R : fold_left (apply_change F whole of_int number_text text_number same) [CSave n (OTab t); CSave m (OTab u)] [] =
    [(CInt F z, kind_word (OTab u), CText F (spec_text (OTab u)))]).
  { cbn [fold_left apply_change]. unfold save_tab. cbn [upsert]. unfold row_named. cbn [fst]. rewrite Cn, Cm. cbn [cell_eqb]. rewrite Z.eqb_refl. cbn [fst].
    rewrite V. change (string_of (tab_text u)) with (spec_text (OTab u)). now rewrite spec_cell. }
  split.
  - rewrite R. cbn [load_all].
    pose proof (load_row F (n, OTab u) U) as L. unfold load, row_of in L |- *. cbn [fst snd] in L |- *. rewrite L. reflexivity.
  - change [CSave n (OTab t); CSave m (OTab u); CRemove m] with (([CSave n (OTab t); CSave m (OTab u)] ++ [CRemove m])%list).
    rewrite fold_left_app, R. cbn [fold_left apply_change]. unfold remove. cbn [filter]. unfold row_named. cbn [fst]. rewrite Cm. cbn [cell_eqb]. now rewrite Z.eqb_refl.
Qed.
(** Names that do not begin like a number keep their rows. *)
Theorem c364_names_partial : forall F whole of_int number_text text_number n m, named n -> named m -> n <> m ->
  string_cell F whole of_int number_text text_number n <> string_cell F whole of_int number_text text_number m.
Proof.
  intros F whole of_int number_text text_number n m N M D E.
  rewrite (cell_text F whole of_int number_text text_number n N), (cell_text F whole of_int number_text text_number m M) in E. congruence.
Qed.
Example c364_example : number_like "1" = true /\ number_like "01" = true /\ named "t1" /\ tab_ok (some_tab "").
Proof. repeat split; try reflexivity. all: destruct c363_example as ((H & _) & _); apply H. Qed.

Print Assumptions c362_type.
Print Assumptions c362_different.
Print Assumptions c363_history.
Print Assumptions c363_function.
Print Assumptions c363_table.
Print Assumptions c364_refuted.
Print Assumptions c364_names_partial.
