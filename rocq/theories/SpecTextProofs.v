(** Lemmas for SpecTextProps.v *)
From Coq Require Import Ascii String List ZArith QArith Lia Bool SpecFloat.
From Verif Require Import GoBase GoBaseFacts DecModel DecFacts Utf8Model Utf8Facts JsonSpec JsonModel JsonProofs QueryModel DmlModel SpecTextModel SpecTextSpec.
Import ListNotations.
Local Open Scope string_scope.
Local Open Scope list_scope.
Open Scope Z_scope.

Lemma go_rune_read r t : scalar r -> chars (go_rune r ++ t) = onto (encode_rune r) (chars t).
Proof.
  intros S. unfold go_rune. assert (R : 0 <= r <= 1114111) by (unfold scalar in S; lia).
  assert (U : r < 65536 -> chars ((bslash_c :: "u"%char :: hex 4 r) ++ t) = onto (encode_rune r) (chars t)).
  { intros B. assert (H4 : exists a b c d, hex 4 r = [a; b; c; d]) by (cbn [hex app]; do 4 eexists; reflexivity). destruct H4 as (a & b & c & d & H4).
    rewrite H4. cbn [app chars]. change (Ascii.eqb bslash_c quote_c) with false. change (Ascii.eqb bslash_c bslash_c) with true.
    change (escaped "u") with (@None ascii). change (Ascii.eqb "u" "u") with true. cbv iota.
    rewrite (hex4_hex r a b c d) by (assumption || lia). rewrite (proj2 (scalarb_iff r) S). now rewrite encode_rune_scalar. }
  destruct (Z.eqb_spec r 34); [subst; reflexivity|]. destruct (Z.eqb_spec r 92); [subst; reflexivity|]. cbn [orb].
  destruct (Z.eqb_spec r 10); [subst; reflexivity|]. destruct (Z.eqb_spec r 13); [subst; reflexivity|]. destruct (Z.eqb_spec r 9); [subst; reflexivity|].
  destruct (Z.ltb_spec r 32); cbn [orb]; [apply U; lia|].
  destruct (existsb (Z.eqb r) [60; 62; 38; 8232; 8233]) eqn:E.
  - apply U. apply existsb_exists in E as (x & Hx & E). apply Z.eqb_eq in E. subst x. cbn [In] in Hx. lia.
  - apply copied; assumption || lia.
Qed.
Lemma go_runes_read rs t : Forall scalar rs -> chars (flat_map go_rune rs ++ t) = onto (encode rs) (chars t).
Proof.
  induction 1 as [|r rs S _ IH]; cbn [flat_map app]; [destruct (chars t) as [[? ?]|]; reflexivity|].
  rewrite <- app_assoc, go_rune_read, IH by exact S. now rewrite onto_onto.
Qed.
Lemma reads_go_string s : well_formed s -> reads_as (go_string s) (JStr s).
Proof.
  intros W. apply exact_reads. intros rest _. exists 1%nat. unfold go_string. cbn [app value skip]. change (space quote_c) with false. cbv iota.
  change (Ascii.eqb quote_c quote_c) with true. cbv iota. rewrite <- app_assoc. cbn [app].
  rewrite go_runes_read by apply decode_scalars. cbn [chars]. change (Ascii.eqb quote_c quote_c) with true. cbn [onto].
  now rewrite app_nil_r, well_formed_decode.
Qed.
Lemma reads_bool b : reads_as (bool_text b) (JBool b).
Proof. destruct b; apply reads_word; cbn; tauto. Qed.
Lemma reads_null : reads_as (word "null") JNull.
Proof. apply reads_word; cbn; tauto. Qed.

(** Objects with the member names that occur *)
Definition keys : list string :=
  ["name"; "kind"; "signatureKind"; "elementType"; "fieldTypes"; "type"; "isNotNull"; "isTemp"; "isView"; "namePath"; "columns"; "primaryKey"; "createMode";
   "query"; "updatedAt"; "createdAt"; "language"; "args"; "return"; "body"; "code"].
Definition no_print (r : Z) : bool := false.
Lemma key_plain k : In k keys -> quote no_print (word k) = (quote_c :: word k ++ [quote_c])%list /\ well_formed (word k) /\ forallb (jsonable no_print) (decode (word k)) = true.
Proof.
  assert (H : forallb (fun k => (if list_eq_dec ascii_dec (quote no_print (word k)) (quote_c :: word k ++ [quote_c])%list then true else false)
    && (if list_eq_dec ascii_dec (encode (decode (word k))) (word k) then true else false) && forallb (jsonable no_print) (decode (word k))) keys = true) by (vm_compute; reflexivity).
  rewrite forallb_forall in H. intros I. specialize (H k I). apply andb_prop in H as [H J]. apply andb_prop in H as [Q W].
  destruct (list_eq_dec ascii_dec (quote no_print (word k)) _) as [E|]; [|discriminate]. destruct (list_eq_dec ascii_dec (encode _) _) as [E'|]; [|discriminate].
  split; [exact E|]. split; [now apply well_formed_iff|exact J].
Qed.
Lemma reads_obj l js : Forall2 (fun m j => In (fst m) keys /\ reads_as (snd m) j) l js ->
  reads_as (object l) (JObj (combine (map (fun m => word (fst m)) l) js)).
Proof.
  intros F. unfold object.
  assert (E : map member l = map (member_text no_print) (map (fun m => (word (fst m), snd m)) l)).
  { induction F as [|m j l js (K & _) _ IH]; [reflexivity|]. cbn [map]. rewrite IH. f_equal. unfold member, member_text. cbn [fst snd].
    rewrite (proj1 (key_plain _ K)). cbn [app]. now rewrite <- app_assoc. }
  rewrite E. apply (reads_object no_print).
  induction F as [|m j l js (K & R) _ IH]; cbn [map combine]; constructor.
  - destruct (key_plain _ K) as (_ & W & J). repeat split; assumption.
  - apply IH. cbn [map] in E. congruence.
Qed.
Definition arr_null (l : list json) : json := match l with [] => JNull | _ => JArr l end.
Lemma reads_or_null l js : Forall2 reads_as l js -> reads_as (or_null l) (arr_null js).
Proof. intros F. unfold or_null. destruct F; [apply reads_null|]. apply reads_array. now constructor. Qed.

(** ** Types *)
Fixpoint type_json (t : typ) : json :=
  match t with
  | Typ n k s e f => JObj [(word "name", JStr n); (word "kind", JNum (inject_Z k)); (word "signatureKind", JNum (inject_Z s)); (word "elementType", elem_json e);
                           (word "fieldTypes", arr_null (field_jsons f))]
  end
with elem_json (e : etyp) : json := match e with ENone => JNull | ESome t => type_json t end
with field_jsons (f : ftyp) : list json := match f with FNil => [] | FCons n t r => JObj [(word "name", JStr n); (word "type", type_json t)] :: field_jsons r end.
Scheme typ_m := Induction for typ Sort Prop with etyp_m := Induction for etyp Sort Prop with ftyp_m := Induction for ftyp Sort Prop.
Combined Scheme typ_all from typ_m, etyp_m, ftyp_m.
Ltac in_keys := cbn [fst]; unfold keys; repeat (first [apply in_eq | apply in_cons]).
Ltac each_member := repeat (apply Forall2_cons; [split; [in_keys|cbn [snd]]|]); try apply Forall2_nil.
Lemma reads_all :
  (forall t, type_ok t -> reads_as (type_text t) (type_json t)) /\ (forall e, elem_ok e -> reads_as (elem_text e) (elem_json e)) /\
  (forall f, fields_ok f -> Forall2 reads_as (field_texts f) (field_jsons f)).
Proof.
  apply typ_all.
  - intros n k s e IHe f IHf (W & E & F). cbn [type_text type_json].
    refine (reads_obj [("name", go_string n); ("kind", int_text k); ("signatureKind", int_text s); ("elementType", elem_text e); ("fieldTypes", or_null (field_texts f))]
      [JStr n; JNum (inject_Z k); JNum (inject_Z s); elem_json e; arr_null (field_jsons f)] _).
    each_member; [now apply reads_go_string|apply reads_int|apply reads_int|now apply IHe|apply reads_or_null; now apply IHf].
  - intros _. apply reads_null.
  - intros t IH H. now apply IH.
  - intros _. constructor.
  - intros n t IH r IHr (W & T & F). cbn [field_texts field_jsons]. constructor; [|now apply IHr].
    refine (reads_obj [("name", go_string n); ("type", type_text t)] [JStr n; type_json t] _).
    each_member; [now apply reads_go_string|now apply IH].
Qed.
Lemma as_int_Z z : as_int (JNum (inject_Z z)) = Some z.
Proof. unfold as_int. rewrite Qred_int. reflexivity. Qed.
Definition read_fields (l : list json) : option ftyp :=
  (fix fields (l : list json) : option ftyp :=
                                 match l with
                                 | [] => Some FNil
                                 | JObj m :: l' =>
                                     obind ((fix field (m : list (bytes * json)) (n : bytes) (o : option typ) : option (bytes * typ) :=
                                        match m with
                                        | [] => option_map (pair n) o
                                        | (k, v) :: m' =>
                                            if is_key k "name" then obind (as_text v) (fun n => field m' n o)
                                            else if is_key k "type" then obind (read_type v) (fun t => field m' n (Some t))
                                            else field m' n o
                                        end) m [] None) (fun p =>
                                     obind (fields l') (fun f => Some (FCons (fst p) (snd p) f)))
                                 | _ => None
                                 end) l.
Lemma read_type_typ n k s ej fj :
  read_type (JObj [(word "name", JStr n); (word "kind", JNum (inject_Z k)); (word "signatureKind", JNum (inject_Z s)); (word "elementType", ej); (word "fieldTypes", fj)]) =
  obind (match ej with JNull => Some ENone | _ => option_map ESome (read_type ej) end) (fun e =>
  obind (match fj with JNull => Some FNil | JArr l => read_fields l | _ => None end) (fun f => Some (Typ n k s e f))).
Proof.
  cbn [read_type]. change (is_key (word "name") "name") with true. change (is_key (word "kind") "name") with false. change (is_key (word "kind") "kind") with true.
  change (is_key (word "signatureKind") "name") with false. change (is_key (word "signatureKind") "kind") with false. change (is_key (word "signatureKind") "signatureKind") with true.
  change (is_key (word "elementType") "name") with false. change (is_key (word "elementType") "kind") with false. change (is_key (word "elementType") "signatureKind") with false. change (is_key (word "elementType") "elementType") with true.
  change (is_key (word "fieldTypes") "name") with false. change (is_key (word "fieldTypes") "kind") with false. change (is_key (word "fieldTypes") "signatureKind") with false.
  change (is_key (word "fieldTypes") "elementType") with false. change (is_key (word "fieldTypes") "fieldTypes") with true.
  cbv iota. unfold zero_type. cbn [as_text obind]. rewrite !as_int_Z. cbn [obind].
  assert (F : forall e, match fj with JNull => Some (Typ n k s e FNil) | JArr l => obind (read_fields l) (fun f => Some (Typ n k s e f)) | _ => None end =
    obind (match fj with JNull => Some FNil | JArr l => read_fields l | _ => None end) (fun f => Some (Typ n k s e f))) by (intros; destruct fj; reflexivity).
  destruct ej; cbn [option_map obind]; try (exact (F ENone)); try reflexivity;
    match goal with |- obind ?x _ = _ => destruct x as [e|]; [cbn [obind option_map]; exact (F (ESome e))|reflexivity] end.
Qed.
Lemma read_fields_cons n tj l : read_fields (JObj [(word "name", JStr n); (word "type", tj)] :: l) =
  obind (read_type tj) (fun t => obind (read_fields l) (fun f => Some (FCons n t f))).
Proof.
  change (read_fields (JObj [(word "name", JStr n); (word "type", tj)] :: l)) with
    (obind (obind (read_type tj) (fun t => Some (n, t))) (fun p => obind (read_fields l) (fun f => Some (FCons (fst p) (snd p) f)))).
  now destruct (read_type tj).
Qed.
Lemma type_json_obj t : exists l, type_json t = JObj l.
Proof. destruct t. eexists. reflexivity. Qed.
Lemma read_all :
  (forall t, read_type (type_json t) = Some t) /\ (forall e, match elem_json e with JNull => Some ENone | _ => option_map ESome (read_type (elem_json e)) end = Some e) /\
  (forall f, read_fields (field_jsons f) = Some f).
Proof.
  apply typ_all.
  - intros n k s e IHe f IHf. cbn [type_json]. rewrite read_type_typ, IHe. cbn [obind].
    unfold arr_null. destruct (field_jsons f) as [|j l] eqn:E; [destruct f; [reflexivity|discriminate]|]. now rewrite IHf.
  - reflexivity.
  - intros t IH. cbn [elem_json]. destruct (type_json_obj t) as (l & E). rewrite E. rewrite <- E, IH. reflexivity.
  - reflexivity.
  - intros n t IH r IHr. cbn [field_jsons]. rewrite read_fields_cons, IH. cbn [obind]. now rewrite IHr.
Qed.

(** ** Specs *)
Lemma read_list_map {A B} (f : json -> option A) (g : B -> json) (h : B -> A) l : (forall x, f (g x) = Some (h x)) -> read_list f (map g l) = Some (map h l).
Proof. intros H. induction l as [|x l IH]; [reflexivity|]. cbn. now rewrite H, IH. Qed.
Lemma as_list_null {A B} (f : json -> option A) (g : B -> json) (h : B -> A) l : (forall x, f (g x) = Some (h x)) ->
  as_list f (arr_null (map g l)) = Some (map h l).
Proof. intros H. rewrite <- (read_list_map f g h l H). now destruct l. Qed.
Definition col_json (c : colspec) : json := JObj [(word "name", JStr (o_name c)); (word "type", type_json (o_type c)); (word "isNotNull", JBool (o_notnull c))].
Definition texts_json (l : list bytes) : json := arr_null (map JStr l).
Definition tab_json (t : tabspec) : json :=
  JObj [(word "isTemp", JBool (b_temp t)); (word "isView", JBool (b_view t)); (word "namePath", texts_json (b_path t));
        (word "columns", JArr (map col_json (b_cols t))); (word "primaryKey", texts_json (b_key t)); (word "createMode", JNum (inject_Z (b_mode t)));
        (word "query", JStr (b_query t)); (word "updatedAt", JStr (b_updated t)); (word "createdAt", JStr (b_created t))].
Definition fun_json (f : funspec) : json :=
  JObj [(word "isTemp", JBool (f_temp f)); (word "name", texts_json (f_path f)); (word "language", JStr (f_lang f));
        (word "args", JArr (field_jsons (f_args f))); (word "return", type_json (f_return f)); (word "body", JStr (f_body f)); (word "code", JStr (f_code f));
        (word "updatedAt", JStr (f_updated f)); (word "createdAt", JStr (f_created f))].
Lemma reads_texts l : Forall well_formed l -> reads_as (or_null (map go_string l)) (texts_json l).
Proof. intros F. unfold texts_json. apply reads_or_null. induction F; cbn; constructor; [now apply reads_go_string|assumption]. Qed.
Lemma reads_col c : well_formed (o_name c) /\ type_ok (o_type c) -> reads_as (col_text c) (col_json c).
Proof.
  intros [W T]. refine (reads_obj [("name", go_string (o_name c)); ("type", type_text (o_type c)); ("isNotNull", bool_text (o_notnull c))] [JStr (o_name c); type_json (o_type c); JBool (o_notnull c)] _).
  each_member; [now apply reads_go_string|now apply reads_all|apply reads_bool].
Qed.
Lemma reads_tab t : tab_ok t -> reads_as (tab_text t) (tab_json t).
Proof.
  intros (P & C & K & Q & U & Cr).
  refine (reads_obj [("isTemp", bool_text (b_temp t)); ("isView", bool_text (b_view t)); ("namePath", or_null (map go_string (b_path t)));
          ("columns", array (map col_text (b_cols t))); ("primaryKey", or_null (map go_string (b_key t))); ("createMode", int_text (b_mode t));
          ("query", go_string (b_query t)); ("updatedAt", go_string (b_updated t)); ("createdAt", go_string (b_created t))]
    [JBool (b_temp t); JBool (b_view t); texts_json (b_path t); JArr (map col_json (b_cols t)); texts_json (b_key t); JNum (inject_Z (b_mode t)); JStr (b_query t); JStr (b_updated t); JStr (b_created t)] _).
  each_member; try apply reads_bool; try (now apply reads_texts); try (now apply reads_go_string); try apply reads_int.
  apply reads_array. clear - C. induction C; cbn; constructor; [now apply reads_col|assumption].
Qed.
Lemma reads_fun f : fun_ok f -> reads_as (fun_text f) (fun_json f).
Proof.
  intros (P & L & A & R & B & C & U & Cr).
  refine (reads_obj [("isTemp", bool_text (f_temp f)); ("name", or_null (map go_string (f_path f))); ("language", go_string (f_lang f));
          ("args", array (field_texts (f_args f))); ("return", type_text (f_return f)); ("body", go_string (f_body f)); ("code", go_string (f_code f));
          ("updatedAt", go_string (f_updated f)); ("createdAt", go_string (f_created f))]
    [JBool (f_temp f); texts_json (f_path f); JStr (f_lang f); JArr (field_jsons (f_args f)); type_json (f_return f); JStr (f_body f); JStr (f_code f); JStr (f_updated f); JStr (f_created f)] _).
  each_member; try apply reads_bool; try (now apply reads_texts); try (now apply reads_go_string); try (now apply reads_all).
  apply reads_array. now apply reads_all.
Qed.
Lemma read_col_json c : read_col (col_json c) = Some c.
Proof. destruct c as [n t b]. unfold read_col, col_json, read_struct, step_members. cbn -[read_type]. rewrite (proj1 read_all). reflexivity. Qed.
Lemma read_texts l : as_list as_text (texts_json l) = Some l.
Proof. unfold texts_json. rewrite (as_list_null as_text JStr (fun x => x)) by reflexivity. now rewrite map_id. Qed.
Lemma read_tab_json t : read_tab (tab_json t) = Some t.
Proof.
  destruct t as [tmp vw pa co ke mo qu up cr]. unfold read_tab, tab_json, read_struct, step_members.
  assert (C : as_list read_col (JArr (map col_json co)) = Some co).
  { unfold as_list. rewrite (read_list_map read_col col_json (fun c => c)) by apply read_col_json. now rewrite map_id. }
  cbn -[read_type texts_json as_list as_int inject_Z read_col]. rewrite read_texts. cbn -[read_type texts_json as_list as_int inject_Z read_col].
  rewrite C. cbn -[read_type texts_json as_list as_int inject_Z read_col]. rewrite read_texts. cbn -[as_int inject_Z]. rewrite as_int_Z. reflexivity.
Qed.
Fixpoint named_fields (f : ftyp) : list (bytes * typ) := match f with FNil => [] | FCons n t r => (n, t) :: named_fields r end.
Lemma fields_of_named f : fields_of (named_fields f) = f.
Proof. induction f as [|n t r IH]; [reflexivity|]. cbn. now rewrite IH. Qed.
Lemma read_args f : read_list read_named (field_jsons f) = Some (named_fields f).
Proof.
  induction f as [|n t r IH]; [reflexivity|]. cbn [field_jsons read_list named_fields]. rewrite IH.
  replace (read_named _) with (Some (n, t)); [reflexivity|]. unfold read_named, read_struct, step_members. cbn -[read_type]. now rewrite (proj1 read_all).
Qed.
Lemma read_fun_json f : read_fun (fun_json f) = Some f.
Proof.
  destruct f as [tmp pa la ar re bo co up cr]. unfold read_fun, fun_json, read_struct, step_members.
  assert (A : as_list read_named (JArr (field_jsons ar)) = Some (named_fields ar)) by apply read_args.
  cbn -[read_type texts_json as_list read_named fields_of]. rewrite read_texts. cbn -[read_type texts_json as_list read_named fields_of].
  rewrite A. cbn -[read_type fields_of]. rewrite fields_of_named, (proj1 read_all). reflexivity.
Qed.

(** ** The catalog table *)
Lemma word_string s : word (string_of s) = s.
Proof. apply list_ascii_of_string_of_list_ascii. Qed.
Section Catalog.
  Variable float : Type.
  Variable whole : float -> option Z.
  Variable of_int : Z -> float.
  Variable number_text : (Z + float) -> string.
  Variable text_number : string -> option (Z + float).
  Variable same : float -> float -> bool.
  Notation string_cell := (string_cell float whole of_int number_text text_number).
  Notation row_named := (row_named float whole of_int number_text text_number same).
  Notation save_tab := (save_tab float whole of_int number_text text_number same).
  Notation save_fun := (save_fun float whole of_int number_text text_number same).
  Notation remove := (remove float whole of_int number_text text_number same).
  Notation upsert := (upsert float whole of_int number_text text_number same).
  Notation load := (load float).
  Lemma cell_text s : number_like s = false -> string_cell s = CText float s.
  Proof. intros N. unfold SpecTextModel.string_cell. cbn [given]. change (affinity_of "STRING") with ANumeric. cbn [store]. unfold read_number. now rewrite N. Qed.
  Definition kind_word (o : object_spec) : string := match o with OTab t => if b_view t then "view" else "table" | OFun _ => "function" end.
  Definition spec_text (o : object_spec) : string := string_of (match o with OTab t => tab_text t | OFun f => fun_text f end).
  (** What a change does to the table: saveTableSpec, saveFunctionSpec or the DELETE of catalog.go:43-45 *)
  Definition apply_change (l : list (crow float)) (c : change) : list (crow float) :=
    match c with
    | CSave n (OTab t) => save_tab n t l
    | CSave n (OFun f) => save_fun n f l
    | CRemove n => remove n l
    end.
  Definition row_of (p : string * object_spec) : crow float := (CText float (fst p), kind_word (snd p), CText float (spec_text (snd p))).
  Lemma spec_cell o : string_cell (spec_text o) = CText float (spec_text o).
  Proof. apply cell_text. destruct o; reflexivity. Qed.
  Lemma load_row p : spec_ok (snd p) -> load (row_of p) = Some (saved (snd p)).
  Proof.
    destruct p as [n [t|f]]; cbn [snd spec_ok saved]; intros O; unfold SpecTextModel.load, row_of; cbn [fst snd kind_word].
    - change (fetch float "STRING" (CText float ?x)) with (GText float x). cbv beta iota. unfold spec_text. rewrite word_string, (reads_denotes _ _ (reads_tab t O)). cbn [obind].
      rewrite read_tab_json. destruct (b_view t); reflexivity.
    - change (fetch float "STRING" (CText float ?x)) with (GText float x). cbv beta iota. unfold spec_text. rewrite word_string, (reads_denotes _ _ (reads_fun f O)). cbn [obind].
      rewrite read_fun_json. reflexivity.
  Qed.
  Lemma load_rows l : Forall (fun p => spec_ok (snd p)) l -> load_all float (map row_of l) = Some (map (fun p => saved (snd p)) l).
  Proof. induction 1 as [|p l O _ IH]; [reflexivity|]. cbn [map load_all]. rewrite (load_row p O), IH. reflexivity. Qed.
  Lemma named_row n p : named n -> row_named n (row_of p) = String.eqb (fst p) n.
  Proof. intros N. unfold SpecTextModel.row_named. rewrite (cell_text n N). reflexivity. Qed.
  Lemma upsert_rows n o l : named n -> (forall p, In (n, p) l -> same_kind p o) ->
    upsert n (kind_word o) (spec_text o) (map row_of l) = map row_of (put_object n o l).
  Proof.
    intros N F. induction l as [|[m p] l IH]; cbn [map SpecTextModel.upsert put_object].
    - now rewrite (cell_text n N), spec_cell.
    - rewrite (named_row n (m, p) N). cbn [fst]. destruct (String.eqb_spec m n) as [->|D].
      + assert (K : kind_word p = kind_word o).
        { pose proof (F p (or_introl eq_refl)) as K. destruct p as [s|s], o as [t|t]; cbn in K |- *; try contradiction; [now rewrite K|reflexivity]. }
        cbn [map]. rewrite spec_cell. unfold row_of. cbn [fst snd]. now rewrite K.
      + cbn [map]. f_equal. apply IH. intros q Hq. apply F. now right.
  Qed.
  Lemma change_rows l c : named (change_name c) -> fits l c -> apply_change (map row_of l) c = map row_of (change_objects l c).
  Proof.
    destruct c as [n o|n]; cbn [change_name fits apply_change change_objects]; intros N F.
    - rewrite <- (upsert_rows n o l N (proj2 F)). destruct o; reflexivity.
    - unfold SpecTextModel.remove. induction l as [|p l IH]; [reflexivity|]. cbn [map filter]. rewrite (named_row n p N).
      destruct (String.eqb (fst p) n); cbn [negb]; [apply IH; exact I|cbn [map]; f_equal; apply IH; exact I].
  Qed.
  Lemma objects_ok l c : Forall (fun p => spec_ok (snd p)) l -> fits l c -> Forall (fun p => spec_ok (snd p)) (change_objects l c).
  Proof.
    intros O F. destruct c as [n o|n]; cbn [change_objects].
    - destruct F as [Oo _]. induction O as [|[m p] l Op O IH]; cbn [put_object]; [now constructor|]. destruct (String.eqb m n); constructor; assumption.
    - apply Forall_forall. intros p Hp. apply filter_In in Hp as [Hp _]. rewrite Forall_forall in O. now apply O.
  Qed.
  Lemma history_rows h : forall l, Forall (fun p => spec_ok (snd p)) l -> all_fit l h -> Forall (fun c => named (change_name c)) h ->
    fold_left apply_change h (map row_of l) = map row_of (fold_left change_objects h l) /\ Forall (fun p => spec_ok (snd p)) (fold_left change_objects h l).
  Proof.
    induction h as [|c h IH]; intros l O F N; [now split|]. destruct F as [Fc F]. inversion N; subst. cbn [fold_left].
    rewrite change_rows by assumption. apply IH; [now apply objects_ok|exact F|assumption].
  Qed.
End Catalog.
