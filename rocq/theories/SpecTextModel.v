(** Types and specs as JSON texts: column.go (UnmarshalDatabaseTypeName), internal/rows.go:39-42
    (ColumnTypeDatabaseTypeName), internal/spec.go:15-46, 105-115, 171-185 (the structs with their
    JSON names), 577-601 (newType), internal/catalog.go:17-46, 333-404 (saving and loading).

    The package go-json is not in /repo.  Writing is modelled as documented (structs by their
    JSON names in order, nil as null, texts with the characters < > & and U+2028 and U+2029
    escaped); reading is JsonSpec.denotes followed by storing the members in order.
    Simplified: member names are compared exactly; null where the code never writes it is an
    error; a time is any value with a text.  The SQLite column types are those of DmlModel.v. *)
From Coq Require Import Ascii String List ZArith QArith Lia Bool.
From Verif Require Import GoBase DecModel Utf8Model JsonSpec JsonModel QueryModel DmlModel.
Import ListNotations.
Local Open Scope string_scope.
Open Scope Z_scope.

(** ** Writing *)
(** go-json, encoder/string.go *)
Definition go_rune (r : Z) : bytes :=
  if (r =? 34) || (r =? 92) then [bslash_c; z2b r]
  else if r =? 10 then bslash_c :: word "n"
  else if r =? 13 then bslash_c :: word "r"
  else if r =? 9 then bslash_c :: word "t"
  else if (r <? 32) || existsb (Z.eqb r) [60; 62; 38; 8232; 8233] then bslash_c :: "u"%char :: hex 4 r
  else encode_rune r.
Definition go_string (s : bytes) : bytes := (quote_c :: flat_map go_rune (decode s) ++ [quote_c])%list.
Definition member (m : string * bytes) : bytes := (quote_c :: word (fst m) ++ quote_c :: ":"%char :: snd m)%list.
Definition object (l : list (string * bytes)) : bytes := ("{"%char :: joinb [","%char] (map member l) ++ ["}"%char])%list.
Definition array (l : list bytes) : bytes := ("["%char :: joinb [","%char] l ++ ["]"%char])%list.
Definition int_text (z : Z) : bytes := text_of (dec z).
Definition bool_text (b : bool) : bytes := word (if b then "true" else "false").
(** A slice that is nil *)
Definition or_null (l : list bytes) : bytes := match l with [] => word "null" | _ => array l end.

(** spec.go:177-183 and 15-18: Type and the fields of a STRUCT *)
Inductive typ := Typ (name : bytes) (kind sig : Z) (elem : etyp) (fields : ftyp)
with etyp := ENone | ESome (t : typ)
with ftyp := FNil | FCons (name : bytes) (t : typ) (r : ftyp).
Fixpoint type_text (t : typ) : bytes :=
  match t with
  | Typ n k s e f =>
      object [("name", go_string n); ("kind", int_text k); ("signatureKind", int_text s); ("elementType", elem_text e); ("fieldTypes", or_null (field_texts f))]
  end
with elem_text (e : etyp) : bytes := match e with ENone => word "null" | ESome t => type_text t end
with field_texts (f : ftyp) : list bytes :=
  match f with FNil => [] | FCons n t r => object [("name", go_string n); ("type", type_text t)] :: field_texts r end.

(** spec.go:171-175, 105-115, 36-46.  Times have a text. *)
Record colspec := Colspec { o_name : bytes; o_type : typ; o_notnull : bool }.
Record tabspec := Tabspec { b_temp : bool; b_view : bool; b_path : list bytes; b_cols : list colspec; b_key : list bytes; b_mode : Z; b_query : bytes; b_updated : bytes; b_created : bytes }.
Record funspec := Funspec { f_temp : bool; f_path : list bytes; f_lang : bytes; f_args : ftyp; f_return : typ; f_body : bytes; f_code : bytes; f_updated : bytes; f_created : bytes }.
Definition col_text (c : colspec) : bytes := object [("name", go_string (o_name c)); ("type", type_text (o_type c)); ("isNotNull", bool_text (o_notnull c))].
Definition tab_text (t : tabspec) : bytes :=
  object [("isTemp", bool_text (b_temp t)); ("isView", bool_text (b_view t)); ("namePath", or_null (map go_string (b_path t)));
          ("columns", array (map col_text (b_cols t))); ("primaryKey", or_null (map go_string (b_key t))); ("createMode", int_text (b_mode t));
          ("query", go_string (b_query t)); ("updatedAt", go_string (b_updated t)); ("createdAt", go_string (b_created t))].
Definition fun_text (f : funspec) : bytes :=
  object [("isTemp", bool_text (f_temp f)); ("name", or_null (map go_string (f_path f))); ("language", go_string (f_lang f));
          ("args", array (field_texts (f_args f))); ("return", type_text (f_return f)); ("body", go_string (f_body f)); ("code", go_string (f_code f));
          ("updatedAt", go_string (f_updated f)); ("createdAt", go_string (f_created f))].

(** ** Reading *)
Definition is_key (k : bytes) (w : string) : bool := String.eqb (string_of k) w.
Definition as_text (j : json) : option bytes := match j with JStr s => Some s | _ => None end.
Definition as_bool (j : json) : option bool := match j with JBool b => Some b | _ => None end.
Definition as_int (j : json) : option Z := match j with JNum q => match Qden (Qred q) with xH => Some (Qnum (Qred q)) | _ => None end | _ => None end.
Fixpoint read_list {A} (f : json -> option A) (l : list json) : option (list A) :=
  match l with [] => Some [] | j :: r => obind (f j) (fun x => obind (read_list f r) (fun xs => Some (x :: xs))) end.
Definition as_list {A} (f : json -> option A) (j : json) : option (list A) :=
  match j with JNull => Some [] | JArr l => read_list f l | _ => None end.
Definition zero_type : typ := Typ [] 0 0 ENone FNil.
Fixpoint read_type (j : json) : option typ :=
  match j with
  | JObj l =>
      (fix members (l : list (bytes * json)) (t : typ) : option typ :=
         match l with
         | [] => Some t
         | (k, v) :: r =>
             match t with
             | Typ n kd s e f =>
                 if is_key k "name" then obind (as_text v) (fun n => members r (Typ n kd s e f))
                 else if is_key k "kind" then obind (as_int v) (fun kd => members r (Typ n kd s e f))
                 else if is_key k "signatureKind" then obind (as_int v) (fun s => members r (Typ n kd s e f))
                 else if is_key k "elementType" then
                   match v with JNull => members r (Typ n kd s ENone f) | _ => obind (read_type v) (fun e => members r (Typ n kd s (ESome e) f)) end
                 else if is_key k "fieldTypes" then
                   match v with
                   | JNull => members r (Typ n kd s e FNil)
                   | JArr l => obind ((fix fields (l : list json) : option ftyp :=
                                 match l with
                                 | [] => Some FNil
                                 | JObj m :: l' =>
                                     obind ((fix field (m : list (bytes * json)) (n : bytes) (o : option typ) : option (bytes * typ) :=
                                        match m with
                                        | [] => option_map (pair n) o
                                        | (k, v) :: m' =>
                                            if is_key k "name" then obind (as_text v) (fun n => field m' n o)
                                            else if is_key k "type" then obind (read_type v) (fun t => field m' n (Some t))
                                            else field m' n o
                                        end) m [] None) (fun p =>
                                     obind (fields l') (fun f => Some (FCons (fst p) (snd p) f)))
                                 | _ => None
                                 end) l) (fun f => members r (Typ n kd s e f))
                   | _ => None
                   end
                 else members r t
             end
         end) l zero_type
  | _ => None
  end.
(** The members of the other structs, in order *)
Definition step_members {A} (f : A -> bytes -> json -> option A) (l : list (bytes * json)) (a : A) : option A :=
  fold_left (fun o p => obind o (fun a => f a (fst p) (snd p))) l (Some a).
Definition read_struct {A} (f : A -> bytes -> json -> option A) (a : A) (j : json) : option A :=
  match j with JObj l => step_members f l a | _ => None end.
Definition read_named : json -> option (bytes * typ) :=
  read_struct (fun p k v => if is_key k "name" then option_map (fun n => (n, snd p)) (as_text v)
                            else if is_key k "type" then option_map (pair (fst p)) (read_type v) else Some p) ([], zero_type).
Fixpoint fields_of (l : list (bytes * typ)) : ftyp := match l with [] => FNil | (n, t) :: r => FCons n t (fields_of r) end.
Definition read_col : json -> option colspec :=
  read_struct (fun c k v =>
    if is_key k "name" then option_map (fun n => Colspec n (o_type c) (o_notnull c)) (as_text v)
    else if is_key k "type" then option_map (fun t => Colspec (o_name c) t (o_notnull c)) (read_type v)
    else if is_key k "isNotNull" then option_map (fun b => Colspec (o_name c) (o_type c) b) (as_bool v)
    else Some c) (Colspec [] zero_type false).
Definition read_tab : json -> option tabspec :=
  read_struct (fun t k v =>
    let 'Tabspec tmp vw pa co ke mo qu up cr := t in
    if is_key k "isTemp" then option_map (fun x => Tabspec x vw pa co ke mo qu up cr) (as_bool v)
    else if is_key k "isView" then option_map (fun x => Tabspec tmp x pa co ke mo qu up cr) (as_bool v)
    else if is_key k "namePath" then option_map (fun x => Tabspec tmp vw x co ke mo qu up cr) (as_list as_text v)
    else if is_key k "columns" then option_map (fun x => Tabspec tmp vw pa x ke mo qu up cr) (as_list read_col v)
    else if is_key k "primaryKey" then option_map (fun x => Tabspec tmp vw pa co x mo qu up cr) (as_list as_text v)
    else if is_key k "createMode" then option_map (fun x => Tabspec tmp vw pa co ke x qu up cr) (as_int v)
    else if is_key k "query" then option_map (fun x => Tabspec tmp vw pa co ke mo x up cr) (as_text v)
    else if is_key k "updatedAt" then option_map (fun x => Tabspec tmp vw pa co ke mo qu x cr) (as_text v)
    else if is_key k "createdAt" then option_map (fun x => Tabspec tmp vw pa co ke mo qu up x) (as_text v)
    else Some t) (Tabspec false false [] [] [] 0 [] [] []).
Definition read_fun : json -> option funspec :=
  read_struct (fun f k v =>
    let 'Funspec tmp pa la ar re bo co up cr := f in
    if is_key k "isTemp" then option_map (fun x => Funspec x pa la ar re bo co up cr) (as_bool v)
    else if is_key k "name" then option_map (fun x => Funspec tmp x la ar re bo co up cr) (as_list as_text v)
    else if is_key k "language" then option_map (fun x => Funspec tmp pa x ar re bo co up cr) (as_text v)
    else if is_key k "args" then option_map (fun x => Funspec tmp pa la (fields_of x) re bo co up cr) (as_list read_named v)
    else if is_key k "return" then option_map (fun x => Funspec tmp pa la ar x bo co up cr) (read_type v)
    else if is_key k "body" then option_map (fun x => Funspec tmp pa la ar re x co up cr) (as_text v)
    else if is_key k "code" then option_map (fun x => Funspec tmp pa la ar re bo x up cr) (as_text v)
    else if is_key k "updatedAt" then option_map (fun x => Funspec tmp pa la ar re bo co x cr) (as_text v)
    else if is_key k "createdAt" then option_map (fun x => Funspec tmp pa la ar re bo co up x) (as_text v)
    else Some f) (Funspec false [] [] FNil zero_type [] [] [] []).

(** ** The interface *)
(** rows.go:39-42 *)
Definition database_type_name (t : typ) : string := string_of (type_text t).
(** column.go:11-17 *)
Definition unmarshal_type_name (s : string) : option typ := obind (denotes (word s)) read_type.

(** ** The catalog table: catalog.go:17-46 *)
Section Catalog.
  Variable float : Type.
  Variable whole : float -> option Z.
  Variable of_int : Z -> float.
  Variable number_text : (Z + float) -> string.
  Variable text_number : string -> option (Z + float).
  Definition string_cell (s : string) : cell float := store float whole of_int number_text text_number (affinity_of "STRING") (given float (GText float s)).
  (** name, kind and spec of a row *)
  Definition crow := (cell float * string * cell float)%type.
  Variable same : float -> float -> bool.
  Definition cell_eqb (a b : cell float) : bool :=
    match a, b with
    | CInt _ x, CInt _ y => x =? y
    | CReal _ x, CReal _ y => same x y
    | CText _ x, CText _ y => String.eqb x y
    | _, _ => false
    end.
  Definition row_named (n : string) (r : crow) : bool := cell_eqb (fst (fst r)) (string_cell n).
  (** 26-42: INSERT ... ON CONFLICT(name) DO UPDATE SET spec *)
  Fixpoint upsert (n k s : string) (l : list crow) : list crow :=
    match l with
    | [] => [(string_cell n, k, string_cell s)]
    | r :: l' => if row_named n r then (fst r, string_cell s) :: l' else r :: upsert n k s l'
    end.
  (** 43-45 *)
  Definition remove (n : string) (l : list crow) : list crow := filter (fun r => negb (row_named n r)) l.
  (** 333-355 and 357-376 *)
  Definition save_tab (n : string) (t : tabspec) : list crow -> list crow := upsert n (if b_view t then "view" else "table") (string_of (tab_text t)).
  Definition save_fun (n : string) (f : funspec) : list crow -> list crow := upsert n "function" (string_of (fun_text f)).
  (** 193-228 and 384-404: the rows when a database is opened *)
  Inductive loaded := LTab (t : tabspec) | LFun (f : funspec).
  Definition load (r : crow) : option loaded :=
    match fetch float "STRING" (snd r) with
    | GText _ s =>
        let k := snd (fst r) in
        if String.eqb k "table" || String.eqb k "view" then option_map LTab (obind (denotes (word s)) read_tab)
        else if String.eqb k "function" then option_map LFun (obind (denotes (word s)) read_fun)
        else None
    | _ => None
    end.
  Fixpoint load_all (l : list crow) : option (list loaded) :=
    match l with [] => Some [] | r :: l' => obind (load r) (fun x => obind (load_all l') (fun xs => Some (x :: xs))) end.
End Catalog.
