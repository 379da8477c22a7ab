(** Functions on characters, letters and fields: internal/function_string.go:20-37, 69-112,
    417-483, 1246-1270, internal/function.go:156-162, 394-418 and their binders in
    internal/function_bind.go. The modules unicode, norm and collate are variables. *)
From Coq Require Import Ascii String List ZArith QArith Lia Bool SpecFloat.
From Verif Require Import GoBase ValueModel Utf8Model CodecModel.
Import ListNotations.
Local Open Scope string_scope.
Open Scope Z_scope.

Definition txt (s : string) : bytes := list_ascii_of_string s.
Definition str (b : bytes) : string := string_of_list_ascii b.

(** Go's conversion of an int64 to rune, which is int32 *)
Definition rune32 (v : Z) : Z := (v + 2147483648) mod 4294967296 - 2147483648.

(** function_string.go:32-37; string(r) writes U+FFFD for what is no code point *)
Definition fn_chr (v : Z) : string := if v =? 0 then "" else str (encode_rune (rune32 v)).
(** function_string.go:1246-1252 *)
Definition fn_unicode (s : string) : Z := match decode (txt s) with [] => 0 | r :: _ => r end.
(** function_string.go:20-22; an index out of range panics *)
Definition fn_ascii (s : string) : res Z := match s with EmptyString => GoPanic | String c _ => Ok (b2z c) end.

(** The byte loops of strings.ToUpper, ToLower, bytes.ToUpper and ToLower for texts without
    a byte of 128 or more *)
Definition upper_ascii (c : ascii) : ascii :=
  if between 97 122 (b2z c) then z2b (b2z c - 32) else c.
Definition lower_letter (c : ascii) : ascii :=
  if between 65 90 (b2z c) then z2b (b2z c + 32) else c.
Definition all_ascii (b : bytes) : bool := forallb (fun c => b2z c <? 128) b.
(** strings.Map, bytes.Map: character by character; a byte that belongs to no character is
    written as U+FFFD. (Mappings to negative numbers, which drop the character, do not occur
    for letters and are not modelled.) *)
Definition map_runes (f : Z -> Z) (b : bytes) : bytes := encode (map f (decode b)).

Section Libraries.
  (** unicode.ToUpper, unicode.ToLower *)
  Variable up lo : Z -> Z.
  Definition to_upper (b : bytes) : bytes := if all_ascii b then map upper_ascii b else map_runes up b.
  Definition to_lower (b : bytes) : bytes := if all_ascii b then map lower_letter b else map_runes lo b.

  (** ToString and ToInt64 of values that are not STRING and INT64: value.go; JSON texts and
      base64 for BYTES are among them. *)
  Variable other_text : val -> res string.
  Variable other_int : val -> res Z.
  Definition to_text (v : val) : res string := match v with VStr s => Ok s | _ => other_text v end.
  Definition to_int (v : val) : res Z := match v with VInt z => Ok z | _ => other_int v end.

  (** function_bind.go:728-740 *)
  Definition bind_chr (v : option val) : res (option val) :=
    match v with None => Ok None | Some x => bind (to_int x) (fun z => Ok (Some (VStr (fn_chr z)))) end.
  (** function_bind.go:1360-1372 *)
  Definition bind_unicode (v : option val) : res (option val) :=
    match v with None => Ok None | Some x => bind (to_text x) (fun s => Ok (Some (VInt (fn_unicode s)))) end.
  (** function_bind.go:683-698 *)
  Definition bind_ascii (v : option val) : res (option val) :=
    match v with
    | None => Ok None
    | Some x => bind (to_text x) (fun s =>
        if String.eqb s "" then Ok (Some (VInt 0)) else bind (fn_ascii s) (fun z => Ok (Some (VInt z))))
    end.
  (** function_string.go:1254-1270, function_bind.go:1374-1382 *)
  Definition bind_upper (v : option val) : res (option val) :=
    match v with
    | None => Ok None
    | Some (VStr s) => Ok (Some (VStr (str (to_upper (txt s)))))
    | Some (VBytes s) => Ok (Some (VBytes (str (to_upper (txt s)))))
    | Some _ => Err
    end.
  (** function_string.go:417-436, function_bind.go:979-987 *)
  Definition bind_lower (v : option val) : res (option val) :=
    match v with
    | None => Ok None
    | Some (VStr s) => Ok (Some (VStr (str (to_lower (txt s)))))
    | Some (VBytes s) => Ok (Some (VBytes (str (to_lower (txt s)))))
    | Some _ => Err
    end.

  (** function_string.go:110-112, function_bind.go:801-813 *)
  Definition bind_contains_substr (v s : option val) : res (option val) :=
    match s with
    | None => Err
    | Some t => match v with None => Ok None | Some _ => bind (to_text t) (fun _ => Ok None) end
    end.

  (** function_string.go:69-87: the key collate computes is thrown away. *)
  Definition fn_collate (v spec : string) : res (option val) :=
    match split [":"%char] (txt spec) with
    | [_; a] => if String.eqb (str a) "ci" then Ok (Some (VStr v)) else Err
    | _ => Err
    end.
  (** function_bind.go:770-789 *)
  Definition bind_collate (v spec : option val) : res (option val) :=
    match v with
    | None => Ok None
    | Some x =>
        match spec with
        | None => Err
        | Some y => bind (to_text x) (fun s => bind (to_text y) (fun t => fn_collate s t))
        end
    end.

  (** norm.NFC.String and so on *)
  Variable nfc nfd nfkc nfkd : string -> string.
  (** function_string.go:456-468 *)
  Definition fn_normalize (v mode : string) : res (option val) :=
    let out s := Ok (Some (VStr s)) in
    if String.eqb mode "NFC" then out (nfc v)
    else if String.eqb mode "NFD" then out (nfd v)
    else if String.eqb mode "NFKC" then out (nfkc v)
    else if String.eqb mode "NFKD" then out (nfkd v)
    else Err.
  (** function_string.go:470-483 *)
  Definition fn_normalize_and_casefold (v mode : string) : res (option val) :=
    fn_normalize (str (to_lower (txt v))) mode.
  (** function_bind.go:1007-1049 *)
  Definition with_mode (f : string -> string -> res (option val)) (args : list (option val)) : res (option val) :=
    match args with
    | [v] => match v with None => Ok None | Some x => bind (to_text x) (fun s => f s "NFC") end
    | [v; m] =>
        match v, m with
        | Some x, Some y => bind (to_text y) (fun mode => bind (to_text x) (fun s => f s mode))
        | _, _ => Ok None
        end
    | _ => Err
    end.
  Definition bind_normalize := with_mode fn_normalize.
  Definition bind_normalize_and_casefold := with_mode fn_normalize_and_casefold.

  (** function_bind.go:409-418 *)
  Definition bind_error (v : option val) : res (option val) :=
    match v with None => Ok None | Some x => bind (to_text x) (fun _ => Err) end.

  (** function.go:398-418, function_bind.go:2820-2825: names and values alternate. A NULL
      name makes the method call panic. The map by name is in CodecModel's reading of the
      value list, where nothing here depends on it. *)
  Fixpoint make_fields (args : list (option val)) : res (list (string * option val)) :=
    match args with
    | [] => Ok []
    | None :: _ => GoPanic
    | Some k :: v :: r => bind (to_text k) (fun s => bind (make_fields r) (fun l => Ok ((s, v) :: l)))
    | [_] => Ok []
    end.
  Definition bind_make_struct (args : list (option val)) : res (option val) :=
    if Nat.odd (length args) then Err else bind (make_fields args) (fun l => Ok (Some (VStruct l))).
  (** function.go:156-162, function_bind.go:278-287; ToStruct fails for other values
      (value.go; a conversion of ARRAY or JSON to STRUCT does not exist) *)
  Definition bind_struct_field (v i : option val) : res (option val) :=
    match v, i with
    | Some x, Some y => bind (to_int y) (fun z =>
        match x with
        | VStruct l => if z <? 0 then GoPanic else match nth_error l (Z.to_nat z) with Some (_, o) => Ok o | None => GoPanic end
        | _ => Err
        end)
    | _, _ => Ok None
    end.
  (** formatter.go:469-510: a STRUCT constructor and the access to its field number i; the
      struct passes through SQLite between the two functions. *)
  Definition struct_then_field (fields : list (string * option val)) (i : Z) : res (option val) :=
    bind (bind_make_struct (flat_map (fun p => [Some (VStr (fst p)); snd p]) fields)) (fun s =>
    bind (round_trip s) (fun s' => bind_struct_field s' (Some (VInt i)))).
End Libraries.
