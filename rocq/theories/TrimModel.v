(** LTRIM, RTRIM and TRIM: internal/function_string.go:437-453, 869-887, 1218-1245 and
    their binders, internal/function_bind.go:989-1005, 1195-1208, 1347-1358.  Arguments
    are non-NULL (existsNull). *)
From Coq Require Import Ascii String List ZArith Lia Bool.
From Verif Require Import GoBase Utf8Model StrModel EncModel.
Import ListNotations.
Open Scope Z_scope.

(** strings.TrimLeft, TrimRight and Trim drop leading and trailing runes that occur in the
    cutset.  They return a part of the string itself; on well-formed text that is the
    encoding of the runes that are left. *)
Fixpoint drop_in (cut : list Z) (rs : list Z) : list Z :=
  match rs with
  | r :: rest => if existsb (Z.eqb r) cut then drop_in cut rest else rs
  | [] => []
  end.
Definition drop_end (cut rs : list Z) : list Z := rev (drop_in cut (rev rs)).
Definition trim_left (cut s : bytes) : bytes := encode (drop_in (decode cut) (decode s)).
Definition trim_right (cut s : bytes) : bytes := encode (drop_end (decode cut) (decode s)).
Definition trim_both (cut s : bytes) : bytes := encode (drop_end (decode cut) (drop_in (decode cut) (decode s))).
(** bytes.TrimLeft, TrimRight and Trim take the bytes for UTF-8 too; the model covers byte
    strings below 128 only, where runes are bytes. *)

(** BytesValue.ToString is base64 (value.go:399-401), StringValue.ToString the string. *)
Definition cut_to_string (v : sb) : bytes := match v with Str s => s | Byt b => to_base64 b end.
Definition cut_to_bytes (v : sb) : bytes := match v with Str s => s | Byt b => b end.
Definition space : bytes := [" "%char].
Definition ltrim (v : sb) (cut : option sb) : sb :=
  let c := match cut with Some x => cut_to_string x | None => space end in
  match v with Str s => Str (trim_left c s) | Byt b => Byt (trim_left c b) end.
Definition rtrim (v : sb) (cut : option sb) : sb :=
  let c := match cut with Some x => cut_to_string x | None => space end in
  match v with Str s => Str (trim_right c s) | Byt b => Byt (trim_right c b) end.
Definition trim (v : sb) (cut : option sb) : sb :=
  let c := match cut with Some x => cut_to_bytes x | None => space end in
  match v with Str s => Str (trim_both c s) | Byt b => Byt (trim_both c b) end.
