(** Host names, hashes, PARSE_NUMERIC and access to JSON fields: internal/function_net.go:16-29,
    85-158, internal/function_hash.go, internal/function_numeric.go,
    internal/function_json.go:11-58, with their binders in
    internal/function_bind.go.

    Variables stand for net/url's Parse (with URL.Hostname), strings.ToLower, idna.ToASCII,
    publicsuffix.PublicSuffix, the hash functions, go-json's paths, big.Rat.SetString on
    texts that are neither plain decimals nor fractions, and the conversion to STRING or
    BYTES of values of other types than STRING and BYTES. *)
From Coq Require Import Ascii String List ZArith QArith Bool.
From Verif Require Import GoBase ValueModel DecModel CodecModel NetModel ConvertModel.
Import ListNotations.
Local Open Scope string_scope.
Open Scope Z_scope.

Definition dot : ascii := "."%char.

(** function_net.go:135-137: the regular expression [^.]\.{2,}[^.], somewhere in the host:
    a character other than a point, two or more points, a character other than a point.
    [dots] is the number of points just read and [seen] whether such a character precedes
    them. *)
Fixpoint double_dot (seen : bool) (dots : nat) (s : string) : bool :=
  match s with
  | EmptyString => false
  | String c r =>
      if Ascii.eqb c dot then double_dot seen (S dots) r
      else if seen && (2 <=? dots)%nat then true
      else double_dot true 0 r
  end.

(** s[n:] of a slice; a panic when n is negative. *)
Definition from {A} (l : list A) (n : Z) : res (list A) :=
  if n <? 0 then GoPanic else if zlen l <? n then GoPanic else Ok (skipn (Z.to_nat n) l).

Section Misc.
  (** url.Parse: nothing for an error, otherwise URL.Host and URL.Hostname(). *)
  Variable url_parse : string -> option (string * string).
  Variable trim_space : string -> string.
  Variable to_lower : string -> string.
  Variable to_ascii : string -> option string.
  Variable public_suffix_list : string -> string * bool.

  (** function_net.go:121-133 parseURL *)
  Definition parse_url (v : string) : option (string * string) :=
    match url_parse v with
    | None => None
    | Some (host, name) =>
        if String.eqb host "" then url_parse ("//" ++ trim_space v) else Some (host, name)
    end.

  (** function_net.go:16-29 *)
  Definition net_host (v : string) : res (option val) :=
    match parse_url v with
    | None => Ok None
    | Some (host, name) =>
        if String.eqb name "" then Ok None
        else if String.prefix "[" host then Ok (Some (VStr ("[" ++ name ++ "]")))
        else Ok (Some (VStr name))
    end.

  (** function_net.go:139-154 *)
  Definition public_suffix (host : string) : res string :=
    if double_dot false 0 host then Ok ""
    else
      let split_host := split1 dot host in
      match to_ascii (to_lower host) with
      | None => Err
      | Some encoded =>
          let (suffix, icann) := public_suffix_list encoded in
          if icann then bind (from split_host (zlen split_host - zlen (split1 dot suffix))) (fun l => Ok (join "." l))
          else Ok ""
      end.

  (** function_net.go:85-99 *)
  Definition net_public_suffix (v : string) : res (option val) :=
    match parse_url v with
    | None => Ok None
    | Some (_, host) => bind (public_suffix host) (fun s => if String.eqb s "" then Ok None else Ok (Some (VStr s)))
    end.

  (** function_net.go:101-117 *)
  Definition net_reg_domain (v : string) : res (option val) :=
    match parse_url v with
    | None => Ok None
    | Some (_, host) =>
        let split_host := split1 dot host in
        bind (public_suffix host) (fun suffix =>
          let split_suffix := split1 dot suffix in
          if String.eqb host "" || String.eqb suffix "" || (zlen split_host <=? zlen split_suffix) then Ok None
          else bind (from split_host (zlen split_host - zlen split_suffix - 1)) (fun l => Ok (Some (VStr (join "." l)))))
    end.

  (** Value.ToString of STRING, BYTES and JSON: value.go:255, 399, 942; Value.ToBytes of
      STRING and BYTES: 259, 403 *)
  Variable other_text : val -> res string.
  Definition to_text (v : val) : res string :=
    match v with VStr s => Ok s | VBytes s => Ok (base64_text s) | VJson s => Ok s | _ => other_text v end.
  Variable other_bytes : val -> res string.
  Definition to_bytes (v : val) : res string := match v with VStr s => Ok s | VBytes s => Ok s | _ => other_bytes v end.

  (** function_bind.go:2964-2976, 3058-3078 *)
  Definition bind_host (v : option val) : res (option val) :=
    match v with None => Ok None | Some x => bind (to_text x) net_host end.
  Definition bind_public_suffix (v : option val) : res (option val) :=
    match v with None => GoPanic | Some x => bind (to_text x) net_public_suffix end.
  Definition bind_reg_domain (v : option val) : res (option val) :=
    match v with None => GoPanic | Some x => bind (to_text x) net_reg_domain end.

  (** The bytes of an address as NetModel.v has them. *)
  Definition octets (s : string) : list Z := map (fun c => Z.of_nat (nat_of_ascii c)) (list_ascii_of_string s).
  Definition of_octets (l : list Z) : string := string_of_list_ascii (map (fun z => ascii_of_nat (Z.to_nat z)) l).
  Definition some_bytes (l : list Z) : res (option val) := Ok (Some (VBytes (of_octets l))).
  Variable other_int : val -> res Z.
  Definition to_int (v : val) : res Z := match v with VInt i => Ok i | _ => other_int v end.
  (** function_bind.go:3036-3056, 3021-3034 *)
  Definition bind_ipv4_from_int64 (v : option val) : res (option val) :=
    match v with None => GoPanic | Some x => bind (to_int x) (fun i => some_bytes (ipv4_from_int64 i)) end.
  Definition bind_ipv4_to_int64 (v : option val) : res (option val) :=
    match v with None => GoPanic | Some x => bind (to_bytes x) (fun s => bind (ipv4_to_int64 (octets s)) (fun i => Ok (Some (VInt i)))) end.
  Definition bind_ip_trunc (v n : option val) : res (option val) :=
    match v with
    | None => GoPanic
    | Some x => bind (to_bytes x) (fun s =>
        match n with
        | None => GoPanic
        | Some y => bind (to_int y) (fun i => bind (ip_trunc (octets s) i) some_bytes)
        end)
    end.
  (** function_bind.go:2992-3008 *)
  Definition bind_ip_net_mask (o p : option val) : res (option val) :=
    match o, p with
    | Some x, Some y => bind (to_int x) (fun i => bind (to_int y) (fun j => bind (ip_net_mask i j) some_bytes))
    | _, _ => Ok None
    end.

  (** function_hash.go:14-35 with function_bind.go:613-681; the sums are byte strings, and
      Fingerprint64 a uint64 converted to int64 by IntValue(...) *)
  Inductive hash := HMd5 | HSha1 | HSha256 | HSha512.
  Variable sum : hash -> string -> string.
  Variable fingerprint64 : string -> Z.
  Definition bind_hash (h : hash) (args : list (option val)) : res (option val) :=
    match args with
    | [None] => Ok None
    | [Some x] => bind (to_bytes x) (fun b => Ok (Some (VBytes (sum h b))))
    | _ => Err
    end.
  Definition bind_farm_fingerprint (args : list (option val)) : res (option val) :=
    match args with
    | [None] => Ok None
    | [Some x] => bind (to_bytes x) (fun b => Ok (Some (VInt (wrap64 (fingerprint64 b)))))
    | _ => Err
    end.

  (** big.Rat.SetString: plain decimals, fractions of two integers without leading zeros
      (which would be octal), and the rest. *)
  Variable other_rat : string -> option Q.
  Definition set_string (s : string) : option Q :=
    match plain_decimal s with
    | Some q => Some (Qred q)
    | None =>
        match split1 "/" s with
        | [a; b] => match read_int a, read_nat b with
                    | Some n, Some (Zpos d) => if String.eqb (dec n) a && String.eqb (udec (Zpos d)) b then Some (Qred (n # d)) else other_rat s
                    | _, _ => other_rat s
                    end
        | _ => other_rat s
        end
    end.
  (** function_numeric.go:8-22, which differ in the flag isBigNumeric only, with
      function_bind.go:597-611.  The flag is not represented. *)
  Definition parse_numeric (s : string) : res (option val) := match set_string s with Some q => Ok (Some (VNum q)) | None => Err end.
  Definition parse_bignumeric (s : string) : res (option val) := match set_string s with Some q => Ok (Some (VNum q)) | None => Err end.
  Definition bind_parse_numeric (v : option val) : res (option val) :=
    match v with None => GoPanic | Some x => bind (to_text x) parse_numeric end.
  Definition bind_parse_bignumeric (v : option val) : res (option val) :=
    match v with None => GoPanic | Some x => bind (to_text x) parse_bignumeric end.

  (** json.CreatePath followed by Path.Extract: an error of either, or the texts found. *)
  Variable quoted : string -> string.
  Variable int_text : Z -> string.
  Variable extract : string -> string -> res (list string).
  Definition first_json (l : list string) : res (option val) := match l with [] => Ok None | x :: _ => Ok (Some (VJson x)) end.
  (** function_json.go:11-24; %q is strconv.Quote *)
  Definition json_field (v name : string) : res (option val) := bind (extract ("$." ++ quoted name) v) first_json.
  (** function_json.go:26-58.  With a subscript that is neither INT64 nor STRING the path is
      a nil pointer. *)
  Definition json_subscript (v : string) (field : val) : res (option val) :=
    match field with
    | VInt i => bind (extract ("$[" ++ int_text i ++ "]") v) first_json
    | VStr name => bind (extract ("$." ++ quoted name) v) first_json
    | _ => GoPanic
    end.
  (** function_bind.go:289-313 *)
  Definition bind_json_field (v name : option val) : res (option val) :=
    match v, name with
    | Some x, Some n => bind (to_text x) (fun s => bind (to_text n) (json_field s))
    | _, _ => Ok None
    end.
  Definition bind_subscript (v field : option val) : res (option val) :=
    match v, field with
    | Some x, Some f => bind (to_text x) (fun s => json_subscript s f)
    | _, _ => Ok None
    end.
End Misc.
