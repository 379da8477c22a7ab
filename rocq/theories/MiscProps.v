(** C308-C316: host names, hashes, PARSE_NUMERIC and JSON fields. *)
From Coq Require Import Ascii String List ZArith QArith Lia Bool.
From Verif Require Import GoBase GoBaseFacts ValueModel DecModel DecFacts ClockTextModel ClockTextProofs CodecModel CodecProofs JsonModel JsonDocSpec NetModel ConvertModel ConvertProofs MiscModel MiscSpec MiscProofs.
Import ListNotations.
Local Open Scope string_scope.
Open Scope Z_scope.

(** In the theorems the libraries are arbitrary. *)
Section Hosts.
  Variable url_parse : string -> option (string * string).
  Variable trim_space : string -> string.
  Variable to_lower : string -> string.
  Variable to_ascii : string -> option string.
  Variable psl : string -> string * bool.
  Variable other_text : val -> res string.
  Let HOST (v : option val) := bind_host url_parse trim_space other_text v.
  Let PUBLIC_SUFFIX (v : option val) := bind_public_suffix url_parse trim_space to_lower to_ascii psl other_text v.
  Let REG_DOMAIN (v : option val) := bind_reg_domain url_parse trim_space to_lower to_ascii psl other_text v.
  Let T (s : string) : option val := Some (VStr s).

Lemma host_value : forall host h, h <> "" ->
  (if String.eqb h "" then Ok None else if String.prefix "[" host then Ok (T ("[" ++ h ++ "]")) else Ok (T h)) = Ok (T h) \/
  (if String.eqb h "" then Ok None else if String.prefix "[" host then Ok (T ("[" ++ h ++ "]")) else Ok (T h)) = Ok (T ("[" ++ h ++ "]")).
Proof. intros host h N. destruct (String.eqb_spec h "") as [E|_]; [contradiction|]. destruct (String.prefix "[" host); [now right|now left]. Qed.

(** ** C308: the registered domain is the public suffix and one label *)
Theorem c308_domain : forall v s, PUBLIC_SUFFIX (T v) = Ok (T s) -> exists h,
  (HOST (T v) = Ok (T h) \/ HOST (T v) = Ok (T ("[" ++ h ++ "]"))) /\ ends_in h s /\
  ((h = s /\ REG_DOMAIN (T v) = Ok None) \/
   exists l, label l /\ ends_in h (l ++ "." ++ s) /\ REG_DOMAIN (T v) = Ok (T (l ++ "." ++ s))).
Proof.
  intros v s. unfold PUBLIC_SUFFIX, HOST, REG_DOMAIN, bind_public_suffix, bind_host, bind_reg_domain, T. cbn [bind to_text].
  unfold net_public_suffix, net_host, net_reg_domain. destruct (parse_url url_parse trim_space v) as [[host h]|]; [|discriminate].
  destruct (public_suffix to_lower to_ascii psl h) as [x| |] eqn:P; cbn [bind]; try discriminate.
  destruct (String.eqb_spec x "") as [->|NE]; [discriminate|]. intros H. assert (x = s) by congruence. subst x.
  destruct (ps_tail to_lower to_ascii psl h s P NE) as (p & r & E & NR & S1 & S2). pose proof (host_of h p r E) as Hh.
  assert (HN : h <> ""). { intros ->. cbn in E. destruct p as [|a p]; [|destruct p; [destruct r; [congruence|discriminate]|discriminate]]. cbn in E. subst r. cbn in S1. congruence. }
  exists h. split; [now apply host_value|]. split; [rewrite Hh, S1; now apply join_ends|].
  rewrite S2, E. destruct (String.eqb_spec h "") as [E0|_]; [contradiction|]. cbn [orb].
  destruct p as [|a p] using rev_ind.
  - left. split; [cbn [app] in Hh; congruence|]. cbn [app]. rewrite Z.leb_refl. reflexivity.
  - clear IHp. right. exists a. destruct (split_labels h) as (_ & F & _). rewrite E in F. rewrite <- app_assoc in E, F, Hh |- *. cbn [app] in E, F, Hh |- *.
    assert (La : label a). { apply Forall_app in F as [_ F]. now apply Forall_inv in F. }
    assert (J : join "." (a :: r) = a ++ "." ++ s). { rewrite S1. destruct r; [congruence|reflexivity]. }
    split; [exact La|]. split; [rewrite <- J, Hh; apply join_ends; discriminate|].
    replace (zlen (p ++ a :: r)%list <=? zlen r) with false.
    2:{ symmetry. apply Z.leb_gt. unfold zlen. rewrite app_length. cbn [List.length]. lia. }
    replace (from (p ++ a :: r)%list (zlen (p ++ a :: r)%list - zlen r - 1)) with (Ok (a :: r)).
    2:{ symmetry. apply from_ok. exists p. split; [reflexivity|]. unfold zlen. rewrite app_length. cbn [List.length]. lia. }
    cbn [bind]. now rewrite J.
Qed.
(** Without a public suffix there is no registered domain, and they fail alike. *)
Theorem c308_none : forall v, (forall s, PUBLIC_SUFFIX (T v) <> Ok (T s)) -> REG_DOMAIN (T v) = PUBLIC_SUFFIX (T v).
Proof.
  intros v. unfold PUBLIC_SUFFIX, REG_DOMAIN, bind_public_suffix, bind_reg_domain, T. cbn [bind to_text]. unfold net_public_suffix, net_reg_domain.
  destruct (parse_url url_parse trim_space v) as [[host h]|]; [|reflexivity].
  destruct (public_suffix to_lower to_ascii psl h) as [x| |]; cbn [bind]; try reflexivity.
  destruct (String.eqb_spec x "") as [->|NE]; [|intros H; exfalso; now apply (H x)]. rewrite orb_true_r. reflexivity.
Qed.

(** ** C309: the public suffix is cut from the host name as it is written *)
(** What net/url sees in the text: the host name [h]. *)
Definition url_host (v h : string) : Prop :=
  (exists a, a <> "" /\ url_parse v = Some (a, h)) \/
  (exists n a, url_parse v = Some ("", n) /\ url_parse ("//" ++ trim_space v) = Some (a, h)).
Lemma url_host_parse : forall v h, url_host v h -> exists a, parse_url url_parse trim_space v = Some (a, h).
Proof.
  intros v h [(a & N & E)|(n & a & E & E2)]; exists a; unfold parse_url; rewrite E.
  - destruct (String.eqb_spec a ""); [contradiction|reflexivity].
  - exact E2.
Qed.
Theorem c309_labels : forall v h e s front back sl, url_host v h -> ~ gap h -> to_ascii (to_lower h) = Some e -> psl e = (s, true) ->
  labels h (front ++ back)%list -> labels s sl -> length back = length sl ->
  PUBLIC_SUFFIX (T v) = Ok (if String.eqb (join "." back) "" then None else T (join "." back)).
Proof.
  intros v h e s front back sl U G A P L M N. destruct (url_host_parse v h U) as (a & Q).
  unfold PUBLIC_SUFFIX, bind_public_suffix, T. cbn [bind to_text]. unfold net_public_suffix, public_suffix. rewrite Q.
  replace (double_dot false 0 h) with false. 2:{ symmetry. destruct (double_dot false 0 h) eqn:D; [|reflexivity]. apply double_dot_gap in D. contradiction. }
  rewrite A, P. rewrite (labels_split _ _ L), (labels_split _ _ M).
  replace (from (front ++ back)%list _) with (Ok back). 2:{ symmetry. apply from_ok. exists front. split; [reflexivity|]. unfold zlen. rewrite app_length, N. lia. }
  cbn [bind]. destruct (String.eqb (join "." back) ""); reflexivity.
Qed.
(** Hosts with two points in a row and suffixes no registry manages give NULL. *)
Theorem c309_null : forall v h, url_host v h ->
  gap h \/ (exists e s, to_ascii (to_lower h) = Some e /\ psl e = (s, false)) -> PUBLIC_SUFFIX (T v) = Ok None /\ REG_DOMAIN (T v) = Ok None.
Proof.
  intros v h U C. destruct (url_host_parse v h U) as (a & Q). unfold PUBLIC_SUFFIX, REG_DOMAIN, bind_public_suffix, bind_reg_domain, T. cbn [bind to_text]. unfold net_public_suffix, net_reg_domain, public_suffix. rewrite Q.
  destruct (double_dot false 0 h) eqn:D; [split; [reflexivity|]; cbn; now rewrite orb_true_r|].
  destruct C as [G|(e & s & E & P)]; [apply double_dot_gap in G; congruence|]. rewrite E, P. split; [reflexivity|]. cbn. now rewrite orb_true_r.
Qed.

(** ** C311: NET.HOST *)
Theorem c311_host : forall v a h,
  (a <> "" /\ url_parse v = Some (a, h)) \/ (exists n, url_parse v = Some ("", n) /\ url_parse ("//" ++ trim_space v) = Some (a, h)) ->
  HOST (T v) = Ok (if String.eqb h "" then None else T (if String.prefix "[" a then "[" ++ h ++ "]" else h)).
Proof.
  intros v a h C. assert (P : parse_url url_parse trim_space v = Some (a, h)).
  { unfold parse_url. destruct C as [(N & ->)|(n & -> & E)]; [destruct (String.eqb_spec a ""); [contradiction|reflexivity]|exact E]. }
  unfold HOST, bind_host, T. cbn [bind to_text]. unfold net_host. rewrite P. destruct (String.eqb h ""); [reflexivity|]. destruct (String.prefix "[" a); reflexivity.
Qed.
(** A text that is no URL has no host, no public suffix and no registered domain; nothing
    about a host is ever an error of NET.HOST. *)
Theorem c311_no_url : forall v, url_parse v = None -> HOST (T v) = Ok None /\ PUBLIC_SUFFIX (T v) = Ok None /\ REG_DOMAIN (T v) = Ok None.
Proof.
  intros v E. unfold HOST, PUBLIC_SUFFIX, REG_DOMAIN, bind_host, bind_public_suffix, bind_reg_domain, T. cbn [bind to_text]. unfold net_host, net_public_suffix, net_reg_domain, parse_url.
  rewrite E. split; [reflexivity|]. split; reflexivity.
Qed.
Theorem c311_total : forall v, exists r, HOST (T v) = Ok r.
Proof.
  intros v. unfold HOST, bind_host, T. cbn [bind to_text]. unfold net_host. destruct (parse_url _ _ _) as [[a h]|]; [|now exists None].
  destruct (String.eqb h ""); [now exists None|]. destruct (String.prefix "[" a); eexists; reflexivity.
Qed.

(** ** C310: NULL arguments *)
Variable other_bytes : val -> res string.
Variable other_int : val -> res Z.
Variable other_rat : string -> option Q.
Theorem c310_null_partial : HOST None = Ok None /\
  (forall x, bind_ip_net_mask other_int None x = Ok None /\ bind_ip_net_mask other_int x None = Ok None).
Proof. split; [reflexivity|]. intros [x|]; split; reflexivity. Qed.
Theorem c310_net_refuted : PUBLIC_SUFFIX None = GoPanic /\ REG_DOMAIN None = GoPanic /\
  bind_ipv4_from_int64 other_int None = GoPanic /\ bind_ipv4_to_int64 other_bytes None = GoPanic /\
  (forall n, bind_ip_trunc other_bytes other_int None n = GoPanic) /\ (forall b, bind_ip_trunc other_bytes other_int (Some (VBytes b)) None = GoPanic).
Proof. split; [reflexivity|]. split; [reflexivity|]. split; [reflexivity|]. split; [reflexivity|]. split; reflexivity. Qed.
Theorem c310_parse_refuted : bind_parse_numeric other_text other_rat None = GoPanic /\ bind_parse_bignumeric other_text other_rat None = GoPanic.
Proof. split; reflexivity. Qed.

(** ** C312: hashes *)
Variable sum : hash -> string -> string.
Variable fingerprint64 : string -> Z.
Theorem c312_text : forall h s, bind_hash other_bytes sum h [Some (VStr s)] = bind_hash other_bytes sum h [Some (VBytes s)] /\
  bind_hash other_bytes sum h [Some (VBytes s)] = Ok (Some (VBytes (sum h s))) /\
  bind_farm_fingerprint other_bytes fingerprint64 [Some (VStr s)] = bind_farm_fingerprint other_bytes fingerprint64 [Some (VBytes s)].
Proof. intros. split; [reflexivity|]. split; reflexivity. Qed.
Theorem c312_null : forall h, bind_hash other_bytes sum h [None] = Ok None /\ bind_farm_fingerprint other_bytes fingerprint64 [None] = Ok None.
Proof. intros. split; reflexivity. Qed.
(** The fingerprint is the INT64 with the same 64 bits. *)
Theorem c312_fingerprint : forall s, 0 <= fingerprint64 s < two64 -> exists z, bind_farm_fingerprint other_bytes fingerprint64 [Some (VStr s)] = Ok (Some (VInt z)) /\
  in64 z /\ (z = fingerprint64 s \/ z = fingerprint64 s - two64).
Proof.
  intros s B. exists (wrap64 (fingerprint64 s)). split; [reflexivity|]. unfold wrap64, in64, two64, two63 in *.
  set (f := fingerprint64 s) in *. destruct (Z.lt_ge_cases f 9223372036854775808).
  - rewrite Z.mod_small by lia. lia.
  - replace (f + 9223372036854775808) with ((f - 9223372036854775808) + 1 * 18446744073709551616) by lia. rewrite Z.mod_add by lia. rewrite Z.mod_small by lia. lia.
Qed.

(** ** C313: PARSE_NUMERIC reads what is printed *)
Let NUMERIC (s : string) := bind_parse_numeric other_text other_rat (T s).
Let BIGNUMERIC (s : string) := bind_parse_bignumeric other_text other_rat (T s).
Theorem c313_round : forall q, nine q -> exists r, NUMERIC (string_of (numeric_text q)) = Ok (Some (VNum r)) /\
  BIGNUMERIC (string_of (numeric_text q)) = Ok (Some (VNum r)) /\ (r == q)%Q.
Proof.
  intros q N. destruct (plain_numeric q N) as (p & E & Q1). exists (Qred p).
  unfold NUMERIC, BIGNUMERIC, bind_parse_numeric, bind_parse_bignumeric, parse_numeric, parse_bignumeric, set_string, T. cbn [bind to_text]. rewrite E.
  split; [reflexivity|]. split; [reflexivity|]. now rewrite Qred_correct.
Qed.

(** ** C314: PARSE_NUMERIC of a text that is no decimal number *)
Lemma slash_no_decimal : forall n r, plain_decimal (dec n ++ String "/" r) = None.
Proof.
  intros n r. assert (U : forall k, 0 <= k -> unsigned_decimal (udec k ++ String "/" r) = None).
  { intros k K. unfold unsigned_decimal. rewrite span_stops; [|now apply udec_all_digits|reflexivity]. reflexivity. }
  unfold dec. destruct (Z.ltb_spec n 0) as [L|L].
  - cbn [append plain_decimal]. change (Ascii.eqb "-" "-") with true. cbn iota. now rewrite U by lia.
  - specialize (U n L). pose proof (udec_all_digits n L) as D. pose proof (udec_nonempty n) as NE. destruct (udec n) as [|c t]; [congruence|].
    cbn [append plain_decimal] in *. cbn [all_digits] in D. apply andb_prop in D as [D _]. destruct (digit_not_sign c D) as (-> & ->). exact U.
Qed.
Theorem c314_fraction_refuted : forall n d, NUMERIC (dec n ++ "/" ++ udec (Zpos d)) = Ok (Some (VNum (Qred (n # d)))).
Proof.
  intros n d. unfold NUMERIC, bind_parse_numeric, parse_numeric, set_string, T. cbn [bind to_text]. cbn [append]. rewrite slash_no_decimal.
  rewrite split1_app by apply dec_no_slash. rewrite split1_nochar by (apply digits_no_slash, udec_all_digits; lia).
  rewrite read_int_dec, read_udec by lia. now rewrite !String.eqb_refl.
Qed.
(** A text is refused or gives a NUMERIC, never NULL. *)
Theorem c314_total_partial : forall s, NUMERIC s = Err \/ exists q, NUMERIC s = Ok (Some (VNum q)).
Proof. intros s. unfold NUMERIC, bind_parse_numeric, parse_numeric, T. cbn [bind to_text]. destruct (set_string other_rat s); [right; eexists; reflexivity|now left]. Qed.

(** ** C315: digits and range of PARSE_NUMERIC *)
Theorem c315_exact_refuted : forall s q, plain_decimal s = Some q -> exists r, NUMERIC s = Ok (Some (VNum r)) /\ (r == q)%Q.
Proof.
  intros s q E. exists (Qred q). unfold NUMERIC, bind_parse_numeric, parse_numeric, set_string, T. cbn [bind to_text]. rewrite E. split; [reflexivity|apply Qred_correct].
Qed.
Theorem c315_digits_refuted : exists r, NUMERIC "0.0000000001" = Ok (Some (VNum r)) /\ ~ nine r.
Proof.
  exists (1 # 10000000000)%Q. split; [reflexivity|]. intros (z & E). unfold Qeq in E. cbn in E. lia.
Qed.
Theorem c315_range_refuted : exists r, NUMERIC "100000000000000000000000000000" = Ok (Some (VNum r)) /\ (r == inject_Z (10 ^ 29))%Q.
Proof. eexists. split; reflexivity. Qed.

(** ** C316: JSON fields *)
Variable quoted : string -> string.
Variable int_text : Z -> string.
Variable extract : string -> string -> res (list string).
Theorem c316_field : forall v n, bind_json_field other_text quoted extract v (T n) = bind_subscript other_text quoted int_text extract v (T n).
Proof. intros [v|] n; reflexivity. Qed.
(** NULL in either place gives NULL; what a path does not find is NULL, what it finds is the
    JSON text found first, null included. *)
Theorem c316_null : forall v f, bind_json_field other_text quoted extract None f = Ok None /\ bind_json_field other_text quoted extract v None = Ok None /\
  bind_subscript other_text quoted int_text extract None f = Ok None /\ bind_subscript other_text quoted int_text extract v None = Ok None.
Proof. intros [v|] [f|]; (split; [reflexivity|]); (split; [reflexivity|]); split; reflexivity. Qed.
Theorem c316_value : forall s n l, extract ("$." ++ quoted n) s = Ok l ->
  bind_json_field other_text quoted extract (Some (VJson s)) (T n) = Ok (match l with [] => None | x :: _ => Some (VJson x) end).
Proof. intros s n l E. unfold bind_json_field, T, json_field. cbn [bind to_text]. rewrite E. destruct l; reflexivity. Qed.
Theorem c316_index : forall s i l, extract ("$[" ++ int_text i ++ "]") s = Ok l ->
  bind_subscript other_text quoted int_text extract (Some (VJson s)) (Some (VInt i)) = Ok (match l with [] => None | x :: _ => Some (VJson x) end).
Proof. intros s n l E. unfold bind_subscript, json_subscript. cbn [bind to_text]. rewrite E. destruct l; reflexivity. Qed.
End Hosts.

(** ** Examples *)
Definition x_url (s : string) : option (string * string) := if String.eqb s "http://a.Google.co.uk" then Some ("a.Google.co.uk", "a.Google.co.uk") else None.
Definition x_psl (s : string) : string * bool := ("co.uk", true).
Definition x_suffix := bind_public_suffix x_url (fun s => s) (fun s => s) Some x_psl (fun _ => Err).
Definition x_domain := bind_reg_domain x_url (fun s => s) (fun s => s) Some x_psl (fun _ => Err).
Example c308_example : x_suffix (Some (VStr "http://a.Google.co.uk")) = Ok (Some (VStr "co.uk")) /\
  x_domain (Some (VStr "http://a.Google.co.uk")) = Ok (Some (VStr "Google.co.uk")).
Proof. split; reflexivity. Qed.
Example c309_example : url_host x_url (fun s => s) "http://a.Google.co.uk" "a.Google.co.uk" /\ ~ gap "a.Google.co.uk" /\
  labels "a.Google.co.uk" (["a"; "Google"] ++ ["co"; "uk"])%list /\ labels "co.uk" ["co"; "uk"] /\ gap "a..com".
Proof.
  split; [left; exists "a.Google.co.uk"; split; [discriminate|reflexivity]|].
  split; [intros G; apply double_dot_gap in G; discriminate|].
  split; [split; [discriminate|]; split; [repeat constructor|reflexivity]|].
  split; [split; [discriminate|]; split; [repeat constructor|reflexivity]|]. now apply double_dot_gap.
Qed.
Example c311_example : bind_host (fun _ => Some ("[::1]:80", "::1")) (fun s => s) (fun _ => Err) (Some (VStr "http://[::1]:80/")) = Ok (Some (VStr "[::1]")).
Proof. reflexivity. Qed.
Example c312_example : bind_farm_fingerprint (fun _ => Err) (fun _ => 18446744073709551615) [Some (VStr "x")] = Ok (Some (VInt (-1))).
Proof. reflexivity. Qed.
Example c313_example : nine (5 # 4) /\ bind_parse_numeric (fun _ => Err) (fun _ => None) (Some (VStr "1.25")) = Ok (Some (VNum (5 # 4))).
Proof. split; [exists 1250000000; reflexivity|reflexivity]. Qed.
Example c314_example : bind_parse_numeric (fun _ => Err) (fun _ => None) (Some (VStr "1/3")) = Ok (Some (VNum (1 # 3))).
Proof. reflexivity. Qed.
Example c316_example : bind_json_field (fun _ => Err) (fun s => s) (fun _ _ => Ok ["null"]) (Some (VJson "{""a"": null}")) (Some (VStr "a")) = Ok (Some (VJson "null")).
Proof. reflexivity. Qed.

Print Assumptions c308_domain.
Print Assumptions c308_none.
Print Assumptions c309_labels.
Print Assumptions c309_null.
Print Assumptions c311_host.
Print Assumptions c311_no_url.
Print Assumptions c311_total.
Print Assumptions c310_null_partial.
Print Assumptions c310_net_refuted.
Print Assumptions c310_parse_refuted.
Print Assumptions c312_text.
Print Assumptions c312_null.
Print Assumptions c312_fingerprint.
Print Assumptions c313_round.
Print Assumptions c314_fraction_refuted.
Print Assumptions c314_total_partial.
Print Assumptions c315_exact_refuted.
Print Assumptions c315_digits_refuted.
Print Assumptions c315_range_refuted.
Print Assumptions c316_field.
Print Assumptions c316_null.
Print Assumptions c316_value.
Print Assumptions c316_index.
