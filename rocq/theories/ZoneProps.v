(** Properties C127 and C128: time zone names. *)
From Coq Require Import Ascii String List ZArith Lia Bool.
From Verif Require Import GoBase GoBaseFacts DecModel ClockTextModel ClockTextSpec ClockTextProofs ZoneModel ZoneSpec ZoneProofs.
Import ListNotations.
Local Open Scope string_scope.
Open Scope Z_scope.

(** ** C128: what a zone name means does not depend on the names used before *)
(** [zs]: the names whose locations were stored so far in the process, by any number of
    concurrent connections.  About the time zone database it is assumed that no name but
    UTC begins with UTC, and that the empty name is UTC (time.LoadLocation). *)
Theorem c128_history : forall L (load : string -> option L),
  (forall z, load ("UTC" ++ z) <> None -> z = "") -> load "" = load "UTC" ->
  forall zs z, fst (to_location load (after load zs) z) = fst (to_location load [] z).
Proof.
  intros L load H1 H2 zs z. rewrite !(to_location_right L load H1 H2); [reflexivity| |apply after_right].
  intros k l E. discriminate.
Qed.
(** Every call leaves such a cache. *)
Theorem c128_calls : forall L (load : string -> option L) zs z,
  snd (to_location load (after load zs) z) = after load zs \/ snd (to_location load (after load zs) z) = after load (zs ++ [z]).
Proof.
  intros L load zs z. unfold to_location. destruct (cached (after load zs) z); [now left|].
  right. unfold after. rewrite fold_left_app. cbn [fold_left]. fold (after load zs). unfold store.
  destruct (make load z) as [[k l]|]; reflexivity.
Qed.
Definition small_db (z : string) : option Z :=
  if String.eqb z "" || String.eqb z "UTC" then Some 0 else if String.eqb z "Asia/Tokyo" then Some 9 else None.
Example c128_example :
  (forall z, small_db ("UTC" ++ z) <> None -> z = "") /\ small_db "" = small_db "UTC" /\
  fst (to_location small_db (after small_db ["+09"; "Asia/Tokyo"; "nowhere"; "UTC"]) "+09") = Some (FixedZone 32400) /\
  fst (to_location small_db (after small_db ["+09"; "Asia/Tokyo"; "nowhere"; "UTC"]) "") = Some (Loaded 0) /\
  fst (to_location small_db (after small_db ["+09"]) "nowhere") = None.
Proof.
  split; [|repeat split].
  intros z. unfold small_db. destruct z as [|c r]; [reflexivity|]. cbn. congruence.
Qed.

(** ** C127: what zone offsets mean *)
(** +HH:MM, +HH and -HH have the offset they say; -HH:MM has it only if MM is 0. *)
Theorem c127_offsets_partial : forall L (load : string -> option L) s h m, 0 <= h < 100 -> 0 <= m < 60 ->
  (fst (to_location load [] (hours_minutes s h m)) = Some (FixedZone (seconds_east s h m)) <-> s = Plus \/ m = 0) /\
  fst (to_location load [] (hours s h)) = Some (FixedZone (seconds_east s h 0)).
Proof.
  intros L load s h m H M. split.
  - unfold to_location. cbn [cached aget]. unfold make.
    pose proof (offset2_text s h m "" H ltac:(lia)) as E. rewrite string_app_nil_r in E.
    rewrite (leftmost_head offset2_at _ _ E). cbn [fst]. destruct s; unfold seconds_east, signed.
    + split; [tauto|]. intros _. do 2 f_equal. lia.
    + split.
      * intros F. assert (G : forall a b : Z, Some (@FixedZone L a) = Some (FixedZone b) -> a = b) by congruence.
        apply G in F. right. lia.
      * intros [F|F]; [discriminate|]. do 2 f_equal. lia.
  - unfold to_location. cbn [cached aget]. unfold make.
    pose proof (offset_at_text s h "" H) as E. rewrite string_app_nil_r in E.
    assert (N : leftmost offset2_at (hours s h) = None).
    { assert (O : offset2_at (hours s h) = None) by (unfold offset2_at; now rewrite E).
      assert (Q : leftmost offset2_at (two h) = None).
      { apply leftmost_no_sign; [exact offset2_at_sign|reflexivity|].
        unfold two. destruct (ten h H) as (A & B & C). cbn [no_sign].
        assert (D : forall d, 0 <= d < 10 -> Ascii.eqb (digit d) "+" = false /\ Ascii.eqb (digit d) "-" = false).
        { intros d Hd. assert (X : d = 0 \/ d = 1 \/ d = 2 \/ d = 3 \/ d = 4 \/ d = 5 \/ d = 6 \/ d = 7 \/ d = 8 \/ d = 9) by lia.
          destruct X as [->|[->|[->|[->|[->|[->|[->|[->|[->| ->]]]]]]]]]; split; reflexivity. }
        destruct (D (h / 10) ltac:(lia)) as [-> ->]. destruct (D (h mod 10) ltac:(lia)) as [-> ->]. reflexivity. }
      destruct s; unfold hours, sign_text in *; cbn [append] in *; cbn [leftmost]; rewrite O; exact Q. }
    rewrite N. rewrite (leftmost_head offset_at _ _ E). cbn [fst]. do 2 f_equal. unfold seconds_east. destruct s; cbn [signed]; lia.
Qed.
(** The offset may stand anywhere in the name: names of the time zone database that
    contain one are not looked up.  The database's Etc/GMT+h, for instance, is h hours
    WEST of UTC and is taken as h hours east. *)
Theorem c127_anywhere_refuted : forall L (load : string -> option L) a s h m b, no_sign a = true -> 0 <= h < 100 -> 0 <= m < 100 ->
  fst (to_location load [] (a ++ hours_minutes s h m ++ b)) = Some (FixedZone (signed s h * 3600 + m * 60)).
Proof.
  intros L load a s h m b N H M. unfold to_location. cbn [cached aget]. unfold make.
  rewrite (leftmost_skip offset2_at a) by (exact offset2_at_sign || assumption).
  rewrite (leftmost_head offset2_at _ _ (offset2_text s h m b H M)). cbn [fst]. do 2 f_equal. lia.
Qed.
Example c127_example :
  fst (to_location small_db [] "-03:30") = Some (FixedZone (-9000)) /\ seconds_east Minus 3 30 = -12600 /\
  fst (to_location small_db [] "+05:45") = Some (FixedZone 20700) /\
  fst (to_location small_db [] "Etc/GMT+10") = Some (FixedZone 36000).
Proof. repeat split. Qed.

Print Assumptions c128_history.
Print Assumptions c128_calls.
Print Assumptions c127_offsets_partial.
Print Assumptions c127_anywhere_refuted.
