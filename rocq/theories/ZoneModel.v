(** Time zone names: internal/util.go. *)
From Coq Require Import Ascii String List ZArith Lia Bool.
From Verif Require Import GoBase DecModel ClockTextModel.
Import ListNotations.
Local Open Scope string_scope.
Open Scope Z_scope.

(** A *time.Location: one made by time.FixedZone, or one that time.LoadLocation (outside
    /repo) found. *)
Inductive place (L : Type) := FixedZone (off : Z) | Loaded (l : L).
Arguments FixedZone {L} off.
Arguments Loaded {L} l.

(** util.go:11: the regular expression [-+]\d{2} at the head of the string; strconv.ParseInt
    of the match. *)
Definition offset_at (s : string) : option (Z * string) :=
  match s with
  | String c r =>
      if Ascii.eqb c "+" then num2 r
      else if Ascii.eqb c "-" then match num2 r with Some (h, q) => Some (- h, q) | None => None end
      else None
  | EmptyString => None
  end.
(** util.go:12: [-+]\d{2}:\d{2} at the head of the string *)
Definition offset2_at (s : string) : option (Z * Z) :=
  match offset_at s with
  | Some (h, String c r) => if Ascii.eqb c ":" then match num2 r with Some (m, _) => Some (h, m) | None => None end else None
  | _ => None
  end.
(** FindAllStringSubmatch: the leftmost match, anywhere in the string *)
Fixpoint leftmost {A} (f : string -> option A) (s : string) : option A :=
  match f s with
  | Some a => Some a
  | None => match s with EmptyString => None | String _ r => leftmost f r end
  end.

Section Load.
Variable L : Type.
(** time.LoadLocation *)
Variable load : string -> option L.
(** locationCacheMap, util.go:13 *)
Definition cache := amap (place L).
(** util.go:17-27 getCachedLocation *)
Definition cached (c : cache) (z : string) : option (place L) :=
  match aget c z with Some l => Some l | None => aget c ("UTC" ++ z) end.
(** util.go:40-74: what toLocation makes of a name that is not cached, and the key it stores
    it under *)
Definition make (z : string) : option (string * place L) :=
  match leftmost offset2_at z with
  | Some (h, m) => Some ("UTC" ++ z, FixedZone (h * 60 * 60 + m * 60))
  | None =>
      match leftmost offset_at z with
      | Some (h, _) => Some ("UTC" ++ z, FixedZone (h * 60 * 60))
      | None => match load z with Some l => Some (z, Loaded l) | None => None end
      end
  end.
(** util.go:36-74 toLocation; [None] is the error. *)
Definition to_location (c : cache) (z : string) : option (place L) * cache :=
  match cached c z with
  | Some l => (Some l, c)
  | None => match make z with Some (k, l) => (Some l, aset c k l) | None => (None, c) end
  end.
(** util.go:29-33 setLocationCache.  Reading and storing take the lock separately, so
    between them other calls may store; a call that found its name stores nothing. *)
Definition store (c : cache) (z : string) : cache := match make z with Some (k, l) => aset c k l | None => c end.
(** The cache after the stores of any calls, in the order in which they happened. *)
Definition after (zs : list string) : cache := fold_left store zs [].
End Load.
Arguments cached {L} c z.
Arguments make {L} load z.
Arguments to_location {L} load c z.
Arguments store {L} load c z.
Arguments after {L} load zs.
