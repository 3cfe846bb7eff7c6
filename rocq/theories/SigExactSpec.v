(** Vocabulary for the exact statements about signature verification: the header
    texts that crash the verifier, and the arithmetic that does. *)
From Verif Require Import Base Text SigModel SigSpec.
Open Scope string_scope.
Local Open Scope N_scope.

(** A name=value part whose value has fewer than two bytes, so that it cannot be
    enclosed by one byte on each side. *)
Definition short_part (name text : string) : Prop :=
  exists l r v, blank l /\ blank r /\ text = l ++ name ++ r ++ "=" ++ v /\
    has_char "," v = false /\ has_char "=" v = false /\ (String.length v < 2)%nat.

(** Three comma-separated parts, the first malformed one of which, read left to
    right, has the right name and too short a value. *)
Definition breaks (h : string) : Prop :=
  exists p0 p1 p2, h = p0 ++ "," ++ p1 ++ "," ++ p2 /\
    has_char "," p0 = false /\ has_char "," p1 = false /\ has_char "," p2 = false /\
    (short_part "keyId" p0 \/
     (exists k, part "keyId" k p0) /\
       (short_part "headers" p1 \/ (exists t, part "headers" t p1) /\ short_part "signature" p2)).

(** The window [d - s, d + s] cannot be computed in 64 unsigned bits: its end is
    too large, or its start, which is wanted only when the end has not passed, is
    negative. *)
Definition window_overflows (d s now : N) : Prop := 2 ^ 64 <= d + s \/ (d < s /\ now <= d + s).
