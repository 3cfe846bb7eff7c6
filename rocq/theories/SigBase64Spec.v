(** The base64 text of bytes, written without the model's functions: RFC 4648, the alphabet that is
    safe in URLs, without padding characters *)
From Verif Require Import Base.
From Coq Require Import Ascii.
Local Open Scope list_scope.

Definition alphabet : string := "ABCDEFGHIJKLMNOPQRSTUVWXYZabcdefghijklmnopqrstuvwxyz0123456789-_".
(** Bits, the highest first *)
Definition byte_bits (c : ascii) : list bool :=
  match c with Ascii b0 b1 b2 b3 b4 b5 b6 b7 => [b7; b6; b5; b4; b3; b2; b1; b0] end.
Definition digit_bits (d : nat) : list bool := map (Nat.testbit d) [5; 4; 3; 2; 1; 0].
(** [sg] is the text of [x]: six bits for each character, that together are the bits of [x], filled up
    with fewer than six zeros *)
Definition base64url (sg x : string) : Prop :=
  exists ds fill, Forall2 (fun c d => String.get d alphabet = Some c) (list_ascii_of_string sg) ds /\ fill < 6 /\
    concat (map digit_bits ds) = concat (map byte_bits (list_ascii_of_string x)) ++ repeat false fill.
