(** Vocabulary for C25: the numbers of a document and double precision. *)
From Coq Require Import Reals ZArith.
From Flocq Require Import Core.Core IEEE754.BinarySingleNaN.
From Verif Require Import Base Json.

(** A number as it can stand in a document: an integer in the range serde_json keeps exactly,
    or a finite double *)
Definition doc_num (n : num) : Prop :=
  match n with
  | NInt z => (- 2 ^ 63 <= z < 2 ^ 64)%Z
  | NFloat f => valid_binary 53 1024 f = true /\ is_finite_SF f = true
  end.
(** The number meant *)
Definition real (n : num) : R := match n with NInt z => IZR z | NFloat f => SF2R radix2 f end.
(** Rounding to the nearest double, ties to even; doubles below 2^1024 *)
Definition nearest (x : R) : R := round radix2 (FLT_exp (-1074) 53) ZnearestE x.
Definition fits (x : R) : Prop := (Rabs x < bpow radix2 1024)%R.
