(** Model of the delay before a retry,
    /repo/libs/runtime/workflow/src/helpers.rs 6-33, over IEEE 754 binary64
    numbers with round to nearest, ties to even (Rust's f64). *)
From Coq Require Import ZArith Bool.
From Flocq Require Import Core.Core IEEE754.BinarySingleNaN.
From Verif Require Import Base Json WfTypes.
Open Scope Z_scope.


Local Instance prec53 : Prec_gt_0 53 := eq_refl.
Local Instance prec53_emax : Prec_lt_emax 53 1024 := eq_refl.

(** f64 *)
Definition f64 := binary_float 53 1024.
(** f64::NAN, which powf may give (helpers.rs 19) *)
Definition f64_nan : f64 := B754_nan.
(** [z as f64] *)
Definition f64_of_Z (z : Z) : f64 := BinarySingleNaN.binary_normalize 53 1024 _ _ mode_NE z 0 false.
(** A value read from the workflow definition. helpers.rs 18. *)
Definition f64_of_sf (x : spec_float) : f64 :=
  match valid_binary 53 1024 x as b return valid_binary 53 1024 x = b -> f64 with
  | true => fun H => SF2B x H
  | false => fun _ => f64_nan
  end eq_refl.
(** The products of helpers.rs 19 and 22 *)
Definition f64_mult (x y : f64) : f64 := Bmult mode_NE x y.
(** [f64::min]: a NaN loses. *)
Definition f64_min (x y : f64) : f64 :=
  if is_nan x then y else if is_nan y then x else if Bltb x y then x else y.
(** u64::MAX (helpers.rs 28, 30) *)
Definition u64_max : Z := 18446744073709551615.
(** [x as u64]: saturating, NaN is 0. *)
Definition f64_as_u64 (x : f64) : Z :=
  match x with
  | B754_infinity true | B754_nan => 0
  | B754_infinity false => u64_max
  | _ => Z.max 0 (Z.min (Btrunc x) u64_max)
  end.
(** [f64::trunc] followed by [as u64] is the cast itself. *)

Definition in_i64 (z : Z) : bool := (-9223372036854775808 <=? z) && (z <=? 9223372036854775807).
Definition f64_1000 : f64 := f64_of_Z 1000.

Section Delay.
  (** [f64::powf], left to the platform, and the random draw of
      [gen_range(0.0..x)]: any functions. *)
  Variable powf : f64 -> f64 -> f64.
  Variable draw : f64 -> f64.

  (** helpers.rs 9-32.  An overflowing multiplication of the interval panics (debug
      builds; release builds wrap).  [gen_range] panics unless 0 < x and x is
      finite. *)
  Definition calculate_retry_wait_time_ms (r : retry_config) (retry_attempt : Z)
      (default_interval : Z) (default_rate : f64) : outcome unit Z :=
    let interval_ms := match rt_interval r with Some i => i | None => default_interval end * 1000 in
    if in_i64 interval_ms then
      let rate := match rt_backoff_rate r with Some x => f64_of_sf x | None => default_rate end in
      let x := f64_mult (f64_of_Z interval_ms) (powf rate (f64_of_Z retry_attempt)) in
      let x := match rt_max_delay r with
               | Some m => f64_min x (f64_mult (f64_of_Z m) f64_1000)
               | None => x
               end in
      if match rt_jitter r with Some j => j | None => false end then
        if Bltb (B754_zero false) x && is_finite x then Ok (f64_as_u64 (draw x)) else Panic
      else Ok (f64_as_u64 x)
    else Panic.
End Delay.
