(** Theorems about the delay before a retry (C17).
    Model: RetryDelayModel.v (the computation) and StateMachineModel.v (the number
    it is computed from).  [powf] (f64::powf) and [draw] (the random draw) are any
    functions; of [draw] it is assumed that it answers a number in [0, x). *)
From Coq Require Import ZArith Reals.
From Flocq Require Import Core.Core IEEE754.BinarySingleNaN.
From Verif Require Import Base Json WfTypes RetryDelayModel RetryDelayProofs.
From Verif Require Import StateMachineModel StateMachineSpec StateMachineProofs.
Open Scope Z_scope.

(** With a maximum delay of [m] seconds no delay is longer, whatever the other
    settings, the attempt and the draw. *)
Theorem C17_delay_capped : forall powf draw, draws draw -> forall r k di dr m d,
  rt_max_delay r = Some m -> 0 <= m -> m * 1000 <= 2 ^ 53 ->
  calculate_retry_wait_time_ms powf draw r k di dr = Ok d -> 0 <= d <= m * 1000.
Proof. exact delay_capped. Qed.

(** The delay in milliseconds is interval * 1000 * rate^k, limited by the maximum,
    rounded to a neighbouring integer; with jitter it is at most that. *)
Theorem C17_delay_formula : forall powf draw, draws draw -> forall r k di dr i p d,
  i = match rt_interval r with Some i => i | None => di end ->
  p = powf match rt_backoff_rate r with Some x => f64_of_sf x | None => dr end (f64_of_Z k) ->
  is_finite p = true -> 0 <= i -> (0 <= B2R p)%R -> (IZR (i * 1000) * B2R p <= IZR (2 ^ 53))%R ->
  i * 1000 <= 2 ^ 53 ->
  (forall m, rt_max_delay r = Some m -> 0 <= m /\ m * 1000 <= 2 ^ 53) ->
  calculate_retry_wait_time_ms powf draw r k di dr = Ok d ->
  let y := ideal i (B2R p) (rt_max_delay r) in
  (rt_jitter r <> Some true -> Zfloor y <= d <= Zceil y) /\ 0 <= d <= Zceil y.
Proof. exact delay_formula. Qed.

(** There is not always a delay: with jitter, a maximum that is not positive, or
    an interval of zero, crashes the retry. *)
Theorem C17_jitter_crash_cap_refuted : forall powf draw r k di dr m,
  rt_jitter r = Some true -> rt_max_delay r = Some m -> m <= 0 -> - m * 1000 <= 2 ^ 53 ->
  calculate_retry_wait_time_ms powf draw r k di dr = Panic.
Proof. exact jitter_crash_cap. Qed.

Theorem C17_jitter_crash_interval_refuted : forall powf draw r k di dr,
  rt_jitter r = Some true ->
  match rt_interval r with Some i => i | None => di end = 0 -> rt_max_delay r = None ->
  calculate_retry_wait_time_ms powf draw r k di dr = Panic.
Proof. exact jitter_crash_interval. Qed.

(** Without jitter there is a delay, except for an interval whose milliseconds are beyond 64 bits. *)
Theorem C17_defined : forall powf draw r k di dr i,
  i = match rt_interval r with Some i => i | None => di end -> rt_jitter r <> Some true ->
  ((exists d, calculate_retry_wait_time_ms powf draw r k di dr = Ok d) <-> - 2 ^ 63 <= i * 1000 < 2 ^ 63).
Proof.
  intros powf draw r k di dr i -> Hj. unfold calculate_retry_wait_time_ms, in_i64. cbv zeta.
  destruct (Z.leb_spec (-9223372036854775808) (match rt_interval r with Some i => i | None => di end * 1000)), (Z.leb_spec (match rt_interval r with Some i => i | None => di end * 1000) 9223372036854775807); cbn [andb].
  - split; [intros _; change (2 ^ 63) with 9223372036854775808; lia|]. intros _. destruct (rt_jitter r) as [[|]|]; [congruence|eauto|eauto].
  - split; [intros (d & [=])|change (2 ^ 63) with 9223372036854775808; lia].
  - split; [intros (d & [=])|change (2 ^ 63) with 9223372036854775808; lia].
  - split; [intros (d & [=])|change (2 ^ 63) with 9223372036854775808; lia].
Qed.

(** Nor does the delay grow from one retry to the next: in every execution every
    delay is computed from the number -1. *)
Theorem C17_backoff_grows_refuted :
  forall (T : Type) (render : T -> json -> json + render_error) extract inject has_handler wait_time spec initial c t n k,
  we_states initial = [] -> reachable render extract inject has_handler wait_time spec initial c ->
  In (t, FRetryDelay n k) (c_log T c) -> k = -1.
Proof.
  intros T render extract inject has_handler wait_time spec initial c t n k Hi R H.
  assert (I : inv render extract has_handler spec c) by (eapply inv_reachable; eauto).
  apply in_split in H. destruct H as (pre & post & E).
  exact (proj1 (inv_log _ _ _ _ _ I _ _ _ _ E)).
Qed.

(** Default interval 3 s; a power of 2 gives 6 s, capped at 5 s when so configured. *)
Definition ex_rule (cap : option Z) : retry_config :=
  {| rt_match_errors := []; rt_interval := None; rt_max_attempts := None; rt_max_delay := cap;
     rt_jitter := None; rt_backoff_rate := None |}.
Example C17_nonvacuous :
  let powf := fun _ _ : f64 => f64_of_Z 2 in
  let draw := fun _ : f64 => B754_zero false : f64 in
  draws draw
  /\ calculate_retry_wait_time_ms powf draw (ex_rule None) 1 3 (f64_of_Z 2) = Ok 6000
  /\ calculate_retry_wait_time_ms powf draw (ex_rule (Some 5)) 1 3 (f64_of_Z 2) = Ok 5000
  /\ (0 <= B2R (f64_of_Z 2))%R /\ (IZR (3 * 1000) * B2R (f64_of_Z 2) <= IZR (2 ^ 53))%R.
Proof.
  split. { intros x Fx Px. split; [reflexivity|]. cbn. split; [apply Rle_refl|exact Px]. }
  split; [vm_compute; reflexivity|]. split; [vm_compute; reflexivity|].
  destruct (f64_of_Z_exact 2) as [E _]; [lia|]. rewrite E. split; [apply IZR_le; lia|].
  rewrite <- mult_IZR. apply IZR_le. lia.
Qed.

Print Assumptions C17_delay_capped.
Print Assumptions C17_delay_formula.
Print Assumptions C17_jitter_crash_cap_refuted.
Print Assumptions C17_jitter_crash_interval_refuted.
Print Assumptions C17_backoff_grows_refuted.
Print Assumptions C17_defined.
