(** Theorems about wait states (C60).
    Model: WaitModel.v and StateMachineModel.v.  The JSON path library and the
    parsing of timestamps are any functions. *)
From Verif Require Import Base Json WfTypes StateMachineModel StateMachineSpec StateMachineProofs WaitModel WaitSpec WaitProofs.
From Coq Require Import DecimalString.
Open Scope string_scope.
Open Scope list_scope.

(** The outcome, with the error it fails with, is exactly the one described. *)
Theorem C60_exact : forall path_error path_find parse_timestamp w input now r,
  derive_wait_time_seconds path_error path_find parse_timestamp w input now = r <-> waits path_error path_find parse_timestamp input now w r.
Proof. exact wait_exact. Qed.

(** A literal number of seconds that fits 64 bits is waited exactly ... *)
Theorem C60_literal_seconds : forall path_error path_find parse_timestamp n ts input now,
  (n <= 18446744073709551615)%N ->
  derive_wait_time_seconds path_error path_find parse_timestamp
    {| wt_seconds := Some (NilZero.string_of_uint (N.to_uint n)); wt_timestamp := ts |} input now = inl n.
Proof. exact wait_literal. Qed.

(** ... and nothing but digits, with a plus sign perhaps, is a literal number. *)
Theorem C60_literal_only_digits : forall path_error path_find parse_timestamp s ts input now n,
  derive_wait_time_seconds path_error path_find parse_timestamp
    {| wt_seconds := Some s; wt_timestamp := ts |} input now = inl n -> ~ is_path s ->
  (n <= 18446744073709551615)%N /\ exists body, (s = body \/ s = String "+" body) /\ body <> "" /\ all_digits body.
Proof. intros pe pf pt s ts input now n H P. eapply wait_literal_only; [exact H|]. destruct (starts_with_dollar s) eqn:E; [elim P; now apply dollar_path|reflexivity]. Qed.

(** A timestamp ([ts] in nanoseconds, the clock in milliseconds): the wait ends in
    the last second before it. *)
Theorem C60_timestamp : forall path_error path_find parse_timestamp s ts input now n,
  ~ is_path s -> parse_timestamp s = inl ts ->
  derive_wait_time_seconds path_error path_find parse_timestamp
    {| wt_seconds := None; wt_timestamp := Some s |} input now = inl n ->
  (now * 1000000 - 1000000000 < ts)%Z /\
  (now * 1000000 <= ts -> now * 1000000 + Z.of_N n * 1000000000 <= ts < now * 1000000 + (Z.of_N n + 1) * 1000000000)%Z.
Proof. intros pe pf pt s ts input now; intros; eapply wait_timestamp; eauto. now apply not_dollar. Qed.

(** A timestamp in the future is accepted, one that is a second old or older is an error. *)
Theorem C60_future_accepted : forall path_error path_find parse_timestamp s ts input now,
  ~ is_path s -> parse_timestamp s = inl ts -> (now * 1000000 <= ts)%Z ->
  exists n, derive_wait_time_seconds path_error path_find parse_timestamp
    {| wt_seconds := None; wt_timestamp := Some s |} input now = inl n.
Proof. intros pe pf pt s ts input now; intros; eapply wait_future; eauto. now apply not_dollar. Qed.
Theorem C60_past_rejected : forall path_error path_find parse_timestamp s ts input now,
  ~ is_path s -> parse_timestamp s = inl ts -> (ts <= now * 1000000 - 1000000000)%Z ->
  exists e, derive_wait_time_seconds path_error path_find parse_timestamp
    {| wt_seconds := None; wt_timestamp := Some s |} input now = inr e.
Proof. intros pe pf pt s ts input now; intros; eapply wait_past; eauto. now apply not_dollar. Qed.

(** Seconds or timestamps taken from the input by a path never work: the path
    library answers a list of what it found, or null. *)
Theorem C60_path_from_input_refuted : forall path_error path_find parse_timestamp w input now s,
  (forall p v, path_find p v = JNull \/ exists l, path_find p v = JArr l) ->
  (wt_seconds w = Some s \/ wt_seconds w = None /\ wt_timestamp w = Some s) -> is_path s ->
  exists e, derive_wait_time_seconds path_error path_find parse_timestamp w input now = inr e.
Proof. intros pe pf pt w input now s F H P. eapply wait_path_fails; [exact F|exact H|]. now apply dollar_path. Qed.

(** A wait state waits that time once and passes its input on. *)
Theorem C60_state_waits : forall (T : Type) (render : T -> json -> json + render_error) extract inject has_handler
    wait_time spec c t name cfg input w now n,
  running c t name cfg input -> sc_type cfg = Wait -> sc_wait_config cfg = Some w ->
  wait_time w input now = inl n ->
  exists acts c', drive render extract inject has_handler wait_time spec c t acts [FWait n] c'
    /\ (exists r st, nth_error (c_threads T c') t = Some {| th_pc := PSuccess T input st cfg input None; th_ret := r |}
          /\ es_name st = name).
Proof.
  intros T render extract inject has_handler wait_time spec c t name cfg input w now n (st & r & V & Hn) Ht Hw E.
  exists [ {| a_thread := t; a_now := now; a_answer := ANothing |} ]. eexists. split.
  - split; [|split; [repeat constructor|]].
    + cbn [sm_run]. unfold sm_step. cbn [a_thread a_now a_answer]. rewrite V. cbn [th_pc step_pc]. rewrite Ht, Hw, E. reflexivity.
    + reflexivity.
  - exists r, st. split; [|exact Hn]. cbn [c_threads o_pc o_spawn stay with_effects]. rewrite app_nil_r.
    cbn [th_ret o_ret]. assert (X : forall A n (x y : A) l, nth_error l n = Some y -> nth_error (set_nth n x l) n = Some x).
    { clear. induction n as [|n IH]; intros x y [|z l] H; cbn in *; try discriminate; [reflexivity|eauto]. }
    erewrite X by exact V. destruct r; reflexivity.
Qed.

(** A timestamp that cannot be read, or that has passed, is not reported as a failure of the state: the
    execution crashes, without storing or announcing anything more, unless it has a state of the name unknown. *)
Lemma set_nth_at A n (x y : A) l : nth_error l n = Some y -> nth_error (set_nth n x l) n = Some x.
Proof. revert l. induction n as [|n IH]; intros [|z l] H; cbn in *; try discriminate; [reflexivity|eauto]. Qed.
Lemma step_only {T} render extract inject has_handler wait_time spec (c : config T) t th now ans o :
  nth_error (c_threads T c) t = Some th ->
  step_pc T render extract inject has_handler wait_time spec c t (th_pc T th) now ans = Some o -> o_effects T o = [] -> o_spawn T o = [] ->
  exists c', sm_step T render extract inject has_handler wait_time spec c {| a_thread := t; a_now := now; a_answer := ans |} = Some c' /\
    c_log T c' = c_log T c /\ c_lock T c' = o_lock T o /\ c_exec T c' = o_exec T o /\
    exists r, nth_error (c_threads T c') t = Some {| th_pc := final_pc T r (o_pc T o); th_ret := r |}.
Proof.
  intros V S E0 E1. eexists. split; [unfold sm_step; cbn [a_thread a_now a_answer]; rewrite V, S; reflexivity|].
  cbn [c_log c_lock c_exec c_threads]. rewrite E0, E1. cbn [map]. rewrite !app_nil_r. repeat split.
  eexists. erewrite set_nth_at by exact V. reflexivity.
Qed.
Theorem C60_timestamp_crash_refuted : forall (T : Type) (render : T -> json -> json + render_error) extract inject has_handler
    path_error path_find parse_timestamp spec c t name cfg input s now,
  let wait_time := derive_wait_time_seconds path_error path_find parse_timestamp in
  running c t name cfg input -> c_lock T c = None -> sc_type cfg = Wait ->
  sc_wait_config cfg = Some {| wt_seconds := None; wt_timestamp := Some s |} -> ~ is_path s ->
  ((exists e, parse_timestamp s = inr e) \/ exists ts, parse_timestamp s = inl ts /\ (ts <= now * 1000000 - 1000000000)%Z) ->
  ~ In "unknown" (map es_name (we_states (c_exec T c))) ->
  exists acts c', drive render extract inject has_handler wait_time spec c t acts [] c' /\ crashed_thread c' t.
Proof.
  intros T render extract inject has_handler pe pf pt spec c t name cfg input s now wait_time (st & r & V & Hn) Hl Ht Hw Hp Hs Hu.
  assert (W : exists m, wait_time {| wt_seconds := None; wt_timestamp := Some s |} input now = inr (false, Some "unknown", m)).
  { apply not_dollar in Hp. unfold wait_time, derive_wait_time_seconds, derive_wait_time_from_timestamp_field. cbn. rewrite Hp.
    unfold wait_time_from_timestamp. destruct Hs as [(e & ->)|(ts & -> & Hts)]; [eauto|].
    assert (E : (Z.quot (ts - now * 1000000) 1000000000 <? 0)%Z = true).
    { apply Z.ltb_lt. assert (H : (Z.quot (ts - now * 1000000) 1000000000 <= Z.quot (-1000000000) 1000000000)%Z) by (apply Z.quot_le_mono; lia).
      change (Z.quot (-1000000000) 1000000000) with (-1)%Z in H. lia. }
    rewrite E. eauto. }
  destruct W as (m & W). fold wait_time in W.
  destruct (step_only render extract inject has_handler wait_time spec c t _ now ANothing
    (stay T c (PError T (mk_err InvalidState "unknown" None None m) input)) V) as (c1 & S1 & L1 & K1 & X1 & r1 & V1).
  { cbn [th_pc step_pc]. rewrite Ht, Hw. rewrite W. reflexivity. }
  { reflexivity. } { reflexivity. }
  cbn in K1, X1, V1.
  destruct (step_only render extract inject has_handler wait_time spec c1 t _ now ANothing
    (with_ret T (stay T c1 (PRecord T "unknown" None "InvalidState" m true false KStop)) None) V1) as (c2 & S2 & L2 & K2 & X2 & r2 & V2).
  { destruct r1; reflexivity. } { reflexivity. } { reflexivity. }
  cbn in K2, X2, V2.
  assert (U : update_state "unknown" None (fail_state now (error_detail "unknown" "InvalidState" m)) (we_states (c_exec T c2)) = None).
  { rewrite X2, X1. apply update_state_none_none. exact Hu. }
  destruct (step_only render extract inject has_handler wait_time spec c2 t _ now ANothing
    (with_exec T (stay T c2 (PPanicked T)) (fail_execution (error_detail "unknown" "InvalidState" m) (c_exec T c2))) V2) as (c3 & S3 & L3 & K3 & X3 & r3 & V3).
  { destruct r2; cbn [th_pc final_pc step_pc]; rewrite K2, K1, Hl; cbn [we_states fail_execution]; rewrite U; reflexivity. }
  { reflexivity. } { reflexivity. }
  exists [ {| a_thread := t; a_now := now; a_answer := ANothing |}; {| a_thread := t; a_now := now; a_answer := ANothing |}; {| a_thread := t; a_now := now; a_answer := ANothing |} ], c3.
  split; [|exists r3; rewrite V3; destruct r3; reflexivity].
  split; [cbn [sm_run]; rewrite S1, S2, S3; reflexivity|]. split; [repeat constructor|].
  rewrite L3, L2, L1. cbn. now rewrite app_nil_r.
Qed.

Example C60_exact_nonvacuous :
  waits (fun _ => None) (fun _ _ => JNull) (fun _ => inl 2500000000%Z) JNull 0 {| wt_seconds := None; wt_timestamp := Some "later" |} (inl 2%N) /\
  waits (fun _ => None) (fun _ _ => JNull) (fun _ => inl 0%Z) JNull 0 {| wt_seconds := Some "+90"; wt_timestamp := None |} (inl 90%N) /\
  waits (fun _ => None) (fun _ _ => JNull) (fun _ => inl 0%Z) JNull 1000 {| wt_seconds := None; wt_timestamp := Some "then" |} (inr (false, Some "unknown", "Wait state timestamp must be in the future")).
Proof. repeat split; apply C60_exact; reflexivity. Qed.
Example C60_nonvacuous :
  let wait := derive_wait_time_seconds (fun _ => None) (fun _ _ => JArr [JNum (NInt 3)])
                (fun s => if String.eqb s "2026-01-01T00:00:00Z" then inl 1767225600000000000%Z else inr "bad") in
  wait {| wt_seconds := Some "90"; wt_timestamp := None |} JNull 0%Z = inl 90%N
  /\ wait {| wt_seconds := None; wt_timestamp := Some "2026-01-01T00:00:00Z" |} JNull 1767225597500%Z = inl 2%N
  /\ (exists e, wait {| wt_seconds := Some "$.delay"; wt_timestamp := None |} (JObj [("delay", JNum (NInt 3))]) 0%Z = inr e).
Proof. vm_compute. eauto. Qed.

(** A workflow of one wait until a time that cannot be read, stopped where its state has been announced. *)
Definition ex_until : state_config unit :=
  mk_state_config Wait None None None None None (Some true) (Some {| wt_seconds := None; wt_timestamp := Some "tomorrow" |}) None None None.
Example C60_crash_nonvacuous :
  let spec := {| ws_start_at := "w"; ws_states := [("w", ex_until)] |} in
  let initial := {| we_id := "e1"; we_input := JNull; we_output := None; we_started := 5%Z; we_completed := None;
                    we_status := Preparing; we_status_detail := ""; we_current_state := None; we_states := [] |} in
  let act x := {| a_thread := 0; a_now := 7%Z; a_answer := x |} in
  exists c, sm_run unit (fun _ v => inl v) (fun v _ => inl v) (fun v _ _ => inl v) (fun _ => true)
      (derive_wait_time_seconds (fun _ => None) (fun _ _ => JNull) (fun _ => inr "bad")) spec (sm_init unit spec initial)
      (map act [ANothing; ANothing; ASaved None; ANothing]) = Some c
    /\ running c 0 "w" ex_until JNull /\ c_lock _ c = None /\ ~ is_path "tomorrow"
    /\ ~ In "unknown" (map es_name (we_states (c_exec _ c))).
Proof.
  cbn zeta. eexists. split; [vm_compute; reflexivity|]. split; [do 2 eexists; split; reflexivity|]. split; [reflexivity|].
  split; [intros (r & H); discriminate H|]. intros [H|[]]. discriminate H.
Qed.

Print Assumptions C60_exact.
Print Assumptions C60_literal_seconds.
Print Assumptions C60_literal_only_digits.
Print Assumptions C60_timestamp.
Print Assumptions C60_future_accepted.
Print Assumptions C60_past_rejected.
Print Assumptions C60_path_from_input_refuted.
Print Assumptions C60_state_waits.
Print Assumptions C60_timestamp_crash_refuted.
