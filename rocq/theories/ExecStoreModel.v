(** Model of the in-memory workflow execution store,
    /repo/libs/runtime/workflow/src/workflow_executions.rs 173-275. *)
From Verif Require Import Base Json WfTypes.
Open Scope string_scope.

(** workflow_executions.rs 177-180: two collections, each behind its own lock. *)
Record store := {
  st_executions : smap wf_execution;
  st_ids_in_order : list string
}.

(** 182-190 *)
Definition store_new : store := {| st_executions := []; st_ids_in_order := [] |}.

(** 199-210: the record built by a save. *)
Definition execution_of (id : string) (p : save_payload) : wf_execution :=
  {| we_id := id; we_input := sp_input p; we_output := None; we_started := sp_started p;
     we_completed := sp_completed p; we_status := sp_status p;
     we_status_detail := sp_status_detail p; we_current_state := sp_current_state p;
     we_states := sp_states p |}.

(** A save takes the two locks one after the other, so another task can run
    between its two halves: each half is an atomic step.
    211-214: first half, insert under the write lock. *)
Definition save_insert (s : store) (id : string) (p : save_payload) : store :=
  {| st_executions := insert id (execution_of id p) (st_executions s);
     st_ids_in_order := st_ids_in_order s |}.
(** 216-223: second half, append the id when it is new. *)
Definition save_push (s : store) (id : string) : store :=
  if existsb (String.eqb id) (st_ids_in_order s) then s
  else {| st_executions := st_executions s; st_ids_in_order := (st_ids_in_order s ++ [id])%list |}.

(** 228-241 *)
Definition get_execution (s : store) (id : string) : outcome string wf_execution :=
  match lookup id (st_executions s) with
  | Some e => Ok e
  | None => Err id
  end.

(** 243-274.  [limit] is a u64. *)
Definition get_latest (s : store) (limit : N) : list wf_execution :=
  let ids := st_ids_in_order s in
  let size := if (N.of_nat (length ids) <? limit)%N then length ids else N.to_nat limit in
  let result_ids := rev (firstn size (rev ids)) in
  flat_map (fun id => match lookup id (st_executions s) with Some e => [e] | None => [] end) result_ids.

(** A save seen as one operation: both halves. 194-226. *)
Definition save (s : store) (id : string) (p : save_payload) : store :=
  save_push (save_insert s id p) id.

(** Atomic steps of concurrent callers; gets and listings do not change the store. 194-226, 228-274. *)
Inductive store_step := SInsert (id : string) (p : save_payload) | SPush (id : string).
(** 194-226, one half of a save *)
Definition store_apply (s : store) (x : store_step) : store :=
  match x with SInsert id p => save_insert s id p | SPush id => save_push s id end.
(** 182-226 *)
Definition store_run (xs : list store_step) : store := fold_left store_apply xs store_new.
