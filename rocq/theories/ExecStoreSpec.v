(** Vocabulary of the execution store properties (C10-C12). *)
From Verif Require Import Base Json WfTypes ExecStoreModel.
Open Scope string_scope.

(** What a step of the history saves under [id]. *)
Definition saved_under (id : string) (x : store_step) : option save_payload :=
  match x with SInsert id' p => if String.eqb id id' then Some p else None | SPush _ => None end.

(** The execution read back for a payload: the same data, and no output. *)
Definition stored (id : string) (p : save_payload) : wf_execution :=
  {| we_id := id; we_input := sp_input p; we_output := None; we_started := sp_started p;
     we_completed := sp_completed p; we_status := sp_status p;
     we_status_detail := sp_status_detail p; we_current_state := sp_current_state p;
     we_states := sp_states p |}.

(** Histories of callers: the second half of a save comes after its first half. *)
Definition well_formed (xs : list store_step) : Prop :=
  forall pre id post, xs = (pre ++ SPush id :: post)%list -> exists p, In (SInsert id p) pre.

(** Ids whose saves are complete, in order of completion (with repetitions). *)
Fixpoint completed_ids (xs : list store_step) : list string :=
  match xs with
  | [] => []
  | SPush id :: r => id :: completed_ids r
  | SInsert _ _ :: r => completed_ids r
  end.

(** Keep the first occurrence of each id. *)
Fixpoint first_seen (l : list string) : list string :=
  match l with
  | [] => []
  | x :: r => x :: filter (fun y => negb (String.eqb x y)) (first_seen r)
  end.

(** A history without concurrency: whole saves one after the other. *)
Definition sequential (saves : list (string * save_payload)) : list store_step :=
  flat_map (fun ip => [SInsert (fst ip) (snd ip); SPush (fst ip)]) saves.
