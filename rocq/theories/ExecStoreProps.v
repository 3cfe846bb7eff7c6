(** Theorems about the in-memory workflow execution store (C10-C12).
    Model: ExecStoreModel.v.  Vocabulary: ExecStoreSpec.v. *)
From Verif Require Import Base Json WfTypes ExecStoreModel ExecStoreSpec ExecStoreProofs.
Open Scope string_scope.
Open Scope list_scope.

(** *** C10 *)

(** Over every interleaving of the halves of concurrent saves, a read returns the
    data last saved under the id ... *)
Theorem C10_reads_last_save : forall xs id e,
  get_execution (store_run xs) id = Ok e <->
  exists p, last_assigned (saved_under id) xs p /\ e = stored id p.
Proof. exact get_spec. Qed.

(** ... 'not found' when nothing was saved under it ... *)
Theorem C10_not_found : forall xs id,
  (forall p, ~ In (SInsert id p) xs) -> get_execution (store_run xs) id = Err id.
Proof. exact get_not_found. Qed.

(** ... and a save leaves every other id alone, in any store. *)
Theorem C10_save_other_id : forall s id id' p, id <> id' ->
  get_execution (save s id p) id' = get_execution s id'.
Proof. exact get_other. Qed.

(** *** C11 *)

(** The listing holds the executions of the last [limit] distinct ids, in order
    of first completed save, each read as of now. *)
Theorem C11_latest_listing : forall xs limit, well_formed xs ->
  Forall2 (fun id e => get_execution (store_run xs) id = Ok e)
    (let d := first_seen (completed_ids xs) in skipn (length d - N.to_nat limit) d)
    (get_latest (store_run xs) limit).
Proof. exact latest_spec. Qed.

Theorem C11_listing_size : forall xs limit, well_formed xs ->
  length (get_latest (store_run xs) limit) =
  Nat.min (N.to_nat limit) (length (first_seen (completed_ids xs))).
Proof. exact latest_length. Qed.

Theorem C11_ids_distinct : forall l, NoDup (first_seen l) /\ (forall x, In x (first_seen l) <-> In x l).
Proof. intros l. split; [apply first_seen_NoDup|intros x; apply first_seen_In]. Qed.

(** Saves made one after the other are such a history; their order is the order
    of first save. *)
Theorem C11_sequential_saves : forall saves,
  well_formed (sequential saves) /\ completed_ids (sequential saves) = map fst saves
  /\ store_run (sequential saves) = fold_left (fun s ip => save s (fst ip) (snd ip)) saves store_new.
Proof.
  intros saves. split; [apply sequential_well_formed|]. split; [apply sequential_ids|].
  unfold store_run. generalize store_new. induction saves as [|[i p] saves IH]; intros s; [reflexivity|]. cbn.
  apply IH.
Qed.

(** *** C12 is false: no saved execution ever has an output. *)
Theorem C12_output_kept_refuted : forall xs id e,
  get_execution (store_run xs) id = Ok e -> we_output e = None.
Proof. exact output_never_stored. Qed.

Definition ex_payload (d : string) (st : status) : save_payload :=
  {| sp_input := JNull; sp_started := 1%Z; sp_completed := None; sp_status := st;
     sp_status_detail := d; sp_current_state := None; sp_states := [] |}.
Definition ex_saves : list (string * save_payload) :=
  [("a", ex_payload "1" Preparing); ("b", ex_payload "2" Preparing);
   ("a", ex_payload "3" Succeeded); ("c", ex_payload "4" Failed)].
Definition ex_details (l : list wf_execution) : list (string * string) :=
  map (fun e => (we_id e, we_status_detail e)) l.
Example C10_C11_nonvacuous :
  let s := store_run (sequential ex_saves) in
  ex_details (get_latest s 2) = [("b", "2"); ("c", "4")]%string
  /\ ex_details (get_latest s 9) = [("a", "3"); ("b", "2"); ("c", "4")]%string
  /\ get_latest s 0 = []
  /\ get_execution s "a" = Ok (stored "a" (ex_payload "3" Succeeded))
  /\ get_execution s "d" = Err "d"%string
  /\ well_formed (sequential ex_saves)
  (* a listing between the two halves of a save does not show the new id *)
  /\ ex_details (get_latest (store_run [SInsert "a" (ex_payload "1" Preparing)]) 5) = [].
Proof. repeat split; try reflexivity. apply sequential_well_formed. Qed.
Example C12_nonvacuous : exists xs id e,
  get_execution (store_run xs) id = Ok e /\ we_status e = Succeeded.
Proof. exists (sequential ex_saves), "a"%string. eexists. split; reflexivity. Qed.

Print Assumptions C10_reads_last_save.
Print Assumptions C10_not_found.
Print Assumptions C10_save_other_id.
Print Assumptions C11_latest_listing.
Print Assumptions C11_listing_size.
Print Assumptions C11_ids_distinct.
Print Assumptions C11_sequential_saves.
Print Assumptions C12_output_kept_refuted.
