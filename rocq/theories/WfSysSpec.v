(** Vocabulary for the properties of a whole workflow application (C157, C158) *)
From Verif Require Import Base Json WfTypes StateMachineModel StateMachineSpec ExecStoreModel ExecStoreSpec WfAppModel WfAppSpec WfSysModel.
Local Open Scope list_scope.

(** The steps of one machine in a history, oldest first. *)
Definition own (m : nat) (xs : list sact) : list action :=
  flat_map (fun x => match x with AMachine j a => if Nat.eqb j m then [a] else [] | _ => [] end) xs.
(** The events among some effects, oldest first. *)
Definition events_in (fs : list effect) : list wf_event :=
  flat_map (fun f => match f with FEvent e => [e] | _ => [] end) fs.
(** The events a machine broadcast, oldest first. *)
Definition sent_by (m : nat) (events : list (nat * wf_event)) : list wf_event :=
  map snd (filter (fun x => Nat.eqb (fst x) m) events).
(** No save succeeded. *)
Definition nothing_saved (fs : list effect) : Prop := forall p, ~ In (FSave p true) fs.

Section Spec.
  Context {T : Type}.
  (** Machine [m] was started for the execution [e] and is now at [c]. *)
  Definition started_as (s : sys T) (m : nat) (e : wf_execution) (c : config T) : Prop :=
    nth_error (ap_machines (y_app T s)) m = Some e /\ nth_error (y_machines T s) m = Some c.
  (** The id of [m] was given to no other machine. *)
  Definition only_run (s : sys T) (m : nat) (id : string) : Prop :=
    forall j e, nth_error (ap_machines (y_app T s)) j = Some e -> we_id e = id -> j = m.
  (** The process that started [m] still runs. *)
  Definition lives (s : sys T) (m : nat) : Prop := y_gone T s <= m.
End Spec.
(** The records of the execution service survive every stop. *)
Definition records_kept (xs : list sact) : Prop := ~ In (AStop false) xs.
(** No stop of the process. *)
Definition no_stop (xs : list sact) : Prop := forall k, ~ In (AStop k) xs.
(** No run is accepted under [id]. *)
Definition not_run_again (id : string) (xs : list sact) : Prop :=
  forall name uuid input now, In (ARequest (RRun name uuid input now true)) xs -> ~ run_id name uuid id.
