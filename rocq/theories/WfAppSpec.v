(** Vocabulary for the properties of the workflow API *)
From Verif Require Import Base Json WfTypes ExecStoreModel WfAppModel.
Local Open Scope list_scope.

(** The stored execution of an id *)
Definition holds (a : wapp) (id : string) (e : wf_execution) : Prop := get_execution (ap_store a) id = Ok e.
(** A new execution, which has not done anything *)
Definition fresh_execution (id : string) (input : json) (now : Z) (e : wf_execution) : Prop :=
  we_id e = id /\ we_input e = input /\ we_started e = now /\ we_status e = Preparing /\ we_status_detail e = "The execution is currently being prepared"%string /\ we_states e = [] /\ we_completed e = None /\ we_output e = None /\ we_current_state e = None.
(** The events broadcast by some acts, in order *)
Fixpoint broadcast (xs : list act) : list event :=
  match xs with [] => [] | Emits _ e :: xs => e :: broadcast xs | _ :: xs => broadcast xs end.
(** The same acts, with events perhaps coming from other machines *)
Inductive same_but_source : act -> act -> Prop :=
| sbs_same x : same_but_source x x
| sbs_emits m m' e : same_but_source (Emits m e) (Emits m' e).
(** How many events a stream is behind *)
Definition behind (a : wapp) (s : stream) : nat := length (ap_events a) - sm_next s.
(** The id that a request to run asks for, or is given *)
Definition run_id (name : option string) (uuid id : string) : Prop := name = Some id \/ (name = None /\ uuid = id).
(** What a machine saved last, or what was there at first *)
Definition last_save (m : nat) (xs : list act) (first p : save_payload) : Prop :=
  (exists xs1 xs2, xs = xs1 ++ Saves m p :: xs2 /\ forall p', ~ In (Saves m p') xs2) \/ (p = first /\ forall p', ~ In (Saves m p') xs).
