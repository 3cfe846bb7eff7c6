(** Vocabulary for C150: the task that resends messages and informs clients of losses. *)
From Verif Require Import Base AckModel AckSpec ClusterModel ClusterSpec.
Open Scope string_scope.
Local Open Scope list_scope.

(** The entry is something only that task does: a notice of a loss, or a step of a
    resend. *)
Definition of_task (e : nlog) : bool :=
  match e with
  | NWriteLost _ _ _ => true
  | NFound ByResend _ _ | NWrite ByResend _ _ _ | NInbox ByResend _ | NOut ByResend _ | NOutFail ByResend => true
  | _ => false
  end.
(** A notice of a loss could not be written to the socket of its client. *)
Definition failed_notice (e : nlog) : bool := match e with NWriteLost _ _ ok => negb ok | _ => false end.
