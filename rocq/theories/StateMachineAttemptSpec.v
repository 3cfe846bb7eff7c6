(** Vocabulary for C140: the numbers of attempts. *)
From Verif Require Import Base WfTypes StateMachineModel StateMachineSpec.
Open Scope string_scope.

(** A state that follows an attempt at itself is the next attempt, any other is a first attempt. *)
Definition numbered (prev : option exec_state) (st : exec_state) : Prop :=
  (forall s, prev = Some s -> es_name s = es_name st -> es_attempt st = (es_attempt s + 1)%Z) /\
  ((prev = None \/ exists s, prev = Some s /\ es_name s <> es_name st) -> es_attempt st = 1%Z).
(** No state names itself as the one that comes next. *)
Definition no_self_loop {T} (spec : workflow_spec T) : Prop :=
  forall parent name cfg, declared spec parent name cfg -> sc_next cfg <> Some name.
