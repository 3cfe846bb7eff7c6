(** Vocabulary for the properties of the queue consumer *)
From Verif Require Import Base SqsModel.
Local Open Scope list_scope.

(** The entries of a request are those of the messages, in order. *)
Definition entries_of (ms : list message) (es : list entry) : Prop :=
  Forall2 (fun m e => m_id m = Some (fst e) /\ m_receipt m = Some (snd e)) ms es.
Definition incomplete (m : message) : Prop := m_id m = None \/ m_receipt m = None.
(** The configured or default values *)
Definition kept_on_failure (c : config) : Prop := c_delete_on_failure c = Some false.
Definition auth_pause (c : config) : N := match c_auth_error_timeout c with Some t => t | None => 10%N end.
Definition extend_to (x : ext_config) : Z := match e_visibility x with Some t => t | None => 30%Z end.
(** Errors of the queue service taken for a problem of the credentials *)
Definition auth_error (e : receive_error) : Prop :=
  exists status code, e = ServiceError status code /\ (status = 403%N \/ code = Some "CredentialsError"%string \/ code = Some "UnknownEndpoint"%string).
(** How the handler is called for a batch *)
Inductive called_for : list message -> call -> Prop :=
| call_one m : called_for [m] (Single m)
| call_batch ms : length ms <> 1 -> called_for ms (Batch ms).
(** A batch must be deleted after handling ended with [r]. *)
Definition to_delete (c : config) (ms : list message) (r : result) : Prop :=
  c_delete c = true /\ ms <> [] /\ (r = Done \/ ~ kept_on_failure c).
(** Visibility requests for a batch after the handler is done with it *)
Definition extends (b : nat) (e : event) : bool := match e with EExtend b' _ _ => Nat.eqb b' b | _ => false end.

(** Parts of executions: [n] steps of the polling task among them *)
Inductive runs (c : config) (x : ext_config) (registered : bool) : state -> nat -> list event -> state -> Prop :=
| R_refl s : runs c x registered s 0 [] s
| R_main s n tr s1 e s2 : runs c x registered s n tr s1 -> main_step c x registered s1 e s2 -> runs c x registered s (S n) (tr ++ opt_list e) s2
| R_hb s n tr p m l h r e h' : runs c x registered s n tr (mk_state p m (l ++ h :: r)) -> hb_step x h e h' ->
    runs c x registered s n (tr ++ opt_list e) (mk_state p m (l ++ opt_list h' ++ r)).
