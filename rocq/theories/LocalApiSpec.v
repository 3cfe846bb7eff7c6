(** Vocabulary of the local runtime API properties (C07-C09, C57): only
    histories (operations with their answers) are mentioned. *)
From Verif Require Import Base LocalApiModel.
Open Scope string_scope.

Section Spec.
  Context {B R : Type}.
  Notation entry := (api_op B R * api_answer B)%type.

  (** The events enqueued in a history, oldest first. *)
  Fixpoint enqueued (h : list entry) : list (event B) :=
    match h with
    | [] => []
    | (Enqueue e, _) :: h' => e :: enqueued h'
    | _ :: h' => enqueued h'
    end.

  (** The tickets and events handed out to pollers in a history, oldest first. *)
  Fixpoint handed_out (h : list entry) : list (ticket * event B) :=
    match h with
    | [] => []
    | (Poll, APoll (Some te)) :: h' => te :: handed_out h'
    | _ :: h' => handed_out h'
    end.

  (** Number the elements of a list from [k]. *)
  Fixpoint numbered {A} (k : nat) (l : list A) : list (nat * A) :=
    match l with [] => [] | a :: l' => (k, a) :: numbered (S k) l' end.

  (** What one history entry says about who is processing id [id]: handing out an
      event with that id starts it, a result posted for the id ends it. *)
  Definition touches (id : string) (x : entry) : option (option (ticket * event B)) :=
    match x with
    | (Poll, APoll (Some (tx, e))) => if String.eqb id (ev_id e) then Some (Some (tx, e)) else None
    | (PostResult id' _, _) => if String.eqb id id' then Some None else None
    | _ => None
    end.
  (** "event number [tx] is being processed under [id]" *)
  Definition in_process (h : list entry) (id : string) (te : ticket * event B) : Prop :=
    last_assigned (touches id) h (Some te).

  (** The waiter of event number [tx] gave up. *)
  Definition gave_up (h : list entry) (tx : ticket) : Prop :=
    exists a, In (WaiterGone tx, a) h.
End Spec.

(** Sending the messages one after the other, all successful, leads from [w] to [w']. *)
Inductive AllSent {W} (send : sender W) : W -> list ws_message -> W -> Prop :=
| AllSentNil w : AllSent send w [] w
| AllSentCons w m ms w1 w2 ctx :
    (wm_inform_clients_on_loss m = None /\ ctx = None
     \/ exists cs, wm_inform_clients_on_loss m = Some cs
        /\ ctx = Some {| sc_inform_clients := cs; sc_wait_for_ack := false |}) ->
    send w (wm_connection_id m) (wm_message_id m) (wm_message m) ctx = (w1, true) ->
    AllSent send w1 ms w2 -> AllSent send w (m :: ms) w2.

(** Attempting the single message [m] from [w] fails and leaves [w']. *)
Definition SendFails {W} (send : sender W) (w : W) (m : ws_message) (w' : W) : Prop :=
  exists ctx,
    (wm_inform_clients_on_loss m = None /\ ctx = None
     \/ exists cs, wm_inform_clients_on_loss m = Some cs
        /\ ctx = Some {| sc_inform_clients := cs; sc_wait_for_ack := false |}) /\
    send w (wm_connection_id m) (wm_message_id m) (wm_message m) ctx = (w', false).

(** The character ':' does not occur in a string. *)
Definition no_colon (s : string) : Prop := ~ In ":"%char (list_ascii_of_string s).
