(** Vocabulary for the tasks of a node that write to sockets *)
From Verif Require Import Base Value WsModel StallModel.
Local Open Scope list_scope.

(** What sessions and sockets do in a history of the node *)
Fixpoint sockets (tr : list nevent) : list event :=
  match tr with [] => [] | Ws e :: r => e :: sockets r | _ :: r => sockets r end.
(** The items that arrived for a task, and the items it took up *)
Definition same_side (a b : side) : bool := match a, b with Listener, Listener | Actions, Actions => true | _, _ => false end.
Fixpoint arrived (sd : side) (tr : list nevent) : list item :=
  match tr with [] => [] | Arrives i :: r => if same_side sd (side_of i) then i :: arrived sd r else arrived sd r | _ :: r => arrived sd r end.
Fixpoint taken (sd : side) (tr : list nevent) : list item :=
  match tr with [] => [] | Takes i :: r => if same_side sd (side_of i) then i :: taken sd r else taken sd r | _ :: r => taken sd r end.
(** The client of session [k] sends nothing and stays. *)
Definition silent (k : nat) (tr : list nevent) : Prop := (forall f, ~ In (Ws (EFrame k f)) tr) /\ ~ In (Ws (EGone k)) tr.
(** The task does nothing at all. *)
Definition halted (sd : side) (tr : list nevent) : Prop := taken sd tr = [] /\ forall f, ~ In (Does sd f) tr.
(** The task waits for the socket of session [k]. *)
Definition waits_for (n : node) (sd : side) (k : nat) : Prop :=
  exists j t msg, l_job (n_loop n sd) = Some (j, t) /\ s_jobs (n_ws n) j = Queued k msg.
(** The first client an item is for *)
Definition first_for (i : item) (id : text) : Prop :=
  match i with
  | FromNode conn _ _ _ => conn = id
  | Resend client _ _ _ => client = id
  | LostMessage _ inform => exists rest, inform = id :: rest
  | AckFromNode _ => False
  end.
