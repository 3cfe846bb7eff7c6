(** Vocabulary for the acknowledgement properties C31-C33 and C61, in terms of the
    log of what the worker did. *)
From Verif Require Import Base AckModel.
Open Scope string_scope.
Local Open Scope N_scope.

(** What a log entry says about message [id]: recorded with a status, forgotten,
    or nothing. *)
Definition says (id : string) (e : ack_log) : option (option ack_status) :=
  match e with
  | LRecord id' st _ => if string_dec id' id then Some (Some st) else None
  | LForget id' => if string_dec id' id then Some None else None
  | _ => None
  end.

(** The status last recorded for [id], unless it was forgotten since. *)
Definition current (id : string) (log : list ack_log) (st : ack_status) : Prop :=
  last_assigned (says id) log (Some st).
(** Never recorded, or forgotten since. *)
Definition untracked (id : string) (log : list ack_log) : Prop :=
  last_assigned (says id) log None \/ forall e, In e log -> says id e = None.

(** Sends of [id] recorded since it was last forgotten: how many, and when the
    last one was. *)
Definition is_send (id : string) (e : ack_log) : bool :=
  match e with LRecord id' (Pending _ _) _ => if string_dec id' id then true else false | _ => false end.
Definition life (id : string) (log recent : list ack_log) : Prop :=
  exists old, log = (old ++ recent)%list /\ ~ In (LForget id) recent /\
    (old = [] \/ exists o, old = (o ++ [LForget id])%list).
Definition sends (id : string) (log : list ack_log) (n : N) : Prop :=
  exists recent, life id log recent /\ n = N.of_nat (length (filter (is_send id) recent)).
Definition last_send (id : string) (log : list ack_log) (t : N) : Prop :=
  exists recent pre m cl post, life id log recent /\ recent = (pre ++ LRecord id (Pending m cl) t :: post)%list /\
    forall e, In e post -> is_send id e = false.

Definition decides (id : string) (e : ack_log) : bool :=
  match e with LDecide _ (Resend _ id' _ _) => if string_dec id' id then true else false | _ => false end.

(** Between two decisions to resend [id] the resend was recorded as a send. *)
Definition prompt (id : string) (log : list ack_log) : Prop :=
  forall a e1 b e2 c, log = (a ++ e1 :: b ++ e2 :: c)%list ->
    decides id e1 = true -> decides id e2 = true -> exists e, In e b /\ is_send id e = true.

Definition reachable (cf : ack_config) (w : worker) (log : list ack_log) : Prop :=
  exists evs, wrun cf new_worker [] evs = Some (w, log).

(** The checker still has something to do about [id]: an action decided but not yet
    handed to the registry, or the removal that follows a loss. *)
Definition about (id : string) (a : action) : bool :=
  match a with Resend _ id' _ _ | ActLost id' _ => if string_dec id' id then true else false end.
Definition busy_with (id : string) (w : worker) : Prop :=
  match w_ticker w with
  | TSend l => exists a, In a l /\ about id a = true
  | TForget id' l => id' = id \/ exists a, In a l /\ about id a = true
  | _ => False
  end.
(** The log entry resends, loses or forgets [id]. *)
Definition gives_up (id : string) (e : ack_log) : bool :=
  match e with
  | LDecide _ a | LAction a => about id a
  | LForget id' => if string_dec id' id then true else false
  | _ => false
  end.

(** The action is due at instant [now]: the message is pending, its last send is more
    than the timeout ago, and the recorded sends do not (resend) or do (loss) reach
    the allowed number.  The content is that of the last recorded send.  (The first
    field of [Resend] is discussed with C33.) *)
Definition due (cf : ack_config) (log : list ack_log) (now : N) (a : action) : Prop :=
  match a with
  | Resend c id m cl => c = id /\ current id log (Pending m cl) /\
      exists n t, sends id log n /\ n < cf_max cf /\ last_send id log t /\ cf_timeout cf < now - t
  | ActLost id cl => exists m, current id log (Pending m cl) /\
      exists n t, sends id log n /\ cf_max cf <= n /\ last_send id log t /\ cf_timeout cf < now - t
  end.

(** How many times it was decided to resend [id]. *)
Definition ndecides (id : string) (l : list ack_log) : nat := length (filter (decides id) l).

(** What handing an action over puts in the log: the action itself and, for a loss,
    the message being forgotten. *)
Definition hand (a : action) : list ack_log :=
  LAction a :: match a with ActLost id _ => [LForget id] | _ => [] end.
Definition is_hand (e : ack_log) : bool :=
  match e with LAction _ | LForget _ => true | _ => false end.
(** What the checker still has to do. *)
Definition owed (w : worker) : list ack_log :=
  match w_ticker w with
  | TSend l => flat_map hand l
  | TForget id l => LForget id :: flat_map hand l
  | _ => []
  end.
