(** Vocabulary of C152-C155: what a push says to a node, what a link passed on and
    published, and which settings a connection needs. *)
From Verif Require Import Base Json ClusterModel WireModel RedisModel.
Open Scope string_scope.
Local Open Scope list_scope.

(** Redis sends the channel and the payload with every message. *)
Definition server_push (p : push) : Prop := p_kind p = KMessage -> exists channel payload rest, p_data p = channel :: payload :: rest.

(** The push is a message of the channel and its payload is the JSON of a node's message. *)
Definition carries (p : push) (w : wrapped) : Prop :=
  p_kind p = KMessage /\ exists channel v rest, p_data p = channel :: VJson v :: rest /\ r_wrapped v = Some w.

(** The message is another node's, and if it acknowledges something, something of this node. *)
Definition concerns (node : string) (w : wrapped) : Prop :=
  wr_source w <> node /\ match wr_message w with MsgAck n _ => n = node | MsgWs _ => True end.

(** A push has nothing for a node. *)
Definition foreign (node : string) (p : push) : Prop := forall w, carries p w -> ~ concerns node w.

(** What a node is to hear of a sequence of pushes: the messages that concern it, in order. *)
Inductive heard (node : string) : list push -> list bus_message -> Prop :=
| heard_none : heard node [] []
| heard_one p w ps ms : carries p w -> concerns node w -> heard node ps ms -> heard node (p :: ps) (wr_message w :: ms)
| heard_skip p ps ms : foreign node p -> heard node ps ms -> heard node (p :: ps) ms.

(** What the log of a link says, in order. *)
Fixpoint taken (log : list llog) : list push := match log with [] => [] | LTook p :: r => p :: taken r | _ :: r => taken r end.
Fixpoint got (log : list llog) : list bus_message := match log with [] => [] | LGot m :: r => m :: got r | _ :: r => got r end.
Fixpoint accepted (log : list llog) : list bus_message := match log with [] => [] | LSent m true :: r => m :: accepted r | _ :: r => accepted r end.
Fixpoint refused (log : list llog) : list bus_message := match log with [] => [] | LSent m false :: r => m :: refused r | _ :: r => refused r end.
(** Handed to Redis, whether or not Redis took it. *)
Fixpoint handed (log : list llog) : list wrapped :=
  match log with [] => [] | LPublished w :: r | LFailed w :: r => w :: handed r | _ :: r => handed r end.
Fixpoint published (log : list llog) : list wrapped := match log with [] => [] | LPublished w :: r => w :: published r | _ :: r => published r end.

(** The pushes that arrived and the messages sent, in a sequence of events. *)
Fixpoint arrivals (evs : list levent) : list push := match evs with [] => [] | EvPush p :: r => p :: arrivals r | _ :: r => arrivals r end.
Fixpoint arrivals_o (evs : list oevent) : list push := match evs with [] => [] | OLink (EvPush p) :: r => p :: arrivals_o r | _ :: r => arrivals_o r end.

(** A history of a link. *)
Definition history (node : string) (evs : list levent) (l : link) (log : list llog) : Prop := lrun (new_link node) [] evs = Some (l, log).

(** The client is told a usable set of nodes: hosts, password and protocol. *)
Definition cluster_hosts (c : conn_config) (hosts : list string) : Prop :=
  exists us, cc_nodes c = map Some us /\ us <> [] /\ hosts = map u_host us.
