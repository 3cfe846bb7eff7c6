(** Vocabulary for the properties of WebSocket sessions *)
From Verif Require Import Base Value Bytes WsModel.
Local Open Scope list_scope.

(** A binary message for a route: the length of the route, the route, the payload *)
Definition binary_for (r : text) (p l : list N) : Prop :=
  Forall scalar_value r /\ (length (utf8 r) <= 255)%nat /\ l = N.of_nat (length (utf8 r)) :: utf8 r ++ p.
(** The handler call a frame asks for *)
Inductive asks (parse : text -> option value) (key : text) : frame -> call -> Prop :=
| asks_json t m r : parse t = Some (VObj m) -> get key m = Some (VStr r) -> asks parse key (FText t) (mk_call r (JsonBody (VObj m)))
| asks_binary l r p : binary_for r p l -> asks parse key (FBinary l) (mk_call r (BinaryBody p)).
(** The bytes of a frame are bytes. *)
Definition bytes_frame (f : frame) : Prop := match f with FBinary l => Forall (fun b => (b < 256)%N) l | _ => True end.
(** A session that has been registered and has not ended *)
Definition alive (p : phase) : Prop := match p with Pausing | Asking | Reading | Working _ _ => True | _ => False end.
(** Sessions with an id of their own *)
Definition distinct_ids (s : state) : Prop := forall k k', k < s_next s -> k' < s_next s -> se_id (s_ses s k) = se_id (s_ses s k') -> k = k'.
