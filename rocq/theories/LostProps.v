(** Theorems about the event of a lost message (C145).  Model: LostModel.v, and for the format of
    binary messages WsModel.v.  Vocabulary: LostSpec.v. *)
From Verif Require Import Base Chars Bytes WsModel WsProofs LostModel LostSpec LostProofs.
Local Open Scope N_scope.
Local Open Scope list_scope.

(** For every id, the event is a binary message in the format of the runtime: the route is the
    byte 3, what follows is UTF-8, and that text is an object whose only member is the id. *)
Theorem C145_readable : forall id, Forall scalar_value id ->
  exists t, resolve_binary_route (lost_event id) = Some (Some ([3], utf8 t)) /\
    from_utf8 (utf8 t) = Some t /\ object_text (chars "messageId") id t.
Proof.
  intros id H. exists (payload id). split; [|split; [apply from_utf8_enc; now apply payload_scalar|apply payload_text]].
  unfold lost_event, resolve_binary_route.
  assert (L : (N.of_nat (length (3 :: utf8 (payload id))) <? 1) = false) by (apply N.ltb_ge; cbn; lia).
  rewrite L. reflexivity.
Qed.
(** It can be read as no other id, and no other member. *)
Theorem C145_exactly : forall id t name id', Forall scalar_value id ->
  resolve_binary_route (lost_event id) = Some (Some ([3], utf8 t)) -> from_utf8 (utf8 t) = Some t ->
  object_text name id' t -> name = chars "messageId" /\ id' = id.
Proof.
  intros id t name id' H R U O. destruct (C145_readable id H) as (t' & R' & U' & O'). rewrite R in R'. injection R' as E.
  assert (t = t') as <-. { assert (Q : from_utf8 (utf8 t) = from_utf8 (utf8 t')) by (now f_equal). rewrite U, U' in Q. now injection Q. }
  now apply (object_fun _ _ _ _ _ O O').
Qed.
Theorem C145_distinct : forall id id', Forall scalar_value id -> Forall scalar_value id' -> lost_event id = lost_event id' -> id = id'.
Proof.
  intros id id' H H' E. destruct (C145_readable id H) as (t & R & U & O). rewrite E in R. exact (proj2 (C145_exactly id' t _ id H' R U O)).
Qed.
Example C145_nonvacuous :
  lost_event (chars "a""\" ++ [10; 1]) = [1; 3] ++ map N_of_ascii (list_ascii_of_string "{""messageId"":""a\""\\\n\u0001""}")
  /\ Forall scalar_value (chars "a""\" ++ [10; 1]).
Proof. split; [vm_compute; reflexivity|]. cbn. repeat (constructor; [left; reflexivity|]). constructor. Qed.

Print Assumptions C145_readable.
Print Assumptions C145_exactly.
Print Assumptions C145_distinct.
