(** Vocabulary of C156 *)
From Verif Require Import Base Chars WsModel IdModel.
Local Open Scope list_scope.

(** Text that a header can carry and the runtime can read *)
Definition plain (t : text) : Prop := Forall (fun b => (32 <= b < 127)%N \/ b = 9%N) t.
(** The first header of that name has this value. *)
Definition first_header (name : text) (v : list N) (hs : headers) : Prop :=
  exists a b, hs = a ++ (name, v) :: b /\ forall w, ~ In (name, w) a.
(** No id was used before. *)
Definition new_ids (tr : list event) : Prop := forall a k id d, tr = a ++ EOpen k id :: d -> forall k', ~ In (EOpen k' id) a.
(** The session is connected but nobody can find it. *)
Definition unlisted (s : state) (k : nat) : Prop := k < s_next s /\ se_phase (s_ses s k) <> Starting /\ forall id, s_reg s id <> Some k.
