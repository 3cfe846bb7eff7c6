(** Vocabulary for the properties of registration, routing and the life of an application *)
From Verif Require Import Base Chars RouteModel.
From Verif Require ApiModel EnvSpec.
Local Open Scope list_scope.

Definition verb_name (v : verb) : string :=
  match v with Get => "get" | Head => "head" | Options => "options" | Trace => "trace" | Post => "post" | Put => "put" | Patch => "patch" | Delete => "delete" end.
(** The text names the method, in any mixture of capital and small letters *)
Definition names (m : text) (v : verb) : Prop := EnvSpec.word m (verb_name v).
Definition handler_method (h : ApiModel.handler) : text := fst (ApiModel.h_at h).
Definition handler_path (h : ApiModel.handler) : text := snd (ApiModel.h_at h).
(** What a router already has when the handler at position [k] comes *)
Definition occupied (r0 : router) (hs : list ApiModel.handler) (k : nat) (p : text) (v : verb) : Prop :=
  (exists t, In (mk_route p v t) r0) \/ (exists j h, j < k /\ nth_error hs j = Some h /\ handler_path h = p /\ names (handler_method h) v).
(** The path and method can be added to what is there *)
Definition addable (valid : text -> bool) (clash : text -> text -> bool) (there : text -> verb -> Prop) (p : text) (v : verb) : Prop :=
  (exists rest, p = 47%N :: rest) /\ valid p = true /\ ~ there p v /\ (forall q w, there q w -> q <> p -> clash q p = false).
(** A server that was started and not told to stop *)
Definition serving (l : life) (t : task) : Prop := In t (lf_tasks l) /\ tk_told t = false /\ tk_alive t = true.
