(** Vocabulary for the properties of the SDKs *)
From Verif Require Import Base Chars SdkModel.
From Verif Require ApiModel EnvSpec RouteModel RouteSpec ResolveSpec.
Local Open Scope list_scope.

(** The reply carries the response: its status, its body (or nothing) and its headers, whose names
    may only change in the case of their letters *)
Definition carries (r : response) (p : reply) : Prop :=
  rp_status p = rs_status r /\
  match rs_body r with Some b => rp_body p = b | None => rp_body p = [] end /\
  Forall2 (fun h h' => Forall2 EnvSpec.same_letter (fst h) (fst h') /\ (forall c, In c (fst h') -> ~ (65 <= c <= 90)%N) /\ snd h' = snd h)
    match rs_headers r with Some hs => hs | None => [] end (rp_headers p).
(** A response that HTTP has a form for *)
Definition sendable (name_ok value_ok : text -> bool) (r : response) : Prop :=
  (100 <= rs_status r <= 999)%N /\ (forall hs k v, rs_headers r = Some hs -> In (k, v) hs -> name_ok k = true /\ value_ok v = true).
(** The outcome of a promise within 30 seconds *)
Inductive node_outcome : js_call -> result -> Prop :=
| out_call m : node_outcome (CallFails m) (Failed m)
| out_in_time t r : (t <= 30000)%N -> node_outcome (Promise (Some (t, r))) r
| out_late t r : (30000 <= t)%N -> node_outcome (Promise (Some (t, r))) (Failed (chars "handler timed out"))
| out_never : node_outcome (Promise None) (Failed (chars "handler timed out")).
(** Header values that are text; the header that comes last with a name *)
Definition textual (v : bytes) : Prop := forall c, In c v -> (32 <= c <= 126)%N \/ c = 9%N.
Definition last_of {A} (k : text) (v : A) (m : list (text * A)) : Prop := exists a b, m = a ++ (k, v) :: b /\ ~ In k (map fst b).
Definition first_of {A} (k : text) (v : A) (m : list (text * A)) : Prop := exists a b, m = a ++ (k, v) :: b /\ ~ In k (map fst a).
(** The request announces the length of its body *)
Definition announces (r : request) (n : Z) : Prop :=
  exists v, first_of (chars "content-length") v (rq_headers r) /\ (ResolveSpec.digits_mean v n \/ exists ds, v = chars "+" ++ ds /\ ResolveSpec.digits_mean ds n) /\ (n < 2 ^ 64)%Z.
(** The requests, in the order of their arrival *)
Fixpoint arrivals (es : list py_event) : list nat :=
  match es with [] => [] | Arrives n _ _ _ :: es => n :: arrivals es | _ :: es => arrivals es end.
(** The same events, with other requests in them *)
Inductive same_event : py_event -> py_event -> Prop :=
| same_arrives n r r' p m : same_event (Arrives n r p m) (Arrives n r' p m)
| same_takes : same_event Takes Takes
| same_ends r : same_event (Ends r) (Ends r).
(** The last registration for a path and method *)
Definition last_registered (regs : list (text * text * nat)) (p m : text) (k : nat) : Prop :=
  exists a b, regs = a ++ (p, m, k) :: b /\ forall k', ~ In (p, m, k') b.
(** A path that the router takes: two colons never meet in it, and it does not end with one *)
Definition plain_path (p : text) : Prop := contains (chars "::") (p ++ chars ":") = false.
(** The status that a handler has set last; none at first *)
Definition last_status (ops : list ffi_op) (s : N) : Prop :=
  (exists a b, ops = a ++ SetStatus s :: b /\ forall s', ~ In (SetStatus s') b) \/ (s = 0%N /\ forall s', ~ In (SetStatus s') ops).
Definition no_send (ops : list ffi_op) : Prop := forall b, ~ In (Send b) ops.
