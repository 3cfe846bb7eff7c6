(** Vocabulary for C104 to C108: what a workflow written in YAML declares. *)
From Verif Require Import Base Chars SubstModel ResolveModel WfYamlModel.
Local Open Scope list_scope.

(** The keys of a mapping that are strings *)
Definition keys_of (m : list (option text * yaml)) : list text :=
  flat_map (fun e => match fst e with Some key => [key] | None => [] end) m.
Definition lacks (m : list (option text * yaml)) (key : text) : Prop := ~ In key (keys_of m).
(** The elements of a sequence that are mappings, in order *)
Definition maps_of (l : list yaml) : list (list (option text * yaml)) :=
  flat_map (fun v => match v with YMap m => [m] | _ => [] end) l.
(** The entries of a mapping under keys that are strings, in order *)
Definition entries_of (m : list (option text * yaml)) : list (text * yaml) :=
  flat_map (fun e => match fst e with Some key => [(key, snd e)] | None => [] end) m.

(** [inside x v]: the value [x] occurs in [v] *)
Inductive inside (x : yaml) : yaml -> Prop :=
| in_here : inside x x
| in_seq w l : In w l -> inside x w -> inside x (YSeq l)
| in_map key w m : In (key, w) m -> inside x w -> inside x (YMap m).
(** No mapping in [v] has a key twice (YAML forbids it, and the YAML reader rejects it) *)
Definition one_each (v : yaml) : Prop := forall m, inside (YMap m) v -> NoDup (keys_of m).

(** A field of a mapping that may be left out, and one that has a value of its own when it is *)
Definition optional {A} (m : list (option text * yaml)) (key : text) (R : yaml -> A -> Prop) (o : option A) : Prop :=
  (exists v a, In (Some key, v) m /\ R v a /\ o = Some a) \/ (lacks m key /\ o = None).
Definition defaults {A} (m : list (option text * yaml)) (key : text) (R : yaml -> A -> Prop) (d a : A) : Prop :=
  (exists v, In (Some key, v) m /\ R v a) \/ (lacks m key /\ a = d).
Definition required {A} (m : list (option text * yaml)) (key : text) (R : yaml -> A -> Prop) (a : A) : Prop :=
  exists v, In (Some key, v) m /\ R v a.

Section Params.
Variable F : Type.
Variable parse_f64 : text -> option F.
Variable k : classes.

(** A text with references in it; what a text means is the subject of C51 to C53. *)
Definition is_text (v : yaml) (ps : list part) : Prop := exists t, v = YStr t /\ parse_substitutions k t = Ok ps.
(** A text that is one reference *)
Definition is_reference (v : yaml) (n : node F) : Prop := exists t name, v = YStr t /\ parse_substitutions k t = Ok [Ref name] /\ n = NSub F [Ref name].
(** Values of a given type, or one reference *)
Definition is_int (v : yaml) (n : node F) : Prop := (exists z, v = YInt z /\ n = NScalar F (SInt F z)) \/ is_reference v n.
Definition is_bool (v : yaml) (n : node F) : Prop := (exists b, v = YBool b /\ n = NScalar F (SBool F b)) \/ is_reference v n.
Definition is_real (v : yaml) (n : node F) : Prop :=
  (exists t f, v = YReal t /\ parse_f64 t = Some f /\ n = NScalar F (SFloat F f)) \/ is_reference v n.
(** A free-form value; there is no null. *)
Inductive is_node : yaml -> node F -> Prop :=
| nd_int z : is_node (YInt z) (NScalar F (SInt F z))
| nd_bool b : is_node (YBool b) (NScalar F (SBool F b))
| nd_real t f : parse_f64 t = Some f -> is_node (YReal t) (NScalar F (SFloat F f))
| nd_text t ps : parse_substitutions k t = Ok ps -> is_node (YStr t) (NSub F ps)
| nd_seq l r : Forall2 is_node l r -> is_node (YSeq l) (NSeq F r)
| nd_map m r : Forall2 (fun a b => fst a = fst b /\ is_node (snd a) (snd b)) (entries_of m) r -> is_node (YMap m) (NMap F r).

(** A sequence of texts; a sequence of mappings, from which other elements are left out *)
Definition is_texts (v : yaml) (r : list (list part)) : Prop := exists l, v = YSeq l /\ Forall2 is_text l r.
Definition is_list {B} (R : list (option text * yaml) -> B -> Prop) (v : yaml) (r : list B) : Prop :=
  exists l, v = YSeq l /\ Forall2 R (maps_of l) r.
Definition is_mapping {B} (R : list (option text * yaml) -> B -> Prop) (v : yaml) (r : B) : Prop := exists m, v = YMap m /\ R m r.

Definition is_payload (m : list (option text * yaml)) (r : list (text * node F)) : Prop :=
  Forall2 (fun a b => fst a = fst b /\ is_node (snd a) (snd b)) (entries_of m) r.
Definition is_condition (m : list (option text * yaml)) (c : scond F) : Prop :=
  required m (chars "inputs") (fun v r => exists l, v = YSeq l /\ Forall2 is_node l r) (sc_inputs F c) /\
  required m (chars "function") is_text (sc_function F c).
Definition is_rule (m : list (option text * yaml)) (r : srule F) : Prop :=
  optional m (chars "and") (is_list is_condition) (su_and F r) /\
  optional m (chars "or") (is_list is_condition) (su_or F r) /\
  optional m (chars "not") (is_mapping is_condition) (su_not F r) /\
  optional m (chars "condition") (is_mapping is_condition) (su_condition F r) /\
  required m (chars "next") is_text (su_next F r) /\ su_next F r <> [Lit []].
Definition is_wait (m : list (option text * yaml)) (w : swait) : Prop :=
  optional m (chars "seconds") is_text (sw_seconds w) /\
  optional m (chars "timestamp") is_text (sw_timestamp w).
Definition is_failure (m : list (option text * yaml)) (w : sfail) : Prop :=
  optional m (chars "error") is_text (sf_error w) /\
  optional m (chars "cause") is_text (sf_cause w).
Definition is_retry (m : list (option text * yaml)) (r : sretry F) : Prop :=
  defaults m (chars "matchErrors") is_texts [] (sy_match F r) /\
  optional m (chars "interval") is_int (sy_interval F r) /\
  optional m (chars "maxAttempts") is_int (sy_attempts F r) /\
  optional m (chars "maxDelay") is_int (sy_delay F r) /\
  optional m (chars "jitter") is_bool (sy_jitter F r) /\
  optional m (chars "backoffRate") is_real (sy_backoff F r).
Definition is_catch (m : list (option text * yaml)) (c : scatch) : Prop :=
  defaults m (chars "matchErrors") is_texts [] (sh_match c) /\
  defaults m (chars "next") is_text [] (sh_next c) /\
  optional m (chars "resultPath") is_text (sh_path c).

(** The keys of a state *)
Definition state_keys : list text :=
  map chars ["type"; "description"; "inputPath"; "resultPath"; "outputPath"; "payloadTemplate"; "next"; "end"; "decisions"; "result";
             "timeout"; "waitConfig"; "failureConfig"; "parallelBranches"; "retry"; "catch"]%string.
(** A state, with the states of its parallel branches *)
Inductive is_state : yaml -> sstate F -> Prop :=
| st_intro m s :
    (forall key, In key (keys_of m) -> In key state_keys) ->
    required m (chars "type") is_text (ss_type F s) -> ss_type F s <> [Lit []] ->
    optional m (chars "description") is_text (ss_description F s) ->
    optional m (chars "inputPath") is_text (ss_input F s) ->
    optional m (chars "resultPath") is_text (ss_result_path F s) ->
    optional m (chars "outputPath") is_text (ss_output F s) ->
    optional m (chars "payloadTemplate") (is_mapping is_payload) (ss_payload F s) ->
    optional m (chars "next") is_text (ss_next F s) ->
    optional m (chars "end") is_bool (ss_end F s) ->
    optional m (chars "decisions") (is_list is_rule) (ss_decisions F s) ->
    optional m (chars "result") is_node (ss_result F s) ->
    optional m (chars "timeout") is_int (ss_timeout F s) ->
    optional m (chars "waitConfig") (is_mapping is_wait) (ss_wait F s) ->
    optional m (chars "failureConfig") (is_mapping is_failure) (ss_failure F s) ->
    optional m (chars "parallelBranches")
      (is_list (fun bm b => defaults bm (chars "startAt") is_text [] (fst b) /\
         defaults bm (chars "states") (is_mapping (fun sm r => Forall2 (fun x y => fst x = fst y /\ is_state (snd x) (snd y)) (entries_of sm) r)) [] (snd b)))
      (ss_branches F s) ->
    optional m (chars "retry") (is_list is_retry) (ss_retry F s) ->
    optional m (chars "catch") (is_list is_catch) (ss_catch F s) ->
    is_state (YMap m) s.
(** The states of a workflow or a branch; a branch; a workflow *)
Definition are_states (m : list (option text * yaml)) (r : list (text * sstate F)) : Prop :=
  Forall2 (fun x y => fst x = fst y /\ is_state (snd x) (snd y)) (entries_of m) r.
Definition is_branch (m : list (option text * yaml)) (b : smachine F) : Prop :=
  defaults m (chars "startAt") is_text [] (fst b) /\ defaults m (chars "states") (is_mapping are_states) [] (snd b).
Definition is_workflow (m : list (option text * yaml)) (w : smachine F) : Prop :=
  (forall key, In key (keys_of m) -> In key [chars "startAt"; chars "states"]) /\ is_branch m w.
End Params.
