(** Vocabulary for C109 and C110: the workflow that a definition with references stands for, given
    the environment. *)
From Verif Require Import Base Chars SubstModel ResolveModel ResolveSpec WfYamlModel WfTypes WfResolveModel.
Local Open Scope list_scope.

(** Both left out, or both there and related *)
Inductive both {A B} (R : A -> B -> Prop) : option A -> option B -> Prop :=
| bo_none : both R None None
| bo_some a b : R a b -> both R (Some a) (Some b).
Definition listed {A B} (R : A -> B -> Prop) : option (list A) -> option (list B) -> Prop := both (Forall2 R).
(** Entry by entry, under the same names *)
Definition named {A B} (R : A -> B -> Prop) : list (text * A) -> list (text * B) -> Prop :=
  Forall2 (fun x y => fst x = fst y /\ R (snd x) (snd y)).

(** The names of the types of states; any other name is the unknown type. *)
Definition type_names : list (text * state_type) :=
  [(chars "executeStep", ExecuteStep); (chars "pass", Pass); (chars "parallel", Parallel); (chars "wait", Wait);
   (chars "decision", Decision); (chars "failure", Failure); (chars "success", Success)].
Definition type_of_name (t : text) (ty : state_type) : Prop :=
  In (t, ty) type_names \/ ((forall ty', ~ In (t, ty') type_names) /\ ty = Unknown).

Section Params.
Variable F : Type.
Variable parse_f64 : text -> option F.
Variable env : text -> option text.
Notation txt := (parts_text env).

(** A value of a given type, written down or referred to *)
Definition scalar_is (n : node F) (s : scalar F) : Prop :=
  n = NScalar F s \/ exists ps, n = NSub F ps /\ parts_scalar F parse_f64 env ps s.
Definition int_is (n : node F) (z : Z) : Prop := scalar_is n (SInt F z).
Definition bool_is (n : node F) (b : bool) : Prop := scalar_is n (SBool F b).
Definition float_is (n : node F) (f : F) : Prop := scalar_is n (SFloat F f).
(** A free-form value of at most [d] levels below its top *)
Definition value_is (d : nat) (n : node F) (r : rnode F) : Prop := resolved F parse_f64 env n r /\ ~ deeper_than F d n.

Definition wait_is (w : swait) (r : rwait) : Prop :=
  both txt (sw_seconds w) (rw_seconds r) /\ both txt (sw_timestamp w) (rw_timestamp r).
Definition failure_is (w : sfail) (r : rfail) : Prop :=
  both txt (sf_error w) (rf_error r) /\ both txt (sf_cause w) (rf_cause r).
Definition retry_is (y : sretry F) (r : rretry F) : Prop :=
  Forall2 txt (sy_match F y) (ry_match F r) /\ both int_is (sy_interval F y) (ry_interval F r) /\
  both int_is (sy_attempts F y) (ry_attempts F r) /\ both int_is (sy_delay F y) (ry_delay F r) /\
  both bool_is (sy_jitter F y) (ry_jitter F r) /\ both float_is (sy_backoff F y) (ry_backoff F r).
Definition catch_is (c : scatch) (r : rcatch) : Prop :=
  Forall2 txt (sh_match c) (rh_match r) /\ txt (sh_next c) (rh_next r) /\ both txt (sh_path c) (rh_path r).
Definition condition_is (c : scond F) (r : rcond F) : Prop :=
  Forall2 (value_is 16) (sc_inputs F c) (rc_inputs F r) /\ txt (sc_function F c) (rc_function F r).
Definition rule_is (u : srule F) (r : rrule F) : Prop :=
  listed condition_is (su_and F u) (ru_and F r) /\ listed condition_is (su_or F u) (ru_or F r) /\
  both condition_is (su_not F u) (ru_not F r) /\ both condition_is (su_condition F u) (ru_condition F r) /\
  txt (su_next F u) (ru_next F r).
Definition type_is (ps : list part) (ty : state_type) : Prop := exists t, txt ps t /\ type_of_name t ty.

Inductive state_is (s : sstate F) (r : rstate F) : Prop :=
| si_intro :
    type_is (ss_type F s) (rs_type F r) -> both txt (ss_description F s) (rs_description F r) ->
    both txt (ss_input F s) (rs_input F r) -> both txt (ss_result_path F s) (rs_result_path F r) ->
    both txt (ss_output F s) (rs_output F r) -> both (named (value_is 19)) (ss_payload F s) (rs_payload F r) ->
    both txt (ss_next F s) (rs_next F r) -> both bool_is (ss_end F s) (rs_end F r) ->
    listed rule_is (ss_decisions F s) (rs_decisions F r) -> both (value_is 20) (ss_result F s) (rs_result F r) ->
    both int_is (ss_timeout F s) (rs_timeout F r) -> both wait_is (ss_wait F s) (rs_wait F r) ->
    both failure_is (ss_failure F s) (rs_failure F r) ->
    listed (fun b rb => txt (fst b) (fst rb) /\ named state_is (snd b) (snd rb)) (ss_branches F s) (rs_branches F r) ->
    listed retry_is (ss_retry F s) (rs_retry F r) -> listed catch_is (ss_catch F s) (rs_catch F r) ->
    state_is s r.
Definition workflow_is (w : smachine F) (r : rmachine F) : Prop :=
  txt (fst w) (fst r) /\ named state_is (snd w) (snd r).

(** The free-form and typed values of a state, without those of its branches *)
Definition opt_list {A} (o : option A) : list A := match o with Some a => [a] | None => [] end.
Definition opt_lists {A} (o : option (list A)) : list A := match o with Some l => l | None => [] end.
Definition condition_values (c : scond F) : list (node F) := sc_inputs F c.
Definition rule_values (u : srule F) : list (node F) :=
  flat_map condition_values (opt_lists (su_and F u) ++ opt_lists (su_or F u) ++ opt_list (su_not F u) ++ opt_list (su_condition F u)).
Definition retry_values (y : sretry F) : list (node F) :=
  opt_list (sy_interval F y) ++ opt_list (sy_attempts F y) ++ opt_list (sy_delay F y) ++ opt_list (sy_jitter F y) ++ opt_list (sy_backoff F y).
Definition state_values (s : sstate F) : list (node F) :=
  map snd (opt_lists (ss_payload F s)) ++ opt_list (ss_end F s) ++ opt_list (ss_result F s) ++ opt_list (ss_timeout F s) ++
  flat_map rule_values (opt_lists (ss_decisions F s)) ++ flat_map retry_values (opt_lists (ss_retry F s)).
(** No value in it is an empty list of parts: true of what the readers deliver (C109_readable) *)
Inductive readable : sstate F -> Prop :=
| re_intro s : Forall (proper F) (state_values s) ->
    (forall b e, In b (opt_lists (ss_branches F s)) -> In e (snd b) -> readable (snd e)) -> readable s.
Definition readable_workflow (w : smachine F) : Prop := forall e, In e (snd w) -> readable (snd e).
End Params.
