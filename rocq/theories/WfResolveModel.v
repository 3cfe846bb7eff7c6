(** Resolving the substitutions of a workflow,
    libs/runtime/blueprint-config-parser/src/resolve_substitutions.rs 495-968 *)
From Verif Require Import Base Chars SubstModel ResolveModel WfYamlModel WfTypes.
Local Open Scope list_scope.

(** a [for] loop with [?] that pushes one result for each element. (resolve_substitutions.rs 495-968) *)
Definition mapo {A E B} (f : A -> outcome E B) : list A -> outcome E (list B) :=
  fix go (l : list A) := match l with [] => Ok [] | a :: l' => let! b := f a in let! bs := go l' in Ok (b :: bs) end.
(** [match option { Some(x) => f(x).map(Some), None => Ok(None) }]. (resolve_substitutions.rs 495-968) *)
Definition opto {A E B} (f : A -> outcome E B) (o : option A) : outcome E (option B) :=
  match o with Some a => omap Some (f a) | None => Ok None end.

Section Params.
Variable F : Type.
Variable parse_f64 : text -> option F.
Variable env : text -> option text.

(** blueprint.rs 877-890 *)
Record rwait := { rw_seconds : option text; rw_timestamp : option text }.
(** blueprint.rs 892-902 *)
Record rfail := { rf_error : option text; rf_cause : option text }.
(** blueprint.rs 870-875 *)
Record rcond := { rc_inputs : list (rnode F); rc_function : text }.
(** blueprint.rs 855-867 *)
Record rrule := { ru_and : option (list rcond); ru_or : option (list rcond); ru_not : option rcond; ru_condition : option rcond; ru_next : text }.
(** blueprint.rs 912-930 *)
Record rretry := { ry_match : list text; ry_interval : option Z; ry_attempts : option Z; ry_delay : option Z; ry_jitter : option bool; ry_backoff : option F }.
(** blueprint.rs 932-941 *)
Record rcatch := { rh_match : list text; rh_next : text; rh_path : option text }.
(** blueprint.rs 786-829, with the branches (904-910) as pairs of the start state and the states *)
Inductive rstate := mk_rstate {
  rs_type : state_type; rs_description : option text; rs_input : option text; rs_result_path : option text;
  rs_output : option text; rs_payload : option (list (text * rnode F)); rs_next : option text; rs_end : option bool;
  rs_decisions : option (list rrule); rs_result : option (rnode F); rs_timeout : option Z; rs_wait : option rwait;
  rs_failure : option rfail; rs_branches : option (list (text * list (text * rstate)));
  rs_retry : option (list rretry); rs_catch : option (list rcatch) }.
(** blueprint.rs 778-784, 904-910 *)
Definition rmachine : Type := (text * list (text * rstate)).

Notation str := (resolve_to_string env).
Notation node_at := (resolve_node F parse_f64 env).
Notation to_int := (node_to_int F parse_f64 env).
Notation to_float := (node_to_float F parse_f64 env).
Notation to_bool := (node_to_bool F parse_f64 env).

(** 638-655 *)
Definition resolve_wait (w : swait) : outcome rerr rwait :=
  let! s := opto str (sw_seconds w) in let! t := opto str (sw_timestamp w) in
  Ok {| rw_seconds := s; rw_timestamp := t |}.
(** 672-689 *)
Definition resolve_failure (w : sfail) : outcome rerr rfail :=
  let! e := opto str (sf_error w) in let! c := opto str (sf_cause w) in
  Ok {| rf_error := e; rf_cause := c |}.
(** 751-788, with the list of 1621-1632 *)
Definition resolve_retry (r : sretry F) : outcome rerr rretry :=
  let! m := mapo str (sy_match F r) in
  let! i := opto to_int (sy_interval F r) in
  let! a := opto to_int (sy_attempts F r) in
  let! d := opto to_int (sy_delay F r) in
  let! j := opto to_bool (sy_jitter F r) in
  let! b := opto to_float (sy_backoff F r) in
  Ok {| ry_match := m; ry_interval := i; ry_attempts := a; ry_delay := d; ry_jitter := j; ry_backoff := b |}.
(** 809-831 *)
Definition resolve_catch (c : scatch) : outcome rerr rcatch :=
  let! m := mapo str (sh_match c) in let! n := str (sh_next c) in let! p := opto str (sh_path c) in
  Ok {| rh_match := m; rh_next := n; rh_path := p |}.
(** 833-850 *)
Definition resolve_type (ps : list part) : outcome rerr state_type :=
  let! t := str ps in
  Ok (if text_eqb t (chars "executeStep") then ExecuteStep
      else if text_eqb t (chars "pass") then Pass
      else if text_eqb t (chars "parallel") then Parallel
      else if text_eqb t (chars "wait") then Wait
      else if text_eqb t (chars "decision") then Decision
      else if text_eqb t (chars "failure") then Failure
      else if text_eqb t (chars "success") then Success
      else Unknown).
(** 949-968 with the list of 1720-1736, at depth [depth] *)
Definition resolve_condition (depth : nat) (c : scond F) : outcome rerr rcond :=
  let! i := mapo (node_at (depth + 1 + 1)) (sc_inputs F c) in
  let! f := str (sc_function F c) in
  Ok {| rc_inputs := i; rc_function := f |}.
(** 933-947 *)
Definition resolve_opt_condition (depth : nat) (o : option (scond F)) : outcome rerr (option rcond) := opto (resolve_condition (depth + 1)) o.
(** 913-931 *)
Definition resolve_opt_conditions (depth : nat) (o : option (list (scond F))) : outcome rerr (option (list rcond)) :=
  opto (mapo (resolve_condition (depth + 1))) o.
(** 871-911 *)
Definition resolve_rule (depth : nat) (r : srule F) : outcome rerr rrule :=
  if Nat.ltb max_resolve_depth depth then Err (MaxDepth depth)
  else
    let! c := resolve_opt_condition (depth + 1) (su_condition F r) in
    let! a := resolve_opt_conditions (depth + 1) (su_and F r) in
    let! o := resolve_opt_conditions (depth + 1) (su_or F r) in
    let! n := resolve_opt_condition (depth + 1) (su_not F r) in
    let! x := str (su_next F r) in
    Ok {| ru_and := a; ru_or := o; ru_not := n; ru_condition := c; ru_next := x |}.
(** 552-565 *)
Definition resolve_payload (o : option (list (text * node F))) : outcome rerr (option (list (text * rnode F))) :=
  let! p := opto (fun m => node_at 0 (NMap F m)) o in
  Ok (match p with Some (RMap _ m) => Some m | _ => None end).
(** 514-529; a [HashMap] is iterated in some order *)
Definition resolve_states (state : sstate F -> outcome rerr rstate) (m : list (text * sstate F)) : outcome rerr (list (text * rstate)) :=
  mapo (fun e => match e with (name, s) => let! r := state s in Ok (name, r) end) m.
(** 713-730 *)
Definition resolve_branch (state : sstate F -> outcome rerr rstate) (b : smachine F) : outcome rerr rmachine :=
  match b with (start, states) => let! a := str start in let! ss := resolve_states state states in Ok (a, ss) end.
(** 531-621 with 691-711 *)
Fixpoint resolve_state (s : sstate F) : outcome rerr rstate :=
  match s with
  | mk_sstate _ ty de ip rp op pt nx en ds re ti wa fa br rt ca =>
      let! ty' := resolve_type ty in
      let! ip' := opto str ip in
      let! rp' := opto str rp in
      let! op' := opto str op in
      let! pt' := resolve_payload pt in
      let! nx' := opto str nx in
      let! en' := opto to_bool en in
      let! ds' := opto (mapo (resolve_rule 0)) ds in
      let! de' := opto str de in
      let! re' := opto (node_at 0) re in
      let! ti' := opto to_int ti in
      let! wa' := opto resolve_wait wa in
      let! fa' := opto resolve_failure fa in
      let! br' := opto (mapo (resolve_branch resolve_state)) br in
      let! rt' := opto (mapo resolve_retry) rt in
      let! ca' := opto (mapo resolve_catch) ca in
      Ok (mk_rstate ty' de' ip' rp' op' pt' nx' en' ds' re' ti' wa' fa' br' rt' ca')
  end.
(** 495-512 *)
Definition resolve_workflow (w : smachine F) : outcome rerr rmachine := resolve_branch resolve_state w.
End Params.
