(** Reading a workflow from YAML,
    libs/runtime/blueprint-config-parser/src/yaml_workflow.rs and yaml_helpers.rs *)
From Verif Require Import Base Chars SubstModel ResolveModel.
From Verif Require Export Yaml.
Local Open Scope list_scope.

(** [BlueprintParseError]: a format error, a substitution error, a number error; messages left out. (parse.rs, BlueprintParseError, as built by yaml_workflow.rs 25-779) *)
Inductive yerr := YFormat | YSub (e : perr) | YNumber.

(** a [for] loop with [?] in it. (yaml_workflow.rs 25-779) *)
Definition foldo {A E X} (f : X -> A -> outcome E X) : X -> list A -> outcome E X :=
  fix go (x : X) (l : list A) := match l with [] => Ok x | a :: l' => let! y := f x a in go y l' end.
(** a [for] loop that pushes what it reads from an element, or nothing. (yaml_workflow.rs 388-653) *)
Definition collect {A E B} (f : A -> outcome E (option B)) : list A -> outcome E (list B) :=
  fix go (l : list A) :=
    match l with
    | [] => Ok []
    | a :: l' => let! o := f a in let! bs := go l' in Ok (match o with Some b => b :: bs | None => bs end)
    end.

Section Params.
Variable F : Type.
Variable parse_f64 : text -> option F.
Variable k : classes.
Notation node := (node F).

(** blueprint_with_subs.rs 389-395 *)
Record swait := { sw_seconds : option (list part); sw_timestamp : option (list part) }.
(** blueprint_with_subs.rs 397-403 *)
Record sfail := { sf_error : option (list part); sf_cause : option (list part) }.
(** blueprint_with_subs.rs 383-387 *)
Record scond := { sc_inputs : list node; sc_function : list part }.
(** blueprint_with_subs.rs 370-381 *)
Record srule := { su_and : option (list scond); su_or : option (list scond); su_not : option scond; su_condition : option scond; su_next : list part }.
(** blueprint_with_subs.rs 412-429 *)
Record sretry := { sy_match : list (list part); sy_interval : option node; sy_attempts : option node; sy_delay : option node;
                   sy_jitter : option node; sy_backoff : option node }.
(** blueprint_with_subs.rs 431-439 *)
Record scatch := { sh_match : list (list part); sh_next : list part; sh_path : option (list part) }.
(** blueprint_with_subs.rs 327-368, with the branches (405-410) as pairs of the start state and
    the states; a [HashMap] is a list of entries with distinct keys *)
Inductive sstate := mk_sstate {
  ss_type : list part; ss_description : option (list part); ss_input : option (list part); ss_result_path : option (list part);
  ss_output : option (list part); ss_payload : option (list (text * node)); ss_next : option (list part); ss_end : option node;
  ss_decisions : option (list srule); ss_result : option node; ss_timeout : option node; ss_wait : option swait;
  ss_failure : option sfail; ss_branches : option (list (list part * list (text * sstate)));
  ss_retry : option (list sretry); ss_catch : option (list scatch) }.
(** blueprint_with_subs.rs 320-325, 405-410 *)
Definition smachine : Type := (list part * list (text * sstate)).

(** [parse_substitutions::<ParseError>(..)?]. (yaml_helpers.rs 10-92, yaml_workflow.rs 25-779) *)
Definition subs (t : text) : outcome yerr (list part) :=
  match parse_substitutions k t with Ok ps => Ok ps | Err e => Err (YSub e) | Panic => Panic end.
(** 158-169, and 171-221 and 239-250 for the fields that must be strings *)
Definition y_text (v : yaml) : outcome yerr (list part) := match v with YStr t => subs t | _ => Err YFormat end.
(** yaml_workflow.rs 171-250 *)
Definition y_text_some (v : yaml) : outcome yerr (option (list part)) := omap Some (y_text v).
(** yaml_helpers.rs 72-90 *)
Definition single (t : text) : outcome yerr (list part) :=
  let! ps := subs t in match ps with [Ref n] => Ok [Ref n] | _ => Err YFormat end.
(** yaml_helpers.rs 92-107 *)
Definition y_strings (l : list yaml) : outcome yerr (list (list part)) := collect (fun v => omap Some (y_text v)) l.
(** yaml_helpers.rs 10-51 *)
Fixpoint y_node (v : yaml) : outcome yerr node :=
  match v with
  | YMap m => omap (NMap F) (collect (fun e => match e with
                                             | (Some key, w) => let! n := y_node w in Ok (Some (key, n))
                                             | (None, _) => Ok None
                                             end) m)
  | YSeq l => omap (NSeq F) (collect (fun w => omap Some (y_node w)) l)
  | YStr t => omap (NSub F) (subs t)
  | YBool b => Ok (NScalar F (SBool F b))
  | YInt z => Ok (NScalar F (SInt F z))
  | YReal t => match parse_f64 t with Some f => Ok (NScalar F (SFloat F f)) | None => Err YNumber end
  | YNull => Err YFormat
  end.
(** 252-269 and 521-536 *)
Definition y_bool (v : yaml) : outcome yerr node :=
  match v with YBool b => Ok (NScalar F (SBool F b)) | YStr t => omap (NSub F) (single t) | _ => Err YFormat end.
(** 286-303 and 479-520 *)
Definition y_int (v : yaml) : outcome yerr node :=
  match v with YInt z => Ok (NScalar F (SInt F z)) | YStr t => omap (NSub F) (single t) | _ => Err YFormat end.
(** 537-552 *)
Definition y_float (v : yaml) : outcome yerr node :=
  match v with
  | YReal t => match parse_f64 t with Some f => Ok (NScalar F (SFloat F f)) | None => Err YNumber end
  | YStr t => omap (NSub F) (single t)
  | _ => Err YFormat
  end.
(** 625-640 *)
Definition y_payload (m : list (option text * yaml)) : outcome yerr (list (text * node)) :=
  collect (fun e => match e with (Some key, w) => let! n := y_node w in Ok (Some (key, n)) | (None, _) => Ok None end) m.

(** [Hash::get]. (yaml_workflow.rs 738-779) *)
Fixpoint yget (key : text) (m : list (option text * yaml)) : option yaml :=
  match m with
  | [] => None
  | (Some key', v) :: m' => if text_eqb key' key then Some v else yget key m'
  | (None, _) :: m' => yget key m'
  end.
(** 738-779 *)
Definition y_condition (m : list (option text * yaml)) : outcome yerr scond :=
  let! inputs := match yget (chars "inputs") m with
                 | Some (YSeq l) => collect (fun v => omap Some (y_node v)) l
                 | _ => Err YFormat
                 end in
  let! function := match yget (chars "function") m with
                   | Some (YStr t) => subs t
                   | _ => Err YFormat
                   end in
  Ok {| sc_inputs := inputs; sc_function := function |}.
(** [if let Yaml::Hash(map) = value { .. push }]. (yaml_workflow.rs 388-653) *)
Definition y_maps {B} (f : list (option text * yaml) -> outcome yerr B) (l : list yaml) : outcome yerr (list B) :=
  collect (fun v => match v with YMap m => omap Some (f m) | _ => Ok None end) l.
(** 725-736 *)
Definition y_conditions : list yaml -> outcome yerr (list scond) := y_maps y_condition.
(** blueprint_with_subs.rs 523-527 *)
Definition parts_empty (ps : list part) : bool := match ps with [] | [Lit []] => true | _ => false end.
(** 659-714, one entry *)
Definition rule_entry (r : srule) (e : option text * yaml) : outcome yerr srule :=
  match e with
  | (None, _) => Ok r
  | (Some key, v) =>
      if text_eqb key (chars "and") then
        let! x := match v with YSeq l => y_conditions l | _ => Err YFormat end in
        Ok {| su_and := Some x; su_or := su_or r; su_not := su_not r; su_condition := su_condition r; su_next := su_next r |}
      else if text_eqb key (chars "or") then
        let! x := match v with YSeq l => y_conditions l | _ => Err YFormat end in
        Ok {| su_and := su_and r; su_or := Some x; su_not := su_not r; su_condition := su_condition r; su_next := su_next r |}
      else if text_eqb key (chars "not") then
        let! x := match v with YMap m => y_condition m | _ => Err YFormat end in
        Ok {| su_and := su_and r; su_or := su_or r; su_not := Some x; su_condition := su_condition r; su_next := su_next r |}
      else if text_eqb key (chars "condition") then
        let! x := match v with YMap m => y_condition m | _ => Err YFormat end in
        Ok {| su_and := su_and r; su_or := su_or r; su_not := su_not r; su_condition := Some x; su_next := su_next r |}
      else if text_eqb key (chars "next") then
        let! x := y_text v in
        Ok {| su_and := su_and r; su_or := su_or r; su_not := su_not r; su_condition := su_condition r; su_next := x |}
      else Ok r
  end.
(** blueprint_with_subs.rs 370-381 (derived) *)
Definition empty_rule : srule := {| su_and := None; su_or := None; su_not := None; su_condition := None; su_next := [] |}.
(** 655-723 *)
Definition y_rule (m : list (option text * yaml)) : outcome yerr srule :=
  let! r := foldo rule_entry empty_rule m in
  if parts_empty (su_next r) then Err YFormat else Ok r.
(** 642-653 *)
Definition y_rules : list yaml -> outcome yerr (list srule) := y_maps y_rule.
(** 311-338, one entry *)
Definition wait_entry (w : swait) (e : option text * yaml) : outcome yerr swait :=
  match e with
  | (None, _) => Ok w
  | (Some key, v) =>
      if text_eqb key (chars "seconds") then
        let! x := y_text v in Ok {| sw_seconds := Some x; sw_timestamp := sw_timestamp w |}
      else if text_eqb key (chars "timestamp") then
        let! x := y_text v in Ok {| sw_seconds := sw_seconds w; sw_timestamp := Some x |}
      else Ok w
  end.
(** 305-345 *)
Definition y_wait (v : yaml) : outcome yerr swait :=
  match v with YMap m => foldo wait_entry {| sw_seconds := None; sw_timestamp := None |} m | _ => Err YFormat end.
(** 353-379, one entry *)
Definition failure_entry (w : sfail) (e : option text * yaml) : outcome yerr sfail :=
  match e with
  | (None, _) => Ok w
  | (Some key, v) =>
      if text_eqb key (chars "error") then
        let! x := y_text v in Ok {| sf_error := Some x; sf_cause := sf_cause w |}
      else if text_eqb key (chars "cause") then
        let! x := y_text v in Ok {| sf_error := sf_error w; sf_cause := Some x |}
      else Ok w
  end.
(** 347-386 *)
Definition y_failure (v : yaml) : outcome yerr sfail :=
  match v with YMap m => foldo failure_entry {| sf_error := None; sf_cause := None |} m | _ => Err YFormat end.
(** 466-556, one entry *)
Definition retry_entry (r : sretry) (e : option text * yaml) : outcome yerr sretry :=
  match e with
  | (None, _) => Ok r
  | (Some key, v) =>
      if text_eqb key (chars "matchErrors") then
        let! x := match v with YSeq l => y_strings l | _ => Err YFormat end in
        Ok {| sy_match := x; sy_interval := sy_interval r; sy_attempts := sy_attempts r; sy_delay := sy_delay r; sy_jitter := sy_jitter r; sy_backoff := sy_backoff r |}
      else if text_eqb key (chars "interval") then
        let! x := y_int v in
        Ok {| sy_match := sy_match r; sy_interval := Some x; sy_attempts := sy_attempts r; sy_delay := sy_delay r; sy_jitter := sy_jitter r; sy_backoff := sy_backoff r |}
      else if text_eqb key (chars "maxAttempts") then
        let! x := y_int v in
        Ok {| sy_match := sy_match r; sy_interval := sy_interval r; sy_attempts := Some x; sy_delay := sy_delay r; sy_jitter := sy_jitter r; sy_backoff := sy_backoff r |}
      else if text_eqb key (chars "maxDelay") then
        let! x := y_int v in
        Ok {| sy_match := sy_match r; sy_interval := sy_interval r; sy_attempts := sy_attempts r; sy_delay := Some x; sy_jitter := sy_jitter r; sy_backoff := sy_backoff r |}
      else if text_eqb key (chars "jitter") then
        let! x := y_bool v in
        Ok {| sy_match := sy_match r; sy_interval := sy_interval r; sy_attempts := sy_attempts r; sy_delay := sy_delay r; sy_jitter := Some x; sy_backoff := sy_backoff r |}
      else if text_eqb key (chars "backoffRate") then
        let! x := y_float v in
        Ok {| sy_match := sy_match r; sy_interval := sy_interval r; sy_attempts := sy_attempts r; sy_delay := sy_delay r; sy_jitter := sy_jitter r; sy_backoff := Some x |}
      else Ok r
  end.
(** blueprint_with_subs.rs 412-429 (derived) *)
Definition empty_retry : sretry := {| sy_match := []; sy_interval := None; sy_attempts := None; sy_delay := None; sy_jitter := None; sy_backoff := None |}.
(** 461-559 *)
Definition y_retry (m : list (option text * yaml)) : outcome yerr sretry := foldo retry_entry empty_retry m.
(** 586-620, one entry *)
Definition catch_entry (c : scatch) (e : option text * yaml) : outcome yerr scatch :=
  match e with
  | (None, _) => Ok c
  | (Some key, v) =>
      if text_eqb key (chars "matchErrors") then
        let! x := match v with YSeq l => y_strings l | _ => Err YFormat end in
        Ok {| sh_match := x; sh_next := sh_next c; sh_path := sh_path c |}
      else if text_eqb key (chars "next") then
        let! x := y_text v in Ok {| sh_match := sh_match c; sh_next := x; sh_path := sh_path c |}
      else if text_eqb key (chars "resultPath") then
        let! x := y_text v in Ok {| sh_match := sh_match c; sh_next := sh_next c; sh_path := Some x |}
      else Ok c
  end.
(** blueprint_with_subs.rs 431-439 (derived) *)
Definition empty_catch : scatch := {| sh_match := []; sh_next := []; sh_path := None |}.
(** 581-623 *)
Definition y_catch (m : list (option text * yaml)) : outcome yerr scatch := foldo catch_entry empty_catch m.

(** blueprint_with_subs.rs 327-368 (derived) *)
Definition empty_state : sstate :=
  {| ss_type := []; ss_description := None; ss_input := None; ss_result_path := None; ss_output := None; ss_payload := None;
     ss_next := None; ss_end := None; ss_decisions := None; ss_result := None; ss_timeout := None; ss_wait := None;
     ss_failure := None; ss_branches := None; ss_retry := None; ss_catch := None |}.
(** 81-140, one entry of a state; [branches] reads the parallel branches *)
Definition state_entry (branches : yaml -> outcome yerr (list smachine)) (s : sstate) (e : option text * yaml) : outcome yerr sstate :=
  match e with
  | (None, _) => Ok s
  | (Some key, v) =>
      match s with
      | mk_sstate ty de ip rp op pt nx en ds re ti wa fa br rt ca =>
          if text_eqb key (chars "type") then
            let! x := y_text v in Ok (mk_sstate x de ip rp op pt nx en ds re ti wa fa br rt ca)
          else if text_eqb key (chars "description") then
            let! x := y_text_some v in Ok (mk_sstate ty x ip rp op pt nx en ds re ti wa fa br rt ca)
          else if text_eqb key (chars "inputPath") then
            let! x := y_text_some v in Ok (mk_sstate ty de x rp op pt nx en ds re ti wa fa br rt ca)
          else if text_eqb key (chars "resultPath") then
            let! x := y_text_some v in Ok (mk_sstate ty de ip x op pt nx en ds re ti wa fa br rt ca)
          else if text_eqb key (chars "outputPath") then
            let! x := y_text_some v in Ok (mk_sstate ty de ip rp x pt nx en ds re ti wa fa br rt ca)
          else if text_eqb key (chars "payloadTemplate") then
            let! x := match v with YMap m => y_payload m | _ => Err YFormat end in
            Ok (mk_sstate ty de ip rp op (Some x) nx en ds re ti wa fa br rt ca)
          else if text_eqb key (chars "next") then
            let! x := y_text_some v in Ok (mk_sstate ty de ip rp op pt x en ds re ti wa fa br rt ca)
          else if text_eqb key (chars "end") then
            let! x := y_bool v in Ok (mk_sstate ty de ip rp op pt nx (Some x) ds re ti wa fa br rt ca)
          else if text_eqb key (chars "decisions") then
            let! x := match v with YSeq l => y_rules l | _ => Err YFormat end in
            Ok (mk_sstate ty de ip rp op pt nx en (Some x) re ti wa fa br rt ca)
          else if text_eqb key (chars "result") then
            let! x := y_node v in Ok (mk_sstate ty de ip rp op pt nx en ds (Some x) ti wa fa br rt ca)
          else if text_eqb key (chars "timeout") then
            let! x := y_int v in Ok (mk_sstate ty de ip rp op pt nx en ds re (Some x) wa fa br rt ca)
          else if text_eqb key (chars "waitConfig") then
            let! x := y_wait v in Ok (mk_sstate ty de ip rp op pt nx en ds re ti (Some x) fa br rt ca)
          else if text_eqb key (chars "failureConfig") then
            let! x := y_failure v in Ok (mk_sstate ty de ip rp op pt nx en ds re ti wa (Some x) br rt ca)
          else if text_eqb key (chars "parallelBranches") then
            let! x := branches v in Ok (mk_sstate ty de ip rp op pt nx en ds re ti wa fa (Some x) rt ca)
          else if text_eqb key (chars "retry") then
            let! x := match v with YSeq l => y_maps y_retry l | _ => Err YFormat end in
            Ok (mk_sstate ty de ip rp op pt nx en ds re ti wa fa br (Some x) ca)
          else if text_eqb key (chars "catch") then
            let! x := match v with YSeq l => y_maps y_catch l | _ => Err YFormat end in
            Ok (mk_sstate ty de ip rp op pt nx en ds re ti wa fa br rt (Some x))
          else Err YFormat
      end
  end.
(** 61-73; [state] reads one state *)
Definition y_states (state : yaml -> outcome yerr sstate) (m : list (option text * yaml)) : outcome yerr (list (text * sstate)) :=
  collect (fun e => match e with
                    | (Some name, v) => let! s := state v in Ok (Some (name, s))
                    | (None, _) => Ok None
                    end) m.
(** 413-436, one entry *)
Definition branch_entry (state : yaml -> outcome yerr sstate) (b : smachine) (e : option text * yaml) : outcome yerr smachine :=
  match e with
  | (None, _) => Ok b
  | (Some key, v) =>
      if text_eqb key (chars "startAt") then let! x := y_text v in Ok (x, snd b)
      else if text_eqb key (chars "states") then
        let! x := match v with YMap m => y_states state m | _ => Err YFormat end in Ok (fst b, x)
      else Ok b
  end.
(** 408-439 *)
Definition y_branch (state : yaml -> outcome yerr sstate) (m : list (option text * yaml)) : outcome yerr smachine :=
  foldo (branch_entry state) ([], []) m.
(** 75-156 with 388-406 *)
Fixpoint y_state (v : yaml) : outcome yerr sstate :=
  match v with
  | YMap m =>
      let! s := foldo (state_entry (fun w => match w with YSeq l => y_maps (y_branch y_state) l | _ => Err YFormat end)) empty_state m in
      if parts_empty (ss_type s) then Err YFormat else Ok s
  | _ => Err YFormat
  end.
(** 29-56, one entry *)
Definition spec_entry (b : smachine) (e : option text * yaml) : outcome yerr smachine :=
  match e with
  | (None, _) => Ok b
  | (Some key, v) =>
      if text_eqb key (chars "startAt") then let! x := y_text v in Ok (x, snd b)
      else if text_eqb key (chars "states") then
        let! x := match v with YMap m => y_states y_state m | _ => Err YFormat end in Ok (fst b, x)
      else Err YFormat
  end.
(** 25-59 *)
Definition y_workflow (m : list (option text * yaml)) : outcome yerr smachine := foldo spec_entry ([], []) m.
End Params.
