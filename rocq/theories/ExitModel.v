(** How a process of the CLI ends: apps/cli/cmd/main.go (below: M), cmd/commands/validate.go (V),
    cmd/commands/init.go (I), cmd/utils/utils.go (U).  What a command line starts is in CmdModel.v,
    and what validating does in CliModel.v. *)
From Verif Require Import Base Chars CliModel CmdModel ConfigModel.
Local Open Scope list_scope.

(** Why a process fails: the command line, the two log files, the engine, the terminal program. M 15-18, V 29-32, 57-59, 66-69, 72-74. *)
Inductive failure := FCommand (e : cmd_error) | FLog | FOutput | FEngine (e : error) | FProgram.
(** How it ends: with a status, and what main reports (M 15-18); or with a panic, which Go gives status 2. *)
Inductive ending := Exit (status : N) (reported : option failure) | Crash.
(** What it finds: whether celerity.log (U 62) and celerity-output.log (V 57) can be opened in the
    current directory, and whether its output is a terminal (V 41). *)
Record world := mk_world { w_log : bool; w_output : bool; w_terminal : bool }.
(** M 15-18: a command that returns an error ends with status 1 (log.Fatal). *)
Definition returned (o : option failure) : ending := match o with Some f => Exit 1 (Some f) | None => Exit 0 None end.

(** The terminal program (third party: bubbletea 1.3.5, Run): besides CliModel.v, whether its model
    is still the pointer that it was given (NewValidateApp returns a pointer, and Update, on a value,
    a value: tui.go 57, 123-149), and whether Run fails. *)
Record tstate := mk_t { t_o : ostate; t_value : bool; t_failed : bool }.
(** V 62, 66 *)
Definition t_start (file : text) (is_default : bool) : tstate := mk_t (o_start file is_default) false false.
(** A message that ends the program is not given to Update (third party: bubbletea). *)
Definition updates (es : list obs) : bool := existsb (fun o => match o with OMsg MQuit => false | OMsg _ => true | _ => false end) es.
(** V 66; third party: bubbletea.  A termination signal sends the message that ends the program; an
    interrupt, and a terminal that fails, end it with an error. *)
Inductive tstep : tstate -> list obs -> tstate -> Prop :=
| T_step s es o : ostep (t_o s) es o -> tstep s es (mk_t o (t_value s || updates es) (t_failed s))
| T_terminate s : tstep s [] (mk_t (send (t_o s) (o_cmds (t_o s)) [MQuit] (o_chans (t_o s))) (t_value s) (t_failed s))
| T_fail s : o_over (t_o s) = false ->
    tstep s [] (mk_t (mk_o (o_model (t_o s)) (o_cmds (t_o s)) (o_inbox (t_o s)) (o_chans (t_o s)) true) (t_value s) true).
(** V 66: any number of steps *)
Inductive trun (s : tstate) : list obs -> tstate -> Prop :=
| trun_refl : trun s [] s
| trun_step tr s1 es s2 : trun s tr s1 -> tstep s1 es s2 -> trun s (tr ++ es) s2.
(** V 66-76: the type assertion of V 70 fails on the pointer. *)
Definition t_end (s : tstate) : ending :=
  if t_failed s then returned (Some FProgram)
  else if t_value s then returned (match exit_error (t_o s) with Some e => Some (FEngine e) | None => None end)
  else Crash.

(** What can be seen of the engine: nothing, or what CliModel.v records (V 28-77). *)
Inductive visible := Nothing | Piped (tr : list act) | Shown (tr : list obs).
Section Process.
Variable open_file : string -> option string.
Variable decode : file_format -> string -> option (smap string).
Variable env : string -> option string.
Variable goos : string.
Notation execute := (execute open_file decode env goos).
(** M 14-19, V 28-77, I 26-35.  Simplified: what cobra's own commands, help and version print cannot
    fail; client.go 10-17 does not fail; NewSelectBlueprint never returns an error. *)
Inductive process (w : world) (args : list string) : visible -> ending -> Prop :=
| P_error e : execute args = Err e -> process w args Nothing (returned (Some (FCommand e)))
| P_panic : execute args = Panic -> process w args Nothing Crash
| P_other a : execute args = Ok a -> match a with ShowHelp | Builtin _ | PrintVersion => True | _ => False end -> process w args Nothing (returned None)
| P_init lang (fails : bool) : execute args = Ok (StartInit lang) -> process w args Nothing (returned (if fails then Some FProgram else None))
| P_no_log f d c : execute args = Ok (StartValidate f d c) -> w_log w = false -> process w args Nothing (returned (Some FLog))
| P_pipe f d c tr s o : execute args = Ok (StartValidate f d c) -> w_log w = true -> w_terminal w = false -> hrun (h_start (chars f)) tr s -> h_pc s = Ended o ->
    process w args (Piped tr) (returned (match o with Some e => Some (FEngine e) | None => None end))
| P_no_output f d c : execute args = Ok (StartValidate f d c) -> w_log w = true -> w_terminal w = true -> w_output w = false -> process w args Nothing (returned (Some FOutput))
| P_terminal f d c tr s : execute args = Ok (StartValidate f d c) -> w_log w = true -> w_terminal w = true -> w_output w = true ->
    trun (t_start (chars f) d) tr s -> o_over (t_o s) = true -> process w args (Shown tr) (t_end s).
End Process.
