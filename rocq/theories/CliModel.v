(** The [validate] command of the CLI: apps/cli/internal/handlers/validate.go (below: H) and the
    files of apps/cli/internal/tui/validateui: tui.go (T), validate_model.go (V), commands.go (C)
    and select_blueprint_local_file.go (S).

    The deploy engine and its client are not modelled: they may answer, send, close and fail in
    any way. *)
From Verif Require Import Base Chars.
Local Open Scope list_scope.

(** An event of a validation: a diagnostic.  Simplified: its level and message. Third party (the client library); V 120-140 tells these levels apart. *)
Inductive level := LError | LWarning | LInfo | LUnknown.
(** Third party: types.BlueprintValidationEvent as used in H 54-59, V 83-90 and 113-155 *)
Record event := mk_event { ev_level : level; ev_message : text }.
(** What a receive on a closed channel gives. (Go; C 64-65). *)
Definition zero_event : event := mk_event LUnknown [].
(** An error; internal/engine/errors.go 16-26: the client's authentication errors are replaced. *)
Inductive error := AuthPrep (t : text) | AuthHelp | Other (t : text).
(** internal/engine/errors.go 16-26 *)
Definition simplify (e : error) : error := match e with AuthPrep _ => AuthHelp | _ => e end.
(** types.BlueprintDocumentInfo. (third party), as filled in H 26 and C 36-40. *)
Record document := mk_document { d_scheme : text; d_directory : text; d_file : text }.
(** H 26 *)
Definition empty_document : document := mk_document [] [] [].

(** The two unbuffered channels to which the client sends: nobody sends, somebody waits to send a
    value, or it is closed. (H 34-35, V 55-57; Go). *)
Inductive chan (A : Type) := Idle | Offer (a : A) | Closed.
Arguments Idle {A}.
Arguments Offer {A}.
Arguments Closed {A}.
(** H 34-35, V 55-57; [c_done] is ctx.Done, H 48 *)
Record chans := mk_chans { c_stream : chan event; c_err : chan (option error); c_done : option error }.
(** H 34-35 *)
Definition open_chans : chans := mk_chans Idle Idle None.
(** What the client may do: anything but reopen a channel or undo a cancellation. (third party, no lines in the repository: the client library). *)
Definition may_become (a b : chans) : Prop :=
  (c_stream a = Closed -> c_stream b = Closed) /\ (c_err a = Closed -> c_err b = Closed) /\ (forall e, c_done a = Some e -> c_done b = Some e).
(** What is left when a value has been received. (Go: unbuffered channels, H 50-54, C 64, C 75). *)
Definition taken {A} (c : chan A) : chan A := match c with Offer _ => Idle | x => x end.

(** ** Without a terminal *)
(** Requests and their answers, and what the loop receives. H 23-61. *)
Inductive act :=
| ACreate (d : document) (failed : option error)
| AOpen (failed : option error)
| AEvent (e : event)
| AErr (o : option error)
| AClosed
| ADone (e : error).
(** What is written: H 22, 59, 56 *)
Inductive line := LStart (file : text) | LEvent (e : event) | LClosed.
(** Where the handler is; [Ended None] is a return of [nil]. H 23, 36, 46 and the returns of H 31, 43, 49, 52, 57. *)
Inductive pc := Creating | Opening | Looping | Ended (o : option error).
(** H 21-62 *)
Record hstate := mk_h { h_pc : pc; h_out : list line; h_chans : chans }.
(** H 22 *)
Definition h_start (file : text) : hstate := mk_h Creating [LStart file] open_chans.
(** H 23-61 *)
Inductive hstep : hstate -> list act -> hstate -> Prop :=
| H_client s c : may_become (h_chans s) c -> hstep s [] (mk_h (h_pc s) (h_out s) c)
(** H 23-32 *)
| H_created s : h_pc s = Creating -> hstep s [ACreate empty_document None] (mk_h Opening (h_out s) (h_chans s))
| H_not_created s e : h_pc s = Creating -> hstep s [ACreate empty_document (Some e)] (mk_h (Ended (Some (simplify e))) (h_out s) (h_chans s))
(** H 34-44 *)
| H_opened s : h_pc s = Opening -> hstep s [AOpen None] (mk_h Looping (h_out s) (h_chans s))
| H_not_opened s e : h_pc s = Opening -> hstep s [AOpen (Some e)] (mk_h (Ended (Some e)) (h_out s) (h_chans s))
(** H 46-61: one of the cases that can go on is chosen. *)
| H_done s e : h_pc s = Looping -> c_done (h_chans s) = Some e -> hstep s [ADone e] (mk_h (Ended (Some e)) (h_out s) (h_chans s))
| H_error s e : h_pc s = Looping -> c_err (h_chans s) = Offer (Some e) ->
    hstep s [AErr (Some e)] (mk_h (Ended (Some e)) (h_out s) (mk_chans (c_stream (h_chans s)) Idle (c_done (h_chans s))))
| H_no_error s : h_pc s = Looping -> c_err (h_chans s) = Offer None -> hstep s [AErr None] (mk_h Looping (h_out s) (mk_chans (c_stream (h_chans s)) Idle (c_done (h_chans s))))
| H_error_closed s : h_pc s = Looping -> c_err (h_chans s) = Closed -> hstep s [AErr None] s
| H_closed s : h_pc s = Looping -> c_stream (h_chans s) = Closed -> hstep s [AClosed] (mk_h (Ended None) (h_out s ++ [LClosed]) (h_chans s))
| H_event s e : h_pc s = Looping -> c_stream (h_chans s) = Offer e ->
    hstep s [AEvent e] (mk_h Looping (h_out s ++ [LEvent e]) (mk_chans Idle (c_err (h_chans s)) (c_done (h_chans s)))).
(** H 21-62: any number of steps *)
Inductive hrun (s : hstate) : list act -> hstate -> Prop :=
| hrun_refl : hrun s [] s
| hrun_step tr s1 es s2 : hrun s tr s1 -> hstep s1 es s2 -> hrun s (tr ++ es) s2.

(** ** In a terminal *)
(** Messages of the interface.  [MPick] and [MPickBad] are keys that select a file of an accepted
    or another type while the files are shown; [MQuitKey] is ctrl+c, esc or q (the list that shows
    the results handles q and esc itself); [MOther] is any other message. T 57-87, V 69-101, S 83-139. *)
Inductive msg :=
| MSelect (f : text) | MClear | MResult (e : event) | MErr (o : option error) | MQuit
| MPick (f : text) | MPickBad | MQuitKey | MOther.
(** Commands; each runs in a goroutine of its own, and its message comes at any time. C 17-80, and tea.Quit (third party). *)
Inductive cmd := CSelect (f : text) | CClear | CStart (f : text) | CWait | CCheck | CQuit.

(** V 50-63 *)
Record vmodel := mk_v { v_file : text; v_collected : list event; v_streaming : bool; v_err : option error; v_finished : bool }.
(** V 69-108: results shown, the file, and the commands.  [waitForNextResultCmd] (C 62-67) never
    gives the empty message for which V 83-86 ends the session. *)
Definition v_update (m : vmodel) (x : msg) : vmodel * list cmd :=
  match x with
  | MSelect f =>
      (mk_v f (v_collected m) true (v_err m) (v_finished m), if v_streaming m then [] else [CStart f; CWait; CCheck])
  | MResult e => (mk_v (v_file m) (v_collected m ++ [e]) (v_streaming m) (v_err m) (v_finished m), [CWait; CCheck])
  | MErr (Some e) => (mk_v (v_file m) (v_collected m) (v_streaming m) (Some e) (v_finished m), [CQuit])
  | MQuitKey => (m, [CQuit])
  | _ => (m, [])
  end.
(** T 40-48; of the model that selects a file (S 22-31): whether the files are shown, which
    happens after a source was chosen (S 91-98); simplified: they always are. *)
Record model := mk_m { m_view : bool; m_file : text; m_validate : vmodel; m_error : option error }.
(** S 83-139 *)
Definition s_update (x : msg) : list cmd :=
  match x with
  | MPick f => [CSelect f]
  | MPickBad => [CClear]
  | MQuitKey => [CQuit]
  | _ => []
  end.
(** T 57-110 *)
Definition after_view (m : model) (x : msg) : model * list cmd :=
  let '(v, cs) := v_update (m_validate m) x in
  (mk_m (m_view m) (m_file m) v (match v_err v with Some e => Some e | None => m_error m end), cs).
(** T 57-110 *)
Definition update (m : model) (x : msg) : model * list cmd :=
  match x with
  | MSelect f =>
      let '(v, cs) := v_update (m_validate m) x in
      let '(m', cs') := after_view (mk_m true f v (m_error m)) x in
      (m', cs ++ cs')
  | MClear => (mk_m false [] (m_validate m) (m_error m), s_update x)
  | _ => if m_view m then after_view m x else (m, s_update x)
  end.

(** The program (bubbletea): commands that run, messages that wait; [o_over] is set when the loop
    has ended. Third party; commands/validate.go 64-70. *)
Record ostate := mk_o { o_model : model; o_cmds : list cmd; o_inbox : list msg; o_chans : chans; o_over : bool }.
(** What can be seen: validations created with the client, values received from it, messages taken. C 33-56, 64, 75; T 57. *)
Inductive obs := OCreate (d : document) (failed : option error) | OOpen (failed : option error) | OEvent (e : event) | OErr (o : option error) | OMsg (x : msg).
(** NewValidateApp (T 123-149) and the commands of Init (T 50-54, S 73-81) *)
Definition o_start (file : text) (is_default : bool) : ostate :=
  let auto := match file with [] => false | _ => negb is_default end in
  mk_o (mk_m auto file (mk_v [] [] false None false) None) (if auto then [CSelect file] else []) [] open_chans false.
(** C 31-60 *)
Definition file_document (f : text) : document := mk_document (chars "file") (chars "/") f.
(** Goroutines and messages come in any order (bubbletea; the commands of C 17-80) *)
Definition out_of {A} (a : A) (l l' : list A) : Prop := exists u v, l = u ++ a :: v /\ l' = u ++ v.
(** bubbletea: a command's message is put in the queue (C 17-80) *)
Definition send (s : ostate) (cs : list cmd) (x : list msg) (c : chans) : ostate := mk_o (o_model s) cs (o_inbox s ++ x) c (o_over s).
(** The loop of bubbletea (third party) over T 57-110 and C 17-80 *)
Inductive ostep : ostate -> list obs -> ostate -> Prop :=
| O_client s c : may_become (o_chans s) c -> ostep s [] (mk_o (o_model s) (o_cmds s) (o_inbox s) c (o_over s))
| O_key s x : In x [MQuitKey; MOther] \/ x = MPickBad \/ (exists f, x = MPick f) -> ostep s [] (send s (o_cmds s) [x] (o_chans s))
(** Commands; C 17-29 *)
| O_select s cs f : out_of (CSelect f) (o_cmds s) cs -> ostep s [] (send s cs [MSelect f] (o_chans s))
| O_clear s cs : out_of CClear (o_cmds s) cs -> ostep s [] (send s cs [MClear] (o_chans s))
| O_quit s cs : out_of CQuit (o_cmds s) cs -> ostep s [] (send s cs [MQuit] (o_chans s))
(** C 31-60; simplified: creating the validation and opening its stream are one step. *)
| O_start_ok s cs f : out_of (CStart f) (o_cmds s) cs -> ostep s [OCreate (file_document f) None; OOpen None] (send s cs [] (o_chans s))
| O_start_not_created s cs f e : out_of (CStart f) (o_cmds s) cs -> ostep s [OCreate (file_document f) (Some e)] (send s cs [MErr (Some (simplify e))] (o_chans s))
| O_start_not_opened s cs f e : out_of (CStart f) (o_cmds s) cs -> ostep s [OCreate (file_document f) None; OOpen (Some e)] (send s cs [MErr (Some e)] (o_chans s))
(** C 62-67 *)
| O_wait s cs e : out_of CWait (o_cmds s) cs -> (c_stream (o_chans s) = Offer e \/ c_stream (o_chans s) = Closed /\ e = zero_event) ->
    ostep s [OEvent e] (send s cs [MResult e] (mk_chans (taken (c_stream (o_chans s))) (c_err (o_chans s)) (c_done (o_chans s))))
(** C 69-80 *)
| O_check_time s cs : out_of CCheck (o_cmds s) cs -> ostep s [] (send s cs [MErr None] (o_chans s))
| O_check s cs o : out_of CCheck (o_cmds s) cs -> (c_err (o_chans s) = Offer o \/ c_err (o_chans s) = Closed /\ o = None) ->
    ostep s [OErr o] (send s cs [MErr o] (mk_chans (c_stream (o_chans s)) (taken (c_err (o_chans s))) (c_done (o_chans s))))
(** The loop; T 78-81 *)
| O_end s ms : o_over s = false -> out_of MQuit (o_inbox s) ms -> ostep s [OMsg MQuit] (mk_o (o_model s) (o_cmds s) ms (o_chans s) true)
| O_msg s ms x m cs : o_over s = false -> out_of x (o_inbox s) ms -> x <> MQuit -> update (o_model s) x = (m, cs) -> ostep s [OMsg x] (mk_o m (o_cmds s ++ cs) ms (o_chans s) false).
(** commands/validate.go 70: Run *)
Inductive orun (s : ostate) : list obs -> ostate -> Prop :=
| orun_refl : orun s [] s
| orun_step tr s1 es s2 : orun s tr s1 -> ostep s1 es s2 -> orun s (tr ++ es) s2.
(** commands/validate.go 68-78: what the command returns *)
Definition exit_error (s : ostate) : option error := m_error (o_model s).

(** internal/engine/client.go 10-17: the options of the client; the provider of configuration
    values is not used. *)
Record client_options := mk_client { cl_endpoint : string; cl_protocol : string; cl_key : string }.
(** internal/engine/client.go 10-17 *)
Definition engine_create {P : Type} (provider : P) : client_options := mk_client "http://localhost:8325" "tcp" "test-api-key".
