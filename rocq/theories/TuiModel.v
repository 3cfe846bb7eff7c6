(** The two dialogues of the CLI: choosing the language of a new project
    (apps/cli/internal/tui/initui/tui.go, below: I) and the blueprint to validate
    (apps/cli/internal/tui/validateui/select_blueprint_local_file.go, below: S).
    The widgets (bubbles' list and filepicker) are third party and not in the repository: they are
    parameters, and may do anything with a message. *)
From Verif Require Import Base.
Open Scope string_scope.
Local Open Scope list_scope.

Section Widgets.
(** Messages that are no keys (a change of the window's size, a tick of the filepicker, ...); their
    kinds matter where S and I look at them *)
Variable other : Type.
(** What the updates tell apart: I 76-97, S 83-139 *)
Inductive msg := Key (name : string) | Resize (width : N) | ClearError | Other (o : other).
(** Commands of the widgets *)
Variable command : Type.

(** A list: its state, what it does with a message, its width, the key of the highlighted item *)
Variable L : Type.
Variable list_update : L -> msg -> L * command.
Variable list_width : L -> N -> L.
Variable selected : L -> option string.

(** ** The language *)
(** I 66-70 *)
Record init_model := mk_init { i_list : L; i_choice : string; i_quitting : bool }.
(** I 109-150 *)
Definition new_init_app (l : L) (language : string) : init_model := mk_init l language false.
(** What an update asks for: nothing, that the program ends, what the list asks for. (I 76-97) *)
Inductive init_cmd := INone | IQuit | IList (c : command).
(** I 76-97 *)
Definition init_update (m : init_model) (x : msg) : init_model * init_cmd :=
  let rest :=
    let '(l, c) := list_update (i_list m) x in
    (mk_init l (i_choice m) (i_quitting m), IList c) in
  match x with
  | Resize w => (mk_init (list_width (i_list m) w) (i_choice m) (i_quitting m), INone)
  | Key k =>
      if (String.eqb k "ctrl+c" || String.eqb k "esc")%bool then (mk_init (i_list m) (i_choice m) true, IQuit)
      else if String.eqb k "enter" then
        (match selected (i_list m) with
         | Some i => mk_init (i_list m) i (i_quitting m)
         | None => m
         end, IQuit)
      else rest
  | _ => rest
  end.
(** I 99-107: what is shown; [VList]: the question *)
Inductive init_view := VChosen (language : string) | VBye | VList.
(** I 99-107 *)
Definition init_show (m : init_model) : init_view :=
  if negb (String.eqb (i_choice m) "") then VChosen (i_choice m)
  else if i_quitting m then VBye
  else VList.
(** The program (bubbletea): messages in the order in which they are handled; a message that ends the
    program may be followed by some that were sent before. I 76-97, message by message. *)
Definition init_run (m : init_model) (xs : list msg) : init_model * list init_cmd :=
  fold_left (fun '(m, cs) x => let '(m', c) := init_update m x in (m', cs ++ [c])) xs (m, []).

(** ** The blueprint *)
Variable P : Type.
Variable picker_update : P -> msg -> P * command.
(** What the filepicker reports after it has handled a message: a file of an accepted type, of
    another type *)
Variable picked : P -> msg -> option string.
Variable picked_disabled : P -> msg -> option string.
(** S 24-54; the flag [autoValidate] is used at the start only, and the styles not at all. *)
Record sel_model := mk_sel { s_picker : P; s_list : L; s_source : string; s_file : string; s_files : bool; s_quitting : bool; s_err : option string }.
(** S 162-189 *)
Definition new_select (p : P) (l : L) (file : string) : sel_model := mk_sel p l "" file false false None.
(** Commands: of the widgets, the end, a selection, an undone selection, an error that is removed in
    two seconds. (S 83-139) *)
Inductive sel_cmd := SWidget (c : command) | SQuit | SSelect (file : string) | SClear | SClearErrorLater.
(** S 83-139.  [d_cmds] are the commands from before the widgets' updates. *)
Definition sel_update (m : sel_model) (x : msg) : sel_model * list sel_cmd :=
  let prev := s_files m in
  let rest m cmds :=
    let '(p, pc) := picker_update (s_picker m) x in
    let '(l, lc) := list_update (s_list m) x in
    let m := mk_sel p l (s_source m) (s_file m) (s_files m) (s_quitting m) (s_err m) in
    let cmds := cmds ++ [SWidget pc; SWidget lc] in
    if negb prev then (m, cmds)
    else
      let '(m, cmds) :=
        match picked p x with
        | Some f => (mk_sel p l (s_source m) f (s_files m) (s_quitting m) (s_err m), cmds ++ [SSelect f])
        | None => (m, cmds)
        end in
      match picked_disabled p x with
      | Some f => (mk_sel p l (s_source m) "" (s_files m) (s_quitting m) (Some (f ++ " is not valid.")%string),
                   [SWidget pc; SWidget lc; SClearErrorLater; SClear])
      | None => (m, cmds)
      end in
  match x with
  | Key k =>
      if (String.eqb k "ctrl+c" || String.eqb k "q")%bool
      then (mk_sel (s_picker m) (s_list m) (s_source m) (s_file m) (s_files m) true (s_err m), [SQuit])
      else if (String.eqb k "enter" && negb (s_files m))%bool then
        match selected (s_list m) with
        | Some i => rest (mk_sel (s_picker m) (s_list m) i (s_file m) true (s_quitting m) (s_err m)) []
        | None => rest m []
        end
      else rest m []
  | Resize _ =>
      let '(p, c) := picker_update (s_picker m) x in
      rest (mk_sel p (s_list m) (s_source m) (s_file m) (s_files m) (s_quitting m) (s_err m)) [SWidget c]
  | ClearError => rest (mk_sel (s_picker m) (s_list m) (s_source m) (s_file m) (s_files m) (s_quitting m) None) []
  | Other _ => rest m []
  end.
(** S 141-160: what is shown; the first line is an error, a question, or the file *)
Inductive sel_head := HError (e : string) | HPick | HFile (file : string).
(** S 141-160 *)
Inductive sel_view := ShowNothing | ShowSources (h : sel_head) | ShowFiles (h : sel_head).
(** S 141-160 *)
Definition sel_show (m : sel_model) : sel_view :=
  if s_quitting m then ShowNothing
  else
    let h := match s_err m with
             | Some e => HError e
             | None => if String.eqb (s_file m) "" then HPick else HFile (s_file m)
             end in
    if s_files m then ShowFiles h else ShowSources h.
(** S 83-139, message by message *)
Definition sel_run (m : sel_model) (xs : list msg) : sel_model * list (list sel_cmd) :=
  fold_left (fun '(m, cs) x => let '(m', c) := sel_update m x in (m', cs ++ [c])) xs (m, []).
End Widgets.
Arguments Key {other}.
Arguments Resize {other}.
Arguments ClearError {other}.
Arguments Other {other}.
Arguments mk_init {L}.
Arguments i_list {L}.
Arguments i_choice {L}.
Arguments i_quitting {L}.
Arguments new_init_app {L}.
Arguments init_show {L}.
Arguments INone {command}.
Arguments IQuit {command}.
Arguments IList {command}.
Arguments mk_sel {L P}.
Arguments s_picker {L P}.
Arguments s_list {L P}.
Arguments s_source {L P}.
Arguments s_file {L P}.
Arguments s_files {L P}.
Arguments s_quitting {L P}.
Arguments s_err {L P}.
Arguments new_select {L P}.
Arguments sel_show {L P}.
Arguments SWidget {command}.
Arguments SQuit {command}.
Arguments SSelect {command}.
Arguments SClear {command}.
Arguments SClearErrorLater {command}.
Arguments init_update {other command L}.
Arguments init_run {other command L}.
Arguments sel_update {other command L} list_update selected {P}.
Arguments sel_run {other command L} list_update selected {P}.
