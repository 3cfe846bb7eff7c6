(** Vocabulary of C161 *)
From Verif Require Import Base Chars CliModel CliSpec ConfigModel CmdModel CmdSpec ExitModel.
Local Open Scope list_scope.

(** The command line asks to validate this file, chosen by the user or not. *)
Definition asks_to_validate (open_file : string -> option string) (decode : file_format -> string -> option (smap string)) (env : string -> option string) (goos : string)
    (args : list string) (f : string) (d : bool) : Prop := exists engine, starts open_file decode env goos args (StartValidate f d engine).
(** The engine was asked for nothing. *)
Definition nothing_asked (v : visible) : Prop :=
  match v with
  | Nothing => True
  | Piped tr => forall d o, ~ In (ACreate d o) tr
  | Shown tr => creations tr = []
  end.
(** Whether results are shown from the start: the user chose a file. *)
Definition shown_at_once (f : string) (d : bool) : bool := negb d && negb (String.eqb f "").
