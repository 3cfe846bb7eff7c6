(** The command line of the CLI: which command runs, with which options.
    apps/cli/cmd/main.go, apps/cli/cmd/commands/{root,init,validate,version}.go.
    The two libraries that read the command line (cobra v1.8.1, pflag v1.0.5) are third party and not
    in the repository; the functions marked "cobra" and "pflag" model what they do with commands and
    flags of the kinds that are registered here.  Simplified: error messages are kinds. *)
From Verif Require Import Base ConfigModel.
From Verif Require CliModel.
Open Scope string_scope.
Local Open Scope list_scope.

(** A flag: its name, its one-letter shorthand or "", whether it is a truth value, its default. (pflag; registered in root.go 44-90, init.go 38-43, validate.go 80-85). *)
Record fdef := mk_fdef { f_name : string; f_short : string; f_bool : bool; f_default : string }.
(** root.go 44-50: a flag of the root command only *)
Definition config_flag : fdef := mk_fdef "config" "c" false "celerity.config.toml".
(** root.go 52-90: persistent flags of the root command *)
Definition deploy_flag : fdef := mk_fdef "deploy-config-file" "" false "celerity.deploy.json".
(** root.go 64-72 *)
Definition protocol_flag : fdef := mk_fdef "connect-protocol" "" false "unix".
(** root.go 76-80 *)
Definition endpoint_flag : fdef := mk_fdef "engine-endpoint" "" false "http://localhost:8325".
(** root.go 84-88 *)
Definition skip_flag : fdef := mk_fdef "skip-plugin-config-validation" "" true "false".
(** root.go 52-90 *)
Definition root_persistent : list fdef := [deploy_flag; protocol_flag; endpoint_flag; skip_flag].
(** The commands: version.go 9-20, init.go 16-48, validate.go 19-90, and the two cobra adds *)
Inductive command := CVersion | CInit | CValidate | CHelp | CCompletion.
(** version.go 9-20, init.go 22, validate.go 21, and the two cobra adds *)
Definition command_named (s : string) : option command :=
  if String.eqb s "version" then Some CVersion
  else if String.eqb s "init" then Some CInit
  else if String.eqb s "validate" then Some CValidate
  else if String.eqb s "help" then Some CHelp
  else if String.eqb s "completion" then Some CCompletion
  else None.
(** init.go 38-43, validate.go 80-85 *)
Definition language_flag : fdef := mk_fdef "language" "l" false "".
(** validate.go 80-85 *)
Definition blueprint_flag : fdef := mk_fdef "blueprint-file" "b" false "app.blueprint.yaml".
(** init.go 38-43, validate.go 80-85 *)
Definition own_flags (c : command) : list fdef :=
  match c with
  | CInit => [language_flag]
  | CValidate => [blueprint_flag]
  | _ => []
  end.
(** cobra, Command.Flags after the persistent flags of the parents are merged: flags of the root
    command that are not persistent are its own. root.go 44-90, init.go 38-43, validate.go 80-85. *)
Definition flags_of (c : option command) : list fdef :=
  match c with None => config_flag :: root_persistent | Some c => own_flags c ++ root_persistent end.
(** cobra, InitDefaultHelpFlag: added when a command is executed. Not in root.go 20-90. *)
Definition help_flag : fdef := mk_fdef "help" "h" true "false".

(** ** cobra: which command. strings.Contains(s, "="), in stripFlags and argsMinusFirstX (cobra, called for main.go 16) *)
Fixpoint has_equals (s : string) : bool :=
  match s with EmptyString => false | String c s' => (Ascii.eqb c "=" || has_equals s')%bool end.
(** Go: s[n:], in cobra and pflag (main.go 16) *)
Definition drop (n : nat) (s : string) : string := substring n (String.length s - n) s.
(** pflag, FlagSet.Lookup (main.go 16) *)
Definition long_flag (fs : list fdef) (name : string) : option fdef := find (fun f => String.eqb (f_name f) name) fs.
(** pflag, FlagSet.ShorthandLookup (main.go 16) *)
Definition short_flag (fs : list fdef) (c : ascii) : option fdef := find (fun f => String.eqb (f_short f) (String c "")) fs.
(** hasNoOptDefVal and shortHasNoOptDefVal: flags of truth values need no value. cobra, called for main.go 16. *)
Definition no_value (o : option fdef) : bool := match o with Some f => f_bool f | None => false end.
(** The two cases of stripFlags and argsMinusFirstX in which the next argument belongs to this one. cobra, called for main.go 16. *)
Definition takes_next (fs : list fdef) (s : string) : bool :=
  (prefix "--" s && negb (has_equals s) && negb (no_value (long_flag fs (drop 2 s)))) ||
  (prefix "-" s && negb (has_equals s) && Nat.eqb (String.length s) 2 &&
     negb (no_value match drop 1 s with String c _ => short_flag fs c | EmptyString => None end)).
(** stripFlags. cobra, called for main.go 16. *)
Fixpoint strip_flags (fs : list fdef) (args : list string) : list string :=
  match args with
  | [] => []
  | s :: rest =>
      if String.eqb s "--" then []
      else if takes_next fs s then match rest with [] | [_] => [] | _ :: rest' => strip_flags fs rest' end
      else if (String.eqb s "" || prefix "-" s)%bool then strip_flags fs rest
      else s :: strip_flags fs rest
  end.
(** argsMinusFirstX; [None]: it is not among them, and they are returned as they are. cobra, called for main.go 16. *)
Fixpoint minus_first (fs : list fdef) (x : string) (args : list string) : option (list string) :=
  match args with
  | [] => None
  | s :: rest =>
      if String.eqb s "--" then None
      else if takes_next fs s then match rest with [] => None | v :: rest' => option_map (fun l => s :: v :: l) (minus_first fs x rest') end
      else if (negb (prefix "-" s) && String.eqb s x)%bool then Some rest
      else option_map (cons s) (minus_first fs x rest)
  end.
(** Errors of cobra and pflag, and those of root.go 26-38 and init.go 28-31 *)
Inductive cmd_error := UnknownCommand | UnknownFlag | BadSyntax | NeedsValue | BadValue | Setup (e : pre_run_error) | BadLanguage.
(** Command.Find with legacyArgs: commands other than the root have no commands of their own (the two
    of cobra aside) and take any arguments. cobra, called for main.go 16. *)
Definition find_command (args : list string) : outcome cmd_error (option command * list string) :=
  match strip_flags (flags_of None) args with
  | [] => Ok (None, args)
  | n :: _ =>
      match command_named n with
      | Some c => Ok (Some c, match minus_first (flags_of None) n args with Some l => l | None => args end)
      | None => Err UnknownCommand
      end
  end.

(** ** pflag: the flags of a command *)
(** One argument: a word; the end of the flags; an error; flags that are set; the same, and a last
    one whose value is the next argument. pflag, called by cobra for main.go 16. *)
Inductive token := TWord | TEnd | TBad (e : cmd_error) | TSets (l : list (fdef * string)) | TNeeds (l : list (fdef * string)) (f : fdef).
(** strings.SplitN(name, "=", 2) *)
Fixpoint split_equals (s : string) : string * option string :=
  match s with
  | EmptyString => (EmptyString, None)
  | String c s' => if Ascii.eqb c "=" then (EmptyString, Some s') else let '(n, v) := split_equals s' in (String c n, v)
  end.
(** parseLongArg. pflag, called by cobra for main.go 16. *)
Definition long_token (fs : list fdef) (s : string) : token :=
  match s with
  | EmptyString => TBad BadSyntax
  | String c _ =>
      if (Ascii.eqb c "-" || Ascii.eqb c "=")%bool then TBad BadSyntax
      else let '(name, v) := split_equals s in
           match long_flag fs name with
           | None => TBad UnknownFlag
           | Some f =>
               match v with
               | Some x => TSets [(f, x)]
               | None => if f_bool f then TSets [(f, "true")] else TNeeds [] f
               end
           end
  end.
(** parseShortArg and parseSingleShortArg. pflag, called by cobra for main.go 16. *)
Fixpoint short_token (fs : list fdef) (sets : list (fdef * string)) (s : string) : token :=
  match s with
  | EmptyString => TSets sets
  | String c s' =>
      match short_flag fs c with
      | None => TBad UnknownFlag
      | Some f =>
          match s' with
          | String e (String _ _ as v) => if Ascii.eqb e "=" then TSets (sets ++ [(f, v)])
                                          else if f_bool f then short_token fs (sets ++ [(f, "true")]) s'
                                          else TSets (sets ++ [(f, s')])
          | String _ EmptyString => if f_bool f then short_token fs (sets ++ [(f, "true")]) s' else TSets (sets ++ [(f, s')])
          | EmptyString => if f_bool f then TSets (sets ++ [(f, "true")]) else TNeeds sets f
          end
      end
  end.
(** pflag, parseArgs, one argument (main.go 16) *)
Definition token_of (fs : list fdef) (s : string) : token :=
  match s with
  | String c s' =>
      if Ascii.eqb c "-" then
        match s' with
        | EmptyString => TWord
        | String d s'' => if Ascii.eqb d "-" then (match s'' with EmptyString => TEnd | _ => long_token fs s'' end) else short_token fs [] s'
        end
      else TWord
  | EmptyString => TWord
  end.
(** Value.Set: a truth value is read by strconv.ParseBool and written by strconv.FormatBool. pflag, called by cobra for main.go 16. *)
Definition set_value (x : fdef * string) : outcome cmd_error (string * string) :=
  let '(f, v) := x in
  if f_bool f then match parse_bool v with Some b => Ok (f_name f, if b then "true" else "false") | None => Err BadValue end
  else Ok (f_name f, v).
(** pflag, parseArgs (main.go 16) *)
Fixpoint set_all (l : list (fdef * string)) : outcome cmd_error (list (string * string)) :=
  match l with [] => Ok [] | x :: l' => let! y := set_value x in let! ys := set_all l' in Ok (y :: ys) end.
(** parseArgs: what is set, in order, and the arguments that are no flags. pflag, called by cobra for main.go 16. *)
Fixpoint parse_args (fs : list fdef) (args : list string) : outcome cmd_error (list (string * string) * list string) :=
  match args with
  | [] => Ok ([], [])
  | s :: rest =>
      match token_of fs s with
      | TWord => let! (sets, words) := parse_args fs rest in Ok (sets, s :: words)
      | TEnd => Ok ([], rest)
      | TBad e => Err e
      | TSets l => let! ys := set_all l in let! (sets, words) := parse_args fs rest in Ok (ys ++ sets, words)
      | TNeeds l f =>
          let! ys := set_all l in
          match rest with
          | [] => Err NeedsValue
          | v :: rest' => let! y := set_value (f, v) in let! (sets, words) := parse_args fs rest' in Ok (ys ++ y :: sets, words)
          end
      end
  end.
(** The value that was set last. pflag, FlagSet.Set (main.go 16). *)
Definition value_set (name : string) (sets : list (string * string)) : option string :=
  fold_left (fun o x => if String.eqb (fst x) name then Some (snd x) else o) sets None.
(** pflag: the default until it is set (root.go 44-90) *)
Definition value_or (name default : string) (sets : list (string * string)) : string :=
  match value_set name sets with Some v => v | None => default end.
(** pflag, Flag.Value and Flag.Changed, as read in config/provider.go 87-101 *)
Definition flag_after (sets : list (string * string)) (f : fdef) : flag :=
  match value_set (f_name f) sets with
  | Some v => {| flag_value := v; flag_changed := true |}
  | None => {| flag_value := f_default f; flag_changed := false |}
  end.

(** ** The command that runs *)
(** The provider after NewRootCmd (root.go 17, 52-94, init.go 44-45, validate.go 86-87), with the flags
    as parsed *)
Definition bind (sets : list (string * string)) (p : provider) (x : string * fdef * string) : provider :=
  let '(name, f, envname) := x in bind_env_var (bind_pflag p name (Some (flag_after sets f))) name envname.
(** root.go 61-62, 73-74, 81-82, 89-90, init.go 44-45, validate.go 86-87 *)
Definition bindings : list (string * fdef * string) :=
  [("deployConfigFile", deploy_flag, "CELERITY_CLI_DEPLOY_CONFIG_FILE");
   ("connectProtocol", protocol_flag, "CELERITY_CLI_CONNECT_PROTOCOL");
   ("engineEndpoint", endpoint_flag, "CELERITY_CLI_ENGINE_ENDPOINT");
   ("skipPluginConfigValidation", skip_flag, "CELERITY_CLI_SKIP_PLUGIN_CONFIG_VALIDATION");
   ("initLanguage", language_flag, "CELERITY_CLI_INIT_LANGUAGE");
   ("validateBlueprintFile", blueprint_flag, "CELERITY_CLI_VALIDATE_BLUEPRINT_FILE")].
(** root.go 17, 61-94 *)
Definition provider_for (sets : list (string * string)) : provider := fold_left (bind sets) bindings new_provider.

(** What the process does: help is shown; a command of cobra's runs (not modelled); the version is
    printed; the set-up starts with a language; a file is validated, chosen by the user or not, by the engine at an address. version.go 14-16, init.go 26-35, validate.go 28-77. *)
Inductive action := ShowHelp | Builtin (c : command) | PrintVersion | StartInit (lang : string) | StartValidate (file : string) (is_default : bool) (engine : CliModel.client_options).
Section Run.
Variable open_file : string -> option string.
Variable decode : file_format -> string -> option (smap string).
Variable env : string -> option string.
Variable goos : string.
(** version.go 14-16, init.go 26-35, validate.go 28-77.  The log files of validate.go are in ExitModel.v;
    what happens then is in CliModel.v. *)
Definition body (c : command) (p : provider) : outcome cmd_error action :=
  match c with
  | CVersion => Ok PrintVersion
  | CInit => match init_run env p with Ok l => Ok (StartInit l) | Err _ => Err BadLanguage | Panic => Panic end
  | CValidate => match get_string env p "validateBlueprintFile" with Ok (f, d) => Ok (StartValidate f d (CliModel.engine_create p)) | _ => Panic end
  | CHelp | CCompletion => Ok (Builtin c)
  end.
(** main.go 14-19; cobra, ExecuteC and execute: flags, help, what is not runnable (the root command)
    shows help, PersistentPreRunE (root.go 26-38), RunE.  cobra's own commands are not modelled. *)
Definition execute (args : list string) : outcome cmd_error action :=
  let! (c, rest) := find_command args in
  match c with
  | Some CHelp => Ok (Builtin CHelp)
  | Some CCompletion => Ok (Builtin CCompletion)
  | _ =>
      let! (sets, words) := parse_args (help_flag :: flags_of c) rest in
      if String.eqb (value_or "help" "false" sets) "true" then Ok ShowHelp
      else match c with
           | None => Ok ShowHelp
           | Some c =>
               match pre_run open_file decode env goos (provider_for sets) (value_or "config" (f_default config_flag) sets) with
               | Ok p => body c p
               | Err e => Err (Setup e)
               | Panic => Panic
               end
           end
  end.
End Run.
