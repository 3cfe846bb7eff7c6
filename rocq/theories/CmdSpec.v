(** Vocabulary for C129 to C131: how options are written on a command line, and what is in force. *)
From Verif Require Import Base ConfigModel ConfigSpec CmdModel.
From Verif Require CliModel.
Open Scope string_scope.
Local Open Scope list_scope.

(** The three commands, and the options of each that take a value, with their letters *)
Definition commands : list (string * command) := [("version", CVersion); ("init", CInit); ("validate", CValidate)].
Definition valued (c : command) : list (string * string) :=
  (match c with CInit => [("language", "l")] | CValidate => [("blueprint-file", "b")] | _ => [] end) ++
  [("deploy-config-file", ""); ("connect-protocol", ""); ("engine-endpoint", "")].
Definition switches : list string := ["skip-plugin-config-validation"].
Definition truth_text (b : bool) : string := if b then "true" else "false".
Definition truth (t : string) (b : bool) : Prop :=
  In t (if b then ["1"; "t"; "T"; "true"; "TRUE"; "True"] else ["0"; "f"; "F"; "false"; "FALSE"; "False"]).
(** [written c args name v]: these arguments set the option to the value *)
Inductive written (c : command) : list string -> string -> string -> Prop :=
| w_next name s v : In (name, s) (valued c) -> written c [("--" ++ name)%string; v] name v
| w_equals name s v : In (name, s) (valued c) -> written c [("--" ++ name ++ "=" ++ v)%string] name v
| w_letter name s v : In (name, s) (valued c) -> s <> "" -> written c [("-" ++ s)%string; v] name v
| w_letter_equals name s v : In (name, s) (valued c) -> s <> "" -> v <> "" -> written c [("-" ++ s ++ "=" ++ v)%string] name v
| w_letter_joined name s v : In (name, s) (valued c) -> s <> "" -> v <> "" -> (forall x, v = ("=" ++ x)%string -> x = "") ->
    written c [("-" ++ s ++ v)%string] name v
| w_switch name : In name switches -> written c [("--" ++ name)%string] name "true"
| w_switch_to name t b : In name switches -> truth t b -> written c [("--" ++ name ++ "=" ++ t)%string] name (truth_text b).
(** An argument that is no option *)
Definition word (s : string) : Prop := forall x, s = ("-" ++ x)%string -> x = "".
(** Options and words in any order; everything after "--" is a word. *)
Inductive line (c : command) : list string -> list (string * string) -> list string -> Prop :=
| l_none : line c [] [] []
| l_rest words : line c ("--" :: words) [] words
| l_word w args sets words : word w -> line c args sets words -> line c (w :: args) sets (w :: words)
| l_option toks name v args sets words : written c toks name v -> line c args sets words -> line c (toks ++ args) ((name, v) :: sets) words.
(** What may come before the command *)
Inductive options (c : command) : list string -> list (string * string) -> Prop :=
| o_none : options c [] []
| o_skip w args sets : w = "" \/ w = "-" -> options c args sets -> options c (w :: args) sets
| o_option toks name v args sets : written c toks name v -> options c args sets -> options c (toks ++ args) ((name, v) :: sets).
Definition invoked (c : command) (args : list string) (sets : list (string * string)) : Prop :=
  exists name before after s1 s2 words, In (name, c) commands /\ args = before ++ name :: after /\
    options c before s1 /\ line c after s2 words /\ sets = s1 ++ s2.

(** The value an option was given last *)
Definition given_last (sets : list (string * string)) (name v : string) : Prop :=
  exists pre post, sets = pre ++ (name, v) :: post /\ ~ In name (map fst post).
(** The settings: the name in a configuration file, the option, its environment variable and its
    default *)
Record setting := mk_setting { s_key : string; s_option : string; s_env : string; s_default : string }.
Definition protocol_setting := mk_setting "connectProtocol" "connect-protocol" "CELERITY_CLI_CONNECT_PROTOCOL" "unix".
Definition language_setting := mk_setting "initLanguage" "language" "CELERITY_CLI_INIT_LANGUAGE" "".
Definition blueprint_setting := mk_setting "validateBlueprintFile" "blueprint-file" "CELERITY_CLI_VALIDATE_BLUEPRINT_FILE" "app.blueprint.yaml".
Section Force.
Variable env : string -> option string.
Variable file : smap string.
Variable sets : list (string * string).
Definition by_option (s : setting) (v : string) : Prop := given_last sets (s_option s) v /\ ~ Blank v.
Definition by_env (s : setting) (v : string) : Prop := env (s_env s) = Some v /\ ~ Blank v.
Definition by_file (s : setting) (v : string) : Prop := given_last file (s_key s) v.
(** The value in force, and whether nobody chose it *)
Inductive in_force (s : setting) : string -> bool -> Prop :=
| f_option v : by_option s v -> in_force s v false
| f_env v : (forall x, ~ by_option s x) -> by_env s v -> in_force s v false
| f_file v : (forall x, ~ by_option s x) -> (forall x, ~ by_env s x) -> by_file s v -> in_force s v false
| f_unset : (forall x, ~ by_option s x) -> (forall x, ~ by_env s x) -> (forall x, ~ by_file s x) ->
    ~ In (s_option s) (map fst sets) -> s_default s <> "" -> in_force s (s_default s) true
| f_nothing : (forall x, ~ by_option s x) -> (forall x, ~ by_env s x) -> (forall x, ~ by_file s x) ->
    In (s_option s) (map fst sets) \/ s_default s = "" -> in_force s "" true.
End Force.
Definition protocol_ok (goos v : string) : Prop := v = "tcp" \/ (v = "unix" /\ goos <> "windows").
Definition language_ok (l : string) : Prop := In l [""; "nodejs"; "python"; "java"; "dotnet"; "go"; "rust"].
(** What the command does then *)
Inductive does (env : string -> option string) (file : smap string) (sets : list (string * string)) : command -> action -> Prop :=
| d_version : does env file sets CVersion PrintVersion
| d_init l b : in_force env file sets language_setting l b -> language_ok l -> does env file sets CInit (StartInit l)
| d_validate f b : in_force env file sets blueprint_setting f b -> does env file sets CValidate (StartValidate f b (CliModel.mk_client "http://localhost:8325" "tcp" "test-api-key")).
(** A command of the CLI's own was run *)
Definition runs (a : action) : Prop := match a with PrintVersion | StartInit _ | StartValidate _ _ _ => True | _ => False end.
(** Help is mentioned: an argument that could ask for help *)
Definition mentions_help (args : list string) : Prop := exists s x, In s args /\ (s = ("--help" ++ x)%string \/ s = ("-h" ++ x)%string).
(** The command line starts a command: it is invoked, the configuration file is there and can be
    read, the protocol in force is allowed, and the command does what the settings in force say. *)
Definition starts (open_file : string -> option string) (decode : file_format -> string -> option (smap string)) (env : string -> option string) (goos : string)
    (args : list string) (a : action) : Prop :=
  exists c sets content file v b, invoked c args sets /\ open_file "celerity.config.toml" = Some content /\ decode Toml content = Some file /\
    in_force env file sets protocol_setting v b /\ protocol_ok goos v /\ does env file sets c a.
