(** Theorems about the CLI configuration provider and argument validation
    (properties C01-C04).  Model: ConfigModel.v.  Vocabulary: ConfigSpec.v. *)
From Verif Require Import Base ConfigModel ConfigSpec ConfigProofs.
Open Scope string_scope.
Local Open Scope Z_scope.

(** *** C01 *)

(** For an option whose flag pointer is not nil, the string read and its
    'is default' answer are exactly those of the first source supplying a value. *)
Theorem C01_option_precedence : forall env p n v d,
  lookup n (p_flags p) <> Some None ->
  (get_string env p n = Ok (v, d) <-> ReadsAs env p n v d).
Proof. exact get_string_precedence. Qed.

(** Some value is always read, and only one. *)
Theorem C01_option_total : forall env p n, lookup n (p_flags p) <> Some None ->
  exists v d, get_string env p n = Ok (v, d) /\ ReadsAs env p n v d.
Proof. exact get_string_reads. Qed.

(** Over every history of provider calls, each source holds what was last put in it. *)
Theorem C01_sources_hold_last_binding : forall os p, config_run new_provider os = Ok p -> forall n,
  (forall e, lookup n (p_env_vars p) = Some e <-> last_assigned (binds_env n) os e)
  /\ (forall f, lookup n (p_flags p) = Some f <-> last_assigned (binds_flag n) os f)
  /\ (forall v, lookup n (p_config p) = Some v <-> last_assigned (loads_entry n) os v).
Proof. exact run_sources_assigned. Qed.

(** A provider in which every source but the flag's changed value competes. *)
Definition ex_ops : list config_op :=
  [ OpBindEnvVar "connectProtocol" "CELERITY_CONNECT_PROTOCOL";
    OpBindPFlag "connectProtocol" (Some {| flag_value := "unix"; flag_changed := false |});
    OpBindPFlag "retries" (Some {| flag_value := " "; flag_changed := true |});
    OpBindEnvVar "retries" "RETRIES";
    OpLoadEntries [("connectProtocol", "tcp"); ("retries", "-2147483648"); ("retries", "+7")] ].
Definition ex_provider : provider :=
  match config_run new_provider ex_ops with Ok p => p | _ => new_provider end.
Definition ex_env (n : string) : option string :=
  if String.eqb n "CELERITY_CONNECT_PROTOCOL" then Some "  " else None.

Example C01_nonvacuous :
  config_run new_provider ex_ops = Ok ex_provider
  /\ lookup "connectProtocol" (p_flags ex_provider) <> Some None
  /\ get_string ex_env ex_provider "connectProtocol" = Ok ("tcp", false)
  /\ get_string ex_env ex_provider "retries" = Ok ("+7", false)
  /\ get_string ex_env (bind_pflag new_provider "a"
        (Some {| flag_value := "x"; flag_changed := false |})) "a" = Ok ("x", true).
Proof. repeat split; vm_compute; congruence. Qed.

(** *** C02 *)

Theorem C02_int32 : forall env p n v d, lookup n (p_flags p) <> Some None ->
  (get_int32 env p n = Ok (v, d) <->
   exists s, ReadsAs env p n s d /\ reads_int denotes_int (- 2 ^ 31) (2 ^ 31 - 1) s v).
Proof. exact get_int32_spec. Qed.
Theorem C02_int64 : forall env p n v d, lookup n (p_flags p) <> Some None ->
  (get_int64 env p n = Ok (v, d) <->
   exists s, ReadsAs env p n s d /\ reads_int denotes_int (- 2 ^ 63) (2 ^ 63 - 1) s v).
Proof. exact get_int64_spec. Qed.
Theorem C02_uint32 : forall env p n v d, lookup n (p_flags p) <> Some None ->
  (get_uint32 env p n = Ok (v, d) <->
   exists s, ReadsAs env p n s d /\ reads_int denotes_nat 0 (2 ^ 32 - 1) s v).
Proof. exact get_uint32_spec. Qed.
Theorem C02_uint64 : forall env p n v d, lookup n (p_flags p) <> Some None ->
  (get_uint64 env p n = Ok (v, d) <->
   exists s, ReadsAs env p n s d /\ reads_int denotes_nat 0 (2 ^ 64 - 1) s v).
Proof. exact get_uint64_spec. Qed.
Theorem C02_bool : forall env p n v d, lookup n (p_flags p) <> Some None ->
  (get_bool env p n = Ok (v, d) <->
   exists s, ReadsAs env p n s d /\ (v = true <-> In s true_texts)).
Proof. exact get_bool_spec. Qed.

(** The text of an integer denotes that integer only, so a printed integer is read back. *)
Theorem C02_numerals_unambiguous : forall s x y, denotes_int s x -> denotes_int s y -> x = y.
Proof. exact denotes_int_fun. Qed.
Theorem C02_int32_round_trip : forall env p n d z,
  lookup n (p_flags p) <> Some None -> - 2 ^ 31 <= z <= 2 ^ 31 - 1 ->
  ReadsAs env p n (decimal_text z) d -> get_int32 env p n = Ok (z, d).
Proof. exact int32_round_trip. Qed.
Theorem C02_int64_round_trip : forall env p n d z,
  lookup n (p_flags p) <> Some None -> - 2 ^ 63 <= z <= 2 ^ 63 - 1 ->
  ReadsAs env p n (decimal_text z) d -> get_int64 env p n = Ok (z, d).
Proof. exact int64_round_trip. Qed.
Theorem C02_uint32_round_trip : forall env p n d z,
  lookup n (p_flags p) <> Some None -> 0 <= z <= 2 ^ 32 - 1 ->
  ReadsAs env p n (decimal_text z) d -> get_uint32 env p n = Ok (z, d).
Proof. exact uint32_round_trip. Qed.
Theorem C02_uint64_round_trip : forall env p n d z,
  lookup n (p_flags p) <> Some None -> 0 <= z <= 2 ^ 64 - 1 ->
  ReadsAs env p n (decimal_text z) d -> get_uint64 env p n = Ok (z, d).
Proof. exact uint64_round_trip. Qed.

Definition ex_file (v : string) : provider :=
  {| p_config := [("o", v)]; p_flags := []; p_env_vars := []; p_defaults := None |}.
Example C02_nonvacuous :
  get_int32 ex_env (ex_file "-2147483648") "o" = Ok (-2147483648, false)
  /\ get_int32 ex_env (ex_file "2147483648") "o" = Ok (0, false)
  /\ get_int64 ex_env (ex_file "+009") "o" = Ok (9, false)
  /\ get_uint64 ex_env (ex_file "18446744073709551615") "o" = Ok (18446744073709551615, false)
  /\ get_uint64 ex_env (ex_file "18446744073709551616") "o" = Ok (0, false)
  /\ get_uint32 ex_env (ex_file "+1") "o" = Ok (0, false)
  /\ get_bool ex_env (ex_file "TRUE") "o" = Ok (true, false)
  /\ decimal_text (-2147483648) = "-2147483648".
Proof. repeat split; vm_compute; reflexivity. Qed.

(** *** C03.  The property is false of the code: the constructor leaves the
    defaults map nil, so registering any default crashes. *)
Theorem C03_registered_default_refuted :
  exists name dflt : string,
    config_run new_provider [OpSetDefault name dflt] = Panic.
Proof. exists "connectProtocol", "unix". reflexivity. Qed.

(** It is false for every name and default, at every point of every history. *)
Theorem C03_set_default_always_panics : forall os n v,
  In (OpSetDefault n v) os -> config_run new_provider os = Panic.
Proof. intros os n v. exact (run_set_default_panics os new_provider n v eq_refl). Qed.

(** What remains true: with no source the option reads as empty or as its
    flag's default, never as a registered default. *)
Theorem C03_defaults_partial : forall env os p n,
  config_run new_provider os = Ok p ->
  (forall x, ~ registered_default p n x)
  /\ (forall v d, ReadsAs env p n v d -> d = true -> v = "" \/ flag_default p n v).
Proof. exact no_registered_default. Qed.

Example C03_nonvacuous : ReadsAs ex_env ex_provider "nothing" "" true.
Proof. apply C01_option_precedence; vm_compute; [congruence|reflexivity]. Qed.

(** *** C04 *)

Theorem C04_connect_protocol : forall goos v,
  validate_connect_protocol goos v = true <-> v = "tcp" \/ (v = "unix" /\ goos <> "windows").
Proof. exact validate_connect_protocol_spec. Qed.

Theorem C04_language : forall v, validate_language v = true <->
  v = "" \/ v = "nodejs" \/ v = "python" \/ v = "java" \/ v = "dotnet" \/ v = "go" \/ v = "rust".
Proof. exact validate_language_spec. Qed.

Theorem C04_config_extension : forall path,
  (exists f, format_of path = Some f) <->
  exists stem, path = stem ++ ".yaml" \/ path = stem ++ ".yml" \/ path = stem ++ ".json" \/ path = stem ++ ".toml".
Proof. exact format_of_spec. Qed.

(** A command runs only after its config file was opened and decoded and the
    protocol option, read with the file loaded, is acceptable ... *)
Theorem C04_command_runs_only_if : forall open_file decode env goos p path p',
  pre_run open_file decode env goos p path = Ok p' ->
  (exists content fmt entries, open_file path = Some content /\ format_of path = Some fmt
     /\ decode fmt content = Some entries
     /\ p' = {| p_config := merge_config (p_config p) entries; p_flags := p_flags p;
                p_env_vars := p_env_vars p; p_defaults := p_defaults p |})
  /\ exists v d, ReadsAs env p' "connectProtocol" v d
       /\ (v = "tcp" \/ (v = "unix" /\ goos <> "windows")).
Proof. exact pre_run_spec. Qed.

(** ... and it does run when all of that holds. *)
Theorem C04_command_runs_if : forall open_file decode env goos p path content fmt entries v d p',
  open_file path = Some content -> format_of path = Some fmt -> decode fmt content = Some entries ->
  p' = {| p_config := merge_config (p_config p) entries; p_flags := p_flags p;
          p_env_vars := p_env_vars p; p_defaults := p_defaults p |} ->
  lookup "connectProtocol" (p_flags p) <> Some None ->
  ReadsAs env p' "connectProtocol" v d ->
  (v = "tcp" \/ (v = "unix" /\ goos <> "windows")) ->
  pre_run open_file decode env goos p path = Ok p'.
Proof. exact pre_run_complete. Qed.

(** A config file that cannot be opened stops every command (even the default one). *)
Theorem C04_missing_config_file_stops : forall open_file decode env goos p path,
  open_file path = None -> pre_run open_file decode env goos p path = Err (PreLoad OpenFailed).
Proof. exact pre_run_no_file. Qed.

Theorem C04_init_language : forall env p lang, lookup "initLanguage" (p_flags p) <> Some None ->
  (init_run env p = Ok lang <->
   (exists d, ReadsAs env p "initLanguage" lang d) /\
   In lang [""; "nodejs"; "python"; "java"; "dotnet"; "go"; "rust"]).
Proof. exact init_run_spec. Qed.

(** A language that is not supported, and a protocol or a file that is not acceptable, is an error,
    never a crash. *)
Theorem C04_never_crashes : forall open_file decode env goos p path,
  (lookup "connectProtocol" (p_flags p) <> Some None -> pre_run open_file decode env goos p path <> Panic) /\
  (lookup "initLanguage" (p_flags p) <> Some None -> init_run env p <> Panic).
Proof.
  assert (T : forall env p name, lookup name (p_flags p) <> Some None -> exists v d, get_string env p name = Ok (v, d)).
  { intros env p name H. unfold get_string. destruct (lookup name (p_flags p)) as [[f|]|]; [|congruence|].
    - destruct (negb (trims_to_empty (flag_value f))); [destruct (flag_changed f)|]; try (destruct (get_string_rest _ _ _ _)); eauto.
    - destruct (get_string_rest _ _ _ _); eauto. }
  intros open_file decode env goos p path. split; intros H.
  - unfold pre_run. destruct (load_config_file open_file decode p path) as [p'|e|] eqn:E; [|discriminate|].
    + assert (F : p_flags p' = p_flags p).
      { unfold load_config_file in E. destruct (open_file path); [|discriminate]. destruct (format_of path); [|discriminate]. destruct (decode _ _); [|discriminate]. now injection E as <-. }
      rewrite <- F in H. destruct (T env p' "connectProtocol" H) as (v & d & ->). now destruct (validate_connect_protocol goos v).
    + unfold load_config_file in E. destruct (open_file path); [|discriminate]. destruct (format_of path); [|discriminate]. destruct (decode _ _); discriminate.
  - unfold init_run. destruct (T env p "initLanguage" H) as (v & d & ->). now destruct (validate_language v).
Qed.

Definition ex_open (path : string) : option string :=
  if String.eqb path "celerity.config.toml" then Some "connectProtocol = 'tcp'" else None.
Definition ex_decode (f : file_format) (c : string) : option (smap string) :=
  Some [("connectProtocol", "tcp")].
Example C04_nonvacuous :
  is_ok (pre_run ex_open ex_decode ex_env "windows" new_provider "celerity.config.toml") = true
  /\ pre_run ex_open ex_decode (fun _ => Some "unix") "windows" ex_provider "celerity.config.toml"
     = Err (PreProtocol "unix")
  /\ init_run ex_env (bind_pflag new_provider "initLanguage"
        (Some {| flag_value := "go"; flag_changed := true |})) = Ok "go"
  /\ init_run ex_env (bind_pflag new_provider "initLanguage"
        (Some {| flag_value := "Go"; flag_changed := true |})) = Err "Go".
Proof. repeat split; vm_compute; reflexivity. Qed.

Print Assumptions C01_option_precedence.
Print Assumptions C01_option_total.
Print Assumptions C01_sources_hold_last_binding.
Print Assumptions C02_int32.
Print Assumptions C02_int64.
Print Assumptions C02_uint32.
Print Assumptions C02_uint64.
Print Assumptions C02_bool.
Print Assumptions C02_int64_round_trip.
Print Assumptions C03_set_default_always_panics.
Print Assumptions C03_defaults_partial.
Print Assumptions C04_config_extension.
Print Assumptions C04_command_runs_only_if.
Print Assumptions C04_command_runs_if.
Print Assumptions C04_init_language.
Print Assumptions C04_never_crashes.
