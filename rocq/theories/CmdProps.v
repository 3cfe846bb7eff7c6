(** C129 to C131: the command line.  Model: CmdModel.v.  Vocabulary: CmdSpec.v. *)
From Verif Require Import Base ConfigModel ConfigSpec ConfigProofs CmdModel CmdSpec CmdProofs.
Open Scope string_scope.
Local Open Scope list_scope.

Section Params.
Variable open_file : string -> option string.
Variable decode : file_format -> string -> option (smap string).
Variable env : string -> option string.
Variable goos : string.
Notation execute := (execute open_file decode env goos).
Notation starts := (starts open_file decode env goos).

Lemma protocol_iff v : validate_connect_protocol goos v = true <-> protocol_ok goos v.
Proof.
  unfold validate_connect_protocol, protocol_ok. destruct (String.eqb_spec v "tcp") as [->|N]; [tauto|]. destruct (String.eqb_spec v "unix") as [->|N'].
  - destruct (String.eqb_spec goos "windows") as [E|E]; split; intros H; try discriminate; try reflexivity; [destruct H as [H|[_ H]]; [discriminate|contradiction]|right; auto].
  - split; [discriminate|]. intros [?|[? _]]; congruence.
Qed.
Lemma language_iff l : validate_language l = true <-> language_ok l.
Proof.
  unfold validate_language, language_ok. destruct (String.eqb_spec l "") as [->|N]; [cbn; tauto|]. rewrite existsb_exists. split.
  - intros (x & Hx & ->%String.eqb_eq). right. exact Hx.
  - intros [E|H]; [congruence|]. exists l. split; [exact H|apply String.eqb_refl].
Qed.
(** The provider a command runs with *)
Definition loaded (sets : list (string * string)) (file : smap string) : provider :=
  {| p_config := merge_config [] file; p_flags := p_flags (provider_for sets); p_env_vars := p_env_vars (provider_for sets); p_defaults := None |}.
Lemma blank_text s : trims_to_empty s = false -> ~ Blank s.
Proof. intros H B. apply trims_to_empty_Blank in B. congruence. Qed.
Lemma loaded_force sets file s v b : In s [protocol_setting; language_setting; blueprint_setting] ->
  (get_string env (loaded sets file) (s_key s) = Ok (v, b) <-> in_force env file sets s v b).
Proof.
  intros [<-|[<-|[<-|[]]]].
  - apply (force env (loaded sets file) file sets protocol_setting (mk_fdef "connect-protocol" "" false "unix")); try reflexivity. right. apply blank_text. reflexivity.
  - apply (force env (loaded sets file) file sets language_setting (mk_fdef "language" "l" false "")); try reflexivity. now left.
  - apply (force env (loaded sets file) file sets blueprint_setting (mk_fdef "blueprint-file" "b" false "app.blueprint.yaml")); try reflexivity. right. apply blank_text. reflexivity.
Qed.
Lemma get_total sets p name : p_flags p = p_flags (provider_for sets) -> exists v b, get_string env p name = Ok (v, b).
Proof.
  intros X. unfold get_string. rewrite X.
  destruct (lookup name (p_flags (provider_for sets))) as [[f|]|] eqn:E.
  - destruct (negb (trims_to_empty (flag_value f))); [destruct (flag_changed f)|]; try (destruct (get_string_rest _ _ _ _)); eauto.
  - exfalso. revert E. cbn. repeat (match goal with |- context [String.eqb ?a ?b] => destruct (String.eqb a b); [discriminate|] end). discriminate.
  - destruct (get_string_rest _ _ _ _); eauto.
Qed.
Lemma pre_iff sets p : ~ In "config" (map fst sets) -> (pre_run open_file decode env goos (provider_for sets) (value_or "config" "celerity.config.toml" sets) = Ok p <->
  exists content file v b, open_file "celerity.config.toml" = Some content /\ decode Toml content = Some file /\
    in_force env file sets protocol_setting v b /\ protocol_ok goos v /\ p = loaded sets file).
Proof.
  intros Nc. apply value_none in Nc. unfold value_or. rewrite Nc. unfold pre_run, load_config_file. destruct (open_file "celerity.config.toml") as [content|]; [|split; [discriminate|intros (? & ? & ? & ? & ? & _); discriminate]].
  change (format_of "celerity.config.toml") with (Some Toml). cbv iota. destruct (decode Toml content) as [file|] eqn:Ed; [|split; [discriminate|intros (? & ? & ? & ? & [= <-] & ? & _); congruence]].
  change {| p_config := merge_config (p_config (provider_for sets)) file; p_flags := p_flags (provider_for sets); p_env_vars := p_env_vars (provider_for sets); p_defaults := p_defaults (provider_for sets) |} with (loaded sets file).
  destruct (get_total sets (loaded sets file) "connectProtocol" eq_refl) as (v & b & E). rewrite E. assert (E' := proj1 (loaded_force sets file protocol_setting v b (or_introl eq_refl)) E).
  destruct (validate_connect_protocol goos v) eqn:V.
  - apply protocol_iff in V. split; [intros [= <-]; exists content, file, v, b; auto|]. intros (c' & f' & v' & b' & [= <-] & D & _ & _ & ->). now replace f' with file by congruence.
  - split; [discriminate|]. intros (c' & f' & v' & b' & [= <-] & D & F & P & ->). exfalso. assert (f' = file) by congruence. subst f'.
    apply (loaded_force sets file protocol_setting v' b' (or_introl eq_refl)) in F. cbn [s_key protocol_setting] in F. rewrite E in F. injection F as <- <-. apply protocol_iff in P. congruence.
Qed.
Lemma body_iff c sets file a : own c -> (body env c (loaded sets file) = Ok a <-> does env file sets c a).
Proof.
  intros Hc. apply own_cases in Hc. destruct Hc as [-> |[-> | ->]]; cbn [body].
  - split; [intros [= <-]; constructor|]. intros H. inversion H. reflexivity.
  - unfold init_run. destruct (get_total sets (loaded sets file) "initLanguage" eq_refl) as (v & b & E). rewrite E.
    assert (E' := proj1 (loaded_force sets file language_setting v b ltac:(cbn; auto)) E). destruct (validate_language v) eqn:V.
    + apply language_iff in V. split; [intros [= <-]; econstructor; eassumption|]. intros H. inversion H as [|l b' F L|]; subst.
      apply (loaded_force sets file language_setting l b' ltac:(cbn; auto)) in F. cbn [s_key language_setting] in F. rewrite E in F. now injection F as <- _.
    + split; [discriminate|]. intros H. exfalso. inversion H as [|l b' F L|]; subst.
      apply (loaded_force sets file language_setting l b' ltac:(cbn; auto)) in F. cbn [s_key language_setting] in F. rewrite E in F. injection F as <- _. apply language_iff in L. congruence.
  - destruct (get_total sets (loaded sets file) "validateBlueprintFile" eq_refl) as (v & b & E). rewrite E.
    assert (E' := proj1 (loaded_force sets file blueprint_setting v b ltac:(cbn; auto)) E). split; [intros [= <-]; now constructor|]. intros H. inversion H as [| |f b' F]; subst.
    apply (loaded_force sets file blueprint_setting f b' ltac:(cbn; auto)) in F. cbn [s_key blueprint_setting] in F. rewrite E in F. now injection F as <- <-.
Qed.
Lemma written_option c toks name v : own c -> written c toks name v -> name <> "help" /\ name <> "config".
Proof.
  intros Hc H. assert (X : (exists s, In (name, s) (valued c)) \/ In name switches) by (inversion H; subst; eauto).
  commands Hc; destruct X as [[s X]|X]; each X; try (injection X as <- <-); subst; split; discriminate.
Qed.
Lemma options_names c before sets : own c -> options c before sets -> ~ In "help" (map fst sets) /\ ~ In "config" (map fst sets).
Proof.
  intros Hc H. induction H as [|w args sets Hw H IH|toks name v args sets Hw H IH]; [split; intros []|exact IH|].
  destruct (written_option _ _ _ _ Hc Hw). cbn. split; intros [E|E]; tauto || congruence.
Qed.
Lemma line_names c args sets words : own c -> line c args sets words -> ~ In "help" (map fst sets) /\ ~ In "config" (map fst sets).
Proof.
  intros Hc H. induction H as [|words|w args sets words Hw H IH|toks name v args sets words Hw H IH]; [split; intros []|split; intros []|exact IH|].
  destruct (written_option _ _ _ _ Hc Hw). cbn. split; intros [E|E]; tauto || congruence.
Qed.
(** A command line that names a command and gives it options it has, in any of the forms, before or
    after its name, starts it if the settings in force allow it, and then the command does what they
    say. *)
Theorem C129_runs : forall args a, starts args a -> execute args = Ok a.
Proof.
  intros args a.
  intros (c & sets & content & file & v & b & (name & before & after & s1 & s2 & w & Hn & -> & O & L & ->) & Ho & Hd & F & P & D).
    assert (Hc : own c) by now exists name. unfold CmdModel.execute. rewrite (own_find _ _ _ _ Hn (options_blocks _ _ _ Hc O)). cbn [obind].
    destruct (options_line _ _ _ _ _ _ O L) as (w' & L'). destruct (parse_line _ Hc _ _ _ L') as [Ep Hh].
    assert (Nc : ~ In "config" (map fst (s1 ++ s2))) by now apply (line_names _ _ _ _ Hc L').
    assert (G : (let! (sets, words) := parse_args (all c) (before ++ after) in
                  if String.eqb (value_or "help" "false" sets) "true" then Ok ShowHelp
                  else match pre_run open_file decode env goos (provider_for sets) (value_or "config" "celerity.config.toml" sets) with
                       | Ok p => body env c p | Err e => Err (Setup e) | Panic => Panic end) = Ok a).
    { rewrite Ep. cbn [obind]. unfold value_or at 1. rewrite (proj2 (value_none _ _) Hh). cbn [String.eqb]. 
      rewrite (proj2 (pre_iff _ _ Nc) (ex_intro _ content (ex_intro _ file (ex_intro _ v (ex_intro _ b (conj Ho (conj Hd (conj F (conj P eq_refl))))))))). now apply body_iff. }
    clear -G Hc. apply own_cases in Hc. destruct Hc as [-> |[-> | ->]]; exact G.
Qed.
(** No other command line that does not mention help starts a command. *)
Theorem C129_exact : forall args a, runs a -> ~ mentions_help args -> (execute args = Ok a <-> starts args a).
Proof.
  intros args a Ha Hm. split; [|apply C129_runs].
  intros H. unfold CmdModel.execute in H. destruct (find_command args) as [[c rest]| |] eqn:Ef; [|discriminate|discriminate]. cbn [obind] in H.
    destruct c as [c|].
    2: { destruct (parse_args _ rest) as [[sets words]| |]; [|discriminate|discriminate]. cbn [obind] in H. destruct (String.eqb _ "true"); injection H as <-; destruct Ha. }
    assert (Hc : own c).
    { destruct c; try (injection H as <-; destruct Ha); [exists "version"|exists "init"|exists "validate"]; cbn; auto. }
    destruct (find_own _ _ _ Ef Hc) as (name & before & after & Hn & -> & B & ->).
    assert (H' : (let! (sets, words) := parse_args (all c) (before ++ after) in
                  if String.eqb (value_or "help" "false" sets) "true" then Ok ShowHelp
                  else match pre_run open_file decode env goos (provider_for sets) (value_or "config" "celerity.config.toml" sets) with
                       | Ok p => body env c p | Err e => Err (Setup e) | Panic => Panic end) = Ok a).
    { apply own_cases in Hc. destruct Hc as [-> |[-> | ->]]; exact H. }
    clear H. destruct (parse_args (all c) (before ++ after)) as [[sets words]| |] eqn:Ep; [|discriminate|discriminate]. cbn [obind] in H'.
    destruct (String.eqb (value_or "help" "false" sets) "true") eqn:Eh; [injection H' as <-; destruct Ha|].
    assert (Hh : ~ In "help" (map fst sets)).
    { intros Hi. apply Hm. destruct (parse_help _ Hc _ _ _ Ep Hi) as (s & x & Hs & Hx). exists s, x. split; [|exact Hx]. rewrite in_app_iff in Hs |- *. cbn. tauto. }
    destruct (blocks_options _ _ Hc B _ _ _ Ep Hh) as (s1 & s2 & w & O & L & ->).
    assert (Nc : ~ In "config" (map fst (s1 ++ s2))).
    { rewrite map_app, in_app_iff. intros [X|X]; [now apply (options_names _ _ _ Hc O)|now apply (line_names _ _ _ _ Hc L)]. }
    destruct (pre_run _ _ _ _ _ _) as [p| |] eqn:Er; [|discriminate|discriminate]. apply (pre_iff _ _ Nc) in Er. destruct Er as (content & file & v & b & Ho & Hd & F & P & ->).
    apply body_iff in H'; [|exact Hc]. exists c, (s1 ++ s2), content, file, v, b. split; [|auto 6]. exists name, before, after, s1, s2, w. auto.
Qed.
(** What is done once the command and its options are known *)
Definition act (c : command) (sets : list (string * string)) : outcome cmd_error action :=
  match open_file "celerity.config.toml" with
  | None => Err (Setup (PreLoad OpenFailed))
  | Some content =>
      match decode Toml content with
      | None => Err (Setup (PreLoad DecodeFailed))
      | Some file =>
          match get_string env (loaded sets file) "connectProtocol" with
          | Ok (v, _) => if validate_connect_protocol goos v then body env c (loaded sets file) else Err (Setup (PreProtocol v))
          | _ => Panic
          end
      end
  end.
Lemma act_run c sets : ~ In "config" (map fst sets) ->
  match pre_run open_file decode env goos (provider_for sets) (value_or "config" "celerity.config.toml" sets) with Ok p => body env c p | Err e => Err (Setup e) | Panic => Panic end = act c sets.
Proof.
  intros Nc. apply value_none in Nc. unfold value_or. rewrite Nc. unfold pre_run, load_config_file, act. destruct (open_file "celerity.config.toml") as [content|]; [|reflexivity].
  change (format_of "celerity.config.toml") with (Some Toml). cbv iota. destruct (decode Toml content) as [file|]; [|reflexivity].
  change {| p_config := merge_config (p_config (provider_for sets)) file; p_flags := p_flags (provider_for sets); p_env_vars := p_env_vars (provider_for sets); p_defaults := p_defaults (provider_for sets) |} with (loaded sets file).
  destruct (get_total sets (loaded sets file) "connectProtocol" eq_refl) as (v & b & E). rewrite E. now destruct (validate_connect_protocol goos v).
Qed.
Lemma own_run c name before after : In (name, c) commands -> blocks before ->
  execute (before ++ name :: after) = let! (sets, words) := parse_args (all c) (before ++ after) in
    if String.eqb (value_or "help" "false" sets) "true" then Ok ShowHelp else act c sets.
Proof.
  intros Hn B. assert (Hc : own c) by now exists name. unfold CmdModel.execute. rewrite (own_find _ _ _ _ Hn B). cbn [obind].
  assert (G : (let! (sets, words) := parse_args (all c) (before ++ after) in
                if String.eqb (value_or "help" "false" sets) "true" then Ok ShowHelp
                else match pre_run open_file decode env goos (provider_for sets) (value_or "config" "celerity.config.toml" sets) with
                     | Ok p => body env c p | Err e => Err (Setup e) | Panic => Panic end) =
              let! (sets, words) := parse_args (all c) (before ++ after) in if String.eqb (value_or "help" "false" sets) "true" then Ok ShowHelp else act c sets).
  { destruct (parse_args (all c) (before ++ after)) as [[sets words]| |] eqn:Ep; [|reflexivity|reflexivity]. cbn [obind]. destruct (String.eqb _ "true"); [reflexivity|].
    apply act_run. intros Hi. assert (X := parse_names _ Hc _ _ _ Ep _ Hi). clear -X Hc. commands Hc; cbn in X; repeat (destruct X as [X|X]; [discriminate|]); exact X. }
  clear Hn. apply own_cases in Hc. destruct Hc as [-> |[-> | ->]]; exact G.
Qed.
Lemma invoked_run c args sets : invoked c args sets -> execute args = act c sets.
Proof.
  intros (name & before & after & s1 & s2 & w & Hn & -> & O & L & ->). assert (Hc : own c) by now exists name.
  rewrite (own_run _ _ _ _ Hn (options_blocks _ _ _ Hc O)). destruct (options_line _ _ _ _ _ _ O L) as (w' & L'). destruct (parse_line _ Hc _ _ _ L') as [Ep Hh].
  rewrite Ep. cbn [obind]. unfold value_or. now rewrite (proj2 (value_none _ _) Hh).
Qed.
Definition read : list (string * string) := [("connectProtocol", "connect-protocol"); ("initLanguage", "language"); ("validateBlueprintFile", "blueprint-file")].
Lemma get_same s1 s2 file key o : In (key, o) read -> value_set o s1 = value_set o s2 -> get_string env (loaded s1 file) key = get_string env (loaded s2 file) key.
Proof.
  intros H E. unfold get_string, get_string_rest.
  assert (X : forall s, exists f, lookup key (p_flags (loaded s file)) = Some (Some (flag_after s f)) /\ f_name f = o /\ (key, f) = (key, snd (fst (match key with "connectProtocol" => nth 1 bindings ("", help_flag, "") | "initLanguage" => nth 4 bindings ("", help_flag, "") | _ => nth 5 bindings ("", help_flag, "") end))) /\
               lookup key (p_env_vars (loaded s file)) = lookup key (p_env_vars (provider_for []))).
  { intros s. each H; injection H as <- <-; eexists; (split; [reflexivity|]); (split; [reflexivity|]); split; reflexivity. }
  destruct (X s1) as (f1 & A1 & B1 & C1 & D1). destruct (X s2) as (f2 & A2 & B2 & C2 & D2). rewrite A1, A2, D1, D2. assert (f1 = f2) by congruence. subst f2. clear -E B1.
  unfold flag_after. rewrite B1, E. reflexivity.
Qed.
Lemma act_same c s1 s2 : own c -> (forall key o, In (key, o) read -> value_set o s1 = value_set o s2) -> act c s1 = act c s2.
Proof.
  intros Hc H. unfold act. destruct (open_file "celerity.config.toml") as [content|]; [|reflexivity]. destruct (decode Toml content) as [file|]; [|reflexivity].
  assert (G : forall key o, In (key, o) read -> get_string env (loaded s1 file) key = get_string env (loaded s2 file) key) by (intros key o Hi; exact (get_same s1 s2 file key o Hi (H key o Hi))).
  rewrite (G "connectProtocol" "connect-protocol" ltac:(cbn; auto)). destruct (get_string env (loaded s2 file) "connectProtocol") as [[v b]| |]; [|reflexivity|reflexivity].
  destruct (validate_connect_protocol goos v); [|reflexivity]. clear -G Hc. apply own_cases in Hc. destruct Hc as [-> |[-> | ->]]; cbn [body]; [reflexivity| |].
  - unfold init_run. now rewrite (G "initLanguage" "language" ltac:(cbn; auto)).
  - now rewrite (G "validateBlueprintFile" "blueprint-file" ltac:(cbn; auto)).
Qed.
(** Only the value given last counts, wherever and however the options are written. *)
Theorem C129_last_counts : forall c args1 sets1 args2 sets2, invoked c args1 sets1 -> invoked c args2 sets2 ->
  (forall name v, given_last sets1 name v <-> given_last sets2 name v) -> execute args1 = execute args2.
Proof.
  intros c args1 sets1 args2 sets2 H1 H2 E. rewrite (invoked_run _ _ _ H1), (invoked_run _ _ _ H2). apply act_same.
  - destruct H1 as (name & _ & _ & _ & _ & _ & Hn & _). now exists name.
  - intros key o _. destruct (value_set o sets1) as [v|] eqn:V.
    + apply value_last, E, value_last in V. now rewrite V.
    + destruct (value_set o sets2) as [v|] eqn:V'; [|reflexivity]. apply value_last, E, value_last in V'. congruence.
Qed.
Theorem C129_never_panics : forall args, execute args <> Panic.
Proof.
  intros args. unfold CmdModel.execute. destruct (find_command args) as [[c rest]| |] eqn:Ef; [|discriminate|].
  2: { unfold find_command in Ef. destruct (strip_flags _ _); [discriminate|]. destruct (command_named _); discriminate. }
  cbn [obind]. assert (P : forall fs, parse_args fs rest <> Panic) by (intros fs; apply parse_no_panic).
  assert (A : forall c, own c -> forall sets, match pre_run open_file decode env goos (provider_for sets) (value_or "config" "celerity.config.toml" sets) with Ok p => body env c p | Err e => Err (Setup e) | Panic => Panic end <> Panic).
  { intros c' Hc sets. unfold pre_run, load_config_file. destruct (open_file _) as [content|]; [|discriminate]. destruct (format_of _) as [fmt|]; [|discriminate]. destruct (decode fmt content) as [file|]; [|discriminate].
    match goal with |- context [get_string env ?p "connectProtocol"] => destruct (get_total sets p "connectProtocol" eq_refl) as (v & b & ->); assert (T : forall name, exists v b, get_string env p name = Ok (v, b)) by (intros name; exact (get_total sets p name eq_refl)); revert T; generalize p end.
    intros p T. destruct (validate_connect_protocol goos v); [|discriminate]. apply own_cases in Hc. destruct Hc as [-> |[-> | ->]]; cbn [body]; [discriminate| |].
    - unfold init_run. destruct (T "initLanguage") as (l & d & ->). destruct (validate_language l); discriminate.
    - destruct (T "validateBlueprintFile") as (l & d & ->). discriminate. }
  assert (B : forall c, own c -> (let! (sets, words) := parse_args (help_flag :: flags_of (Some c)) rest in
     if String.eqb (value_or "help" "false" sets) "true" then Ok ShowHelp
     else match pre_run open_file decode env goos (provider_for sets) (value_or "config" "celerity.config.toml" sets) with Ok p => body env c p | Err e => Err (Setup e) | Panic => Panic end) <> Panic).
  { intros c' Hc. specialize (P (help_flag :: flags_of (Some c'))). destruct (parse_args _ rest) as [[sets words]| |]; [|discriminate|contradiction]. cbn [obind]. destruct (String.eqb _ "true"); [discriminate|]. now apply A. }
  destruct c as [[]|]; try discriminate; try (apply B; first [exists "version"; cbn; now auto|exists "init"; cbn; now auto|exists "validate"; cbn; now auto]).
  specialize (P (help_flag :: flags_of None)). destruct (parse_args _ rest) as [[sets words]| |]; [|discriminate|contradiction]. cbn [obind]. destruct (String.eqb _ "true"); discriminate.
Qed.

(** ** C130 *)
(** With a command, the option that names a configuration file is always an error, *)
Theorem C130_rejected_refuted : forall c name o sets flag f rest, In (name, c) commands -> options c o sets -> In flag ["--config"; "-c"] ->
  execute (name :: o ++ flag :: f :: rest) = Err UnknownFlag /\ execute (o ++ flag :: f :: name :: rest) = Err UnknownFlag.
Proof.
  intros c name o sets flag f rest Hn O Hf. assert (Hc : own c) by now exists name. split.
  - change (name :: o ++ flag :: f :: rest) with ([] ++ name :: (o ++ flag :: f :: rest)). rewrite (own_run _ _ [] _ Hn b_nil). cbn [app].
    rewrite (parse_bad _ _ _ flag UnknownFlag (f :: rest) Hc O); [reflexivity|]. commands Hc; each Hf; subst flag; reflexivity.
  - replace (o ++ flag :: f :: name :: rest) with ((o ++ [flag; f]) ++ name :: rest) by now rewrite <- app_assoc. rewrite (own_run _ _ (o ++ [flag; f]) _ Hn).
    + rewrite <- app_assoc. cbn [app]. rewrite (parse_bad _ _ _ flag UnknownFlag (f :: rest) Hc O); [reflexivity|]. commands Hc; each Hf; subst flag; reflexivity.
    + apply blocks_app; [exact (options_blocks _ _ _ Hc O)|]. apply b_two; [|..|constructor]; each Hf; subst flag; try discriminate; reflexivity.
Qed.
(** and without the default file no command starts, not even the one that prints the version, whatever
    is given by options and environment variables. *)
Theorem C130_needed_refuted : forall args a, runs a -> open_file "celerity.config.toml" = None -> execute args <> Ok a.
Proof.
  intros args a Ha Ho H. unfold CmdModel.execute in H. destruct (find_command args) as [[c rest]| |] eqn:Ef; [|discriminate|discriminate]. cbn [obind] in H.
  destruct c as [c|].
  2: { destruct (parse_args _ rest) as [[sets words]| |]; [|discriminate|discriminate]. cbn [obind] in H. destruct (String.eqb _ "true"); injection H as <-; destruct Ha. }
  assert (Hc : own c).
  { destruct c; try (injection H as <-; destruct Ha); [exists "version"|exists "init"|exists "validate"]; cbn; auto. }
  destruct (find_own _ _ _ Ef Hc) as (name & before & after & Hn & -> & B & ->). assert (X : execute (before ++ name :: after) = Ok a).
  { unfold CmdModel.execute. rewrite Ef. exact H. }
  rewrite (own_run _ _ _ _ Hn B) in X. destruct (parse_args _ (before ++ after)) as [[sets words]| |]; [|discriminate|discriminate]. cbn [obind] in X. destruct (String.eqb _ "true"); [injection X as <-; destruct Ha|].
  unfold act in X. now rewrite Ho in X.
Qed.

(** ** C131 *)
(** An option the command does not have is reported. *)
Theorem C131_reported_partial : forall c name o sets n rest, In (name, c) commands -> options c o sets ->
  ~ In n (map fst (valued c)) -> ~ In n switches -> n <> "help" -> n <> "" -> (forall x y, n <> (x ++ "=" ++ y)%string) -> (forall x, n <> ("-" ++ x)%string) ->
  execute (name :: o ++ ("--" ++ n)%string :: rest) = Err UnknownFlag.
Proof.
  intros c name o sets n rest Hn O N1 N2 N3 N4 N5 N6. assert (Hc : own c) by now exists name.
  change (name :: o ++ ("--" ++ n)%string :: rest) with ([] ++ name :: (o ++ ("--" ++ n)%string :: rest)). rewrite (own_run _ _ [] _ Hn b_nil). cbn [app].
  rewrite (parse_bad _ _ _ ("--" ++ n) UnknownFlag rest Hc O); [reflexivity|]. destruct n as [|a n]; [congruence|]. cbn -[all long_token]. unfold long_token.
  destruct (Ascii.eqb a "-") eqn:Da; [apply Ascii.eqb_eq in Da; subst a; elim (N6 n); reflexivity|]. destruct (Ascii.eqb a "=") eqn:Db; [apply Ascii.eqb_eq in Db; subst a; elim (N5 "" n); reflexivity|]. cbn [orb].
  destruct (split_equals (String a n)) as [m [v|]] eqn:E; [apply split_some in E; destruct E as [E _]; elim (N5 m v E)|]. apply split_no in E. destruct E as [<- _].
  destruct (long_flag (all c) (String a n)) as [f|] eqn:Ef; [|reflexivity]. exfalso. destruct (long_inv _ _ _ Hc Ef) as (En & [-> |[[_ [s K]]|[_ K]]]).
  - apply N3. exact En.
  - apply N1. apply in_map_iff. now exists (String a n, s).
  - now apply N2.
Qed.
(** So is a command there is not. *)
Theorem C131_command_partial : forall o sets w rest, options CVersion o sets -> word w -> w <> "" -> w <> "-" -> ~ In w ["version"; "init"; "validate"; "help"; "completion"] ->
  execute (o ++ w :: rest) = Err UnknownCommand.
Proof.
  intros o sets w rest O Hw N1 N2 N3. unfold CmdModel.execute, find_command. fold root. assert (Hc : own CVersion) by (exists "version"; cbn; auto).
  rewrite (strip_pass o (w :: rest) (options_blocks _ _ _ Hc O) ltac:(discriminate)). assert (P : prefix "-" w = false).
  { destruct (prefix "-" w) eqn:E; [|reflexivity]. destruct (prefix_eq _ _ E) as (x & ->). exfalso. apply N2. now rewrite (Hw x eq_refl). }
  assert (P' : prefix "--" w = false).
  { destruct (prefix "--" w) eqn:E; [|reflexivity]. destruct (prefix_eq _ _ E) as (x & ->). discriminate (Hw (String "-" x) eq_refl). }
  cbn [strip_flags]. rewrite (proj2 (String.eqb_neq w "--")), (proj2 (String.eqb_neq w "") N1); [|intros ->; discriminate]. unfold takes_next. rewrite P, P'. cbn [andb orb].
  unfold command_named. rewrite !(proj2 (String.eqb_neq w _)); [reflexivity|..]; intros ->; apply N3; cbn; auto 6.
Qed.
(** The two commands of the library itself are reached. *)
Theorem C131_builtin : forall o sets name c rest, options CVersion o sets -> In (name, c) [("help", CHelp); ("completion", CCompletion)] ->
  execute (o ++ name :: rest) = Ok (Builtin c).
Proof.
  intros o sets name c rest O Hn. unfold CmdModel.execute, find_command. fold root. assert (Hc : own CVersion) by (exists "version"; cbn; auto).
  rewrite (strip_pass o (name :: rest) (options_blocks _ _ _ Hc O) ltac:(discriminate)). destruct Hn as [[= <- <-]|[[= <- <-]|[]]]; reflexivity.
Qed.
(** Words after a command are ignored: the file that is validated cannot be named by one. *)
Theorem C131_words_refuted : forall c name args sets words w, In (name, c) commands -> line c args sets words -> word w -> execute (name :: w :: args) = execute (name :: args).
Proof.
  intros c name args sets words w Hn L Hw. rewrite (invoked_run c (name :: w :: args) sets), (invoked_run c (name :: args) sets); [reflexivity|..].
  - exists name, [], args, [], sets, words. repeat (split; [first [assumption|reflexivity|constructor]|]); reflexivity.
  - exists name, [], (w :: args), [], sets, (w :: words). repeat (split; [first [assumption|reflexivity|constructor; assumption|constructor]|]); reflexivity.
Qed.
(** Three of the options do nothing, whatever their values. *)
Theorem C131_unused_refuted : forall c name args sets words toks n v, In (name, c) commands -> line c args sets words ->
  In n ["deploy-config-file"; "engine-endpoint"; "skip-plugin-config-validation"] -> written c toks n v -> execute (name :: toks ++ args) = execute (name :: args).
Proof.
  intros c name args sets words toks n v Hn L Hi Hw. rewrite (invoked_run c (name :: toks ++ args) ((n, v) :: sets)), (invoked_run c (name :: args) sets).
  - apply act_same; [now exists name|]. intros key o Ho. destruct (value_set o sets) as [x|] eqn:E.
    + apply value_last in E. apply value_last. destruct E as (pre & post & -> & N). now exists ((n, v) :: pre), post.
    + apply value_none in E. apply value_none. cbn. intros [X|X]; [|contradiction]. each Hi; each Ho; subst; injection Ho as <- <-; discriminate.
  - exists name, [], args, [], sets, words. repeat (split; [first [assumption|reflexivity|constructor]|]); reflexivity.
  - exists name, [], (toks ++ args), [], ((n, v) :: sets), words. repeat (split; [first [assumption|reflexivity|constructor; assumption|constructor]|]); reflexivity.
Qed.
End Params.

Lemma command_eq_own c : own c \/ (c = CHelp \/ c = CCompletion).
Proof. destruct c; auto; left; [exists "version"|exists "init"|exists "validate"]; cbn; auto. Qed.
(** Whatever the command line, only the file with the default name is ever read. *)
Theorem C130_one_file_refuted : forall open1 open2 decode env goos args, open1 "celerity.config.toml" = open2 "celerity.config.toml" ->
  execute open1 decode env goos args = execute open2 decode env goos args.
Proof.
  intros open1 open2 decode env goos args E. destruct (find_command args) as [[[c|] rest]| |] eqn:Ef; [|unfold execute; rewrite Ef; reflexivity..].
  destruct (command_eq_own c) as [Hc|Hc]; [|unfold execute; rewrite Ef; destruct Hc as [-> | ->]; reflexivity].
  destruct (find_own _ _ _ Ef Hc) as (name & before & after & Hn & -> & B & ->).
  rewrite (own_run open1 decode env goos _ _ _ _ Hn B), (own_run open2 decode env goos _ _ _ _ Hn B). unfold act. now rewrite E.
Qed.

(** ** The hypotheses are met *)
Definition the_engine : CliModel.client_options := CliModel.mk_client "http://localhost:8325" "tcp" "test-api-key".
Definition no_env : string -> option string := fun _ => None.
Definition some_env : string -> option string := fun n => if String.eqb n "CELERITY_CLI_VALIDATE_BLUEPRINT_FILE" then Some "env.yaml" else None.
Definition one_file : string -> option string := fun n => if String.eqb n "celerity.config.toml" then Some "x" else None.
Definition other_file : string -> option string := fun n => if String.eqb n "my.toml" then Some "x" else one_file n.
Definition reads (l : smap string) : file_format -> string -> option (smap string) := fun _ _ => Some l.
Example C129_nonvacuous :
  execute one_file (reads []) some_env "linux" ["--connect-protocol"; "tcp"; "validate"; "-b=a.yaml"; "--blueprint-file"; "b.yaml"] = Ok (StartValidate "b.yaml" false the_engine) /\
  execute one_file (reads []) some_env "linux" ["validate"; "--connect-protocol=tcp"] = Ok (StartValidate "env.yaml" false the_engine) /\
  execute one_file (reads []) no_env "linux" ["validate"] = Ok (StartValidate "app.blueprint.yaml" true the_engine) /\
  execute one_file (reads [("connectProtocol", "tcp"); ("initLanguage", "go")]) no_env "windows" ["init"; "--skip-plugin-config-validation"] = Ok (StartInit "go") /\
  execute one_file (reads []) no_env "windows" ["version"] = Err (Setup (PreProtocol "unix")) /\
  invoked CValidate ["--connect-protocol"; "tcp"; "validate"; "-b=a.yaml"; "--blueprint-file"; "b.yaml"] [("connect-protocol", "tcp"); ("blueprint-file", "a.yaml"); ("blueprint-file", "b.yaml")] /\
  runs (StartValidate "b.yaml" false the_engine) /\ ~ mentions_help ["--connect-protocol"; "tcp"; "validate"; "-b=a.yaml"; "--blueprint-file"; "b.yaml"].
Proof.
  split; [vm_compute; reflexivity|]. split; [vm_compute; reflexivity|]. split; [vm_compute; reflexivity|]. split; [vm_compute; reflexivity|]. split; [vm_compute; reflexivity|]. split; [|split; [exact I|]].
  - exists "validate", ["--connect-protocol"; "tcp"], ["-b=a.yaml"; "--blueprint-file"; "b.yaml"], [("connect-protocol", "tcp")], [("blueprint-file", "a.yaml"); ("blueprint-file", "b.yaml")], [].
    split; [cbn; auto|]. split; [reflexivity|]. split; [|split; [|reflexivity]].
    + apply (o_option CValidate ["--connect-protocol"; "tcp"] "connect-protocol" "tcp" [] []); [|constructor]. apply (w_next CValidate "connect-protocol" ""). cbn; auto.
    + apply (l_option CValidate ["-b=a.yaml"] "blueprint-file" "a.yaml"); [apply (w_letter_equals CValidate "blueprint-file" "b" "a.yaml"); [cbn; auto|discriminate|discriminate]|].
      apply (l_option CValidate ["--blueprint-file"; "b.yaml"] "blueprint-file" "b.yaml" []); [|constructor]. apply (w_next CValidate "blueprint-file" "b"). cbn; auto.
  - intros (s & x & H & E). cbn in H. repeat (destruct H as [H|H]; [subst s; destruct E; discriminate|]). exact H.
Qed.
Example C130_nonvacuous :
  other_file "my.toml" <> one_file "my.toml" /\ other_file "celerity.config.toml" = one_file "celerity.config.toml" /\
  execute other_file (reads []) no_env "linux" ["version"; "--config"; "my.toml"] = Err UnknownFlag /\
  execute other_file (reads []) no_env "linux" ["-c"; "my.toml"; "version"] = Err UnknownFlag /\
  execute other_file (reads []) no_env "linux" ["--config"; "my.toml"] = Ok ShowHelp /\
  execute (fun _ => None) (reads []) some_env "linux" ["--connect-protocol"; "tcp"; "validate"; "-b=a.yaml"] = Err (Setup (PreLoad OpenFailed)) /\
  options CVersion [] [] /\ In ("version", CVersion) commands /\ runs PrintVersion.
Proof.
  split; [discriminate|]. split; [reflexivity|]. split; [vm_compute; reflexivity|]. split; [vm_compute; reflexivity|]. split; [vm_compute; reflexivity|]. split; [vm_compute; reflexivity|].
  split; [constructor|]. split; [cbn; auto|exact I].
Qed.
Example C131_nonvacuous :
  execute one_file (reads []) no_env "linux" ["validate"; "my.yaml"] = Ok (StartValidate "app.blueprint.yaml" true the_engine) /\
  execute one_file (reads []) no_env "linux" ["validate"; "--engine-endpoint"; "nonsense"] = Ok (StartValidate "app.blueprint.yaml" true the_engine) /\
  execute one_file (reads []) no_env "linux" ["validate"; "--nonsense"] = Err UnknownFlag /\
  execute one_file (reads []) no_env "linux" ["--engine-endpoint=x"; "nonsense"] = Err UnknownCommand /\
  execute one_file (reads []) no_env "linux" ["--engine-endpoint=x"; "help"; "init"] = Ok (Builtin CHelp) /\ options CVersion ["--engine-endpoint=x"] [("engine-endpoint", "x")] /\
  word "my.yaml" /\ line CValidate [] [] [] /\ written CValidate ["--engine-endpoint"; "nonsense"] "engine-endpoint" "nonsense".
Proof.
  split; [vm_compute; reflexivity|]. split; [vm_compute; reflexivity|]. split; [vm_compute; reflexivity|]. split; [vm_compute; reflexivity|]. split; [vm_compute; reflexivity|].
  split; [apply (o_option CVersion ["--engine-endpoint=x"] "engine-endpoint" "x" [] []); [apply (w_equals CVersion "engine-endpoint" ""); cbn; auto|constructor]|]. split; [intros x H; discriminate|]. split; [constructor|].
  apply (w_next CValidate "engine-endpoint" ""). cbn; auto.
Qed.
Print Assumptions C129_runs.
Print Assumptions C129_exact.
Print Assumptions C129_last_counts.
Print Assumptions C129_never_panics.
Print Assumptions C130_rejected_refuted.
Print Assumptions C130_needed_refuted.
Print Assumptions C130_one_file_refuted.
Print Assumptions C131_reported_partial.
Print Assumptions C131_command_partial.
Print Assumptions C131_words_refuted.
Print Assumptions C131_unused_refuted.
Print Assumptions C131_builtin.
