(** Model of the CLI configuration provider and argument validation.
    apps/cli/internal/config/provider.go, apps/cli/cmd/commands/{root,init}.go,
    apps/cli/internal/consts/consts.go. *)
From Verif Require Import Base.
Open Scope string_scope.
Local Open Scope Z_scope.

(** Go strings are bytes (provider.go 91-92) *)
Definition bytes := list ascii.

(** ** Go standard library functions used by the provider. (strings.TrimSpace, provider.go 92 and 106; strconv, 123-219). *)

Definition byte_is (n : N) (c : ascii) : bool := N.eqb (N_of_ascii c) n.
(** strings.TrimSpace and strconv, for provider.go 92, 106 and 123-219 *)
Definition byte_in (lo hi : N) (c : ascii) : bool :=
  (N.leb lo (N_of_ascii c) && N.leb (N_of_ascii c) hi)%bool.

(** One-byte white space of unicode.IsSpace: \t \n \v \f \r and space. Go, for provider.go 92 and 106. *)
Definition space1 (c : ascii) : bool := byte_in 9 13 c || byte_is 32 c.
(** Two-byte UTF-8 encodings: U+0085, U+00A0. *)
Definition space2 (a b : ascii) : bool :=
  byte_is 194 a && (byte_is 133 b || byte_is 160 b).
(** Three-byte UTF-8 encodings: U+1680, U+2000..U+200A, U+2028, U+2029, U+202F,
    U+205F, U+3000. *)
Definition space3 (a b c : ascii) : bool :=
  (byte_is 225 a && byte_is 154 b && byte_is 128 c)
  || (byte_is 226 a && byte_is 128 b
      && (byte_in 128 138 c || byte_is 168 c || byte_is 169 c || byte_is 175 c))
  || (byte_is 226 a && byte_is 129 b && byte_is 159 c)
  || (byte_is 227 a && byte_is 128 b && byte_is 128 c).

(** [strings.TrimSpace(s) == ""] of the Go standard library: stripping white
    space runes from the left consumes the whole string.  Used by provider.go
    92 and 106. *)
Fixpoint trims_to_empty_l (s : bytes) : bool :=
  match s with
  | [] => true
  | a :: s1 =>
      if space1 a then trims_to_empty_l s1
      else match s1 with
           | [] => false
           | b :: s2 =>
               if space2 a b then trims_to_empty_l s2
               else match s2 with
                    | [] => false
                    | c :: s3 => if space3 a b c then trims_to_empty_l s3 else false
                    end
           end
  end.
(** provider.go 92 and 106 *)
Definition trims_to_empty (s : string) : bool := trims_to_empty_l (list_ascii_of_string s).

(** strconv, for provider.go 123-177 *)
Definition digit_value (c : ascii) : option Z :=
  if byte_in 48 57 c then Some (Z.of_N (N_of_ascii c) - 48) else None.

(** The digit loop of strconv.ParseUint for base 10: [None] on a character that
    is not a digit or once the value exceeds [maxv].  Simplification: the
    wrap-around tests of the Go loop ([n >= cutoff], [n1 < n]) are replaced by
    the comparison they implement, [10*n + d > maxv], in unbounded integers. *)
Fixpoint parse_uint_loop (maxv acc : Z) (s : bytes) : option Z :=
  match s with
  | [] => Some acc
  | c :: s' =>
      match digit_value c with
      | None => None
      | Some d => let acc' := acc * 10 + d in
                  if maxv <? acc' then None else parse_uint_loop maxv acc' s'
      end
  end.

(** strconv.ParseUint(s, 10, bits); every error is [None] (the provider only
    looks at err != nil). *)
Definition parse_uint (bits : Z) (s : bytes) : option Z :=
  match s with
  | [] => None
  | _ => parse_uint_loop (2 ^ bits - 1) 0 s
  end.

(** strconv.ParseInt(s, 10, bits): optional sign, magnitude parsed at the same
    bit size, then the range test of each sign. *)
Definition parse_int (bits : Z) (s : bytes) : option Z :=
  match s with
  | [] => None
  | c :: s' =>
      let neg := byte_is 45 c in
      let body := if (byte_is 43 c || byte_is 45 c)%bool then s' else s in
      match parse_uint bits body with
      | None => None
      | Some un =>
          let cutoff := 2 ^ (bits - 1) in
          if (negb neg && (cutoff <=? un))%bool then None
          else if (neg && (cutoff <? un))%bool then None
          else Some (if neg then - un else un)
      end
  end.

(** strconv.ParseBool. (provider.go 207-219). *)
Definition parse_bool (s : string) : option bool :=
  if existsb (String.eqb s) ["1"; "t"; "T"; "true"; "TRUE"; "True"] then Some true
  else if existsb (String.eqb s) ["0"; "f"; "F"; "false"; "FALSE"; "False"] then Some false
  else None.

(** strings.HasSuffix. (provider.go 56-64). *)
Definition has_suffix (s suf : string) : bool :=
  let n := String.length s in
  let k := String.length suf in
  if Nat.ltb n k then false else String.eqb (String.substring (n - k) k s) suf.

(** ** The provider *)

(** pflag.Flag: the fields read by the provider. provider.go 88-98. *)
Record flag := { flag_value : string; flag_changed : bool }.

(** provider.go 33-38.  A flag binding may hold a nil pointer ([None]); the
    defaults map may be nil ([None]). *)
Record provider := {
  p_config : smap string;
  p_flags : smap (option flag);
  p_env_vars : smap string;
  p_defaults : option (smap string)
}.

(** provider.go 42-48: the defaults map is left nil. *)
Definition new_provider : provider :=
  {| p_config := []; p_flags := []; p_env_vars := []; p_defaults := None |}.

(** provider.go 72-74 *)
Definition bind_env_var (p : provider) (name envname : string) : provider :=
  {| p_config := p_config p; p_flags := p_flags p;
     p_env_vars := insert name envname (p_env_vars p); p_defaults := p_defaults p |}.

(** provider.go 76-78 *)
Definition bind_pflag (p : provider) (name : string) (f : option flag) : provider :=
  {| p_config := p_config p; p_flags := insert name f (p_flags p);
     p_env_vars := p_env_vars p; p_defaults := p_defaults p |}.

(** provider.go 80-82: assignment to an entry of a nil map panics. *)
Definition set_default (p : provider) (name v : string) : outcome string provider :=
  match p_defaults p with
  | None => Panic
  | Some d => Ok {| p_config := p_config p; p_flags := p_flags p;
                    p_env_vars := p_env_vars p; p_defaults := Some (insert name v d) |}
  end.

(** provider.go 56-67 *)
Inductive file_format := Yaml | Json | Toml.

(** provider.go 56-69: the format is chosen by suffix. *)
Definition format_of (path : string) : option file_format :=
  if (has_suffix path ".yaml" || has_suffix path ".yml")%bool then Some Yaml
  else if has_suffix path ".json" then Some Json
  else if has_suffix path ".toml" then Some Toml
  else None.

(** provider.go 52-54, 57-66, 69 *)
Inductive load_error := OpenFailed | DecodeFailed | UnsupportedFormat.

(** Decode into the map that is there, provider.go 57-65 *)
Definition merge_config (old new : smap string) : smap string :=
  fold_left (fun m kv => insert (fst kv) (snd kv) m) new old.

Section Load.
  (** The file system and the three third-party decoders are parameters. *)
  Variable open_file : string -> option string.
  Variable decode : file_format -> string -> option (smap string).

  (** provider.go 50-70.  Decoding adds the file's entries to the existing map.
      Simplification: on a decode error the entries decoded before the error are
      not added (the caller stops on the error). *)
  Definition load_config_file (p : provider) (path : string) : outcome load_error provider :=
    match open_file path with
    | None => Err OpenFailed
    | Some content =>
        match format_of path with
        | None => Err UnsupportedFormat
        | Some fmt =>
            match decode fmt content with
            | None => Err DecodeFailed
            | Some entries =>
                Ok {| p_config := merge_config (p_config p) entries; p_flags := p_flags p;
                      p_env_vars := p_env_vars p; p_defaults := p_defaults p |}
            end
        end
    end.
End Load.

Section Get.
  (** os.LookupEnv *)
  Variable env : string -> option string.

  (** provider.go 103-120, the part after the flag has been looked at. *)
  Definition get_string_rest (p : provider) (name default_flag_value : string) : string * bool :=
    let from_config :=
      match lookup name (p_config p) with
      | Some v => (v, false)
      | None =>
          if negb (String.eqb default_flag_value "") then (default_flag_value, true)
          else (match p_defaults p with
                | None => ""
                | Some d => match lookup name d with Some v => v | None => "" end
                end, true)
      end in
    match lookup name (p_env_vars p) with
    | Some envname =>
        match env envname with
        | Some v => if negb (trims_to_empty v) then (v, false) else from_config
        | None => from_config
        end
    | None => from_config
    end.

  (** provider.go 87-121 *)
  Definition get_string (p : provider) (name : string) : outcome unit (string * bool) :=
    match lookup name (p_flags p) with
    | Some None => Panic
    | Some (Some f) =>
        if negb (trims_to_empty (flag_value f)) then
          if flag_changed f then Ok (flag_value f, false)
          else Ok (get_string_rest p name (flag_value f))
        else Ok (get_string_rest p name "")
    | None => Ok (get_string_rest p name "")
    end.

  (** The shape shared by the typed getters, provider.go 123-219. *)
  Definition get_typed {A} (parse : string -> option A) (zero : A)
      (p : provider) (name : string) : outcome unit (A * bool) :=
    let! (v, is_default) := get_string p name in
    if String.eqb v "" then Ok (zero, is_default)
    else match parse v with
         | None => Ok (zero, is_default)
         | Some a => Ok (a, is_default)
         end.

  (** provider.go 123-135.  The conversion int32(intVal) is the identity on the
      parsed range. *)
  Definition get_int32 := get_typed (fun s => parse_int 32 (list_ascii_of_string s)) 0.
  (** provider.go 137-149 *)
  Definition get_int64 := get_typed (fun s => parse_int 64 (list_ascii_of_string s)) 0.
  (** provider.go 151-163 *)
  Definition get_uint32 := get_typed (fun s => parse_uint 32 (list_ascii_of_string s)) 0.
  (** provider.go 165-177 *)
  Definition get_uint64 := get_typed (fun s => parse_uint 64 (list_ascii_of_string s)) 0.
  (** provider.go 207-219 *)
  Definition get_bool := get_typed parse_bool false.
End Get.

(** ** Operations on a provider, for statements about every history. provider.go 50-82. *)
Inductive config_op :=
| OpBindEnvVar (name envname : string)
| OpBindPFlag (name : string) (f : option flag)
| OpSetDefault (name v : string)
| OpLoadEntries (entries : smap string).   (* a successful LoadConfigFile *)

(** provider.go 50-82, one call *)
Definition config_step (p : provider) (o : config_op) : outcome string provider :=
  match o with
  | OpBindEnvVar n e => Ok (bind_env_var p n e)
  | OpBindPFlag n f => Ok (bind_pflag p n f)
  | OpSetDefault n v => set_default p n v
  | OpLoadEntries es =>
      Ok {| p_config := merge_config (p_config p) es; p_flags := p_flags p;
            p_env_vars := p_env_vars p; p_defaults := p_defaults p |}
  end.

(** provider.go 50-82, any calls in order *)
Fixpoint config_run (p : provider) (os : list config_op) : outcome string provider :=
  match os with
  | [] => Ok p
  | o :: os' => let! p' := config_step p o in config_run p' os'
  end.

(** ** Argument validation *)

(** apps/cli/cmd/commands/root.go 99-120; [goos] is runtime.GOOS. [true]: nil error. *)
Definition validate_connect_protocol (goos protocol : string) : bool :=
  if String.eqb protocol "tcp" then true
  else if String.eqb protocol "unix" then
    if String.eqb goos "windows" then false else true
  else false.

(** apps/cli/internal/consts/consts.go SupportedLanguages. consts.go 29-40. *)
Definition supported_languages : list string :=
  ["nodejs"; "python"; "java"; "dotnet"; "go"; "rust"].

(** apps/cli/cmd/commands/init.go 50-65 *)
Definition validate_language (lang : string) : bool :=
  if String.eqb lang "" then true
  else existsb (String.eqb lang) supported_languages.

(** root.go 26-38 *)
Inductive pre_run_error := PreLoad (e : load_error) | PreProtocol (v : string) | PrePanic.

(** apps/cli/cmd/commands/root.go 26-38 PersistentPreRunE; [Ok p] means the
    command body runs with provider [p]. *)
Definition pre_run (open_file : string -> option string)
    (decode : file_format -> string -> option (smap string))
    (env : string -> option string) (goos : string)
    (p : provider) (config_file : string) : outcome pre_run_error provider :=
  match load_config_file open_file decode p config_file with
  | Err e => Err (PreLoad e)
  | Panic => Panic
  | Ok p' =>
      match get_string env p' "connectProtocol" with
      | Ok (v, _) => if validate_connect_protocol goos v then Ok p' else Err (PreProtocol v)
      | Err _ => Panic
      | Panic => Panic
      end
  end.

(** apps/cli/cmd/commands/init.go 26-35 RunE up to the start of the interactive
    program: [Ok lang] starts it with that language. *)
Definition init_run (env : string -> option string) (p : provider) : outcome string string :=
  match get_string env p "initLanguage" with
  | Ok (lang, _) => if validate_language lang then Ok lang else Err lang
  | Err _ => Panic
  | Panic => Panic
  end.
