(** Vocabulary of the CLI configuration properties (C01-C04), independent of
    the functions of ConfigModel.v (only its data types are used). *)
From Coq Require Import DecimalString Decimal DecimalZ.
From Verif Require Import Base ConfigModel.
Open Scope string_scope.
Local Open Scope Z_scope.

(** The UTF-8 encodings of the Unicode white space characters. *)
Definition enc (l : list N) : list ascii := map ascii_of_N l.
Definition white_space : list (list ascii) :=
  map enc
  [ [9]; [10]; [11]; [12]; [13]; [32];
    [194; 133]; [194; 160];
    [225; 154; 128];
    [226; 128; 128]; [226; 128; 129]; [226; 128; 130]; [226; 128; 131]; [226; 128; 132];
    [226; 128; 133]; [226; 128; 134]; [226; 128; 135]; [226; 128; 136]; [226; 128; 137];
    [226; 128; 138]; [226; 128; 168]; [226; 128; 169]; [226; 128; 175];
    [226; 129; 159]; [227; 128; 128] ]%N.

(** A blank string consists of white space only (the empty string is blank). *)
Definition Blank (s : string) : Prop :=
  exists ws, Forall (fun w => In w white_space) ws /\ list_ascii_of_string s = List.concat ws.

(** The five sources of an option value. *)
Definition set_by_flag (p : provider) (n v : string) : Prop :=
  exists f, lookup n (p_flags p) = Some (Some f) /\ flag_changed f = true
            /\ flag_value f = v /\ ~ Blank v.
Definition set_by_env (env : string -> option string) (p : provider) (n v : string) : Prop :=
  exists e, lookup n (p_env_vars p) = Some e /\ env e = Some v /\ ~ Blank v.
Definition set_by_file (p : provider) (n v : string) : Prop :=
  lookup n (p_config p) = Some v.
Definition flag_default (p : provider) (n v : string) : Prop :=
  exists f, lookup n (p_flags p) = Some (Some f) /\ flag_changed f = false
            /\ flag_value f = v /\ ~ Blank v.
Definition registered_default (p : provider) (n v : string) : Prop :=
  exists d, p_defaults p = Some d /\ lookup n d = Some v.

(** "option [n] reads as [v], and that is / is not a default": the first source
    in order of precedence that supplies a value. *)
Inductive ReadsAs (env : string -> option string) (p : provider) (n : string)
  : string -> bool -> Prop :=
| ReadFlag v : set_by_flag p n v -> ReadsAs env p n v false
| ReadEnv v : (forall x, ~ set_by_flag p n x) -> set_by_env env p n v -> ReadsAs env p n v false
| ReadFile v : (forall x, ~ set_by_flag p n x) -> (forall x, ~ set_by_env env p n x) ->
    set_by_file p n v -> ReadsAs env p n v false
| ReadFlagDefault v : (forall x, ~ set_by_flag p n x) -> (forall x, ~ set_by_env env p n x) ->
    (forall x, ~ set_by_file p n x) -> flag_default p n v -> ReadsAs env p n v true
| ReadRegistered v : (forall x, ~ set_by_flag p n x) -> (forall x, ~ set_by_env env p n x) ->
    (forall x, ~ set_by_file p n x) -> (forall x, ~ flag_default p n x) ->
    registered_default p n v -> ReadsAs env p n v true
| ReadNothing : (forall x, ~ set_by_flag p n x) -> (forall x, ~ set_by_env env p n x) ->
    (forall x, ~ set_by_file p n x) -> (forall x, ~ flag_default p n x) ->
    (forall x, ~ registered_default p n x) -> ReadsAs env p n "" true.

(** Decimal numerals, with the standard library's notion of decimal strings. *)
Definition denotes_nat (s : string) (z : Z) : Prop :=
  exists u, NilZero.uint_of_string s = Some u /\ Z.of_uint u = z.
Definition denotes_int (s : string) (z : Z) : Prop :=
  denotes_nat s z
  \/ (exists s', s = "+" ++ s' /\ denotes_nat s' z)
  \/ (exists s', s = "-" ++ s' /\ denotes_nat s' (- z)).

(** The canonical decimal text of an integer. *)
Definition decimal_text (z : Z) : string := NilZero.string_of_int (Z.to_int z).

(** An integer option of range [lo, hi] whose text is [s] reads as [z]. *)
Definition reads_int (denotes : string -> Z -> Prop) (lo hi : Z) (s : string) (z : Z) : Prop :=
  (denotes s z /\ lo <= z <= hi)
  \/ ((forall x, denotes s x -> ~ (lo <= x <= hi)) /\ z = 0).

Definition true_texts := ["1"; "t"; "T"; "true"; "TRUE"; "True"].

(** What one provider operation assigns to option [n]'s environment variable
    name, flag, and config file entry. *)
Definition binds_env (n : string) (o : config_op) : option string :=
  match o with OpBindEnvVar m e => if String.eqb n m then Some e else None | _ => None end.
Definition binds_flag (n : string) (o : config_op) : option (option flag) :=
  match o with OpBindPFlag m f => if String.eqb n m then Some f else None | _ => None end.
(** A file may repeat a key: its last entry counts. *)
Definition loads_entry (n : string) (o : config_op) : option string :=
  match o with OpLoadEntries es => lookup n (rev es) | _ => None end.
