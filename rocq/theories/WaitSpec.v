(** Vocabulary for C60: how long a wait state waits. *)
From Verif Require Import Base Json WfTypes.
Open Scope string_scope.
Open Scope N_scope.

(** A text that is a path into the input *)
Definition is_path (s : string) : Prop := exists r, s = String "$" r.
(** Digits, and the number they stand for *)
Fixpoint all_digits (s : string) : Prop :=
  match s with EmptyString => True | String c r => (48 <= N_of_ascii c <= 57) /\ all_digits r end.
Inductive decimal : string -> N -> Prop :=
| dec_none : decimal "" 0
| dec_more s n c d : decimal s n -> d <= 9 -> N_of_ascii c = 48 + d -> decimal (s ++ String c "") (10 * n + d).
(** A number of seconds, written out: digits, with a plus sign perhaps, within 64 bits *)
Definition written (s : string) (n : N) : Prop :=
  n < 2 ^ 64 /\ exists body, (s = body \/ s = String "+" body) /\ body <> "" /\ decimal body n.

Section Wait.
  Variable path_error : string -> option string.
  Variable path_find : string -> json -> json.
  Variable parse_timestamp : string -> Z + string.
  Variable input : json.
  Variable now : Z.
  Definition failure := (bool * option string * string)%type.
  Definition no_seconds : N + failure := inr (false, None, "Wait state seconds must be a positive integer").
  (** A timestamp, in nanoseconds, and the clock, in milliseconds: the wait is the number of whole
      seconds between them, and the timestamp must not be a second or more in the past. *)
  Inductive until : string -> N + failure -> Prop :=
  | u_unreadable s e : parse_timestamp s = inr e -> until s (inr (false, Some "unknown", "Failed to parse timestamp for wait state: " ++ e))
  | u_past s ts : parse_timestamp s = inl ts -> (ts + 1000000000 <= now * 1000000)%Z -> until s (inr (false, Some "unknown", "Wait state timestamp must be in the future"))
  | u_recent s ts : parse_timestamp s = inl ts -> (now * 1000000 - 1000000000 < ts < now * 1000000)%Z -> until s (inl 0)
  | u_future s ts n : parse_timestamp s = inl ts -> (now * 1000000 + Z.of_N n * 1000000000 <= ts < now * 1000000 + (Z.of_N n + 1) * 1000000000)%Z -> until s (inl n).
  Inductive waits : wait_config -> N + failure -> Prop :=
  | w_literal s ts n : ~ is_path s -> written s n -> waits {| wt_seconds := Some s; wt_timestamp := ts |} (inl n)
  | w_literal_bad s ts : ~ is_path s -> (forall n, ~ written s n) -> waits {| wt_seconds := Some s; wt_timestamp := ts |} no_seconds
  | w_path_bad s ts e : is_path s -> path_error s = Some e ->
      waits {| wt_seconds := Some s; wt_timestamp := ts |} (inr (true, None, "Failed to parse JSON path for wait time seconds in state configuration: " ++ e))
  | w_path s ts n : is_path s -> path_error s = None -> path_find s input = JNum (NInt (Z.of_N n)) -> n < 2 ^ 64 -> waits {| wt_seconds := Some s; wt_timestamp := ts |} (inl n)
  | w_path_other s ts : is_path s -> path_error s = None -> (forall n, n < 2 ^ 64 -> path_find s input <> JNum (NInt (Z.of_N n))) -> waits {| wt_seconds := Some s; wt_timestamp := ts |} no_seconds
  | w_time s r : ~ is_path s -> until s r -> waits {| wt_seconds := None; wt_timestamp := Some s |} r
  | w_time_bad s e : is_path s -> path_error s = Some e ->
      waits {| wt_seconds := None; wt_timestamp := Some s |} (inr (true, None, "Failed to parse JSON path for wait time timestamp in state configuration: " ++ e))
  | w_time_path s t r : is_path s -> path_error s = None -> path_find s input = JStr t -> until t r -> waits {| wt_seconds := None; wt_timestamp := Some s |} r
  | w_time_other s : is_path s -> path_error s = None -> (forall t, path_find s input <> JStr t) ->
      waits {| wt_seconds := None; wt_timestamp := Some s |} (inr (false, None, "Wait state timestamp must be a string"))
  | w_none : waits {| wt_seconds := None; wt_timestamp := None |} (inr (false, None, "Wait state must have a value for the seconds or timestamp field")).
End Wait.
