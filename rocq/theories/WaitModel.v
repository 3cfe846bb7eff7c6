(** Model of the time a wait state waits,
    /repo/libs/runtime/workflow/src/state_machine.rs 1498-1648. *)
From Verif Require Import Base Json WfTypes.
Open Scope string_scope.
Open Scope N_scope.

(** Rust [u64::from_str], used in 1532-1581: a digit *)
Definition digit_of (c : ascii) : option N :=
  let n := N_of_ascii c in
  if ((48 <=? n) && (n <=? 57))%bool then Some (n - 48) else None.
(** Rust [u64::from_str], used in 1532-1581: digits *)
Fixpoint digits_of (s : string) (acc : N) : option N :=
  match s with
  | EmptyString => Some acc
  | String c r => match digit_of c with Some d => digits_of r (10 * acc + d) | None => None end
  end.
(** u64::MAX, the limit of what 1532-1581 reads *)
Definition u64_limit : N := 18446744073709551615.
(** [str::parse::<u64>]: an optional plus sign and at least one digit; the value
    must fit (checked here at the end, the value never decreases). *)
Definition parse_u64 (s : string) : option N :=
  let s := match s with String "+" r => r | _ => s end in
  match s with
  | EmptyString => None
  | _ => match digits_of s 0 with
         | Some n => if n <=? u64_limit then Some n else None
         | None => None
         end
  end.

Definition starts_with_dollar (s : string) : bool := match s with String "$" _ => true | _ => false end.

Section Wait.
  (** The JSON path library (jsonpath-rust 0.7.1): parsing a path and [find]. *)
  Variable path_error : string -> option string.
  Variable path_find : string -> json -> json.
  (** RFC 3339 parsing (chrono): nanoseconds since the epoch, or an error. *)
  Variable parse_timestamp : string -> Z + string.

  (** An error: is it InvalidPayloadTemplate (otherwise InvalidState), the state
      name it is reported for when that is not the wait state, its message. *)
  Definition wait_error := (bool * option string * string)%type.

  (** 1533-1580 *)
  Definition derive_wait_time_from_seconds_field (seconds : string) (input : json) : N + wait_error :=
    let bad := inr (false, None, "Wait state seconds must be a positive integer") in
    if starts_with_dollar seconds then
      match path_error seconds with
      | Some e => inr (true, None, "Failed to parse JSON path for wait time seconds in state configuration: " ++ e)
      | None =>
          match path_find seconds input with
          | JNum (NInt z) => if ((0 <=? z) && (z <=? Z.of_N u64_limit))%Z%bool then inl (Z.to_N z) else bad
          | _ => bad
          end
      end
    else match parse_u64 seconds with Some n => inl n | None => bad end.

  (** 1621-1648: [num_seconds] truncates towards zero. *)
  Definition wait_time_from_timestamp (timestamp : string) (now_millis : Z) : N + wait_error :=
    match parse_timestamp timestamp with
    | inr e => inr (false, Some "unknown", "Failed to parse timestamp for wait state: " ++ e)
    | inl ts =>
        let secs := Z.quot (ts - now_millis * 1000000) 1000000000 in
        if (secs <? 0)%Z then inr (false, Some "unknown", "Wait state timestamp must be in the future")
        else inl (Z.to_N secs)
    end.

  (** 1583-1619 *)
  Definition derive_wait_time_from_timestamp_field (timestamp : string) (input : json) (now_millis : Z) : N + wait_error :=
    if starts_with_dollar timestamp then
      match path_error timestamp with
      | Some e => inr (true, None, "Failed to parse JSON path for wait time timestamp in state configuration: " ++ e)
      | None =>
          match path_find timestamp input with
          | JStr s => wait_time_from_timestamp s now_millis
          | _ => inr (false, None, "Wait state timestamp must be a string")
          end
      end
    else wait_time_from_timestamp timestamp now_millis.

  (** 1498-1530 *)
  Definition derive_wait_time_seconds (w : wait_config) (input : json) (now_millis : Z) : N + wait_error :=
    match wt_seconds w with
    | Some s => derive_wait_time_from_seconds_field s input
    | None =>
        match wt_timestamp w with
        | Some t => derive_wait_time_from_timestamp_field t input now_millis
        | None => inr (false, None, "Wait state must have a value for the seconds or timestamp field")
        end
    end.
End Wait.
