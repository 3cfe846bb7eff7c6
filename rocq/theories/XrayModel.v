(** AWS X-Ray trace ids, libs/runtime/core/src/aws_telemetry.rs *)
From Verif Require Import Base Chars.
Local Open Scope list_scope.
Local Open Scope N_scope.

(** [TraceId] (opentelemetry, third party) is a [u128]; its text is [{:032x}] *)
Definition hex_digit (d : N) : N := if d <? 10 then 48 + d else 87 + d.
(** aws_telemetry.rs 46-53: the text of a [TraceId] *)
Fixpoint hex (width : nat) (n : N) : text :=
  match width with O => [] | S w => hex w (n / 16) ++ [hex_digit (n mod 16)] end.
(** [u128::from_str_radix(_, 16)]: an optional plus, at least one digit in either case, no overflow *)
Definition hex_value (c : N) : option N :=
  if (48 <=? c) && (c <=? 57) then Some (c - 48)
  else if (97 <=? c) && (c <=? 102) then Some (c - 87)
  else if (65 <=? c) && (c <=? 70) then Some (c - 55)
  else None.
(** [u128::from_str_radix], aws_telemetry.rs 35-36 *)
Fixpoint hex_number (acc : N) (t : text) : option N :=
  match t with
  | [] => Some acc
  | c :: t => match hex_value c with Some d => hex_number (acc * 16 + d) t | None => None end
  end.
(** [TraceId::from_hex], aws_telemetry.rs 28-44 *)
Definition from_hex (t : text) : option N :=
  let num ds := match ds with [] => None | _ => match hex_number 0 ds with Some n => if n <? 2 ^ 128 then Some n else None | None => None end end in
  match t with c :: ds => if c =? 43 then num ds else num t | [] => None end.
(** [split('-')], and [split_terminator('-')], which leaves out an empty last part. aws_telemetry.rs 28-44. *)
Fixpoint split (t : text) : list text :=
  match t with
  | [] => [[]]
  | c :: t => if c =? 45 then [] :: split t else match split t with p :: ps => (c :: p) :: ps | [] => [[c]] end
  end.
(** aws_telemetry.rs 28-44 *)
Definition split_terminator (t : text) : list text :=
  match rev (split t) with [] :: ps => rev ps | _ => split t end.
(** 46-53 *)
Definition xray_of (id : N) : text := chars "1" ++ chars "-" ++ firstn 8 (hex 32 id) ++ chars "-" ++ skipn 8 (hex 32 id).
(** 25-44 *)
Definition trace_of (t : text) : option N :=
  match split_terminator t with
  | [_; a; b] => match from_hex (a ++ b) with Some n => if n =? 0 then None else Some n | None => None end
  | _ => None
  end.
