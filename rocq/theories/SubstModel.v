(** Parsing of ${..} substitutions in blueprint strings,
    libs/runtime/blueprint-config-parser/src/parse_substitutions.rs *)
From Verif Require Import Base Chars ScannerModel.
Local Open Scope list_scope.

(** blueprint_with_subs.rs, [StringOrSubstitution]: a literal or a variable reference. (515-541) *)
Inductive part := Lit (t : text) | Ref (name : text).
(** parse_substitutions.rs 211-215; the [expected] texts are not modelled. *)
Inductive perr := PChar (pos : nat) | PEnd.

(** A character tested in parse_substitutions.rs 55-440 *)
Definition c_dollar : N := 36.
(** A character tested in parse_substitutions.rs 55-440 *)
Definition c_quote : N := 34.
(** A character tested in parse_substitutions.rs 55-440 *)
Definition c_dot : N := 46.
(** A character tested in parse_substitutions.rs 55-440 *)
Definition c_lbrack : N := 91.
(** A character tested in parse_substitutions.rs 55-440 *)
Definition c_rbrack : N := 93.
(** A character tested in parse_substitutions.rs 55-440 *)
Definition c_backslash : N := 92.
(** A character tested in parse_substitutions.rs 55-440 *)
Definition c_open : N := 123.
(** A character tested in parse_substitutions.rs 55-440 *)
Definition c_close : N := 125.
(** A character tested in parse_substitutions.rs 55-440 *)
Definition c_under : N := 95.
(** A character tested in parse_substitutions.rs 55-440 *)
Definition c_minus : N := 45.
(** parse_substitutions.rs 151-164 *)
Definition open_sub : text := [c_dollar; c_open].
(** parse_substitutions.rs 291-320 *)
Definition kw_variables : text := chars "variables".

Section WithClasses.
Variable k : classes.

(** 382-384 *)
Definition ident_start (c : N) : bool := alphabetic k c || (c =? c_under)%N.
(** 386-388 *)
Definition ident_char (c : N) : bool := alphanumeric k c || (c =? c_under)%N || (c =? c_minus)%N.
(** 432-434 *)
Definition literal_char (c : N) : bool := ident_char c || (c =? c_dot)%N.

(** 436-444 *)
Definition consume_whitespace (s : scanner) : scanner := snd (take_while (whitespace k) s).

(** 293-304: proper prefixes of the keyword ask for more, the keyword is returned. *)
Definition variables_cb (t : text) : option (scan_action unit) :=
  if text_eqb t kw_variables then Some (Return tt)
  else if match t with [] => false | _ => starts_with t kw_variables end then Some Require
  else None.
(** 291-320 *)
Definition variables_keyword (s0 : scanner) : (unit + perr) * scanner :=
  let s := save_pos s0 in
  match scan variables_cb s with
  | (inl (Some _), s') => (inl tt, pop_pos s')
  | (inl None, s') => (inr (PChar (sc_pos s' + 1)), backtrack s')
  | (inr (ErrCharacter p), s') => (inr (PChar p), s')
  | (inr ErrEnd, s') => (inr PEnd, s')
  end.

(** 352-380 *)
Definition identifier (s : scanner) : (text + perr) * scanner :=
  match peek s with
  | Some c =>
      if ident_start c then
        let s1 := snd (pop s) in
        let (t, s2) := take_while ident_char s1 in
        (inl (c :: t), s2)
      else (inr (PChar (sc_pos s)), s)
  | None => (inr (PChar (sc_pos s)), s)
  end.
(** 390-430 *)
Definition string_literal_identifier (s : scanner) : (text + perr) * scanner :=
  match take c_lbrack s with
  | (false, s1) => (inr (PChar (sc_pos s1)), s1)
  | (true, s1) =>
      match take c_quote s1 with
      | (false, s2) => (inr (PChar (sc_pos s2)), s2)
      | (true, s2) =>
          let (t, s3) := take_while literal_char s2 in
          match take c_quote s3 with
          | (false, s4) => (inr (PChar (sc_pos s4)), s4)
          | (true, s4) =>
              match take c_rbrack s4 with
              | (false, s5) => (inr (PChar (sc_pos s5)), s5)
              | (true, s5) => (inl t, s5)
              end
          end
      end
  end.
(** 322-350; the saved position is left on the stack on success, as in the code. *)
Definition variable_name_accessor (s0 : scanner) : (text + perr) * scanner :=
  let s := save_pos s0 in
  match take c_dot s with
  | (true, s1) =>
      match identifier s1 with
      | (inl n, s2) => (inl n, s2)
      | (inr e, s2) => (inr e, backtrack s2)
      end
  | (false, s1) =>
      match peek s1 with
      | Some c =>
          if (c =? c_lbrack)%N then
            match string_literal_identifier s1 with
            | (inl n, s2) => (inl n, s2)
            | (inr e, s2) => (inr e, backtrack s2)
            end
          else (inr (PChar (sc_pos s1)), s1)
      | None => (inr (PChar (sc_pos s1)), s1)
      end
  end.
(** 266-289: what stands after the accessor is not looked at. *)
Definition parse_substitution (t : text) : text + perr :=
  let s := consume_whitespace (new_scanner t) in
  match variables_keyword s with
  | (inr e, _) => inr e
  | (inl _, s1) => fst (variable_name_accessor s1)
  end.

(** 46-53; [rev_parsed] is [parsed] with the last element first. *)
Record st := { rev_parsed : list part; possible : bool; in_lit : bool; psub : text; pnon : text; prev : N }.
(** parse_substitutions.rs 68-75: the state at the start *)
Definition init_st : st :=
  {| rev_parsed := []; possible := false; in_lit := false; psub := []; pnon := []; prev := 32 |}.

(** Byte slice [s[0..s.len()-1]] of a string: panics when the string is empty or its last
    character takes more than one byte. *)
Definition drop_last_byte (t : text) : option text :=
  match rev t with
  | [] => None
  | c :: r => if Nat.eqb (utf8_len c) 1 then Some (rev r) else None
  end.

(** 151-164 *)
Definition check_open (s : st) (ch : N) : outcome perr (bool * st) :=
  if (prev s =? c_dollar)%N && (ch =? c_open)%N && negb (in_lit s) then
    match drop_last_byte (pnon s) with
    | None => Panic
    | Some non =>
        Ok (true, {| rev_parsed := match non with [] => rev_parsed s | _ => Lit non :: rev_parsed s end;
                     possible := true; in_lit := in_lit s; psub := psub s; pnon := pnon s; prev := prev s |})
    end
  else Ok (false, s).
(** 166-170 *)
Definition check_literal (s : st) (ch : N) : st :=
  if (ch =? c_quote)%N && negb (prev s =? c_backslash)%N && possible s then
    {| rev_parsed := rev_parsed s; possible := possible s; in_lit := negb (in_lit s); psub := psub s; pnon := pnon s; prev := prev s |}
  else s.
(** 172-176 *)
Inductive close_result := Supported | Unsupported | NotClose.
(** 178-209 *)
Definition check_close (s : st) (ch : N) : outcome perr (close_result * st) :=
  if (ch =? c_close)%N && possible s && negb (in_lit s) then
    if starts_with kw_variables (psub s) then
      match parse_substitution (psub s) with
      | inl n => Ok (Supported, {| rev_parsed := Ref n :: rev_parsed s; possible := false; in_lit := in_lit s;
                                   psub := []; pnon := []; prev := prev s |})
      | inr e => Err e
      end
    else Ok (Unsupported, s)
  else Ok (NotClose, s).
(** 83-104 *)
Definition after_close (r : close_result) (s : st) (ch : N) : st :=
  match r with
  | Supported => {| rev_parsed := rev_parsed s; possible := possible s; in_lit := in_lit s; psub := psub s; pnon := pnon s; prev := ch |}
  | Unsupported =>
      let non := pnon s ++ [ch] in
      match rev_parsed s with
      | Lit _ :: r => {| rev_parsed := Lit non :: r; possible := possible s; in_lit := in_lit s; psub := psub s; pnon := []; prev := ch |}
      | r => {| rev_parsed := r; possible := possible s; in_lit := in_lit s; psub := psub s; pnon := non; prev := ch |}
      end
  | NotClose => {| rev_parsed := rev_parsed s; possible := possible s; in_lit := in_lit s; psub := psub s; pnon := pnon s ++ [ch]; prev := ch |}
  end.
(** 105-107 *)
Definition grow_sub (opened : bool) (s : st) (ch : N) : st :=
  if possible s && negb opened then
    {| rev_parsed := rev_parsed s; possible := possible s; in_lit := in_lit s; psub := psub s ++ [ch]; pnon := pnon s; prev := prev s |}
  else s.
(** 77-108 *)
Definition step (s : st) (ch : N) : outcome perr st :=
  let! (opened, s1) := check_open s ch in
  let s2 := check_literal s1 ch in
  let! (r, s3) := check_close s2 ch in
  Ok (grow_sub opened (after_close r s3 ch) ch).
(** parse_substitutions.rs 77-108: the loop over the characters *)
Fixpoint steps (s : st) (t : text) : outcome perr st :=
  match t with
  | [] => Ok s
  | c :: t' => let! s' := step s c in steps s' t'
  end.

(** 126-149 *)
Fixpoint concat_adjacent (last : text) (ps : list part) : list part :=
  match ps with
  | [] => match last with [] => [] | _ => [Lit last] end
  | Lit t :: ps' => concat_adjacent (last ++ t) ps'
  | Ref n :: ps' =>
      match last with
      | [] => Ref n :: concat_adjacent [] ps'
      | _ => Lit last :: Ref n :: concat_adjacent [] ps'
      end
  end.
(** 55-121 *)
Definition parse_substitutions (value : text) : outcome perr (list part) :=
  if negb (contains open_sub value) then Ok [Lit value]
  else
    let! s := steps init_st value in
    Ok (concat_adjacent [] (rev (rev_parsed s) ++ match pnon s with [] => [] | t => [Lit t] end)).

End WithClasses.
