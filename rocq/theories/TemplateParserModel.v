(** Parsing of template function calls,
    libs/runtime/workflow/src/template_func_parser.rs *)
From Verif Require Import Base Chars ScannerModel ResolveModel.
Local Open Scope list_scope.

(** A character tested in template_func_parser.rs 83-474 *)
Definition c_lparen : N := 40.
(** A character tested in template_func_parser.rs 83-474 *)
Definition c_rparen : N := 41.
(** A character tested in template_func_parser.rs 83-474 *)
Definition c_comma : N := 44.
(** A character tested in template_func_parser.rs 83-474 *)
Definition c_apos : N := 39.
(** A character tested in template_func_parser.rs 83-474 *)
Definition c_lbrk : N := 91.
(** A character tested in template_func_parser.rs 83-474 *)
Definition c_rbrk : N := 93.
(** A character tested in template_func_parser.rs 83-474 *)
Definition c_dquote : N := 34.
(** A character tested in template_func_parser.rs 83-474 *)
Definition c_bslash : N := 92.
(** A character tested in template_func_parser.rs 83-474 *)
Definition c_dash : N := 45.
(** A character tested in template_func_parser.rs 83-474 *)
Definition c_point : N := 46.
(** A character tested in template_func_parser.rs 83-474 *)
Definition c_underscore : N := 95.
(** A character tested in template_func_parser.rs 83-474 *)
Definition c_dollar : N := 36.

Section Params.
(** [char::is_alphabetic], [char::is_whitespace] *)
Variable k : classes.
(** Parsed JSON paths and [JsonPath::from_str] (jsonpath-rust, third party) *)
Variable P : Type.
Variable parse_path : text -> option P.
(** Floating point numbers and [f64::from_str] (Rust core) *)
Variable F : Type.
Variable parse_float : text -> option F.

(** 7-21 *)
Inductive expr :=
| EStr (t : text) | EInt (z : Z) | EFloat (f : F) | EBool (b : bool) | ENull | EPath (p : P)
| ECall (c : call)
with call := Call (name : text) (args : list expr).
(** 24-28; positions and texts of errors are kept only where the control flow looks at them *)
Inductive terr := TChar | TPath | TEnd | TFuel.

(** 115 *)
Definition name_start (c : N) : bool := alphabetic k c || (c =? c_underscore)%N.
(** template_func_parser.rs 124 *)
Definition name_char (c : N) : bool := alphabetic k c || is_digit c || (c =? c_underscore)%N.
(** 466-474 *)
Definition skip_blanks (s : scanner) : scanner := snd (take_while (whitespace k) s).
(** 108-140: blanks, one start character, then name characters *)
Definition func_name (s : scanner) : (text + terr) * scanner :=
  let s1 := skip_blanks s in
  match peek s1 with
  | Some c =>
      if name_start c then
        let s2 := snd (pop s1) in
        let (t, s3) := take_while name_char s2 in (inl (c :: t), s3)
      else (inr TChar, s1)
  | None => (inr TChar, s1)
  end.

(** 253-267: the characters up to a comma or a closing parenthesis outside of quotes and
    brackets; [q], [b] are [in_string_literal] and [in_brackets] *)
Fixpoint path_span (q b : bool) (l : text) : text :=
  match l with
  | [] => []
  | c :: l' =>
      if (c =? c_apos)%N then c :: path_span (negb q) b l'
      else if (c =? c_lbrk)%N then c :: path_span q true l'
      else if (c =? c_rbrk)%N then c :: path_span q false l'
      else if ((c =? c_comma)%N || (c =? c_rparen)%N) && negb q && negb b then []
      else c :: path_span q b l'
  end.
(** What is left of the text of a scanner: scanner.rs 20-40 *)
Definition rest_of (s : scanner) : text := skipn (sc_pos s) (sc_chars s).
(** 244-284 *)
Definition json_path_expr (s0 : scanner) : (expr + terr) * scanner :=
  let s := save_pos s0 in
  let t := path_span false false (rest_of s) in
  let s1 := at_pos s (sc_pos s + length t) in
  match parse_path t with
  | Some p => (inl (EPath p), pop_pos s1)
  | None => (inr TPath, backtrack s1)
  end.

(** 288-299 *)
Definition bool_cb (t : text) : option (scan_action expr) :=
  if text_eqb t (chars "t") then Some Require
  else if text_eqb t (chars "tr") then Some Require
  else if text_eqb t (chars "tru") then Some Require
  else if text_eqb t (chars "true") then Some (Return (EBool true))
  else if text_eqb t (chars "f") then Some Require
  else if text_eqb t (chars "fa") then Some Require
  else if text_eqb t (chars "fal") then Some Require
  else if text_eqb t (chars "fals") then Some Require
  else if text_eqb t (chars "false") then Some (Return (EBool false))
  else None.
(** 286-315: on a scan error neither the position nor the stack is restored. *)
Definition literal (cb : text -> option (scan_action expr)) (s0 : scanner) : (expr + terr) * scanner :=
  let s := save_pos s0 in
  match scan cb s with
  | (inl (Some e), s1) => (inl e, pop_pos s1)
  | (inl None, s1) => (inr TChar, backtrack s1)
  | (inr (ErrCharacter _), s1) => (inr TChar, s1)
  | (inr ErrEnd, s1) => (inr TEnd, s1)
  end.
(** template_func_parser.rs 286-341 *)
Definition bool_literal := literal bool_cb.
(** 317-341 *)
Definition null_cb (t : text) : option (scan_action expr) :=
  if text_eqb t (chars "n") then Some Require
  else if text_eqb t (chars "nu") then Some Require
  else if text_eqb t (chars "nul") then Some Require
  else if text_eqb t (chars "null") then Some (Return ENull)
  else None.
(** template_func_parser.rs 286-341 *)
Definition null_literal := literal null_cb.

(** 349-363: the sequence and [passed_decimal_point]; [first] is [float_seq.is_empty()] *)
Fixpoint float_span (first passed : bool) (l : text) : text * bool :=
  match l with
  | [] => ([], passed)
  | c :: l' =>
      if (c =? c_dash)%N && first then let (t, p) := float_span false passed l' in (c :: t, p)
      else if (c =? c_point)%N && negb passed then let (t, p) := float_span false true l' in (c :: t, p)
      else if is_digit c then let (t, p) := float_span false passed l' in (c :: t, p)
      else ([], passed)
  end.
(** 343-388 *)
Definition float_literal (s0 : scanner) : (expr + terr) * scanner :=
  let s := save_pos s0 in
  let (t, passed) := float_span true false (rest_of s) in
  let s1 := at_pos s (sc_pos s + length t) in
  match t with
  | [] => (inr TChar, backtrack s1)
  | _ => if negb passed then (inr TChar, backtrack s1)
         else match parse_float t with
              | Some f => (inl (EFloat f), pop_pos s1)
              | None => (inr TChar, backtrack s1)
              end
  end.
(** 395-402 *)
Fixpoint int_span (first : bool) (l : text) : text :=
  match l with
  | [] => []
  | c :: l' => if ((c =? c_dash)%N && first) || is_digit c then c :: int_span false l' else []
  end.
(** 390-427; [i64::from_str] is [parse_i64] *)
Definition int_literal (s0 : scanner) : (expr + terr) * scanner :=
  let s := save_pos s0 in
  let t := int_span true (rest_of s) in
  let s1 := at_pos s (sc_pos s + length t) in
  match t with
  | [] => (inr TChar, backtrack s1)
  | _ => match parse_i64 t with
         | Some z => (inl (EInt z), pop_pos s1)
         | None => (inr TChar, backtrack s1)
         end
  end.

(** 443-455: the characters before the closing quote, or None if there is none *)
Fixpoint string_span (prev : N) (l : text) : option text :=
  match l with
  | [] => None
  | c :: l' =>
      if (c =? c_dquote)%N && negb (prev =? c_bslash)%N then Some []
      else match string_span c l' with Some t => Some (c :: t) | None => None end
  end.
(** [str::replace] of backslash-quote by a quote: leftmost matches, not overlapping. (template_func_parser.rs 463) *)
Fixpoint unescape (l : text) : text :=
  match l with
  | c :: ((d :: l') as r) => if (c =? c_bslash)%N && (d =? c_dquote)%N then c_dquote :: unescape l' else c :: unescape r
  | _ => l
  end.
(** 429-464 *)
Definition string_literal (s0 : scanner) : (expr + terr) * scanner :=
  let s := save_pos s0 in
  match take c_dquote s with
  | (false, s1) => (inr TChar, backtrack s1)
  | (true, s1) =>
      match string_span 32 (rest_of s1) with
      | Some t => (inl (EStr (unescape t)), pop_pos (at_pos s1 (sc_pos s1 + length t + 1)))
      | None => (inr TEnd, backtrack (at_pos s1 (length (sc_chars s1))))
      end
  end.

(** [Result::map], template_func_parser.rs 186-242 *)
Definition map_fst {A B C} (f : A -> B) (x : (A + terr) * C) : (B + terr) * C :=
  match x with (inl a, c) => (inl (f a), c) | (inr e, c) => (inr e, c) end.

(** 83-106, 142-184, 186-242.  The recursion of the code is bounded by [fuel] here;
    [TFuel] is not an error of the code and is shown never to be returned with the fuel of
    [parse_func] (C68). *)
Fixpoint func_call (fuel : nat) (s0 : scanner) : (call + terr) * scanner :=
  match fuel with
  | 0 => (inr TFuel, s0)
  | S n =>
      let s := save_pos s0 in
      match func_name s with
      | (inr e, s1) => (inr e, backtrack s1)
      | (inl name, s1) =>
          match func_args n s1 with
          | (inl args, s2) => (inl (Call name args), pop_pos s2)
          | (inr e, s2) => (inr e, backtrack s2)
          end
      end
  end
(** 142-154 *)
with func_args (fuel : nat) (s0 : scanner) : (list expr + terr) * scanner :=
  match fuel with
  | 0 => (inr TFuel, s0)
  | S n =>
      match take c_lparen (skip_blanks s0) with
      | (false, s1) => (inr TChar, s1)
      | (true, s1) => args_loop n s1
      end
  end
(** 156-183: one round of the loop and the rounds after it *)
with args_loop (fuel : nat) (s : scanner) : (list expr + terr) * scanner :=
  match fuel with
  | 0 => (inr TFuel, s)
  | S n =>
      match peek s with
      | None => (inl [], s)
      | Some c =>
          if whitespace k c then args_loop n (snd (pop s))
          else if (c =? c_rparen)%N then (inl [], snd (pop s))
          else
            match func_arg n s with
            | (inr e, s1) => (inr e, s1)
            | (inl a, s1) =>
                match take c_comma (skip_blanks s1) with
                | (true, s2) => map_fst (cons a) (args_loop n s2)
                | (false, s2) =>
                    match peek s2 with
                    | Some d => if negb (d =? c_rparen)%N then (inr TChar, s2) else map_fst (cons a) (args_loop n s2)
                    | None => map_fst (cons a) (args_loop n s2)
                    end
                end
            end
      end
  end
(** 186-242 *)
with func_arg (fuel : nat) (s0 : scanner) : (expr + terr) * scanner :=
  match fuel with
  | 0 => (inr TFuel, s0)
  | S n =>
      match func_call n s0 with
      | (inl c, s1) => (inl (ECall c), s1)
      | (inr TFuel, s1) => (inr TFuel, s1)
      | (inr _, s1) =>
          let others (s2 : scanner) :=
            match bool_literal s2 with
            | (inl e, s3) => (inl e, s3)
            | (inr _, s3) =>
                match null_literal s3 with
                | (inl e, s4) => (inl e, s4)
                | (inr _, s4) =>
                    match float_literal s4 with
                    | (inl e, s5) => (inl e, s5)
                    | (inr _, s5) =>
                        match int_literal s5 with
                        | (inl e, s6) => (inl e, s6)
                        | (inr _, s6) => string_literal s6
                        end
                    end
                end
            end in
          match json_path_expr s1 with
          | (inl e, s2) => (inl e, s2)
          | (inr TPath, s2) =>
              if match peek s2 with Some c => (c =? c_dollar)%N | None => false end then (inr TPath, s2) else others s2
          | (inr _, s2) => others s2
          end
      end
  end.

(** 79-81 and payload_template.rs 163-165; the fuel is more than the input can use up. *)
Definition parse_fuel (t : text) : nat := 4 * length t + 4.
(** template_func_parser.rs 79-81 *)
Definition parse_func (t : text) : call + terr := fst (func_call (parse_fuel t) (new_scanner t)).
End Params.
Arguments EStr {P F}.
Arguments EInt {P F}.
Arguments EFloat {P F}.
Arguments EBool {P F}.
Arguments ENull {P F}.
Arguments EPath {P F}.
Arguments ECall {P F}.
Arguments Call {P F}.
