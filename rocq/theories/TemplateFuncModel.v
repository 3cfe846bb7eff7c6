(** The template functions,
    libs/runtime/workflow/src/template_functions_v1.rs *)
From Verif Require Import Base Json Chars Value Bytes.
Local Open Scope list_scope.

(** 11-15; the texts of the errors are left out *)
Inductive ferr := InvalidArgument | IncorrectNumberOfArguments | InvalidInput.

(** [str::matches(..).count()] and [str::split]: pieces between the leftmost
    non-overlapping occurrences of the pattern; [skip] characters of an occurrence are still
    to be passed and [acc] is the piece so far in reverse.  For an empty pattern see
    [split_text]. (43-95, 449-487). *)
Fixpoint pieces (sep : text) (skip : nat) (acc : text) (t : text) : list text :=
  match t with
  | [] => [rev acc]
  | c :: t' =>
      match skip with
      | S n => pieces sep n acc t'
      | 0 => if starts_with sep t then rev acc :: pieces sep (length sep - 1) [] t'
             else pieces sep 0 (c :: acc) t'
      end
  end.
(** An empty pattern matches before every character and at the end. 449-487. *)
Definition split_text (sep t : text) : list text :=
  match sep with
  | [] => [] :: map (fun c => [c]) t ++ [[]]
  | _ => pieces sep 0 [] t
  end.
(** 43-95: what a format string is filled at *)
Definition braces : text := chars "{}".
(** [str::replacen(pattern, by, 1)] for a pattern that is not empty *)
Fixpoint replace_first (sep by_ t : text) : text :=
  match t with
  | [] => []
  | c :: t' => if starts_with sep t then by_ ++ skipn (length sep) t else c :: replace_first sep by_ t'
  end.

(** [serde_json::Number::as_f64], [as_u64], [as_i64] *)
Definition f64_of_int (z : Z) : spec_float := binary_normalize 53 1024 z 0 false.
(** [Number::as_f64] (serde_json), used in 489-674 *)
Definition as_f64 (n : num) : spec_float := match n with NInt z => f64_of_int z | NFloat f => f end.
(** [Number::as_u64] (serde_json), used in 299-379 *)
Definition as_u64 (n : num) : option Z := match n with NInt z => if (0 <=? z)%Z then Some z else None | NFloat _ => None end.
(** [Number::as_i64] (serde_json), used in 489-528 *)
Definition as_i64 (n : num) : option Z := match n with NInt z => if (z <? 2 ^ 63)%Z then Some z else None | NFloat _ => None end.
(** [Number::from_f64]: none for infinities and NaN *)
Definition from_f64 (f : spec_float) : option num :=
  match f with S754_infinity _ | S754_nan => None | _ => Some (NFloat f) end.
(** [f64 == 0.0] *)
Definition is_zero (f : spec_float) : bool := match f with S754_zero _ => true | _ => false end.

(** [slice::chunks]; [n] is the fuel, the length of the list suffices. (299-336) *)
Fixpoint chunks {A} (n size : nat) (l : list A) : list (list A) :=
  match n, l with
  | 0, _ | _, [] => []
  | S n', _ => firstn size l :: chunks n' size (skipn size l)
  end.

Section Params.
(** Third-party code: [Number::to_string], serde_json's reader and writer and the hash
    functions of the crate sha2 *)
Variable show_num : num -> text.
Variable json_read : text -> option value.
Variable json_write : value -> text.
Variable sha256 sha384 sha512 : list N -> text.
(** What the [n]-th random draw gives: [gen_range], a UUID, a nanoid *)
Variable draw_range : nat -> Z -> Z -> Z.
Variable draw_uuid draw_nanoid : nat -> text.

(** 67-86: the text an argument of [format] is replaced by *)
Definition format_arg (v : value) : option text :=
  match v with
  | VStr t => Some t
  | VNum n => Some (show_num n)
  | VBool b => Some (chars (if b then "true" else "false"))
  | VNull => Some (chars "null")
  | VArr _ | VObj _ => None
  end.
(** 67-87 *)
Fixpoint format_loop (formatted : text) (args : list value) : outcome ferr value :=
  match args with
  | [] => Ok (VStr formatted)
  | a :: args' =>
      match format_arg a with
      | Some t => format_loop (replace_first braces t formatted) args'
      | None => Err InvalidArgument
      end
  end.
(** 43-90 *)
Definition format (args : list value) : outcome ferr value :=
  match args with
  | [] => Err IncorrectNumberOfArguments
  | VStr fs :: rest =>
      if Nat.eqb (length rest) (length (split_text braces fs) - 1) then format_loop fs rest
      else Err IncorrectNumberOfArguments
  | _ :: _ => Err InvalidArgument
  end.
(** 97-119 *)
Definition jsondecode (args : list value) : outcome ferr value :=
  match args with
  | [VStr t] => match json_read t with Some v => Ok v | None => Err InvalidInput end
  | [_] => Err InvalidArgument
  | _ => Err IncorrectNumberOfArguments
  end.
(** 126-139: writing a [Value] does not fail *)
Definition jsonencode (args : list value) : outcome ferr value :=
  match args with
  | [v] => Ok (VStr (json_write v))
  | _ => Err IncorrectNumberOfArguments
  end.
(** 146-164 *)
Definition jsonmerge (args : list value) : outcome ferr value :=
  match args with
  | [VObj a; VObj b] => Ok (VObj (set_all b a))
  | [_; _] => Err InvalidArgument
  | _ => Err IncorrectNumberOfArguments
  end.
(** 171-188 *)
Definition b64encode (args : list value) : outcome ferr value :=
  match args with
  | [VStr t] => Ok (VStr (b64_enc (utf8 t)))
  | [_] => Err InvalidArgument
  | _ => Err IncorrectNumberOfArguments
  end.
(** 195-217 *)
Definition b64decode (args : list value) : outcome ferr value :=
  match args with
  | [VStr t] => match b64_dec (utf8 t) with Some l => Ok (VStr (lossy l)) | None => Err InvalidInput end
  | [_] => Err InvalidArgument
  | _ => Err IncorrectNumberOfArguments
  end.
(** 233-283 *)
Definition hash (args : list value) : outcome ferr value :=
  match args with
  | [VStr a; VStr t] =>
      if text_eqb a (chars "SHA256") then Ok (VStr (sha256 (utf8 t)))
      else if text_eqb a (chars "SHA384") then Ok (VStr (sha384 (utf8 t)))
      else if text_eqb a (chars "SHA512") then Ok (VStr (sha512 (utf8 t)))
      else Err InvalidArgument
  | [_; _] => Err InvalidArgument
  | _ => Err IncorrectNumberOfArguments
  end.
(** 290-292 *)
Definition list_fn (args : list value) : outcome ferr value := Ok (VArr args).
(** 299-331: [expect] on the size, and [chunks(0)], panic; a size of at least the length gives
    the whole list *)
Definition chunk_list (args : list value) : outcome ferr value :=
  match args with
  | [VArr l; VNum n] =>
      match as_u64 n with
      | Some z => if (z =? 0)%Z then Panic
                  else Ok (VArr (map VArr (if (Z.of_nat (length l) <=? z)%Z then match l with [] => [] | _ => [l] end
                                           else chunks (length l) (Z.to_nat z) l)))
      | None => Panic
      end
  | [VArr _; _] => Err InvalidArgument
  | [_; _] => Err InvalidArgument
  | _ => Err IncorrectNumberOfArguments
  end.
(** 338-372 *)
Definition list_elem (args : list value) : outcome ferr value :=
  match args with
  | [VArr l; VNum n] =>
      match as_u64 n with
      | Some z => if (Z.of_nat (length l) <=? z)%Z then Err InvalidInput
                  else match nth_error l (Z.to_nat z) with Some v => Ok v | None => Err InvalidInput end
      | None => Panic
      end
  | [VArr _; _] => Err InvalidArgument
  | [_; _] => Err InvalidArgument
  | _ => Err IncorrectNumberOfArguments
  end.
(** 397-401 *)
Definition keep_unique (l : list value) : list value :=
  fold_left (fun unique e => if existsb (fun u => value_eqb u e) unique then unique else unique ++ [e]) l [].
(** 381-405 *)
Definition remove_duplicates (args : list value) : outcome ferr value :=
  match args with
  | [VArr l] => Ok (VArr (keep_unique l))
  | [_] => Err InvalidArgument
  | _ => Err IncorrectNumberOfArguments
  end.
(** 413-442 *)
Definition contains_fn (args : list value) : outcome ferr value :=
  match args with
  | [VArr l; v] => Ok (VBool (existsb (fun e => value_eqb e v) l))
  | [VStr h; VStr n] => Ok (VBool (contains n h))
  | [_; _] => Err InvalidArgument
  | _ => Err IncorrectNumberOfArguments
  end.
(** 449-481 *)
Definition split (args : list value) : outcome ferr value :=
  match args with
  | [VStr t; VStr sep] => Ok (VArr (map VStr (split_text sep t)))
  | [_; _] => Err InvalidArgument
  | _ => Err IncorrectNumberOfArguments
  end.
(** 489-523; [min] is looked at before [max] *)
Definition math_rand (n : nat) (args : list value) : outcome ferr value :=
  match args with
  | [VNum a; b] =>
      match as_i64 a with
      | None => Panic
      | Some lo =>
          match b with
          | VNum b' =>
              match as_i64 b' with
              | None => Panic
              | Some hi => if (hi <=? lo)%Z then Err InvalidArgument else Ok (VNum (NInt (draw_range n lo hi)))
              end
          | _ => Err InvalidArgument
          end
      end
  | [_; _] => Err InvalidArgument
  | _ => Err IncorrectNumberOfArguments
  end.
(** 530-558 and the like: [expect] on the result panics *)
Definition arith (op : spec_float -> spec_float -> spec_float) (args : list value) : outcome ferr value :=
  match args with
  | [VNum a; VNum b] => match from_f64 (op (as_f64 a) (as_f64 b)) with Some n => Ok (VNum n) | None => Panic end
  | [_; _] => Err InvalidArgument
  | _ => Err IncorrectNumberOfArguments
  end.
(** 530-558 *)
Definition math_add := arith (SFadd 53 1024).
(** 565-593 *)
Definition math_sub := arith (SFsub 53 1024).
(** 600-628 *)
Definition math_mult := arith (SFmul 53 1024).
(** 635-669 *)
Definition math_div (args : list value) : outcome ferr value :=
  match args with
  | [VNum a; VNum b] => if is_zero (as_f64 b) then Err InvalidInput else arith (SFdiv 53 1024) args
  | _ => arith (SFdiv 53 1024) args
  end.
(** 676-691: the length of a string is its length in bytes *)
Definition len (args : list value) : outcome ferr value :=
  match args with
  | [VStr t] => Ok (VNum (NInt (Z.of_nat (length (utf8 t)))))
  | [VArr l] => Ok (VNum (NInt (Z.of_nat (length l))))
  | [_] => Err InvalidArgument
  | _ => Err IncorrectNumberOfArguments
  end.
(** 698-706 *)
Definition uuid (n : nat) (args : list value) : outcome ferr value :=
  match args with [] => Ok (VStr (draw_uuid n)) | _ => Err IncorrectNumberOfArguments end.
(** 714-722 *)
Definition nanoid (n : nat) (args : list value) : outcome ferr value :=
  match args with [] => Ok (VStr (draw_nanoid n)) | _ => Err IncorrectNumberOfArguments end.
End Params.
