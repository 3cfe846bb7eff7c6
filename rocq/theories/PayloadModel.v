(** Payload templates: rendering, injection and extraction,
    libs/runtime/workflow/src/payload_template.rs and libs/runtime/helpers/src/jsonpath.rs *)
From Verif Require Import Base Json Chars Value Bytes ScannerModel ResolveModel TemplateParserModel TemplateFuncModel.
Local Open Scope list_scope.
Global Arguments RScalar {F}. Global Arguments RMap {F}. Global Arguments RSeq {F}. Global Arguments RNull {F}.
Global Arguments SStr {F}. Global Arguments SInt {F}. Global Arguments SFloat {F}. Global Arguments SBool {F}.

(** Parsed JSON paths (jsonpath-rust, [JsonPath]).  The code tells apart chains, the root and
    fields; the other seven forms are [JOther]. Third party; used in jsonpath.rs 40-81. *)
Inductive jpath := JRoot | JField (t : text) | JChain (l : list jpath) | JOther (n : N).

(** jsonpath.rs 55-81, the loop over the at most two links *)
Fixpoint chain_field (l : list jpath) : option text :=
  match l with
  | [] => None
  | JRoot :: l' => chain_field l'
  | JField t :: _ => Some t
  | _ :: _ => None
  end.
(** jsonpath.rs 55-81 *)
Definition root_field (p : jpath) : option text :=
  match p with
  | JChain l => if Nat.eqb (length l) 0 || Nat.ltb 2 (length l) then None else chain_field l
  | _ => None
  end.
(** jsonpath.rs 40-53: the document afterwards and whether it was injected *)
Definition inject_root (p : jpath) (doc v : value) : value * bool :=
  match doc with
  | VObj m => match root_field p with Some f => (VObj (set f v m), true) | None => (doc, false) end
  | _ => (doc, false)
  end.

(** payload_template.rs 51-57; messages left out *)
Inductive perr := JsonPathError | FunctionNotFound (name : text) | ParseFunctionCallError | FunctionCallFailed (e : ferr).
(** payload_template.rs 87-97 *)
Definition lift_ferr (r : outcome ferr value) : outcome perr value :=
  match r with Ok v => Ok v | Err e => Err (FunctionCallFailed e) | Panic => Panic end.
(** [?] on a result that comes with the number of random draws made so far. payload_template.rs 112-255. *)
Definition bind {A B} (x : outcome perr A * nat) (f : A -> nat -> outcome perr B * nat) : outcome perr B * nat :=
  match x with (Ok a, n) => f a n | (Err e, n) => (Err e, n) | (Panic, n) => (Panic, n) end.

Section Params.
(** As in TemplateParserModel.v and TemplateFuncModel.v; [find] is [JsonPath::find]. *)
Variable k : classes.
Variable parse_path : text -> option jpath.
Variable parse_float : text -> option spec_float.
Variable find : jpath -> value -> value.
Variable show_num : num -> text.
Variable json_read : text -> option value.
Variable json_write : value -> text.
Variable sha256 sha384 sha512 : list N -> text.
Variable draw_range : nat -> Z -> Z -> Z.
Variable draw_uuid draw_nanoid : nat -> text.

(** 175-203: the function of a name, applied *)
Definition apply_func (name : text) (args : list value) (n : nat) : outcome perr value * nat :=
  let is s := text_eqb name (chars s) in
  let pure f := (lift_ferr (f args), n) in
  let random f := (lift_ferr (f n args), S n) in
  if is "format"%string then pure (format show_num)
  else if is "jsondecode"%string then pure (jsondecode json_read)
  else if is "jsonencode"%string then pure (jsonencode json_write)
  else if is "jsonmerge"%string then pure jsonmerge
  else if is "b64encode"%string then pure b64encode
  else if is "b64decode"%string then pure b64decode
  else if is "hash"%string then pure (hash sha256 sha384 sha512)
  else if is "list"%string then pure list_fn
  else if is "chunk_list"%string then pure chunk_list
  else if is "list_elem"%string then pure list_elem
  else if is "remove_duplicates"%string then pure remove_duplicates
  else if is "contains"%string then pure contains_fn
  else if is "split"%string then pure split
  else if is "math_rand"%string then random (math_rand draw_range)
  else if is "math_add"%string then pure math_add
  else if is "math_sub"%string then pure math_sub
  else if is "math_mult"%string then pure math_mult
  else if is "math_div"%string then pure math_div
  else if is "len"%string then pure len
  else if is "uuid"%string then random (uuid draw_uuid)
  else if is "nanoid"%string then random (nanoid draw_nanoid)
  else (Err (FunctionNotFound name), n).
(** 257-276: [find] gives null or an array of the values found *)
Definition extract_value (p : jpath) (input : value) : value :=
  match find p input with
  | VArr [x] => x
  | v => v
  end.

Section Input.
Variable input : value.
(** 206-237, one argument *)
Fixpoint compute_arg (e : expr jpath spec_float) (n : nat) : outcome perr value * nat :=
  match e with
  | EStr t => (Ok (VStr t), n)
  | EInt z => (Ok (VNum (NInt z)), n)
  | EFloat f => (match from_f64 f with Some x => Ok (VNum x) | None => Panic end, n)
  | EBool b => (Ok (VBool b), n)
  | ENull => (Ok VNull, n)
  | EPath p => (Ok (extract_value p input), n)
  | ECall c => compute_call c n
  end
(** 169-237 *)
with compute_call (c : call jpath spec_float) (n : nat) : outcome perr value * nat :=
  match c with
  | Call name args =>
      bind ((fix compute_args (l : list (expr jpath spec_float)) (n : nat) : outcome perr (list value) * nat :=
               match l with
               | [] => (Ok [], n)
               | a :: l' => bind (compute_arg a n) (fun v n1 => bind (compute_args l' n1) (fun vs n2 => (Ok (v :: vs), n2)))
               end) args n)
           (apply_func name)
  end.
(** 112-135 and 158-167, 239-255 *)
Definition render_scalar (s : scalar spec_float) (n : nat) : outcome perr value * nat :=
  match s with
  | SStr t =>
      if starts_with (chars "func:") t then
        match parse_func k jpath parse_path spec_float parse_float (skipn 5 t) with
        | inl c => compute_call c n
        | inr _ => (Err ParseFunctionCallError, n)
        end
      else if starts_with (chars "$") t then
        match parse_path t with
        | Some p => (Ok (extract_value p input), n)
        | None => (Err JsonPathError, n)
        end
      else (Ok (VStr t), n)
  | SInt z => (Ok (VNum (NInt z)), n)
  | SFloat f => (match from_f64 f with Some x => Ok (VNum x) | None => Panic end, n)
  | SBool b => (Ok (VBool b), n)
  end.
(** 137-156 and 280-296; entries of a mapping in iteration order *)
Fixpoint render_node (t : rnode spec_float) (n : nat) : outcome perr value * nat :=
  match t with
  | RScalar s => render_scalar s n
  | RSeq l =>
      bind ((fix render_sequence (l : list (rnode spec_float)) (n : nat) : outcome perr (list value) * nat :=
               match l with
               | [] => (Ok [], n)
               | x :: l' => bind (render_node x n) (fun v n1 => bind (render_sequence l' n1) (fun vs n2 => (Ok (v :: vs), n2)))
               end) l n)
           (fun vs n1 => (Ok (VArr vs), n1))
  | RMap m =>
      bind ((fix render_entries (m : list (text * rnode spec_float)) (rendered : list (text * value)) (n : nat) : outcome perr (list (text * value)) * nat :=
               match m with
               | [] => (Ok rendered, n)
               | (key, x) :: m' => bind (render_node x n) (fun v n1 => render_entries m' (set key v rendered) n1)
               end) m [] n)
           (fun o n1 => (Ok (VObj o), n1))
  | RNull => (Ok VNull, n)
  end.
End Input.
(** 280-296 *)
Definition render (template : list (text * rnode spec_float)) (input : value) (n : nat) : outcome perr value * nat :=
  render_node input (RMap template) n.
(** 298-321 *)
Definition inject (input : value) (path : text) (v : value) : outcome perr value :=
  match parse_path path with
  | None => Err JsonPathError
  | Some p => match inject_root p input v with (doc, true) => Ok doc | (_, false) => Err JsonPathError end
  end.
(** 323-338 *)
Definition extract (input : value) (path : text) : outcome perr value :=
  match parse_path path with
  | None => Err JsonPathError
  | Some p => Ok (extract_value p input)
  end.
End Params.
