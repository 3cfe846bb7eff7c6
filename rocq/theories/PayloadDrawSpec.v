(** Vocabulary for C137: what a template stands for when the random draws are numbered in the
    order of the document, one for each call of a random function. *)
From Verif Require Import Base Json Chars Value Bytes ScannerModel SubstModel ResolveModel TemplateParserModel TemplateFuncModel PayloadModel PayloadSpec.
Local Open Scope list_scope.

Section Params.
Variable k : classes.
Variable parse_path : text -> option jpath.
Variable parse_float : text -> option spec_float.
Variable find : jpath -> value -> value.
Variable show_num : num -> text.
Variable json_read : text -> option value.
Variable json_write : value -> text.
Variable sha256 sha384 sha512 : list N -> text.
Variable draw_range : nat -> Z -> Z -> Z.
Variable draw_uuid draw_nanoid : nat -> text.
Variable input : value.
Notation documented := (documented show_num json_read json_write sha256 sha384 sha512 draw_range draw_uuid draw_nanoid).

(** An expression evaluated when [n] draws were made has a value, and then [n'] were made. *)
Inductive drawn : nat -> expr jpath spec_float -> value -> nat -> Prop :=
| D_str n t : drawn n (EStr t) (VStr t) n
| D_int n z : drawn n (EInt z) (VNum (NInt z)) n
| D_float n f : finite f -> drawn n (EFloat f) (VNum (NFloat f)) n
| D_bool n b : drawn n (EBool b) (VBool b) n
| D_null n : drawn n ENull VNull n
| D_path n p v : selected find input p v -> drawn n (EPath p) v n
(** a random function uses the next draw, after those of its arguments *)
| D_random n name args vs n1 f v : all_drawn n args vs n1 -> documented name f -> random_name name -> f n1 vs = Ok v ->
    drawn n (ECall (Call name args)) v (S n1)
| D_other n name args vs n1 f v : all_drawn n args vs n1 -> documented name f -> ~ random_name name -> f n1 vs = Ok v ->
    drawn n (ECall (Call name args)) v n1
with all_drawn : nat -> list (expr jpath spec_float) -> list value -> nat -> Prop :=
| D_none n : all_drawn n [] [] n
| D_more n a v n1 l vs n2 : drawn n a v n1 -> all_drawn n1 l vs n2 -> all_drawn n (a :: l) (v :: vs) n2.

(** The same for a template: its parts in order *)
Inductive filled : nat -> rnode spec_float -> value -> nat -> Prop :=
| F_text n t : (forall u, t <> chars "func:" ++ u) -> (forall u, t <> chars "$" ++ u) -> filled n (RScalar (SStr t)) (VStr t) n
| F_path n u p v : parse_path (chars "$" ++ u) = Some p -> selected find input p v -> filled n (RScalar (SStr (chars "$" ++ u))) v n
| F_call n u c v n1 : parse_func k jpath parse_path spec_float parse_float u = inl c -> drawn n (ECall c) v n1 ->
    filled n (RScalar (SStr (chars "func:" ++ u))) v n1
| F_int n z : filled n (RScalar (SInt z)) (VNum (NInt z)) n
| F_float n f : finite f -> filled n (RScalar (SFloat f)) (VNum (NFloat f)) n
| F_bool n b : filled n (RScalar (SBool b)) (VBool b) n
| F_null n : filled n RNull VNull n
| F_seq n l vs n1 : all_filled n l vs n1 -> filled n (RSeq l) (VArr vs) n1
| F_map n m vs n1 o : all_filled n (map snd m) vs n1 -> keys_sorted o ->
    (forall key, get key o = get key (combine (map fst m) vs)) -> filled n (RMap m) (VObj o) n1
with all_filled : nat -> list (rnode spec_float) -> list value -> nat -> Prop :=
| F_none n : all_filled n [] [] n
| F_more n x v n1 l vs n2 : filled n x v n1 -> all_filled n1 l vs n2 -> all_filled n (x :: l) (v :: vs) n2.
End Params.
