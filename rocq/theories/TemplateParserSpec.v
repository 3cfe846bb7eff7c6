(** The documented syntax of template function calls (C21, C68). *)
From Verif Require Import Base Chars ResolveSpec TemplateParserModel.
Local Open Scope list_scope.

Section Params.
Variable k : classes.
Variable P : Type.
Variable parse_path : text -> option P.
Variable F : Type.
Variable parse_float : text -> option F.

Definition blanks (t : text) : Prop := forall c, In c t -> whitespace k c = true.
(** A letter or underscore, then letters, digits and underscores *)
Definition func_name_text (n : text) : Prop :=
  exists c t, n = c :: t /\ (alphabetic k c = true \/ c = 95%N) /\
    forall d, In d t -> alphabetic k d = true \/ (48 <= d <= 57)%N \/ d = 95%N.
(** How a string is written between quotes: every quote in it with a backslash before it *)
Inductive escaped : text -> text -> Prop :=
| esc_nil : escaped [] []
| esc_char c v r : c <> 34%N -> escaped v r -> escaped (c :: v) (c :: r)
| esc_quote v r : escaped v r -> escaped (34%N :: v) (92%N :: 34%N :: r).
Definition ends_with_backslash (v : text) : Prop := exists u, v = u ++ [92%N].
Definition all_digits (t : text) : Prop := t <> [] /\ forall c, In c t -> (48 <= c <= 57)%N.
(** An optional sign, digits, a point and digits *)
Definition float_text (t : text) : Prop :=
  exists sign a b, t = sign ++ a ++ chars "." ++ b /\ (sign = [] \/ sign = chars "-") /\ all_digits a /\ all_digits b.

(** The characters , ) stand in a JSON path only inside quotes or brackets; [39], [91], [93]
    are the apostrophe and the brackets. *)
Definition quoted_text (t : text) : Prop :=
  exists w, t = 39%N :: w ++ [39%N] /\ forall c, In c w -> c <> 39%N /\ c <> 91%N /\ c <> 93%N.
Inductive in_brackets : text -> Prop :=
| ib_nil : in_brackets []
| ib_char c t : c <> 39%N -> c <> 93%N -> in_brackets t -> in_brackets (c :: t)
| ib_quoted q t : quoted_text q -> in_brackets t -> in_brackets (q ++ t).
Inductive path_body : text -> Prop :=
| pb_nil : path_body []
| pb_char c t : ~ In c (chars ",)[]'") -> path_body t -> path_body (c :: t)
| pb_quoted q t : quoted_text q -> path_body t -> path_body (q ++ t)
| pb_brackets b t : in_brackets b -> path_body t -> path_body (91%N :: b ++ 93%N :: t).
Definition path_text (t : text) : Prop := exists u, t = chars "$" ++ u /\ path_body u.

(** What is used of the JSON path library: nothing that starts like another argument is a
    path, and blanks at the end do not matter. *)
Definition path_parser : Prop :=
  (forall c t, is_letter c = true \/ is_digit c = true \/ In c (chars "-") \/ c = 34%N -> parse_path (c :: t) = None) /\
  (forall t b, blanks b -> parse_path (t ++ b) = parse_path t).

(** Arguments, calls and argument lists as they are written *)
Inductive arg_written : expr P F -> text -> Prop :=
| aw_str v r : escaped v r -> ~ ends_with_backslash v -> arg_written (EStr v) (34%N :: r ++ [34%N])
| aw_int z t : int_text t z -> ~ In 43%N t -> arg_written (EInt z) t
| aw_float f t : float_text t -> parse_float t = Some f -> arg_written (EFloat f) t
| aw_true : arg_written (EBool true) (chars "true")
| aw_false : arg_written (EBool false) (chars "false")
| aw_null : arg_written ENull (chars "null")
| aw_path p t : path_text t -> parse_path t = Some p -> arg_written (EPath p) t
| aw_call c t : call_written c t -> arg_written (ECall c) t
with call_written : call P F -> text -> Prop :=
| cw_call n args b inner : func_name_text n -> blanks b -> args_written args inner ->
    call_written (Call n args) (n ++ b ++ chars "(" ++ inner ++ chars ")")
with args_written : list (expr P F) -> text -> Prop :=
| as_none b : blanks b -> args_written [] b
| as_one b1 a t b2 : blanks b1 -> arg_written a t -> blanks b2 -> args_written [a] (b1 ++ t ++ b2)
| as_more b1 a t b2 a' args rest : blanks b1 -> arg_written a t -> blanks b2 -> args_written (a' :: args) rest ->
    args_written (a :: a' :: args) (b1 ++ t ++ b2 ++ chars "," ++ rest).

(** The strings anywhere in a call *)
Inductive string_in_expr (v : text) : expr P F -> Prop :=
| sie_str : string_in_expr v (EStr v)
| sie_call n args a : In a args -> string_in_expr v a -> string_in_expr v (ECall (Call n args)).
End Params.

Scheme arg_w_ind := Induction for arg_written Sort Prop
with call_w_ind := Induction for call_written Sort Prop
with args_w_ind := Induction for args_written Sort Prop.
Combined Scheme written_ind from arg_w_ind, call_w_ind, args_w_ind.
(** What is used of Rust's character classes: known on ASCII, and no blank is a letter. *)
Definition proper (k : classes) : Prop := sane k /\ forall c, whitespace k c = true -> alphabetic k c = false.
