(** Vocabulary for C23, C24 and C25. *)
From Verif Require Import Base Json Chars Value.
Local Open Scope list_scope.

(** Deep equality of values; the two zeros of a float are the same number, an integer is
    never the same value as a float. *)
Inductive same_num : num -> num -> Prop :=
| sn_int z : same_num (NInt z) (NInt z)
| sn_float f : f <> S754_nan -> same_num (NFloat f) (NFloat f)
| sn_zero a b : same_num (NFloat (S754_zero a)) (NFloat (S754_zero b)).
Inductive same_value : value -> value -> Prop :=
| sv_null : same_value VNull VNull
| sv_bool b : same_value (VBool b) (VBool b)
| sv_num m n : same_num m n -> same_value (VNum m) (VNum n)
| sv_str t : same_value (VStr t) (VStr t)
| sv_arr l r : same_list l r -> same_value (VArr l) (VArr r)
| sv_obj l r : same_entries l r -> same_value (VObj l) (VObj r)
with same_list : list value -> list value -> Prop :=
| sl_nil : same_list [] []
| sl_cons x y l r : same_value x y -> same_list l r -> same_list (x :: l) (y :: r)
with same_entries : list (text * value) -> list (text * value) -> Prop :=
| se_nil : same_entries [] []
| se_cons k x y l r : same_value x y -> same_entries l r -> same_entries ((k, x) :: l) ((k, y) :: r).

(** [u] lists, in order, the elements of [l] that are not the same value as an element of
    [before] or as an earlier element of [l]. *)
Inductive first_ones : list value -> list value -> list value -> Prop :=
| fo_nil before : first_ones before [] []
| fo_keep before x l u : (forall e, In e before -> ~ same_value e x) ->
    first_ones (before ++ [x]) l u -> first_ones before (x :: l) (x :: u)
| fo_drop before x l u e : In e before -> same_value e x ->
    first_ones (before ++ [x]) l u -> first_ones before (x :: l) u.

(** Consecutive chunks of size [n], the last one possibly shorter but not empty *)
Definition chunked {A} (n : Z) (l : list A) (cs : list (list A)) : Prop :=
  concat cs = l /\
  forall before c after, cs = before ++ c :: after ->
    c <> [] /\ (Z.of_nat (length c) <= n)%Z /\ (after <> [] -> Z.of_nat (length c) = n).

Definition occurs (sep t : text) : Prop := exists a b, t = a ++ sep ++ b.
(** The pieces with the separator between them *)
Fixpoint join (sep : text) (ps : list text) : text :=
  match ps with
  | [] => []
  | [p] => p
  | p :: ps' => p ++ sep ++ join sep ps'
  end.
(** [ps] are the pieces of [t] when it is cut at the first separator, then the rest is cut at
    its first separator, and so on. *)
Inductive cut (sep : text) : text -> list text -> Prop :=
| cut_last t : ~ occurs sep t -> cut sep t [t]
| cut_more p rest ps : (forall a b, p ++ sep ++ rest = a ++ sep ++ b -> length p <= length a) ->
    cut sep rest ps -> cut sep (p ++ sep ++ rest) (p :: ps).
(** The first piece, the first text, the second piece, ..., the last piece *)
Fixpoint fill (ps ts : list text) : text :=
  match ps, ts with
  | p :: ps', t :: ts' => p ++ t ++ fill ps' ts'
  | p :: _, [] => p
  | [], _ => []
  end.
Definition no_braces (t : text) : Prop := ~ In 123%N t /\ ~ In 125%N t.
