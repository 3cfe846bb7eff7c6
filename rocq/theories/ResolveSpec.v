(** Vocabulary for C54, C55 and C64. *)
From Verif Require Import Base Chars SubstModel ResolveModel.
Local Open Scope list_scope.

(** The number written by decimal digits: the value of [d1..dn] is ten times that of
    [d1..d(n-1)] plus [dn]. *)
Inductive digits_mean : text -> Z -> Prop :=
| dm_one d : (0 <= d <= 9)%Z -> digits_mean [Z.to_N (48 + d)] d
| dm_more t v d : digits_mean t v -> (0 <= d <= 9)%Z -> digits_mean (t ++ [Z.to_N (48 + d)]) (10 * v + d).
(** A 64-bit signed integer in decimal, with an optional sign *)
Definition int_text (t : text) (z : Z) : Prop :=
  (- 2 ^ 63 <= z < 2 ^ 63)%Z /\
  (digits_mean t z \/ (exists ds, t = chars "+" ++ ds /\ digits_mean ds z) \/ (exists ds, t = chars "-" ++ ds /\ digits_mean ds (- z))).

Section Params.
Variable F : Type.
Variable parse_f64 : text -> option F.
Variable env : text -> option text.

Definition variable (n v : text) : Prop := env (chars "CELERITY_VARIABLE_" ++ n) = Some v.
Definition missing (n : text) : Prop := env (chars "CELERITY_VARIABLE_" ++ n) = None.
(** The text a part stands for *)
Definition part_text (p : part) (t : text) : Prop :=
  match p with Lit u => t = u | Ref n => variable n t end.
(** The text a list of parts stands for: the texts of its parts one after the other *)
Definition parts_text (ps : list part) (t : text) : Prop :=
  exists ts, Forall2 part_text ps ts /\ t = concat ts.
Definition refers_to_missing (ps : list part) : Prop := exists n, In (Ref n) ps /\ missing n.

(** The type a value of a variable gets *)
Inductive typed (v : text) : scalar F -> Prop :=
| ty_int z : int_text v z -> typed v (SInt F z)
| ty_float f : (forall z, ~ int_text v z) -> parse_f64 v = Some f -> typed v (SFloat F f)
| ty_bool b : (forall z, ~ int_text v z) -> parse_f64 v = None ->
    v = chars (if b : bool then "true" else "false") -> typed v (SBool F b)
| ty_str : (forall z, ~ int_text v z) -> parse_f64 v = None -> v <> chars "true" -> v <> chars "false" -> typed v (SStr F v).

(** The scalar a list of parts stands for: a lone reference is typed, anything else is text. *)
Inductive parts_scalar : list part -> scalar F -> Prop :=
| ps_ref n v s : variable n v -> typed v s -> parts_scalar [Ref n] s
| ps_text ps t : (forall n, ps <> [Ref n]) -> parts_text ps t -> parts_scalar ps (SStr F t).

(** [r] is [n] with each leaf resolved. *)
Inductive resolved : node F -> rnode F -> Prop :=
| rs_scalar s : resolved (NScalar F s) (RScalar F s)
| rs_null : resolved (NNull F) (RNull F)
| rs_sub ps s : parts_scalar ps s -> resolved (NSub F ps) (RScalar F s)
| rs_seq l r : Forall2 resolved l r -> resolved (NSeq F l) (RSeq F r)
| rs_map m r : Forall2 (fun a b => fst a = fst b /\ resolved (snd a) (snd b)) m r -> resolved (NMap F m) (RMap F r).

(** [occurs_at d x n]: [x] is [d] levels below the top of [n]. *)
Inductive occurs_at : nat -> node F -> node F -> Prop :=
| oa_here n : occurs_at 0 n n
| oa_seq d x y l : In y l -> occurs_at d x y -> occurs_at (S d) x (NSeq F l)
| oa_map d x y key m : In (key, y) m -> occurs_at d x y -> occurs_at (S d) x (NMap F m).
Definition deeper_than (d : nat) (n : node F) : Prop := exists d' x, d < d' /\ occurs_at d' x n.
(** No substitution in it is an empty list of parts (the parser never makes one, C53). *)
Definition proper (n : node F) : Prop := forall d, ~ occurs_at d (NSub F []) n.
Definition node_missing (n : node F) : Prop := exists d ps, occurs_at d (NSub F ps) n /\ refers_to_missing ps.

(** Every string in a document *)
Inductive string_in : text -> doc F -> Prop :=
| si_here t : string_in t (DStr F t)
| si_seq t y l : In y l -> string_in t y -> string_in t (DSeq F l)
| si_map t y key m : In (key, y) m -> string_in t y -> string_in t (DMap F m).
Inductive int_in : Z -> doc F -> Prop :=
| ii_here z : int_in z (DInt F z)
| ii_seq z y l : In y l -> int_in z y -> int_in z (DSeq F l)
| ii_map z y key m : In (key, y) m -> int_in z y -> int_in z (DMap F m).
End Params.
