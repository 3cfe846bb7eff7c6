(** Vocabulary for the properties of payload templates *)
From Verif Require Import Base Json Chars Value Bytes ScannerModel ResolveModel TemplateParserModel TemplateFuncModel PayloadModel.
Local Open Scope list_scope.

(** Numbers a JSON document can hold *)
Definition finite (f : spec_float) : Prop := match f with S754_zero _ | S754_finite _ _ _ => True | _ => False end.

(** The paths that name a field: [$.f] and, beyond what is documented, [.f] alone or
    followed by any one link *)
Inductive names_field : jpath -> text -> Prop :=
| NF_root f : names_field (JChain [JRoot; JField f]) f
| NF_bare f : names_field (JChain [JField f]) f
| NF_cut f x : names_field (JChain [JField f; x]) f.

Section Params.
Variable k : classes.
Variable parse_path : text -> option jpath.
Variable parse_float : text -> option spec_float.
Variable find : jpath -> value -> value.
Variable show_num : num -> text.
Variable json_read : text -> option value.
Variable json_write : value -> text.
Variable sha256 sha384 sha512 : list N -> text.
Variable draw_range : nat -> Z -> Z -> Z.
Variable draw_uuid draw_nanoid : nat -> text.

(** The documented functions by name; [n] numbers the random draws. *)
Inductive documented : text -> (nat -> list value -> outcome ferr value) -> Prop :=
| D_format : documented (chars "format") (fun _ => format show_num)
| D_jsondecode : documented (chars "jsondecode") (fun _ => jsondecode json_read)
| D_jsonencode : documented (chars "jsonencode") (fun _ => jsonencode json_write)
| D_jsonmerge : documented (chars "jsonmerge") (fun _ => jsonmerge)
| D_b64encode : documented (chars "b64encode") (fun _ => b64encode)
| D_b64decode : documented (chars "b64decode") (fun _ => b64decode)
| D_hash : documented (chars "hash") (fun _ => hash sha256 sha384 sha512)
| D_list : documented (chars "list") (fun _ => list_fn)
| D_chunk_list : documented (chars "chunk_list") (fun _ => chunk_list)
| D_list_elem : documented (chars "list_elem") (fun _ => list_elem)
| D_remove_duplicates : documented (chars "remove_duplicates") (fun _ => remove_duplicates)
| D_contains : documented (chars "contains") (fun _ => contains_fn)
| D_split : documented (chars "split") (fun _ => split)
| D_math_rand : documented (chars "math_rand") (math_rand draw_range)
| D_math_add : documented (chars "math_add") (fun _ => math_add)
| D_math_sub : documented (chars "math_sub") (fun _ => math_sub)
| D_math_mult : documented (chars "math_mult") (fun _ => math_mult)
| D_math_div : documented (chars "math_div") (fun _ => math_div)
| D_len : documented (chars "len") (fun _ => len)
| D_uuid : documented (chars "uuid") (uuid draw_uuid)
| D_nanoid : documented (chars "nanoid") (nanoid draw_nanoid).
Definition random_name (name : text) : Prop := name = chars "math_rand" \/ name = chars "uuid" \/ name = chars "nanoid".

Variable input : value.
(** What a path stands for: nothing found is null, one value found is that value, otherwise
    the list of what is found *)
Inductive selected (p : jpath) : value -> Prop :=
| Sel_none : find p input = VNull -> selected p VNull
| Sel_one x : find p input = VArr [x] -> selected p x
| Sel_many l : find p input = VArr l -> length l <> 1 -> selected p (VArr l).

(** The value of an argument and of a call *)
Inductive arg_value : expr jpath spec_float -> value -> Prop :=
| AV_str t : arg_value (EStr t) (VStr t)
| AV_int z : arg_value (EInt z) (VNum (NInt z))
| AV_float f : finite f -> arg_value (EFloat f) (VNum (NFloat f))
| AV_bool b : arg_value (EBool b) (VBool b)
| AV_null : arg_value ENull VNull
| AV_path p v : selected p v -> arg_value (EPath p) v
| AV_call name args vs f n v : Forall2 arg_value args vs -> documented name f -> f n vs = Ok v -> arg_value (ECall (Call name args)) v.

(** The document a template stands for.  Entries of a mapping keep their keys. *)
Inductive renders : rnode spec_float -> value -> Prop :=
| R_text t : (forall u, t <> chars "func:" ++ u) -> (forall u, t <> chars "$" ++ u) -> renders (RScalar (SStr t)) (VStr t)
| R_path u p v : parse_path (chars "$" ++ u) = Some p -> selected p v -> renders (RScalar (SStr (chars "$" ++ u))) v
| R_call u c v : parse_func k jpath parse_path spec_float parse_float u = inl c -> arg_value (ECall c) v -> renders (RScalar (SStr (chars "func:" ++ u))) v
| R_int z : renders (RScalar (SInt z)) (VNum (NInt z))
| R_float f : finite f -> renders (RScalar (SFloat f)) (VNum (NFloat f))
| R_bool b : renders (RScalar (SBool b)) (VBool b)
| R_null : renders RNull VNull
| R_seq l vs : Forall2 renders l vs -> renders (RSeq l) (VArr vs)
| R_map m kvs o : Forall2 (fun kx kv => fst kx = fst kv /\ renders (snd kx) (snd kv)) m kvs ->
    keys_sorted o -> (forall key, get key o = get key kvs) -> renders (RMap m) (VObj o).

(** Scalars in a template, calls in a call *)
Inductive leaf (s : scalar spec_float) : rnode spec_float -> Prop :=
| L_here : leaf s (RScalar s)
| L_seq l x : In x l -> leaf s x -> leaf s (RSeq l)
| L_map m key x : In (key, x) m -> leaf s x -> leaf s (RMap m).
Inductive within (e : expr jpath spec_float) : expr jpath spec_float -> Prop :=
| W_here : within e e
| W_arg name args a : In a args -> within e a -> within e (ECall (Call name args)).
(** [e] is evaluated for the template. *)
Definition evaluated (e : expr jpath spec_float) (t : rnode spec_float) : Prop :=
  exists u c, leaf (SStr (chars "func:" ++ u)) t /\ parse_func k jpath parse_path spec_float parse_float u = inl c /\ within e (ECall c).
(** Keys of a map are distinct. *)
Inductive proper_maps : rnode spec_float -> Prop :=
| P_scalar s : proper_maps (RScalar s)
| P_null : proper_maps RNull
| P_seq l : Forall proper_maps l -> proper_maps (RSeq l)
| P_map m : NoDup (map fst m) -> Forall (fun kx => proper_maps (snd kx)) m -> proper_maps (RMap m).
Definition no_random (t : rnode spec_float) : Prop := forall name args, evaluated (ECall (Call name args)) t -> ~ random_name name.

(** What goes wrong *)
Definition goes_wrong (t : rnode spec_float) (e : perr) : Prop :=
  match e with
  | JsonPathError => exists u, leaf (SStr (chars "$" ++ u)) t /\ parse_path (chars "$" ++ u) = None
  | ParseFunctionCallError => exists u x, leaf (SStr (chars "func:" ++ u)) t /\ parse_func k jpath parse_path spec_float parse_float u = inr x
  | FunctionNotFound name => exists args, evaluated (ECall (Call name args)) t /\ forall f, ~ documented name f
  | FunctionCallFailed x => exists name args vs f n, evaluated (ECall (Call name args)) t /\ Forall2 arg_value args vs /\ documented name f /\ f n vs = Err x
  end.
Definition crashes (t : rnode spec_float) : Prop :=
  (exists f, leaf (SFloat f) t /\ ~ finite f) \/
  (exists f, evaluated (EFloat f) t /\ ~ finite f) \/
  (exists name args vs f n, evaluated (ECall (Call name args)) t /\ Forall2 arg_value args vs /\ documented name f /\ f n vs = Panic).
End Params.

(** Calls of the functions that crash *)
Definition index (n : num) : Prop := exists z, n = NInt z /\ (0 <= z)%Z.
Definition size (n : num) : Prop := exists z, n = NInt z /\ (1 <= z)%Z.
Definition bound (n : num) : Prop := exists z, n = NInt z /\ (z < 2 ^ 63)%Z.
Inductive crash : text -> list value -> Prop :=
| Crash_chunk l n : ~ size n -> crash (chars "chunk_list") [VArr l; VNum n]
| Crash_elem l n : ~ index n -> crash (chars "list_elem") [VArr l; VNum n]
| Crash_rand_min n v : ~ bound n -> crash (chars "math_rand") [VNum n; v]
| Crash_rand_max a n : bound a -> ~ bound n -> crash (chars "math_rand") [VNum a; VNum n]
| Crash_add a b : ~ finite (SFadd 53 1024 (as_f64 a) (as_f64 b)) -> crash (chars "math_add") [VNum a; VNum b]
| Crash_sub a b : ~ finite (SFsub 53 1024 (as_f64 a) (as_f64 b)) -> crash (chars "math_sub") [VNum a; VNum b]
| Crash_mult a b : ~ finite (SFmul 53 1024 (as_f64 a) (as_f64 b)) -> crash (chars "math_mult") [VNum a; VNum b]
| Crash_div a b : (forall s, as_f64 b <> S754_zero s) -> ~ finite (SFdiv 53 1024 (as_f64 a) (as_f64 b)) -> crash (chars "math_div") [VNum a; VNum b].
