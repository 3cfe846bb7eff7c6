(** Resolving substitutions,
    libs/runtime/blueprint-config-parser/src/resolve_substitutions.rs, and reading mapping
    nodes, parse_mapping_node.rs and yaml_helpers.rs *)
From Verif Require Import Base Chars SubstModel.
Local Open Scope list_scope.

(** The values of [f64] and what [str::parse::<f64>] makes of a text; the environment. *)
Section Params.
Variable F : Type.
Variable parse_f64 : text -> option F.
Variable env : text -> option text.

(** blueprint.rs 102-109 *)
Inductive scalar := SStr (t : text) | SInt (z : Z) | SFloat (f : F) | SBool (b : bool).
(** resolve_substitutions.rs, [ResolveError]; field names and messages left out. resolve_substitutions.rs 43-53. *)
Inductive rerr := MissingVariable | ParseErr | MaxDepth (d : nat) | MustBeInt | MustBeFloat | MustBeBool | MustBeScalar.

(** Rust [i64::from_str]: optional sign, at least one digit, no overflow. *)
Fixpoint digits_value (acc : Z) (t : text) : option Z :=
  match t with
  | [] => Some acc
  | c :: t' => if is_digit c then digits_value (acc * 10 + (Z.of_N c - 48)) t' else None
  end.
(** Rust [i64::from_str], used by resolve_substitutions.rs 1780-1790 *)
Definition i64_ok (z : Z) : bool := ((- 2 ^ 63 <=? z) && (z <? 2 ^ 63))%Z.
(** Rust [i64::from_str], used by resolve_substitutions.rs 1780-1790 *)
Definition parse_i64 (t : text) : option Z :=
  let num (neg : bool) (ds : text) :=
    match ds with
    | [] => None
    | _ => match digits_value 0 ds with
           | Some v => let z := if neg then (- v)%Z else v in if i64_ok z then Some z else None
           | None => None
           end
    end in
  match t with
  | c :: ds => if (c =? 43)%N then num false ds else if (c =? 45)%N then num true ds else num false t
  | [] => None
  end.
(** Rust [bool::from_str]. (used by 1671-1686). *)
Definition parse_bool (t : text) : option bool :=
  if text_eqb t (chars "true") then Some true else if text_eqb t (chars "false") then Some false else None.

(** 1898-1919 for a [FromStr] given by [parse] *)
Definition resolve_substitution {T} (parse : text -> option T) (name : text) : outcome rerr T :=
  match env (chars "CELERITY_VARIABLE_" ++ name) with
  | None => Err MissingVariable
  | Some v => match parse v with Some x => Ok x | None => Err ParseErr end
  end.
(** 1884-1896 *)
Definition resolve_part (p : part) : outcome rerr text :=
  match p with Lit t => Ok t | Ref n => resolve_substitution Some n end.
(** 1869-1882 *)
Fixpoint resolve_to_string (ps : list part) : outcome rerr text :=
  match ps with
  | [] => Ok []
  | p :: ps' => let! a := resolve_part p in let! b := resolve_to_string ps' in Ok (a ++ b)
  end.
(** 1792-1828 *)
Definition resolve_scalar (ps : list part) : outcome rerr scalar :=
  if Nat.ltb 1 (length ps) then omap SStr (resolve_to_string ps)
  else
    match ps with
    | [] => Panic
    | Lit t :: _ => Ok (SStr t)
    | Ref n :: _ =>
        match resolve_substitution parse_i64 n with
        | Ok z => Ok (SInt z)
        | _ =>
            match resolve_substitution parse_f64 n with
            | Ok f => Ok (SFloat f)
            | _ =>
                match resolve_substitution parse_bool n with
                | Ok b => Ok (SBool b)
                | _ => omap SStr (resolve_substitution Some n)
                end
            end
        end
    end.

(** blueprint_with_subs.rs 499-506; a [HashMap] is a list of entries with distinct keys, in
    iteration order *)
Inductive node :=
| NScalar (s : scalar)
| NMap (m : list (text * node))
| NSeq (l : list node)
| NSub (ps : list part)
| NNull.
(** blueprint.rs, MappingNode: what resolve_substitutions.rs 1743-1778 builds *)
Inductive rnode :=
| RScalar (s : scalar)
| RMap (m : list (text * rnode))
| RSeq (l : list rnode)
| RNull.

(** 1741 *)
Definition max_resolve_depth : nat := 20.
(** 1743-1778 *)
Fixpoint resolve_node (depth : nat) (n : node) : outcome rerr rnode :=
  if Nat.ltb max_resolve_depth depth then Err (MaxDepth depth)
  else
    match n with
    | NScalar s => Ok (RScalar s)
    | NMap m =>
        omap RMap ((fix go l := match l with
                                | [] => Ok []
                                | (k, v) :: l' => let! r := resolve_node (depth + 1) v in let! rs := go l' in Ok ((k, r) :: rs)
                                end) m)
    | NSeq l =>
        omap RSeq ((fix go l := match l with
                                | [] => Ok []
                                | v :: l' => let! r := resolve_node (depth + 1) v in let! rs := go l' in Ok (r :: rs)
                                end) l)
    | NSub ps => omap RScalar (resolve_scalar ps)
    | NNull => Ok RNull
    end.
(** 1709-1718 with a node present *)
Definition resolve_mapping (n : node) : outcome rerr rnode := resolve_node 0 n.

(** 1688-1707 *)
Definition node_to_scalar (n : node) : outcome rerr scalar :=
  match n with
  | NScalar s => Ok s
  | NSub ps => resolve_scalar ps
  | _ => Err MustBeScalar
  end.
(** 1637-1652, 1654-1669, 1671-1686, 1780-1790 with a node present *)
Definition node_to_int (n : node) : outcome rerr Z :=
  let! s := node_to_scalar n in match s with SInt z => Ok z | _ => Err MustBeInt end.
(** 1654-1669, 1780-1790 *)
Definition node_to_float (n : node) : outcome rerr F :=
  let! s := node_to_scalar n in match s with SFloat f => Ok f | _ => Err MustBeFloat end.
(** 1671-1686, 1780-1790 *)
Definition node_to_bool (n : node) : outcome rerr bool :=
  let! s := node_to_scalar n in match s with SBool b => Ok b | _ => Err MustBeBool end.
(** 1637-1652 *)
Definition node_to_string (n : node) : outcome rerr text :=
  let! s := node_to_scalar n in match s with SStr t => Ok t | _ => Err MustBeScalar end.

(** A value of a document, as the JSON and YAML readers deliver it.  [DInt] in JSON ranges
    over i64 and u64. *)
Inductive doc :=
| DStr (t : text) | DInt (z : Z) | DFloat (f : F) | DBool (b : bool) | DNull
| DSeq (l : list doc) | DMap (m : list (text * doc)).

(** yaml_helpers.rs 10-51, parse_mapping_node.rs 22-123: an error of the reader, or of parse_substitutions.rs *)
Inductive read_error := ReadErr | SubErr (e : perr).
Variable k : classes.

(** yaml_helpers.rs 10-51: the keys are strings, other keys are skipped by the code and
    are not in [DMap]; a real that is not a number for [f64::from_str] is left out. *)
Fixpoint yaml_node (d : doc) : outcome read_error node :=
  match d with
  | DMap m =>
      omap NMap ((fix go l := match l with
                              | [] => Ok []
                              | (key, v) :: l' => let! r := yaml_node v in let! rs := go l' in Ok ((key, r) :: rs)
                              end) m)
  | DSeq l =>
      omap NSeq ((fix go l := match l with
                              | [] => Ok []
                              | v :: l' => let! r := yaml_node v in let! rs := go l' in Ok (r :: rs)
                              end) l)
  | DStr t => match parse_substitutions k t with
              | Ok ps => Ok (NSub ps)
              | Err e => Err (SubErr e)
              | Panic => Panic
              end
  | DBool b => Ok (NScalar (SBool b))
  | DInt z => Ok (NScalar (SInt z))
  | DFloat f => Ok (NScalar (SFloat f))
  | DNull => Err ReadErr
  end.

(** [json_text t]: the string denoted by [t] when [t] is itself the text of a JSON string.
    The [Deserialize] of [StringOrSubstitutions] accepts strings only
    (parse_substitutions.rs 13-44), so [serde_json::from_str] fails on any other text. *)
Variable json_text : text -> option text.
(** parse_mapping_node.rs 53-62, 64-72 *)
Definition json_string_node (t : text) : outcome read_error node :=
  match json_text t with
  | Some u => match parse_substitutions k u with
              | Ok ps => Ok (NSub ps)
              | Err _ => Ok (NScalar (SStr t))
              | Panic => Panic
              end
  | None => Ok (NScalar (SStr t))
  end.
(** parse_mapping_node.rs 91-92, 107-108: [value as i64] *)
Definition json_int (z : Z) : Z := if (z <? 2 ^ 63)%Z then z else (z - 2 ^ 64)%Z.
(** parse_mapping_node.rs 22-123.  The visitor has no [visit_unit], which is what serde_json
    calls for null. *)
Fixpoint json_node (d : doc) : outcome read_error node :=
  match d with
  | DMap m =>
      omap NMap ((fix go l := match l with
                              | [] => Ok []
                              | (key, v) :: l' => let! r := json_node v in let! rs := go l' in Ok ((key, r) :: rs)
                              end) m)
  | DSeq l =>
      omap NSeq ((fix go l := match l with
                              | [] => Ok []
                              | v :: l' => let! r := json_node v in let! rs := go l' in Ok (r :: rs)
                              end) l)
  | DStr t => json_string_node t
  | DBool b => Ok (NScalar (SBool b))
  | DInt z => Ok (NScalar (SInt (json_int z)))
  | DFloat f => Ok (NScalar (SFloat f))
  | DNull => Err ReadErr
  end.
End Params.
