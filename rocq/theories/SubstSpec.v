(** Vocabulary for C51-C53 and C63: how literals and variable references are written. *)
From Verif Require Import Base Chars.
From Verif Require Import SubstModel.
Local Open Scope list_scope.

Section WithClasses.
Variable k : classes.

(** [first] and [later] characters of a name written after a dot *)
Definition dot_name (n : text) : Prop :=
  exists c t, n = c :: t /\ (alphabetic k c = true \/ c = 95%N) /\
    forall d, In d t -> alphanumeric k d = true \/ d = 95%N \/ d = 45%N.
(** A name written between quotes and brackets *)
Definition quoted_name (n : text) : Prop :=
  forall d, In d n -> alphanumeric k d = true \/ d = 95%N \/ d = 45%N \/ d = 46%N.

(** What the author of a blueprint writes *)
Inductive piece := PText (t : text) | PDot (n : text) | PBracket (n : text).
Definition accessor (p : piece) : text :=
  match p with
  | PText _ => []
  | PDot n => chars "." ++ n
  | PBracket n => chars "[""" ++ n ++ chars """]"
  end.
Definition written (p : piece) : text :=
  match p with
  | PText t => t
  | _ => chars "${variables" ++ accessor p ++ chars "}"
  end.
Definition written_all (ps : list piece) : text := concat (map written ps).
(** What it means *)
Definition meant (p : piece) : part :=
  match p with PText t => Lit t | PDot n | PBracket n => Ref n end.

Definition is_text (p : piece) : Prop := match p with PText _ => True | _ => False end.
Definition piece_ok (p : piece) : Prop :=
  match p with
  | PText t => t <> [] /\ contains (chars "${") t = false
  | PDot n => dot_name n
  | PBracket n => quoted_name n
  end.
(** Well-formed strings: each piece is, and no two texts stand next to each other. *)
Fixpoint separated (ps : list piece) : Prop :=
  match ps with
  | PText _ :: (PText _ :: _) => False
  | _ :: ps' => separated ps'
  | [] => True
  end.
Definition well_written (ps : list piece) : Prop := ps <> [] /\ Forall piece_ok ps /\ separated ps.

(** The inside of a substitution of another kind: plain characters and quoted strings. *)
Inductive chunk := Plain (t : text) | Quoted (t : text).
Definition chunk_text (c : chunk) : text :=
  match c with Plain t => t | Quoted t => chars """" ++ t ++ chars """" end.
Definition chunk_ok (c : chunk) : Prop :=
  match c with
  | Plain t => forall d, In d t -> ~ In d (chars """{}\")
  | Quoted t => forall d, In d t -> ~ In d (chars """\")
  end.
Definition inside (cs : list chunk) : text := concat (map chunk_text cs).
Definition other_kind (cs : list chunk) : Prop :=
  Forall chunk_ok cs /\ starts_with (chars "variables") (inside cs) = false.

(** Joining a trailing text to the meaning of what comes before *)
Fixpoint meant_then (ps : list piece) (t : text) : list part :=
  match ps with
  | [] => [Lit t]
  | [PText u] => [Lit (u ++ t)]
  | p :: ps' => meant p :: meant_then ps' t
  end.
End WithClasses.
