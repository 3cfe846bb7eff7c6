(** The text scanner, libs/runtime/helpers/src/scanner.rs *)
From Verif Require Import Base Chars.
Local Open Scope nat_scope.

(** scanner.rs 3-11 *)
Record scanner := { sc_pos : nat; sc_chars : text; sc_stack : list nat }.
(** scanner.rs 13-16 *)
Inductive scan_error := ErrCharacter (pos : nat) | ErrEnd.
(** scanner.rs 18-29 *)
Inductive scan_action (T : Type) := Request (t : T) | Require | Return (t : T).
Arguments Request {T} t.
Arguments Require {T}.
Arguments Return {T} t.

(** scanner.rs 33-38 *)
Definition new_scanner (input : text) : scanner := {| sc_pos := 0; sc_chars := input; sc_stack := [] |}.
(** Assignments to the cursor: scanner.rs 61-65, 81-123 *)
Definition at_pos (s : scanner) (p : nat) : scanner := {| sc_pos := p; sc_chars := sc_chars s; sc_stack := sc_stack s |}.
(** scanner.rs 48-50 *)
Definition save_pos (s : scanner) : scanner :=
  {| sc_pos := sc_pos s; sc_chars := sc_chars s; sc_stack := sc_pos s :: sc_stack s |}.
(** scanner.rs 55-57 *)
Definition pop_pos (s : scanner) : scanner :=
  {| sc_pos := sc_pos s; sc_chars := sc_chars s; sc_stack := tl (sc_stack s) |}.
(** scanner.rs 61-65 *)
Definition backtrack (s : scanner) : scanner :=
  match sc_stack s with
  | p :: st => {| sc_pos := p; sc_chars := sc_chars s; sc_stack := st |}
  | [] => s
  end.
(** scanner.rs 70-72 *)
Definition peek (s : scanner) : option N := nth_error (sc_chars s) (sc_pos s).
(** scanner.rs 75-77 *)
Definition is_end (s : scanner) : bool := Nat.eqb (sc_pos s) (length (sc_chars s)).
(** scanner.rs 81-90 *)
Definition pop (s : scanner) : option N * scanner :=
  match nth_error (sc_chars s) (sc_pos s) with
  | Some c => (Some c, at_pos s (sc_pos s + 1))
  | None => (None, s)
  end.
(** scanner.rs 95-107 *)
Definition take (target : N) (s : scanner) : bool * scanner :=
  match nth_error (sc_chars s) (sc_pos s) with
  | Some c => if N.eqb target c then (true, at_pos s (sc_pos s + 1)) else (false, s)
  | None => (false, s)
  end.
(** scanner.rs 112-123 *)
Definition transform {T} (cb : N -> option T) (s : scanner) : option T * scanner :=
  match nth_error (sc_chars s) (sc_pos s) with
  | Some c => match cb c with Some t => (Some t, at_pos s (sc_pos s + 1)) | None => (None, s) end
  | None => (None, s)
  end.

(** scanner.rs 125-171; [rest] is the input from the current position on. *)
Fixpoint scan_loop {T} (cb : text -> option (scan_action T)) (seq : text) (require : bool) (request : option T)
  (pos : nat) (rest : text) : (option T + scan_error) * nat :=
  match rest with
  | c :: rest' =>
      let seq' := (seq ++ [c])%list in
      match cb seq' with
      | Some (Return t) => (inl (Some t), pos + 1)
      | Some (Request t) => scan_loop cb seq' false (Some t) (pos + 1) rest'
      | Some Require => scan_loop cb seq' true request (pos + 1) rest'
      | None => if require then (inr (ErrCharacter pos), pos) else (inl request, pos)
      end
  | [] => if require then (inr ErrEnd, pos) else (inl request, pos)
  end.
(** scanner.rs 125-171 *)
Definition scan {T} (cb : text -> option (scan_action T)) (s : scanner) : (option T + scan_error) * scanner :=
  let (r, p) := scan_loop cb [] false None (sc_pos s) (skipn (sc_pos s) (sc_chars s)) in (r, at_pos s p).

(** The loops [while let Some(ch) = scanner.peek() { if p(ch) { scanner.pop(); } else { break; } }]
    of the parsers, in closed form. Used where TemplateParserModel.v and SubstModel.v cite such a loop; scanner.rs 70-90. *)
Definition take_while (p : N -> bool) (s : scanner) : text * scanner :=
  let t := fst (span p (skipn (sc_pos s) (sc_chars s))) in (t, at_pos s (sc_pos s + length t)).

(** Every operation a client can call. scanner.rs 42-171. *)
Inductive op :=
| OSave | OPopPos | OBacktrack | OPeek | OPop | OTake (c : N)
| OTransform (cb : N -> option N)
| OScan (cb : text -> option (scan_action N)).
(** scanner.rs 42-171 *)
Definition apply (o : op) (s : scanner) : scanner :=
  match o with
  | OSave => save_pos s
  | OPopPos => pop_pos s
  | OBacktrack => backtrack s
  | OPeek => s
  | OPop => snd (pop s)
  | OTake c => snd (take c s)
  | OTransform cb => snd (transform cb s)
  | OScan cb => snd (scan cb s)
  end.
