(** Vocabulary for the scanner property C27. *)
From Verif Require Import Base Chars ScannerModel.
Local Open Scope nat_scope.
Local Open Scope list_scope.

Definition run_ops (ops : list op) (s : scanner) : scanner := fold_left (fun s o => apply o s) ops s.

(** Sequences of operations in which every save is matched by a later backtrack or
    discard inside the sequence. *)
Inductive nested : list op -> Prop :=
| nest_nil : nested []
| nest_step o ops : o <> OSave -> o <> OPopPos -> o <> OBacktrack -> nested ops -> nested (o :: ops)
| nest_block inner o ops : nested inner -> (o = OPopPos \/ o = OBacktrack) -> nested ops ->
    nested (OSave :: inner ++ o :: ops).

(** What the scanner has still to read *)
Definition remaining (s : scanner) : text := skipn (sc_pos s) (sc_chars s).
Definition is_suffix (a b : text) : Prop := exists p, b = (p ++ a)%list.

(** The callback wants to see more after [p]. *)
Definition goes_on {T} (cb : text -> option (scan_action T)) (p : text) : Prop :=
  cb p = Some Require \/ exists t, cb p = Some (Request t).
(** [scanned cb pos consumed rest r]: of the input [consumed ++ rest], which starts at [pos], a scan
    consumes [consumed] and reports [r].  It goes on as long as the callback asks for it; it ends
    at a returned value, or where the callback refuses the next character, or at the end of the
    input; then the last answer of the callback decides. *)
Inductive scanned {T} (cb : text -> option (scan_action T)) (pos : nat) : text -> text -> option T + scan_error -> Prop :=
| sd_return c x rest t :
    (forall p q, c = p ++ q -> p <> [] -> goes_on cb p) -> cb (c ++ [x]) = Some (Return t) ->
    scanned cb pos (c ++ [x]) rest (inl (Some t))
| sd_no_match rest : (rest = [] \/ exists x rest', rest = x :: rest' /\ cb [x] = None) ->
    scanned cb pos [] rest (inl None)
| sd_requested c rest t :
    (forall p q, c = p ++ q -> p <> [] -> goes_on cb p) -> c <> [] -> cb c = Some (Request t) ->
    (rest = [] \/ exists x rest', rest = x :: rest' /\ cb (c ++ [x]) = None) ->
    scanned cb pos c rest (inl (Some t))
| sd_required_char c x rest :
    (forall p q, c = p ++ q -> p <> [] -> goes_on cb p) -> c <> [] -> cb c = Some Require -> cb (c ++ [x]) = None ->
    scanned cb pos c (x :: rest) (inr (ErrCharacter (pos + length c)))
| sd_required_end c :
    (forall p q, c = p ++ q -> p <> [] -> goes_on cb p) -> c <> [] -> cb c = Some Require ->
    scanned cb pos c [] (inr ErrEnd).
