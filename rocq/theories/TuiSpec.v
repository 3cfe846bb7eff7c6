(** Vocabulary for C132 and C133: what the widgets have seen after some messages. *)
From Verif Require Import Base TuiModel.
Open Scope string_scope.
Local Open Scope list_scope.

Section Widgets.
Context {other command L P : Type}.
Variable list_update : L -> msg other -> L * command.
Variable list_width : L -> N -> L.
Variable selected : L -> option string.
Variable picker_update : P -> msg other -> P * command.

(** The keys the dialogue about the language keeps for itself *)
Definition kept (x : msg other) : Prop := In x [Key "ctrl+c"; Key "esc"; Key "enter"].
(** The list of languages after the messages it was given *)
Inductive languages (l : L) : list (msg other) -> L -> Prop :=
| ls_none : languages l [] l
| ls_kept xs x l' : languages l xs l' -> kept x -> languages l (xs ++ [x]) l'
| ls_width xs w l' : languages l xs l' -> languages l (xs ++ [Resize w]) (list_width l' w)
| ls_other xs x l' : languages l xs l' -> ~ kept x -> (forall w, x <> Resize w) -> languages l (xs ++ [x]) (fst (list_update l' x)).
(** Enter was pressed while a language was highlighted, for the last time while this one was *)
Definition entered (l : L) (xs : list (msg other)) (c : string) : Prop :=
  exists a b l', xs = a ++ Key "enter" :: b /\ languages l a l' /\ selected l' = Some c /\
    (forall b1 b2 l'', b = b1 ++ Key "enter" :: b2 -> languages l (a ++ Key "enter" :: b1) l'' -> selected l'' = None).
Definition never_entered (l : L) (xs : list (msg other)) : Prop :=
  forall a b l', xs = a ++ Key "enter" :: b -> languages l a l' -> selected l' = None.

(** The dialogue about the language was left *)
Definition left_it (xs : list (msg other)) : Prop := In (Key "ctrl+c") xs \/ In (Key "esc") xs.
(** The keys that end the dialogue about the blueprint *)
Definition ends (x : msg other) : Prop := In x [Key "ctrl+c"; Key "q"].
Definition ended (xs : list (msg other)) : Prop := exists x, In x xs /\ ends x.
(** The list of sources after some messages *)
Inductive sources (l : L) : list (msg other) -> L -> Prop :=
| so_none : sources l [] l
| so_end xs x l' : sources l xs l' -> ends x -> sources l (xs ++ [x]) l'
| so_other xs x l' : sources l xs l' -> ~ ends x -> sources l (xs ++ [x]) (fst (list_update l' x)).
(** The files to pick from after the same messages, whatever is shown *)
Inductive files (p : P) : list (msg other) -> P -> Prop :=
| fi_none : files p [] p
| fi_end xs x p' : files p xs p' -> ends x -> files p (xs ++ [x]) p'
| fi_width xs w p' : files p xs p' -> files p (xs ++ [Resize w]) (fst (picker_update (fst (picker_update p' (Resize w))) (Resize w)))
| fi_other xs x p' : files p xs p' -> ~ ends x -> (forall w, x <> Resize w) -> files p (xs ++ [x]) (fst (picker_update p' x)).
(** The source was chosen: Enter was pressed while one was highlighted *)
Definition source_chosen (l : L) (xs : list (msg other)) : Prop :=
  exists a b l', xs = a ++ Key "enter" :: b /\ sources l a l' /\ selected l' <> None.
End Widgets.
