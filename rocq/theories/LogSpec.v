(** What the log must contain, computed from the history of calls, latest call first. *)
From Coq Require Import Ascii.
From Verif Require Import Prelude ConfModel LogModel.
Open Scope nat_scope.

Fixpoint n_writers (h : list op) : nat := match h with [] => 0 | SetDefault :: h => S (n_writers h) | _ :: h => n_writers h end.
Fixpoint n_loggers (h : list op) : nat := match h with [] => 0 | GetLogger _ :: h => S (n_loggers h) | _ :: h => n_loggers h end.
Fixpoint n_entries (h : list op) : nat := match h with [] => 0 | Create _ _ _ :: h => S (n_entries h) | _ :: h => n_entries h end.

(** The writer that was the default when logger [g] was obtained, and its category. *)
Fixpoint logger_of (h : list op) (g : nat) : option nat * Z :=
  match h with
  | [] => (None, 0%Z)
  | GetLogger cat :: h => if g =? n_loggers h then (match n_writers h with 0 => None | S n => Some n end, cat) else logger_of h g
  | _ :: h => logger_of h g
  end.
Definition is_writer (o : option nat) (w : nat) : bool := match o with Some v => v =? w | None => false end.
(** The visible level of a writer: the last one set through any of its loggers. *)
Fixpoint visible (h : list op) (w : nat) : level :=
  match h with
  | [] => INFO
  | Show g l :: h => if is_writer (fst (logger_of h g)) w then l else visible h w
  | _ :: h => visible h w
  end.
(** Everything about entry [e]: its writer, whether its level was visible when it was created, and its text. *)
Record message := { m_writer : option nat; m_shown : bool; m_text : text }.
Fixpoint message_of (h : list op) (e : nat) : message :=
  match h with
  | [] => {| m_writer := None; m_shown := false; m_text := [] |}
  | Create g l stamp :: h => if e =? n_entries h then {| m_writer := fst (logger_of h g); m_shown := match fst (logger_of h g) with Some w => rank l <=? rank (visible h w) | None => false end; m_text := head stamp (snd (logger_of h g)) l |}
                             else message_of h e
  | Insert e' t :: h => let m := message_of h e in if e =? e' then {| m_writer := m_writer m; m_shown := m_shown m; m_text := m_text m ++ t |} else m
  | Endl e' :: h => let m := message_of h e in if e =? e' then {| m_writer := m_writer m; m_shown := m_shown m; m_text := m_text m ++ endl_text |} else m
  | _ :: h => message_of h e
  end.
Definition line_for (w : nat) (m : message) : text := if m_shown m && is_writer (m_writer m) w then m_text m ++ foot else [].
(** The stream and the file of writer [w]. *)
Fixpoint expected_out (h : list op) (w : nat) : text :=
  match h with
  | [] => []
  | EndOut e :: h => expected_out h w ++ line_for w (message_of h e)
  | _ :: h => expected_out h w
  end.
Fixpoint expected_file (h : list op) (w : nat) : text :=
  match h with
  | [] => []
  | EndFile e :: h => expected_file h w ++ line_for w (message_of h e)
  | _ :: h => expected_file h w
  end.
(** Histories of a single thread: a message is written to the file right after it was written to the stream. *)
Inductive one_thread : list op -> Prop :=
| ot_nil : one_thread []
| ot_end h e : one_thread h -> one_thread (EndFile e :: EndOut e :: h)
| ot_other h o : one_thread h -> (forall e, o <> EndOut e /\ o <> EndFile e) -> one_thread (o :: h).
(** Every logger is obtained before it is used ([n]: number obtained so far). *)
Fixpoint uses_loggers (ops : list op) (n : nat) : Prop :=
  match ops with
  | [] => True
  | GetLogger _ :: ops => uses_loggers ops (S n)
  | Show g _ :: ops | Create g _ _ :: ops => g < n /\ uses_loggers ops n
  | _ :: ops => uses_loggers ops n
  end.
(** Entries are used after their creation and before their end, and end once ([n]: number created, [ps]: the ends begun). *)
Fixpoint respects_entries (ops : list op) (n : nat) (ends : list (nat * bool)) : Prop :=
  match ops with
  | [] => True
  | Create _ _ _ :: ops => respects_entries ops (S n) ends
  | Insert e _ :: ops | Endl e :: ops => e < n /\ ~ In (e, true) ends /\ ~ In (e, false) ends /\ respects_entries ops n ends
  | EndOut e :: ops => e < n /\ ~ In (e, true) ends /\ ~ In (e, false) ends /\ respects_entries ops n ((e, false) :: ends)
  | EndFile e :: ops => e < n /\ In (e, false) ends /\ ~ In (e, true) ends /\ respects_entries ops n ((e, true) :: ends)
  | _ :: ops => respects_entries ops n ends
  end.
