(** Vocabulary of the statements about mouse and keyboard blocks. *)
From Coq Require Import Ascii Reals.
From Verif Require Import Prelude Num InputModel.

(** [v] limited to the interval from [lo] to [hi]. *)
Definition limited (lo hi v : R) : R := Rmax lo (Rmin hi v).

(** Whether the key with code [c] and index [i] counts as pressed after a history (oldest first): the last event which
    concerns it is a key stroke and not a reset. *)
Definition concerns (c : ascii) (i : nat) (e : ascii + nat) : bool :=
  match e with inl c' => Ascii.eqb c' c | inr j => Nat.eqb j i end.
Definition is_stroke (e : ascii + nat) : bool := match e with inl _ => true | inr _ => false end.
Definition last_is_stroke (c : ascii) (i : nat) (es : list (ascii + nat)) : bool :=
  match filter (concerns c i) (rev es) with [] => false | e :: _ => is_stroke e end.

(** The four axes at once: a selector picks one component of a quadruple. *)
Definition is_comp (sel : forall A : Type, quad A -> A) : Prop :=
  sel = @q_x \/ sel = @q_y \/ sel = @q_z \/ sel = @q_r.

(** A key stroke or a call of reset as event of the model. *)
Definition ev_of (e : ascii + nat) : kbev := match e with inl c => KbPress c | inr i => KbReset i end.

(** The mouse has not moved. *)
Definition c0 : quad Z := {| q_x := 0%Z; q_y := 0%Z; q_z := 0%Z; q_r := 0%Z |}.
