(** What is wanted of the CAN example. *)
From Verif Require Import Prelude SafetyModel CanxModel.
Local Open Scope Z_scope.

Definition reach (s : st) : Prop := exists s0 ls, initial s0 /\ steps ls s0 = Ok s.
Definition level_at (s : st) (l : lref) : Prop := cur (ss s) = Some l.
Definition next_is (s : st) (l : lref) : Prop := nxt (ss s) = Some l.

(** The velocities of the program, 2 and -1, and 0 before. *)
Definition wanted (v : Z) : Prop := v = 0 \/ v = 2 \/ v = -1.
(** Process data with a velocity of 0 or 2, scaled by 50 and 200. *)
Definition sound (f : frame) : Prop :=
  match f with FPdo 1 v => v = 0 \/ v = 100 | FPdo 2 v => v = 0 \/ v = 400 | FPdo _ _ => False | _ => True end.
Definition is_process (f : frame) : bool := match f with FSync | FPdo _ _ => true | _ => false end.
Definition is_start (f : frame) : bool := match f with FNmt true => true | _ => false end.
Definition count (p : frame -> bool) (l : list frame) : nat := length (filter p l).
(** The sequencer thread does something that is not waiting. *)
Definition works (l : label) : bool := match l with LSeq true => true | _ => false end.

(** The safety system has done its cycle whenever the main sequence asks for the level. *)
Definition timely (l : label) (s : st) : Prop :=
  match l with LSeq _ => at_ s = PTop -> nxt (ss s) = cur (ss s) | _ => True end.
Fixpoint along (P : label -> st -> Prop) (ls : list label) (s : st) : Prop :=
  match ls with
  | [] => True
  | l :: ls => P l s /\ forall s', step l s = Ok s' -> along P ls s'
  end.
Definition reach_with (P : label -> st -> Prop) (s : st) : Prop :=
  exists s0 ls, initial s0 /\ along P ls s0 /\ steps ls s0 = Ok s.

(** The stopping sequence has disabled the sending block. *)
Definition disabled_by_stop (p : pc) : bool :=
  match p with PS2 | PS3 _ | PS4 | PS5 | PS6 => true | _ => false end.
