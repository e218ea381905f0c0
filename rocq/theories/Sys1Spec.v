(** What is wanted of SystemTest1. *)
From Verif Require Import Prelude SafetyModel Sys1Model.
Local Open Scope Z_scope.

Definition reach (s : st) : Prop := exists s0 ls, initial s0 /\ steps ls s0 = Ok s.
Definition level_at (s : st) (l : lref) : Prop := cur (ss s) = Some l.
Definition next_is (s : st) (l : lref) : Prop := nxt (ss s) = Some l.

(** The restart is under way: some, but not all, of lines 116-118 of SystemTest1.cpp are done. *)
Definition mid_restart (p : spc) : bool := match p with SSet | SArm1 | SArm2 => true | _ => false end.

(** The time domain is never more than 80 ms late (0.2 / 2.5 per second). *)
Definition punctual (l : label) (s : st) : Prop :=
  match l with
  | LTd d => tp s = TSrc -> ifirst s = false -> clk s + Z.of_N d - iprevt s < 80000000
  | _ => True
  end.
(** The restart and the cycle of the time domain do not overlap. *)
Definition undisturbed (l : label) (s : st) : Prop :=
  match l with
  | LTd _ => mid_restart (sp s) = false
  | LSafe => sp s = SSw -> tp s = TIdle
  | LEmergency => True
  end.
Fixpoint along (P : label -> st -> Prop) (ls : list label) (s : st) : Prop :=
  match ls with
  | [] => True
  | l :: ls => P l s /\ forall s', step l s = Ok s' -> along P ls s'
  end.

(** Reached while P holds for each step. *)
Definition reach_with (P : label -> st -> Prop) (s : st) : Prop :=
  exists s0 ls, initial s0 /\ along P ls s0 /\ steps ls s0 = Ok s.

Definition is_emergency (l : label) : bool := match l with LEmergency => true | _ => false end.
Definition is_safe (l : label) : bool := match l with LSafe => true | _ => false end.

(** 12, 19.9, 20.1 and -1.5 in units of 5e-10. *)
Definition v12 : Z := 24000000000.
Definition v19_9 : Z := 39800000000.
Definition v20_1 : Z := 40200000000.
Definition vm1_5 : Z := -3000000000.

Definition between (lo hi : Z) (w : option Z) : Prop := match w with Some x => lo <= x <= hi | None => False end.
Definition above (lo : Z) (w : option Z) : Prop := match w with Some x => lo <= x | None => False end.
