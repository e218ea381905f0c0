(** What is wanted of SystemTest3. *)
From Verif Require Import Prelude SafetyModel Sys3Model.
Local Open Scope Z_scope.

Definition reach (s : st) : Prop := exists s0 ls, initial s0 /\ steps ls s0 = Ok s.
Definition level_at (s : st) (l : lref) : Prop := cur (ss s) = Some l.
Definition next_is (s : st) (l : lref) : Prop := nxt (ss s) = Some l.

(** The safety system is about to set the initial condition while the time domain is idle. *)
Definition clean (l : label) (s : st) : bool :=
  match l, sp s, tp s with LSafe, SSet _, TC => true | _, _, _ => false end.
Definition at_level (s : st) (l : lref) : bool := match cur (ss s) with Some c => Nat.eqb c l | None => false end.

(** Executions in which at least one cycle of every stay at level start finds the time domain idle.
    [b]: there has been one; [t]: the time stamp of the integrator when the ramp began. *)
Inductive run_g : st -> bool -> Z -> Prop :=
| g_start s : initial s -> run_g s false 0
| g_step l s s' b t : run_g s b t -> (l = LSafe -> sp s = STrig -> b = true) -> step l s = Ok s' ->
    run_g s' (if at_level s slRamp && at_level s' slStart then false else b || clean l s)
             (if at_level s slStart && at_level s' slRamp then iprevt s else t).
