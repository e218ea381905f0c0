(** Properties C298-C304: the mock robot of the examples, all threads together. *)
From Coq Require Import QArith.
From Verif Require Import Prelude SafetyModel MockModel MockSpec MockProofs2.
Local Open Scope Q_scope.

(** C298: the robot is ready or moving only when both axes are homed; no interleaving faults. *)
Theorem C298_homed : forall s, reach s -> level_at s slReady \/ level_at s slMoving -> homed s.
Proof. exact ready_homed. Qed.
Print Assumptions C298_homed.

Theorem C298_total : forall s0 ls, initial s0 -> exists s, steps ls s0 = Ok s.
Proof. exact total. Qed.
Print Assumptions C298_total.

Theorem C298_levels : forall s, reach s ->
  level_at s slOff \/ level_at s slHoming \/ level_at s slReady \/ level_at s slMoving.
Proof. exact levels. Qed.
Print Assumptions C298_levels.

Example C298_nonvacuous : exists s, reach s /\ level_at s slReady.
Proof. exists (upto to_ready). split; [apply upto_reach|vm_compute; reflexivity]. Qed.

(** C299: the path planner drives the output only after homing, and moves only at level moving (or on the way to off). *)
Theorem C299_selected : forall s, reach s -> sel s = true -> ~ level_at s slHoming /\ homed s.
Proof. exact selected. Qed.
Print Assumptions C299_selected.

Theorem C299_moving : forall s, reach s -> pfin s = false ->
  (level_at s slMoving \/ level_at s slOff) /\ sel s = true.
Proof. exact moving. Qed.
Print Assumptions C299_moving.

Definition to_moving : list label :=
  to_switched ++ [LSeq false; LSafe; LSeq true; LSeq false; LSeq false; LSeq false; LSeq false; LSeq false; LSeq false].
Example C299_nonvacuous : exists s, reach s /\ pfin s = false /\ level_at s slMoving.
Proof. exists (upto to_moving). split; [apply upto_reach|]. split; vm_compute; reflexivity. Qed.

(** C300, wanted: throwing the switch does not move the position; the planner starts where homing ended. *)
Theorem C300_jump_refuted : exists s s' v, reach s /\ level_at s slReady /\ pfin s = true /\ out s = Some v /\
  1 <= fst v /\ 1 <= snd v /\ step LSwitch s = Ok s' /\ out s' = Some (0, 0).
Proof. exact jump_refuted. Qed.
Print Assumptions C300_jump_refuted.

Theorem C300_switch_partial : forall s s', step LSwitch s = Ok s' -> out s' = if sel s then ppos s else iout s.
Proof. exact switch_out. Qed.
Print Assumptions C300_switch_partial.

(** C301: after an interrupt the next cycle of the safety system is at level off and stops the executor, whatever
    happens in between and afterwards; nothing else stops it. *)
Theorem C301_interrupt : forall s ls more s', reach s -> steps (LExit :: ls ++ LSafe :: more) s = Ok s' ->
  level_at s' slOff /\ stopped s' = true.
Proof. exact interrupt. Qed.
Print Assumptions C301_interrupt.

Theorem C301_stop : forall s, reach s -> stopped s = true -> level_at s slOff.
Proof. exact stop_off. Qed.
Print Assumptions C301_stop.

Example C301_nonvacuous : exists s s', reach s /\ level_at s slReady /\
  steps (LExit :: [LSeq true; LSeq true; LSeq true] ++ LSafe :: [LSeq true]) s = Ok s'.
Proof.
  exists (upto to_ready), (upto (to_ready ++ (LExit :: [LSeq true; LSeq true; LSeq true] ++ LSafe :: [LSeq true]))).
  split; [apply upto_reach|]. split; [vm_compute; reflexivity|apply upto_steps].
Qed.

(** C302: when the sequencer is aborted, its thread ends after at most 13 of its steps, in any interleaving. *)
Theorem C302_ends : forall ls s s', ab s = 2%nat -> running s = false -> steps ls s = Ok s' ->
  (13 <= List.length (filter is_seq ls))%nat -> at_ s' = PEnd.
Proof. exact ends. Qed.
Print Assumptions C302_ends.

Example C302_nonvacuous : exists s, reach s /\ ab s = 2%nat /\ running s = false /\ at_ s = PWaitR.
Proof. exists (upto to_aborted). split; [apply upto_reach|]. split; [|split]; vm_compute; reflexivity. Qed.

(** C303, wanted: after an abort the sequencer throws the switch no more. *)
Theorem C303_abort_refuted : exists s s', reach s /\ ab s = 2%nat /\ running s = false /\ nxt (ss s) = Some slOff /\
  sel s = false /\ steps [LSeq false; LSeq false] s = Ok s' /\ sel s' = true.
Proof. exact abort_switches_refuted. Qed.
Print Assumptions C303_abort_refuted.

Theorem C303_only_partial : forall l s s', step l s = Ok s' -> sel s' <> sel s ->
  l <> LSwitch /\ is_seq l = true /\ at_ s = PSw.
Proof. exact sel_only. Qed.
Print Assumptions C303_only_partial.

(** C304, wanted: at the levels ready and moving the axes do not home any more. *)
Theorem C304_still_refuted : exists s s' v v', reach s /\ level_at s slReady /\ iout s = Some v /\
  steps [LConst 10000000; LInt] s = Ok s' /\ level_at s' slReady /\ iout s' = Some v' /\ fst v < fst v'.
Proof. exact moves_ready_refuted. Qed.
Print Assumptions C304_still_refuted.

Theorem C304_setpoint_partial : forall s, reach s -> level_at s slReady \/ level_at s slMoving ->
  in_homing (at_ s) = false -> spv s = (0, 0).
Proof. exact setpoint_zero. Qed.
Print Assumptions C304_setpoint_partial.
