(** Properties C312-C318: the CAN example with its threads. *)
From Verif Require Import Prelude SafetyModel CanxModel CanxSpec CanxProofs CanxProofs2 CanxProofs3.
Local Open Scope Z_scope.

(** C312, wanted: the velocities are 0, 2 and -1, and every step is defined. *)
Theorem C312_overflow_refuted : exists s, reach s /\ level_at s slMoving /\ v0 s = 4294967295 /\ ~ wanted (v0 s) /\ step LTd s = UB.
Proof.
  destruct overflow as (s & A & B & C & D). exists s. split; [exact A|]. split; [exact B|]. split; [exact C|].
  split; [unfold wanted; lia|exact D].
Qed.
Print Assumptions C312_overflow_refuted.

(** Every frame that is sent carries 0 or 2, scaled. *)
Theorem C312_frames_partial : forall s, reach s -> Forall sound (bus s).
Proof. exact frames. Qed.
Print Assumptions C312_frames_partial.

(** Nothing else is undefined, in any thread. *)
Theorem C312_only_partial : forall s l, reach s ->
  (exists s', step l s = Ok s') \/
  (l = LTd /\ step l s = UB /\ ((tp s = TP0 /\ o0 s = Some 4294967295) \/ (tp s = TP1 /\ o1 s = Some 4294967295))).
Proof. exact only_big. Qed.
Print Assumptions C312_only_partial.

Example C312_nonvacuous : exists s, reach s /\ In (FPdo 1 100) (bus s).
Proof.
  destruct after_disable as (s & s' & (s0 & ls & I & E) & _ & F & G). exists s'. split; [|rewrite G; left; reflexivity].
  exists s0, (ls ++ [LTd]). split; [exact I|]. rewrite steps_app, E. cbn [bind steps]. rewrite F. reflexivity.
Qed.

(** C313, wanted: an interrupt leads to the level stop. *)
Theorem C313_ignored_refuted : exists s, reach s /\ level_at s slInit /\ at_ s = PI1 10 /\ step LExit s = Ok s.
Proof. exact ignored_init. Qed.
Print Assumptions C313_ignored_refuted.

(** At level ready the event of the sequencer that comes after the interrupt wins. *)
Theorem C313_overridden_refuted : exists s s', reach s /\ level_at s slReady /\ next_is s slReady /\
  steps [LExit; LSeq true; LSafe] s = Ok s' /\ level_at s' slMoving /\ next_is s' slMoving.
Proof. exact overridden. Qed.
Print Assumptions C313_overridden_refuted.

Theorem C313_moving_partial : forall s ls more s', reach s -> level_at s slMoving ->
  steps (LExit :: ls ++ LSafe :: more) s = Ok s' -> level_at s' slStop.
Proof. exact interrupt_moving. Qed.
Print Assumptions C313_moving_partial.

Theorem C313_ready_partial : forall s more s', reach s -> level_at s slReady -> next_is s slReady ->
  steps (LExit :: LSafe :: more) s = Ok s' -> level_at s' slStop.
Proof. exact interrupt_ready. Qed.
Print Assumptions C313_ready_partial.

Example C313_nonvacuous : (exists s, reach s /\ level_at s slMoving) /\ (exists s, reach s /\ level_at s slReady /\ next_is s slReady).
Proof.
  split.
  - destruct overflow as (s & A & B & _). exists s. auto.
  - destruct overridden as (s & _ & A & B & C & _). exists s. auto.
Qed.

(** C314: at level stop fifty steps of the sequencer thread end it, the executor is stopped and both blocks are disabled. *)
Theorem C314_ends : forall s ls s', reach s -> level_at s slStop -> steps ls s = Ok s' -> (49 < length (filter works ls))%nat ->
  at_ s' = PEnd /\ running s' = false /\ stopped s' = true /\ sen s' = false /\ ren s' = false.
Proof. exact ends. Qed.
Print Assumptions C314_ends.

Example C314_nonvacuous : exists s s', reach s /\ level_at s slStop /\ steps (repeat (LSeq true) 50) s = Ok s'.
Proof. exact full. Qed.

(** C315, wanted: no transfer of the configuration while the blocks for process data are enabled. *)
Theorem C315_enabled_refuted : exists s s', reach_with timely s /\ sen s = true /\ ren s = true /\
  step (LSeq true) s = Ok s' /\ bus s' = FSdo :: bus s.
Proof. exact sdo_enabled. Qed.
Print Assumptions C315_enabled_refuted.

(** When the safety system is in time, only the four requests of the state are sent then. *)
Theorem C315_states_partial : forall s b s', reach_with timely s -> step (LSeq b) s = Ok s' -> bus s' = FSdo :: bus s ->
  sen s = true -> exists n, at_ s = PI5 n.
Proof. exact sdo_timely. Qed.
Print Assumptions C315_states_partial.

Example C315_nonvacuous : exists s, reach_with timely s /\ sen s = true.
Proof. destruct sdo_enabled as (s & _ & A & B & _). exists s. auto. Qed.

(** C316, wanted: the drives are initialized once. *)
Theorem C316_twice_refuted : exists s, reach s /\ count is_start (bus s) = 2%nat /\ level_at s slInit.
Proof. exact twice. Qed.
Print Assumptions C316_twice_refuted.

Theorem C316_once_partial : forall s, reach_with timely s -> (count is_start (bus s) <= 1)%nat.
Proof. exact single. Qed.
Print Assumptions C316_once_partial.

Example C316_nonvacuous : exists s, reach_with timely s /\ level_at s slMoving /\ count is_start (bus s) = 1%nat /\ v0 s = 2.
Proof. exact timely_moving. Qed.

(** C317, wanted: no process data after the drives are disabled. *)
Theorem C317_after_refuted : exists s s', reach s /\ at_ s = PS4 /\ step LTd s = Ok s' /\ bus s' = FPdo 1 100 :: bus s.
Proof. exact after_disable. Qed.
Print Assumptions C317_after_refuted.

Theorem C317_rest_partial : forall s ls s', reach s -> disabled_by_stop (at_ s) = true -> steps ls s = Ok s' ->
  (count is_process (bus s') <= count is_process (bus s) + 3)%nat.
Proof. exact quiet. Qed.
Print Assumptions C317_rest_partial.

Example C317_nonvacuous : exists s, reach s /\ disabled_by_stop (at_ s) = true.
Proof. destruct after_disable as (s & _ & A & B & _). exists s. rewrite B. auto. Qed.

(** C318, wanted: the velocity is zero unless the level is moving. *)
Theorem C318_stop_refuted : exists s s', reach s /\ level_at s slStop /\ sen s = true /\ step LTd s = Ok s' /\
  bus s' = FPdo 1 100 :: bus s.
Proof. exact moving_at_stop. Qed.
Print Assumptions C318_stop_refuted.

Theorem C318_rest_partial : forall s, reach s -> level_at s slInit \/ level_at s slReady ->
  v0 s = 0 /\ v1 s = 0 /\ (o0 s = None \/ o0 s = Some 0) /\ (o1 s = None \/ o1 s = Some 0).
Proof. exact at_rest. Qed.
Print Assumptions C318_rest_partial.

Example C318_nonvacuous : exists s, reach s /\ level_at s slReady.
Proof. destruct overridden as (s & _ & A & B & _). exists s. auto. Qed.
