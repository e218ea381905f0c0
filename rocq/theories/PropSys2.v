(** Properties C325-C331: SystemTest2. *)
From Verif Require Import Prelude SafetyModel Sys2Model Sys2Spec Sys2Proofs Sys2Proofs2.
Local Open Scope Z_scope.

(** Full statement of C325: after every interrupt the executor is stopped within three cycles. *)
Theorem C325_interrupt_refuted : exists s s1, reach s /\ step LInt s = Ok s1 /\
  forall ls s', ~ In LInt ls -> steps ls s1 = Ok s' -> stopped s' = false.
Proof. exact interrupt_lost. Qed.
Theorem C325_interrupt_partial : forall s s1 ls s', reach s -> ~ (level_at s slOff /\ next_is s slInitializing) -> step LInt s = Ok s1 ->
  steps ls s1 = Ok s' -> (12 <= nsafe ls)%nat -> stopped s' = true.
Proof. exact interrupt_ends. Qed.
Example C325_nonvacuous : exists s, reach s /\ ~ (level_at s slOff /\ next_is s slInitializing).
Proof. exact interrupt_example. Qed.

(** Full statement of C326: forall s, reach s -> 6 <= cnt s -> ~ next_is s slInitializing. *)
Theorem C326_report_refuted : exists s, reach s /\ 6 <= cnt s /\
  forall ls s', steps ls s = Ok s' -> ~ level_at s' slInitialized /\ ~ level_at s' slRunning.
Proof. exact report_lost. Qed.
Theorem C326_report_partial : forall s, reach_g s -> 6 <= cnt s -> ~ next_is s slInitializing.
Proof. exact report_taken. Qed.
Theorem C326_before_partial : forall s, reach s -> level_at s slInitialized \/ level_at s slRunning -> 6 <= cnt s.
Proof. exact reported_before. Qed.
Example C326_nonvacuous : exists s, reach_g s /\ 6 <= cnt s.
Proof. exact guard_example. Qed.

Theorem C327_off : forall s l b, reach s -> In (l, b) (writes s) -> l <> slRunning -> b = false.
Proof. exact out_off. Qed.
Theorem C327_alternates : forall s, reach s -> alternating (at_running s).
Proof. exact out_alternates. Qed.
Theorem C327_every_cycle : forall s v s' c, reach s -> sp s = SOut -> level_at s c -> step (LSafe v) s = Ok s' ->
  exists b, writes s' = (c, b) :: writes s /\ sp s' = SEnd.
Proof. exact out_written. Qed.
Example C327_nonvacuous : exists s b r, reach s /\ writes s = (slRunning, b) :: (slInitialized, false) :: r.
Proof. exact running_example. Qed.

Theorem C328_seven_cycles : forall s, reach_r s -> sp s = SEnd ->
  (level_at s slInitialized -> 1 <= cycles s slInitialized <= 6 /\ next_is s slInitialized \/ cycles s slInitialized = 7 /\ next_is s slRunning) /\
  (level_at s slRunning -> 1 <= cycles s slRunning <= 6 /\ next_is s slRunning \/ cycles s slRunning = 7 /\ next_is s slInitialized).
Proof. exact stays_7. Qed.
Example C328_nonvacuous : exists s, reach_r s /\ sp s = SEnd /\ level_at s slRunning.
Proof. exact reflect_example. Qed.

(** Full statement of C329: forall s b r, reach s -> writes s = (slRunning, b) :: (slInitialized, false) :: r -> b = false. *)
Theorem C329_begins_off_refuted : exists s r, reach s /\ writes s = (slRunning, true) :: (slInitialized, false) :: r.
Proof. exact begins_on. Qed.
Theorem C329_begins_off_partial : forall s b r, reach s -> writes s = (slRunning, b) :: r -> (forall x, ~ In (slRunning, x) r) -> b = false.
Proof. exact first_off. Qed.

Theorem C330_begins : forall s l s', reach s -> step l s = Ok s' -> level_at s slInitialized -> ~ next_is s slRunning -> next_is s' slRunning ->
  sp s = SIn /\ l = LSafe true.
Proof. exact run_begins. Qed.
Theorem C330_ends : forall s l s', reach s -> step l s = Ok s' -> level_at s slRunning -> next_is s slRunning -> ~ next_is s' slRunning ->
  sp s = SIn /\ l = LSafe false /\ next_is s' slInitialized \/ l = LInt /\ next_is s' slShuttingDown.
Proof. exact run_ends. Qed.
Theorem C330_off_ends : forall s s', reach s -> level_at s slRunning -> sp s = SIn -> step (LSafe false) s = Ok s' ->
  next_is s' slInitialized \/ next_is s' slShuttingDown.
Proof. exact off_ends. Qed.
Theorem C330_on_starts : forall s s', reach s -> level_at s slInitialized -> sp s = SIn -> step (LSafe true) s = Ok s' ->
  next_is s' slRunning \/ next_is s' slShuttingDown.
Proof. exact on_starts. Qed.
Example C330_running_nonvacuous : exists s, reach s /\ level_at s slRunning /\ sp s = SIn.
Proof. exact at_running_example. Qed.
Example C330_initialized_nonvacuous : exists s, reach s /\ level_at s slInitialized /\ sp s = SIn.
Proof. exact at_initialized_example. Qed.

(** Full statement of C331: forall s l, reach s -> exists s', step l s = Ok s'. *)
Theorem C331_defined_refuted : exists s, reach s /\ step LP1 s = UB.
Proof. exact overflow. Qed.
Theorem C331_defined_partial : forall s l, reach s -> cnt s < 2147483647 -> exists s', step l s = Ok s'.
Proof. exact defined. Qed.
Example C331_nonvacuous : exists s, reach s /\ cnt s < 2147483647.
Proof. destruct some_initial as (s & I). exists s. split; [exists s, []; split; [exact I|reflexivity]|]. apply initial_eq in I as (f & _ & _ & _ & C & _). rewrite C. reflexivity. Qed.

Print Assumptions C325_interrupt_refuted.
Print Assumptions C325_interrupt_partial.
Print Assumptions C326_report_refuted.
Print Assumptions C326_report_partial.
Print Assumptions C326_before_partial.
Print Assumptions C327_off.
Print Assumptions C327_alternates.
Print Assumptions C327_every_cycle.
Print Assumptions C328_seven_cycles.
Print Assumptions C329_begins_off_refuted.
Print Assumptions C329_begins_off_partial.
Print Assumptions C330_begins.
Print Assumptions C330_ends.
Print Assumptions C330_off_ends.
Print Assumptions C330_on_starts.
Print Assumptions C331_defined_refuted.
Print Assumptions C331_defined_partial.
