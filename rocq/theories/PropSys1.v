(** Properties C305-C311: the program SystemTest1 with its two threads. *)
From Verif Require Import Prelude SafetyModel Sys1Model Sys1Spec Sys1Proofs Sys1Proofs2 Sys1Proofs3 Sys1Proofs4.
Local Open Scope Z_scope.

(** C305, wanted: nothing is written to the output at level initializing. *)
Theorem C305_early_refuted : exists s, reach s /\ level_at s slInitializing /\ next_is s slInitializing /\ writes s = [Some 0].
Proof. exact early_write. Qed.
Print Assumptions C305_early_refuted.

(** A cycle of the time domain starts there only before the first action of the level has run or after the last. *)
Theorem C305_stopped_partial : forall s, reach s -> level_at s slInitializing -> tdrun s = true ->
  nact (ss s) slInitializing <= 1 \/ ~ next_is s slInitializing.
Proof. exact init_stopped. Qed.
Print Assumptions C305_stopped_partial.

Example C305_nonvacuous : exists s, reach s /\ level_at s slInitializing.
Proof. destruct pause_reach as (s & A & B & _). exists s. auto. Qed.

(** C306, wanted: the ramp starts at zero when the level running is entered. *)
Theorem C306_jump_refuted : exists s s', reach s /\ level_at s slRunning /\ writes s = [Some 0] /\
  steps (repeat (LTd 0) 1 ++ [LTd 5010000000] ++ repeat (LTd 0) 6) s = Ok s' /\
  exists x, writes s' = [Some x; Some 0] /\ v12 <= x.
Proof. exact jump. Qed.
Print Assumptions C306_jump_refuted.

Theorem C306_first_partial : forall s w, reach s -> writes s = [w] -> w = Some 0.
Proof. exact first_write. Qed.
Print Assumptions C306_first_partial.

Example C306_nonvacuous : exists s, reach s /\ writes s = [Some 0].
Proof. destruct early_write as (s & A & _ & _ & B). exists s. auto. Qed.

(** C307, wanted: the output stays within -1.5 and 20.1. The restart races with the integrator, and a late cycle steps over
    the switch level. *)
Theorem C307_race_refuted : exists s, reach_with punctual s /\ level_at s slRunning /\
  exists x wr, writes s = Some x :: wr /\ v20_1 <= x.
Proof. exact beyond. Qed.
Print Assumptions C307_race_refuted.

Theorem C307_late_refuted : exists s, reach_with undisturbed s /\ level_at s slRunning /\
  exists x wr, writes s = Some x :: wr /\ v20_1 <= x.
Proof. exact beyond_late. Qed.
Print Assumptions C307_late_refuted.

Theorem C307_limits_partial : forall s, reach_with (fun l s => punctual l s /\ undisturbed l s) s ->
  Forall (between vm1_5 v19_9) (writes s).
Proof. exact limits. Qed.
Print Assumptions C307_limits_partial.

Example C307_nonvacuous : exists s, reach_with (fun l s => punctual l s /\ undisturbed l s) s /\ writes s <> [].
Proof. destruct good_reach as (s & A & _ & _ & _ & B). exists s. auto. Qed.

(** C308, wanted: running ends at level stopped when the switch level is reached. *)
Theorem C308_never_refuted : exists s, reach_with punctual s /\ level_at s slRunning /\
  forall ls s', existsb is_emergency ls = false -> steps ls s = Ok s' ->
  level_at s' slRunning /\ next_is s' slRunning /\ sel s' = false /\
  exists new, writes s' = new ++ writes s /\ Forall (above v20_1) new.
Proof. exact never. Qed.
Print Assumptions C308_never_refuted.

Theorem C308_late_refuted : exists s, reach_with undisturbed s /\ level_at s slRunning /\
  forall ls s', existsb is_emergency ls = false -> steps ls s = Ok s' ->
  level_at s' slRunning /\ next_is s' slRunning /\ sel s' = false /\
  exists new, writes s' = new ++ writes s /\ Forall (above v20_1) new.
Proof. exact never_late. Qed.
Print Assumptions C308_late_refuted.

Theorem C308_thrown_partial : forall s, reach_with (fun l s => punctual l s /\ undisturbed l s) s -> tp s = TIdle ->
  mid_restart (sp s) = false -> v19_9 < iprev s -> sel s = true.
Proof. exact thrown. Qed.
Print Assumptions C308_thrown_partial.

Example C308_nonvacuous : exists s, reach_with (fun l s => punctual l s /\ undisturbed l s) s /\ tp s = TIdle /\
  mid_restart (sp s) = false /\ v19_9 < iprev s /\ writes s <> [].
Proof. exact good_reach. Qed.

(** C309: no interleaving faults, no NaN is written, and the program never goes to level emergency by itself. *)
Theorem C309_total : forall s0 ls, initial s0 -> exists s, steps ls s0 = Ok s.
Proof. exact total. Qed.
Print Assumptions C309_total.

Theorem C309_numbers : forall s, reach s -> Forall (fun w => w <> None) (writes s).
Proof. exact numbers. Qed.
Print Assumptions C309_numbers.

Theorem C309_no_emergency : forall s0 ls s, initial s0 -> steps ls s0 = Ok s -> existsb is_emergency ls = false ->
  ~ level_at s slEmergency /\ ~ next_is s slEmergency.
Proof. exact no_emergency. Qed.
Print Assumptions C309_no_emergency.

Example C309_nonvacuous : exists s, reach s /\ level_at s slStopped /\ sel s = true.
Proof. destruct stopped_reach as (s & A & B & C & _). exists s. auto. Qed.

(** C310: after the event emergency the safety system is at level emergency and the time domain is stopped within nine of
    its steps, for ever; at most one more value is written. *)
Theorem C310_emergency : forall s ls s', reach s -> steps (LEmergency :: ls) s = Ok s' ->
  (9 <= length (filter is_safe ls))%nat -> level_at s' slEmergency /\ tdrun s' = false.
Proof. exact emergency. Qed.
Print Assumptions C310_emergency.

Theorem C310_halt : forall s ls s', reach s -> level_at s slEmergency -> tdrun s = false -> steps ls s = Ok s' ->
  level_at s' slEmergency /\ tdrun s' = false /\ (length (writes s') <= length (writes s) + 1)%nat.
Proof. exact halt. Qed.
Print Assumptions C310_halt.

Example C310_nonvacuous : exists s s', reach s /\ level_at s slRunning /\ steps (LEmergency :: repeat LSafe 9) s = Ok s'.
Proof.
  destruct running_reach as (s & R & L). destruct (inv_reach s R) as (c & n & f & I).
  destruct (inv_steps (LEmergency :: repeat LSafe 9) s c n f I) as (s' & _ & _ & _ & E & _). exists s, s'. auto.
Qed.

(** C311: the level initializing lasts 501 cycles of the safety system and the level stopped 301, whatever else happens. *)
Theorem C311_pauses : forall s, reach s -> next_is s slRunning ->
  (level_at s slInitializing -> nact (ss s) slInitializing = 501) /\
  (level_at s slStopped -> nact (ss s) slStopped = 301).
Proof. exact pauses. Qed.
Print Assumptions C311_pauses.

Example C311_nonvacuous : exists s, reach s /\ level_at s slInitializing /\ next_is s slRunning.
Proof. exact pause_reach. Qed.
