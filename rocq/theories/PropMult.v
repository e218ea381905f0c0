(** Properties C357-C361: multithreading.cpp. *)
From Verif Require Import Prelude MultModel MultSpec MultProofs.
Local Open Scope nat_scope.

Theorem C357_not_mixed : forall n r s i, reach n r s -> mp s = MClear i \/ mp s = MCheck i -> uniform n 10 (out s) \/ uniform n 11 (out s).
Proof. exact not_mixed. Qed.
Theorem C357_no_message : forall n r s, reach n r s -> msgs s = 0.
Proof. exact no_message. Qed.
Example C357_nonvacuous : exists s, reach 1 1 s /\ mp s = MCheck 0 /\ out s 0 = 11.
Proof. exists (steps 1 1 (repeat true 4 ++ repeat false 4 ++ repeat true 4) (init 1)). split; [eexists; reflexivity|]. split; reflexivity. Qed.

(** Full statement of C358: forall n r s, reach n r s -> ~ (main_writes_ready s /\ other_reads_ready s) /\ ~ (main_uses_gain s /\ other_uses_gain s). *)
Theorem C358_race_refuted : exists s, reach 1 1 s /\ main_writes_ready s /\ other_reads_ready s.
Proof. exact race. Qed.
Theorem C358_race_always : forall n r, 0 < r -> exists s, reach n r s /\ main_writes_ready s /\ other_reads_ready s.
Proof. exact race_any. Qed.
Theorem C358_gain_partial : forall n r s, reach n r s -> ~ (main_uses_gain s /\ other_uses_gain s).
Proof. exact exclusive. Qed.
Example C358_nonvacuous : exists s, reach 1 1 s /\ main_uses_gain s.
Proof. exists (steps 1 1 [true] (init 1)). split; [eexists; reflexivity|]. cbn. auto. Qed.

Theorem C359_join : forall n r s ls, reach n r s -> mp s = MJoin -> r * (n + 3) <= length (filter is_other ls) ->
  mp (step n r true (steps n r ls s)) = MDone.
Proof. exact join_ends. Qed.
Theorem C359_no_deadlock : forall n r s, reach n r s -> mp s <> MDone -> exists l, step n r l s <> s.
Proof. exact no_deadlock. Qed.
Example C359_nonvacuous : exists s, reach 1 2 s /\ mp s = MJoin /\ tp s = TSpin 0.
Proof. exists (steps 1 2 (repeat true 19) (init 2)). split; [eexists; reflexivity|]. split; reflexivity. Qed.

Theorem C360_bound : forall n r s, reach n r s -> failed s <= r.
Proof. exact failed_le. Qed.
Theorem C360_all_fail : exists s, reach 1 2 s /\ mp s = MDone /\ failed s = 2.
Proof. exact may_fail. Qed.
Theorem C360_none_fails : exists s, reach 1 2 s /\ mp s = MDone /\ failed s = 0.
Proof. exact may_pass. Qed.
Example C360_nonvacuous : exists s, reach 1 2 s /\ failed s = 2.
Proof. destruct may_fail as (s & R & _ & F). exists s. auto. Qed.

(** Full statement of C361: forall n r s i, reach n r s -> mp s = MRunLock i -> tp s <> TDone. *)
Theorem C361_all_at_once_refuted : exists s, reach 1 2 s /\ mp s = MRunLock 0 /\ tp s = TDone.
Proof. exact tests_nothing. Qed.
Theorem C361_then_alone_partial : forall n r s i ls, reach n r s -> mp s = MLock i -> tp s = TDone -> failed (steps n r ls s) = failed s.
Proof. exact alone_passes. Qed.
Theorem C361_starts_late_partial : forall n r s k, reach n r s -> 0 < r -> mp s = MLock 0 \/ mp s = MSet 0 k \/ mp s = MReady 0 -> tp s = TSpin 0.
Proof. exact starts_late. Qed.
Example C361_nonvacuous : exists s, reach 1 2 s /\ mp s = MLock 1 /\ tp s = TDone.
Proof. exists (steps 1 2 (repeat true 4 ++ repeat false 8 ++ repeat true 5) (init 2)). split; [eexists; reflexivity|]. split; reflexivity. Qed.

Print Assumptions C357_not_mixed.
Print Assumptions C357_no_message.
Print Assumptions C358_race_refuted.
Print Assumptions C358_race_always.
Print Assumptions C358_gain_partial.
Print Assumptions C359_join.
Print Assumptions C359_no_deadlock.
Print Assumptions C360_bound.
Print Assumptions C360_all_fail.
Print Assumptions C360_none_fails.
Print Assumptions C361_all_at_once_refuted.
Print Assumptions C361_then_alone_partial.
Print Assumptions C361_starts_late_partial.
