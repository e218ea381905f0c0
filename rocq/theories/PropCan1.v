(** Properties C351-C356: CANexample1. *)
From Verif Require Import Prelude Can1Model Can1Spec Can1Proofs.
Local Open Scope nat_scope.

(** Full statement of C351: forall s ls, reach s -> hp s = true -> 7 <= length (filter is_main ls) -> left_loop (steps (LExit :: ls) s). *)
Theorem C351_ignored_refuted : exists s, reach s /\ mp s = M2 /\ cur s = Init /\ hp s = false /\ running s = false /\
  forall ls, existsb is_int ls = false -> stopped (steps ls s) = false /\ ~ left_loop (steps ls s).
Proof. exact ignored. Qed.
Theorem C351_moving_partial : forall s ls, reach s -> cur s = Moving -> hp s = true -> 7 <= length (filter is_main ls) ->
  left_loop (steps (LExit :: ls) s).
Proof. exact interrupted. Qed.
Example C351_nonvacuous : exists s, reach s /\ cur s = Moving /\ hp s = true.
Proof. exact moving_example. Qed.

Theorem C352_sequence : forall ls s, reach s -> running s = false -> sp s <> Q0 -> 8 <= length (filter is_seq ls) ->
  sp (steps ls s) = QEnd /\ pos (steps ls s) = P0.
Proof. exact seq_ends. Qed.
Theorem C352_handler : forall ls s, reach s -> sp s <> Q0 -> hp s = false -> 8 <= length (filter is_seq ls) ->
  sp (steps (LInt :: ls) s) = QEnd /\ pos (steps (LInt :: ls) s) = P0.
Proof. exact handler_ends. Qed.
Theorem C352_program : forall s, left_loop s -> sp s = QEnd -> mp (step LMain s) = M5.
Proof. exact program_ends. Qed.
Example C352_nonvacuous : exists s, reach s /\ running s = false /\ sp s = Q101.
Proof. exact interrupted_example. Qed.

(** Full statement of C353: forall s, reach s -> mp s = M5 -> sen s = false /\ (bus s = [] \/ hd_error (bus s) = Some (Some (P0, true))). *)
Theorem C353_not_home_refuted : exists s, reach s /\ mp s = M5 /\ hd_error (bus s) = Some (Some (P1, true)).
Proof. exact not_home. Qed.
Theorem C353_enabled_refuted : exists s, reach s /\ mp s = M5 /\ sen s = true.
Proof. exact enabled_exists. Qed.
Theorem C353_end_partial : forall s, reach s -> mp s = M5 -> sen s = true /\ pos s = P0.
Proof. exact enabled_end. Qed.
Example C353_nonvacuous : exists s, reach s /\ mp s = M5 /\ sen s = true.
Proof. exact enabled_exists. Qed.

(** Full statement of C354: forall s ls, reach s -> running s = false -> the positions set in [steps ls s] are that of [s] and P0. *)
Theorem C354_goes_on_refuted : exists s s' ls, reach s /\ running s = false /\ hp s = false /\ bus s = [Some (P1, true)] /\
  cur s = Moving /\ s' = steps ls s /\ bus s' = [Some (P0, true); Some (P2, true); Some (P1, true)] /\ sp s' = QEnd.
Proof. exact goes_on. Qed.
Theorem C354_ended_partial : forall s ls, reach s -> sp s = QEnd -> sp (steps ls s) = QEnd /\ pos (steps ls s) = P0.
Proof. exact ended_stays. Qed.
Example C354_nonvacuous : exists s, reach s /\ sp s = QEnd.
Proof. destruct goes_on as (s & s' & ls & R & _ & _ & _ & _ & -> & _ & Q). exists (steps ls s). split; [apply reach_steps; exact R|exact Q]. Qed.

Theorem C355_frames : forall s f, reach s -> In f (bus s) -> exists p, f = Some (p, true).
Proof. exact frames. Qed.
Example C355_nonvacuous : exists s, reach s /\ bus s = [Some (P1, true)].
Proof. destruct goes_on as (s & s' & ls & R & _ & _ & B & _). exists s. auto. Qed.

(** Full statement of C356: forall s, reach s -> cur s <> Moving -> pos (step (LSeq b) s) = P0 or pos s. *)
Theorem C356_shut_refuted : exists s, reach s /\ cur s = Shut /\ mp s = A2 /\ pos s = P0 /\ pos (step (LSeq false) s) = P1.
Proof. exact moves_in_shut. Qed.
Theorem C356_init_partial : forall s, reach s -> cur s = Init -> pos s = P0.
Proof. exact init_rests. Qed.
Example C356_nonvacuous : exists s, reach s /\ cur s = Init.
Proof. destruct ignored as (s & R & _ & C & _). exists s. auto. Qed.

Print Assumptions C351_ignored_refuted.
Print Assumptions C351_moving_partial.
Print Assumptions C352_sequence.
Print Assumptions C352_handler.
Print Assumptions C352_program.
Print Assumptions C353_not_home_refuted.
Print Assumptions C353_enabled_refuted.
Print Assumptions C353_end_partial.
Print Assumptions C354_goes_on_refuted.
Print Assumptions C354_ended_partial.
Print Assumptions C355_frames.
Print Assumptions C356_shut_refuted.
Print Assumptions C356_init_partial.
