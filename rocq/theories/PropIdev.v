(** Properties C191 to C196: input devices and semaphore. *)
From Coq Require Import Reals Lra.
From Flocq Require Import Core.
From Verif Require Import Prelude Num KeyModel IdevModel IdevSpec IdevProofs.
Open Scope Z_scope.

(** C191: While an input device is in use its thread processes the events. *)
Theorem C191_thread_works_refuted : exists os, forall dv, let s := drun dv true dstate0 os in in_use s /\ ~ alive s.
Proof.
  exists [DThread; DMain; DMain; DMain; DMain]. intros dv s. split; [exists [MJoin; MClose]; reflexivity|].
  intros A. apply A. reflexivity.
Qed.
Print Assumptions C191_thread_works_refuted.
Theorem C191_uninitialised_refuted : exists os, forall dv, d_ub (drun dv true dstate0 os) = true.
Proof. exists [DMain; DThread; DThread; DThread]. reflexivity. Qed.
Print Assumptions C191_uninitialised_refuted.
Theorem C191_thread_works_partial : forall dv os, starts_late os -> let s := drun dv true dstate0 os in
  d_ub s = false /\ (in_use s -> alive s).
Proof. exact late_works. Qed.
Print Assumptions C191_thread_works_partial.
Example C191_ex : let os := [DMain; DMain; DThread; DMain; DMain; DThread; DThread; DThread; DEvent; DThread] in
  starts_late os /\ in_use (drun Mouse true dstate0 os) /\ d_done (drun Mouse true dstate0 os) = 1%nat.
Proof.
  intros os. split; [|split; [exists [MJoin; MClose]|]; reflexivity].
  exists [DMain; DMain], [DThread; DMain; DMain; DThread; DThread; DThread; DEvent; DThread]. split; [reflexivity|]. split; [|reflexivity].
  intros [H|[H|[]]]; discriminate.
Qed.

(** C192: The destructor of an input device returns. *)
Theorem C192_destructor_returns_refuted : exists os, forall dv os', ~ destroyed (drun dv true dstate0 (os ++ os')).
Proof. exact hangs_for_ever. Qed.
Print Assumptions C192_destructor_returns_refuted.
Theorem C192_needs_event_refuted : exists os, forall dv, blocking dv = true -> in_use (drun dv true dstate0 os) /\
  forall os', ~ In DEvent os' -> ~ destroyed (drun dv true dstate0 (os ++ os')).
Proof. exact waits_for_event. Qed.
Print Assumptions C192_needs_event_refuted.
Theorem C192_closed_refuted : exists os, let s := drun SpaceNav false dstate0 os in destroyed s /\ d_ub s = true.
Proof. exists [DMain; DMain; DMain; DMain; DMain; DThread; DThread; DThread; DMain; DMain]. split; reflexivity. Qed.
Print Assumptions C192_closed_refuted.
Theorem C192_destructor_returns_partial : forall dv s, d_main s = [MStop; MJoin; MClose] -> (d_pc s = TLoop \/ d_pc s = TRead) ->
  destroyed (drun dv true s [DMain; DEvent; DThread; DThread; DThread; DMain; DMain]).
Proof. exact loop_ends. Qed.
Print Assumptions C192_destructor_returns_partial.
Example C192_ex : let s := drun Gamepad true dstate0 [DMain; DMain; DMain; DMain; DThread; DThread; DThread; DThread] in
  d_main s = [MStop; MJoin; MClose] /\ d_pc s = TRead.
Proof. split; reflexivity. Qed.

(** C193: The speed factor scales the output of the gamepad block. *)
Theorem C193_speed_refuted : exists v axes, set_speed Rnum 1%R v = v /\ xbox_out Rnum v axes <> map (Rmult v) axes.
Proof.
  exists 2%R, [1%R]. split.
  - unfold set_speed. cbn. rewrite (Rlt_bool_false 2 0) by lra. rewrite (Rlt_bool_true 2 5) by lra. reflexivity.
  - cbn. intros H. injection H as H. lra.
Qed.
Print Assumptions C193_speed_refuted.
Theorem C193_speed_partial : forall axes, xbox_out Rnum 1%R axes = map (Rmult 1) axes.
Proof. intros axes. unfold xbox_out. rewrite <- (map_id axes) at 1. apply map_ext. intros a. symmetry. apply Rmult_1_l. Qed.
Print Assumptions C193_speed_partial.
Example C193_ex : xbox_out Rnum 1%R [3%R] = [3%R].
Proof. reflexivity. Qed.

(** C194: The outputs of the space navigator block are always defined. *)
Theorem C194_defined_refuted : exists es, In None (n_rot (nav_events nav0 es)).
Proof. exists [(3, 0, 5); (1, 256, 1)]. cbn. auto. Qed.
Print Assumptions C194_defined_refuted.
Theorem C194_defined_partial : forall es, let s := nav_events nav0 es in
  Forall (fun v => v <> None) (n_axis s) /\ Forall (fun v => v <> None) (n_but s) /\ length (n_axis s) = 3%nat /\ length (n_but s) = 2%nat.
Proof. exact nav_axis_defined. Qed.
Print Assumptions C194_defined_partial.
Theorem C194_latest_partial : forall es, let s := nav_events nav0 es in
  (forall i, (i < 3)%nat -> nth_error (n_axis s) i = Some (Some (match latest is_pos (Z.of_nat i) es with Some v => v | None => 0 end))) /\
  (forall i, (i < 3)%nat -> nth_error (n_rot s) i = Some (latest is_pos (Z.of_nat i + 3) es)) /\
  (forall i, (i < 2)%nat -> nth_error (n_but s) i = Some (Some (match latest is_key (Z.of_nat i + 256) es with Some v => negb (v =? 0) | None => false end))).
Proof. exact nav_latest. Qed.
Print Assumptions C194_latest_partial.
Example C194_ex : n_axis (nav_events nav0 [(3, 1, -7); (1, 257, 1)]) = [Some 0; Some (-7); Some 0] /\
  n_but (nav_events nav0 [(3, 1, -7); (1, 257, 1)]) = [Some false; Some true].
Proof. split; reflexivity. Qed.

(** C195: The raw stream of the space navigator is decoded packet by packet. *)
Theorem C195_resync_refuted : exists p k, wf p /\ forall n s, sp_axis (nav_read s (skipn k (concat (map encode (repeat p (S (S n))))))) <> sp_axis (apply s p).
Proof.
  exists pk, 1%nat. split.
  - cbn. unfold fits. lia.
  - intros n s. rewrite never_found. discriminate.
Qed.
Print Assumptions C195_resync_refuted.
Theorem C195_aligned_partial : forall ps s, Forall wf ps -> nav_read s (concat (map encode ps)) = fold_left apply ps s.
Proof. exact nav_aligned. Qed.
Print Assumptions C195_aligned_partial.
Example C195_ex : nav_read {| sp_axis := []; sp_rot := []; sp_l := false; sp_r := false |} (concat (map encode [Move (-350) 1 3 0 0 350; Buttons true false])) =
  {| sp_axis := [-350; 1; 3]; sp_rot := [0; 0; 350]; sp_l := true; sp_r := false |}.
Proof. reflexivity. Qed.

(** C196: A semaphore lets through as many waits as its value and the posts allow, and no thread sleeps in vain. *)
Theorem C196_counts : forall v os s, 0 <= v -> sem_run (sem_new v) os = Some s ->
  s_taken s <= v + s_posts s /\ s_count s = v + s_posts s - s_taken s /\ 0 <= s_count s.
Proof. exact sem_counts. Qed.
Print Assumptions C196_counts.
Theorem C196_no_lost_wakeup : forall v os s, sem_run (sem_new v) os = Some s -> s_note s = 0%nat -> s_wake s = 0%nat ->
  0 < s_count s -> s_sleep s = 0%nat.
Proof. exact sem_no_lost_wakeup. Qed.
Print Assumptions C196_no_lost_wakeup.
Theorem C196_timeout_means_empty : forall s s', sem_step s SLeave = Some s' -> s_fails s' = s_fails s + 1 -> s_count s <= 0.
Proof. exact sem_fail_means_empty. Qed.
Print Assumptions C196_timeout_means_empty.
Example C196_ex : exists s, sem_run (sem_new 0) [SEnter; SEnter; SPost; SNotify; STest; SWake; SLeave] = Some s /\
  s_taken s = 1 /\ s_fails s = 1 /\ s_sleep s = 0%nat.
Proof. eexists. split; [reflexivity|]. repeat split. Qed.
