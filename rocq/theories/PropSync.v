(** Properties C249 to C259: configuration of the executor, loops synchronised to ROS. *)
From Coq Require Import List ZArith Bool Reals.
From Verif Require Import Prelude Num NumDbl NumDbl3 SyncModel SyncSpec SyncProofs SyncProofs2.
Import ListNotations.
Open Scope Z_scope.

(** C249: run() works with the first main task which was chosen, or throws; it never dereferences a missing main task. *)
Theorem C249_main_task : forall os : list (cop Dnum), conf_start Dnum (conf_run Dnum os) =
  match first_main os with
  | None => Fault
  | Some (who, p) =>
    if neqb Dnum p (nofZ Dnum 0) then Fault
    else Ok (who, match who with Some id => monitors os id | None => [] end, c_tasks Dnum (conf_run Dnum os))
  end.
Proof. exact main_task. Qed.
Print Assumptions C249_main_task.
Theorem C249_never_null : forall os : list (cop Dnum), conf_start Dnum (conf_run Dnum os) <> UB.
Proof.
  intros os. rewrite main_task. destruct (first_main os) as [ [who p] |]; [|discriminate]. destruct (neqb Dnum p (nofZ Dnum 0)); discriminate.
Qed.
Print Assumptions C249_never_null.
Example C249_ex : conf_start Dnum (conf_run Dnum [CAdd 1; @CSetMain Dnum 7 (dlit 1 1000); @CSetPeriod Dnum (dlit 1 10); CMonitor 7 3]) = Ok (Some 7%nat, [3%nat], [(1%nat, [])]).
Proof. vm_compute. reflexivity. Qed.

(** C250: run() executes the loop the program asked for, in every build of the library.  Refuted: a library built with EtherCAT
    executes no cycle at all when no stack is set, and one built for ROS and ROS2 does not compile. *)
Theorem C250_no_loop_refuted : exists b w, sensible b w /\ loop_of b w = Some LNone /\ w_stack w = false /\ w_time w = false /\ w_topic w = false.
Proof.
  exists {| b_ethercat := true; b_ros := false; b_ros2 := false |}, {| w_stack := false; w_time := false; w_topic := false |}.
  repeat split; discriminate.
Qed.
Print Assumptions C250_no_loop_refuted.
Theorem C250_time_ignored_refuted : exists b w, sensible b w /\ loop_of b w = Some LNone /\ w_time w = true.
Proof.
  exists {| b_ethercat := true; b_ros := true; b_ros2 := false |}, {| w_stack := false; w_time := true; w_topic := false |}.
  repeat split; try discriminate; auto.
Qed.
Print Assumptions C250_time_ignored_refuted.
Theorem C250_compiles_refuted : exists b, forall w, loop_of b w = None.
Proof. exists {| b_ethercat := false; b_ros := true; b_ros2 := true |}. reflexivity. Qed.
Print Assumptions C250_compiles_refuted.
Theorem C250_wanted_partial : forall b w l, sensible b w -> (b_ethercat b = true -> w_stack w = true) -> loop_of b w = Some l -> wanted w l.
Proof. exact loop_wanted. Qed.
Print Assumptions C250_wanted_partial.
Example C250_ex : loop_of {| b_ethercat := false; b_ros := false; b_ros2 := true |} {| w_stack := false; w_time := false; w_topic := true |} = Some LRos2Topic.
Proof. reflexivity. Qed.

(** C251: A task is executed once in each of its periods.  Refuted: added twice it is only reported, and executed twice. *)
Theorem C251_once_refuted : exists os : list (cop Dnum), exists id, count_occ Nat.eq_dec (map fst (c_tasks Dnum (conf_run Dnum os))) id = 2%nat.
Proof. exists [CAdd 5; CAdd 5], 5%nat. reflexivity. Qed.
Print Assumptions C251_once_refuted.
Theorem C251_once_partial : forall (N : num) (os : list (cop N)), map fst (c_tasks N (conf_run N os)) = added os.
Proof. exact @run_added. Qed.
Print Assumptions C251_once_partial.
Theorem C251_reported_partial : forall (N : num) (os : list (cop N)), NoDup (added os) ->
  NoDup (map fst (c_tasks N (conf_run N os))) /\ c_errors N (conf_run N os) = 0%nat.
Proof. exact @added_once. Qed.
Print Assumptions C251_reported_partial.
Example C251_ex : map fst (c_tasks Dnum (conf_run Dnum [CAdd 5; @CSetPeriod Dnum (dlit 1 10); CAdd 6])) = [5; 6]%nat.
Proof. reflexivity. Qed.

(** C252: A monitor given to a periodic before run() is called in its cycles.  Refuted: the executor keeps a copy of an added
    periodic, later monitors are not in it. *)
Theorem C252_late_refuted : exists (os : list (cop Dnum)) id m, In id (added os) /\ In m (monitors os id) /\
  forall ms, In (id, ms) (c_tasks Dnum (conf_run Dnum os)) -> ~ In m ms.
Proof.
  exists [CAdd 1; CMonitor 1 9], 1%nat, 9%nat. split; [now left|]. split; [now left|]. intros ms [H|[] ] X. inversion H; subst. exact X.
Qed.
Print Assumptions C252_late_refuted.
Theorem C252_early_partial : forall (N : num) (os1 os2 : list (cop N)) id, In (id, monitors os1 id) (c_tasks N (conf_run N (os1 ++ CAdd id :: os2))).
Proof. exact @monitors_kept. Qed.
Print Assumptions C252_early_partial.
Theorem C252_main_partial : forall (os : list (cop Dnum)) id p, first_main os = Some (Some id, p) -> neqb Dnum p (nofZ Dnum 0) = false ->
  conf_start Dnum (conf_run Dnum os) = Ok (Some id, monitors os id, c_tasks Dnum (conf_run Dnum os)).
Proof. intros os id p F Z. now rewrite main_task, F, Z. Qed.
Print Assumptions C252_main_partial.
Example C252_ex : c_tasks Dnum (conf_run Dnum [CMonitor 1 8; CAdd 1; CMonitor 1 9]) = [(1%nat, [8%nat])].
Proof. reflexivity. Qed.

(** C253: In the loop synchronised to the time of ROS cycle i starts at start + (i + 1) periods or later, not after stop().
    Refuted: a call of stop() while the loop waits starts a cycle at once. *)
Theorem C253_early_refuted : exists P t0 os t x, r_log (r_runs P (r_start P t0) (os ++ [RStop; RStep t])) = [(t, x, false)] /\
  r_log (r_runs P (r_start P t0) os) = [] /\ t + 10 ^ 9 <= x.
Proof. exists (10 ^ 9), 0, [RStep 0], 0, (10 ^ 9). split; [vm_compute; reflexivity|]. split; [vm_compute; reflexivity|]. lia. Qed.
Print Assumptions C253_early_refuted.
Theorem C253_early_partial : forall P t0 os i t x r, nth_error (r_log (r_runs P (r_start P t0) os)) i = Some (t, x, r) ->
  x = (t0 + Z.of_nat (S i) * P) mod 2 ^ 64 /\ (x <= t \/ S i = length (r_log (r_runs P (r_start P t0) os))).
Proof. exact r_never_early. Qed.
Print Assumptions C253_early_partial.
Theorem C253_stop_partial : forall P os s, r_run s = false -> (2 <= length os)%nat -> no_stop os ->
  r_phase (r_runs P s os) = RExit /\ (length (r_log (r_runs P s os)) <= S (length (r_log s)))%nat.
Proof. exact r_stop_ends. Qed.
Print Assumptions C253_stop_partial.
Example C253_ex : r_log (r_runs 10 (r_start 10 100) (at_times [100; 105; 111; 111; 119; 120])) = [(111, 110, true); (120, 120, true)].
Proof. vm_compute. reflexivity. Qed.

(** C254: In this loop no cycle is lost: once n periods have passed since the start, n cycles are executed without further waiting.
    Refuted when the time of ROS is set back (a simulation which starts again): no cycle until the old time is reached again. *)
Theorem C254_set_back_refuted : exists P t0 os, no_stop os /\ length (r_log (r_runs P (r_start P t0) os)) = 1%nat /\
  forall ts, (forall t, In t ts -> t < t0 + P) -> length (r_log (r_runs P (r_start P t0) (os ++ at_times ts))) = 1%nat.
Proof.
  exists 1000, (10 ^ 18), (at_times [10 ^ 18; 10 ^ 18 + 1000; 0]). split; [|split; [vm_compute; reflexivity|]].
  - intros [H|[H|[H|[] ] ] ]; discriminate.
  - intros ts H. unfold r_runs. rewrite fold_left_app.
    assert (E : fold_left (r_step 1000) (at_times [10 ^ 18; 10 ^ 18 + 1000; 0]) (r_start 1000 (10 ^ 18)) =
      {| r_phase := RSpin; r_run := true; r_next := 10 ^ 18 + 2000; r_log := [(10 ^ 18 + 1000, 10 ^ 18 + 1000, true)] |}) by (vm_compute; reflexivity).
    rewrite E.
    pose proof (set_back 1000 {| r_phase := RSpin; r_run := true; r_next := 10 ^ 18 + 2000; r_log := [(10 ^ 18 + 1000, 10 ^ 18 + 1000, true)] |} ts eq_refl eq_refl) as S.
    unfold r_runs in S. rewrite S; [reflexivity|]. intros t Ht. specialize (H t Ht). cbn [r_next]. lia.
Qed.
Print Assumptions C254_set_back_refuted.
Theorem C254_none_lost_partial : forall P t0 n os ts, 0 <= P -> 0 <= t0 -> t0 + (Z.of_nat n + 1) * P < 2 ^ 64 -> no_stop os ->
  (forall t, In t ts -> t0 + Z.of_nat n * P <= t) -> (2 * n + 1 <= length ts)%nat ->
  (n <= length (r_log (r_runs P (r_start P t0) (os ++ at_times ts))))%nat.
Proof. exact no_cycle_lost. Qed.
Print Assumptions C254_none_lost_partial.
Example C254_ex : length (r_log (r_runs 10 (r_start 10 100) (at_times [150; 150; 150; 150; 150; 150; 150; 150; 150; 150; 150; 150]))) = 5%nat.
Proof. vm_compute. reflexivity. Qed.

(** C255: In this loop at least a period passes between two cycles.  Refuted: late cycles are executed at once one after another. *)
Theorem C255_distance_refuted : exists P t0 os t x y, 0 < P /\ no_stop os /\ r_log (r_runs P (r_start P t0) os) = [(t, x, true); (t, y, true)].
Proof.
  exists 1000, 0, (at_times [2000; 2000; 2000; 2000]), 2000, 1000, 2000. split; [lia|]. split; [|vm_compute; reflexivity].
  intros [H|[H|[H|[H|[] ] ] ] ]; discriminate.
Qed.
Print Assumptions C255_distance_refuted.
Theorem C255_distance_partial : forall P t0 os i j ti xi ri tj xj, 0 <= P -> 0 <= t0 -> t0 + Z.of_nat (S j) * P < 2 ^ 64 -> (i < j)%nat ->
  nth_error (r_log (r_runs P (r_start P t0) os)) i = Some (ti, xi, ri) ->
  nth_error (r_log (r_runs P (r_start P t0) os)) j = Some (tj, xj, true) ->
  ti < xi + P -> tj - ti > Z.of_nat (j - i - 1) * P.
Proof. exact distance. Qed.
Print Assumptions C255_distance_partial.
Example C255_ex : nth_error (r_log (r_runs 10 (r_start 10 100) (at_times [100; 112; 112; 121; 121; 130]))) 2 = Some (130, 130, true).
Proof. vm_compute. reflexivity. Qed.

(** C256: This loop keeps the period of the main task.  Refuted: a period of 65 us becomes 64999 ns, a period below 1 ns becomes 0
    and the loop never waits again. *)
Theorem C256_period_refuted : exists n d, n = 65 /\ d = 1000000 /\ period_nsec Dnum (dlit n d) = Ok 64999.
Proof. exists 65, 1000000. split; [reflexivity|]. split; [reflexivity|]. vm_compute. reflexivity. Qed.
Print Assumptions C256_period_refuted.
Theorem C256_zero_refuted : exists (p : Dnum) P, nltb Dnum (nofZ Dnum 0) p = true /\ period_nsec Dnum p = Ok P /\
  forall n t0, 0 <= t0 < 2 ^ 64 -> (n <= length (r_log (r_runs P (r_start P t0) (at_times (repeat t0 (2 * n + 1))))))%nat.
Proof.
  exists (dlit 1 2000000000), 0. split; [vm_compute; reflexivity|]. split; [vm_compute; reflexivity|]. intros n t0 H.
  apply (no_cycle_lost 0 t0 n [] (repeat t0 (2 * n + 1))); try lia; [intros []| |rewrite repeat_length; lia].
  intros t Ht. apply repeat_spec in Ht. lia.
Qed.
Print Assumptions C256_zero_refuted.
Theorem C256_period_partial : forall p : Dnum, dok p -> (/ IZR (2 ^ 30) <= dval p <= IZR (2 ^ 30))%R -> exists k, period_nsec Dnum p = Ok k /\
  (dval p * 1000000000 * (1 - / IZR (2 ^ 52)) - 1 < IZR k <= dval p * 1000000000 * (1 + / IZR (2 ^ 52)))%R.
Proof. exact period_trunc. Qed.
Print Assumptions C256_period_partial.
Example C256_ex : period_nsec Dnum (dlit 1 1000) = Ok 1000000.
Proof. vm_compute. reflexivity. Qed.

(** C257: In the loop synchronised to a topic of ROS1 each cycle has a new time and new messages, and every message is handled once,
    in the order of arrival.  Refuted for the cycle after stop(): the time of the cycle before and no message. *)
Theorem C257_fresh_refuted : exists os t ms, q_log (q_runs (q_start false 0) os) = [(t, ms, true); (t, [], false)].
Proof. exists [QMsg 1; QNow 7; QStep; QStep; QStep; QStep; QStep; QStop; QStep; QStep], 7, [1%nat]. vm_compute. reflexivity. Qed.
Print Assumptions C257_fresh_refuted.
Theorem C257_fresh_partial : forall first t0 os i t ms, nth_error (q_log (q_runs (q_start first t0) os)) i = Some (t, ms, true) -> ms <> [] /\
  forall j t' ms' r', i = S j -> nth_error (q_log (q_runs (q_start first t0) os)) j = Some (t', ms', r') -> t <> t'.
Proof. exact q_fresh. Qed.
Print Assumptions C257_fresh_partial.
Theorem C257_messages_partial : forall first t0 os,
  handled (q_log (q_runs (q_start first t0) os)) ++ q_queue (q_runs (q_start first t0) os) = messages os.
Proof. exact q_messages. Qed.
Print Assumptions C257_messages_partial.
Example C257_ex : q_log (q_runs (q_start false 0) [QMsg 1; QMsg 2; QNow 7; QStep; QStep; QStep; QStep]) = [(7, [1%nat; 2%nat], true)].
Proof. vm_compute. reflexivity. Qed.

(** C258: stop() ends this loop without a further cycle.  Refuted: a loop which waits executes one more cycle; it does end. *)
Theorem C258_no_cycle_refuted : exists os, length (q_log (q_runs (q_start false 0) os)) = 0%nat /\
  length (q_log (q_runs (q_start false 0) (os ++ [QStop; QStep; QStep]))) = 1%nat.
Proof. exists [QStep]. split; vm_compute; reflexivity. Qed.
Print Assumptions C258_no_cycle_refuted.
Theorem C258_ends_partial : forall os s, (4 <= steps os)%nat -> q_phase (q_runs s (QStop :: os)) = QExit /\
  (length (q_log (q_runs s (QStop :: os))) <= S (length (q_log s)))%nat.
Proof. exact q_stopped. Qed.
Print Assumptions C258_ends_partial.
Example C258_ex : q_phase (q_runs (q_start true 0) [QStep; QStop; QStep; QStep; QStep; QStep]) = QExit.
Proof. vm_compute. reflexivity. Qed.

(** C259: A simulator which publishes a new time and a message in each of its steps gets one cycle for each step.  Refuted: a step
    published while the executor is busy is handled together with the one before, and its cycle is lost for ever. *)
Theorem C259_lost_refuted : exists os l, messages os = l /\ length l = 2%nat /\ forall n,
  (length (q_log (q_runs (q_start false 0) (os ++ repeat QStep n))) <= 1)%nat.
Proof.
  exists [QStep; QNow 1; QMsg 1; QNow 2; QMsg 2], [1; 2]%nat. split; [reflexivity|]. split; [reflexivity|]. intros n.
  unfold q_runs. rewrite fold_left_app.
  assert (E : fold_left q_step [QStep; QNow 1; QMsg 1; QNow 2; QMsg 2] (q_start false 0) =
    {| q_phase := QWait; q_run := true; q_first := false; q_now := 2; q_old := 0; q_new := 0; q_queue := [1; 2]%nat; q_log := [] |}) by reflexivity.
  rewrite E. destruct n as [|[|[|[|n] ] ] ]; try (cbn; auto; fail).
  pose proof (wait_steps n 2 [(2, [1; 2]%nat, true)]) as W. unfold q_runs in W.
  change (length (q_log (fold_left q_step (repeat QStep n) (waiting 2%Z [(2%Z, [1; 2]%nat, true)]))) <= 1)%nat. rewrite W. cbn. auto.
Qed.
Print Assumptions C259_lost_refuted.
Theorem C259_each_partial : forall k t0 t1 l, (4 <= k)%nat -> t1 <> t0 -> moving t1 l ->
  q_log (q_runs (q_start true t0) (QNow t1 :: repeat QStep k ++ simulator k l)) = map (fun x => (fst x, [snd x], true)) l.
Proof. exact one_cycle_each. Qed.
Print Assumptions C259_each_partial.
Example C259_ex : moving 5 [(6, 1%nat); (7, 2%nat)].
Proof. cbn. repeat split; discriminate. Qed.
