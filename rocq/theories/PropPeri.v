(** Properties C343-C350: the threads of the executor, PeriodicExample3. *)
From Verif Require Import Prelude Num NumDbl TaskModel PeriModel PeriSpec PeriProofs PeriProofs2.
Local Open Scope nat_scope.

Theorem C343_after : forall prog s p c k o, wf prog -> reach prog s -> after prog p c k -> at_ prog c o Own ->
  k * beg s c <= fin s p.
Proof. exact after_begun. Qed.
Example C343_nonvacuous : wf prog3 /\ exists s, reach prog3 s /\ after prog3 1 2 2 /\ beg s 2 = 1 /\ fin s 1 = 2.
Proof. exact (conj wf3 after_example). Qed.

(** Full statement of C344: forall prog s p c k, wf prog -> reach prog s -> before prog p c k -> beg s p < k * (fin s c + 1). *)
Theorem C344_before_refuted : exists prog s, wf prog /\ before prog 1 2 1 /\ reach prog s /\ fin s 1 = 1 /\ beg s 2 = 0.
Proof. exact not_before. Qed.
Theorem C344_main_refuted : exists s, reach prog3 s /\ before prog3 0 1 1 /\ fin s 0 = 1 /\ beg s 1 = 0.
Proof. exact main_before. Qed.
Theorem C344_released_partial : forall prog s p c k, wf prog -> reach prog s -> before prog p c k ->
  beg s p < k * (ent s c + sem s c + 1) /\ k * ent s c <= beg s p + 1.
Proof. exact before_ok. Qed.
Example C344_nonvacuous : wf progb.
Proof. exact wfb. Qed.

Theorem C345_not_lost : forall prog s p c k, wf prog -> reach prog s -> edge prog p c k ->
  k * (ent s c + sem s c) <= ent s p <= k * (ent s c + sem s c) + k.
Proof. exact not_lost. Qed.
Theorem C345_rate : forall prog s n K o o0, wf prog -> reach prog s -> quiet s -> path prog n K -> at_ prog n o Own ->
  at_ prog 0 o0 Own -> fin s n = fin s 0 / K.
Proof. exact quiet_runs. Qed.
Theorem C345_never_more : forall prog s n K, wf prog -> reach prog s -> path prog n K -> K * ent s n <= ent s 0 /\ 0 < K.
Proof. exact at_most. Qed.
Example C345_nonvacuous : exists s, reach prog3 s /\ quiet s /\ fin s 0 = 2 /\ fin s 2 = 1.
Proof. exact quiet_example. Qed.

Theorem C346_built : map (fun t => create_thread Dnum (dlit 1 100) (dofZ 1) (ptask_of Dnum t)) (config example3) =
  map Ok [Thr 1 1 [] [Thr 2 2 [] [Thr 2 4 [] []]; Thr 5 3 [] []]; Thr 3 5 [] []].
Proof. exact built. Qed.
Theorem C346_rates : forall s, reach (prog_of [Thr 1 1 [] [Thr 2 2 [] [Thr 2 4 [] []]; Thr 5 3 [] []]; Thr 3 5 [] []]) s -> quiet s ->
  fin s 1 = fin s 0 /\ fin s 2 = fin s 0 / 2 /\ fin s 3 = fin s 0 / 5 /\ fin s 4 = fin s 0 / 4 /\ fin s 5 = fin s 0 / 3.
Proof. exact rates3. Qed.
Theorem C346_order : forall s, reach (prog_of [Thr 1 1 [] [Thr 2 2 [] [Thr 2 4 [] []]; Thr 5 3 [] []]; Thr 3 5 [] []]) s ->
  2 * beg s 2 <= fin s 1 /\ 5 * beg s 3 <= fin s 1 /\ 2 * beg s 4 <= fin s 2.
Proof. exact order3. Qed.
Example C346_nonvacuous : exists s, reach prog3 s /\ quiet s /\ fin s 0 = 2 /\ fin s 2 = 1.
Proof. exact quiet_example. Qed.

(** Full statement of C347: forall prog s p c k, wf prog -> reach prog s -> after prog p c k -> ~ (working s p /\ working s c). *)
Theorem C347_overlap_refuted : exists s, reach prog3 s /\ after prog3 1 2 2 /\ working s 1 /\ working s 2 /\ working s 0.
Proof. exact overlap. Qed.
Theorem C347_self_partial : forall prog s n o, wf prog -> reach prog s -> at_ prog n o Own ->
  fin s n <= beg s n <= fin s n + 1 /\ (beg s n = fin s n + 1 <-> working s n).
Proof. exact no_self. Qed.
Example C347_nonvacuous : wf prog3.
Proof. exact wf3. Qed.

(** Full statement of C348: exists b, forall s, reach prog3 s -> sem s 1 <= b. *)
Theorem C348_backlog_refuted : exists f : nat -> st, forall n, reach prog3 (f n) /\ sem (f n) 1 = n.
Proof. exact backlog. Qed.
Theorem C348_backlog_partial : forall prog s p c k, wf prog -> reach prog s -> edge prog p c k ->
  ent s p < k * (ent s c + 2) -> sem s c <= 1.
Proof. exact one_waiting. Qed.
Example C348_nonvacuous : exists s, reach prog3 s /\ edge prog3 1 2 2 /\ ent s 1 < 2 * (ent s 2 + 2) /\ sem s 2 = 1.
Proof. exact waiting_example. Qed.

(** Full statement of C349: forall os id m, In (id, m) (flat_map monitored (config os)) -> m = pushed os id. *)
Theorem C349_monitors_refuted : exists os id, In (id, 0) (flat_map monitored (config os)) /\ pushed os id = 1.
Proof. exact lost_monitors. Qed.
Theorem C349_example_partial : flat_map monitored (config example3) = [(1, 1); (2, 1); (4, 0); (3, 0); (5, 1)] /\
  map (pushed example3) [1; 2; 3; 4; 5] = [1; 1; 1; 1; 1].
Proof. exact monitors3. Qed.
Theorem C349_monitors_partial : forall os1 os2 id m, Forall early os1 -> Forall copying os2 ->
  In (id, m) (flat_map monitored (config (os1 ++ os2))) -> m = pushed (os1 ++ os2) id.
Proof. exact kept_monitors. Qed.
Example C349_nonvacuous : In (2, 1) (flat_map monitored (config ([CNew 1 1; CNew 2 2; CMon 2] ++ [CAfter 1 2; CAdd 1]))).
Proof. cbn. tauto. Qed.

(** Full statement of C350: forall os p c, In (CAfter p c) os -> In p (created os) -> In c (created os). *)
Theorem C350_copies_refuted : exists os p c, In (CAfter p c) os /\ In p (created os) /\ ~ In c (created os).
Proof. exact lost_task. Qed.
Theorem C350_example_partial : created example3 = [1; 2; 4; 3; 5].
Proof. exact created3. Qed.

Print Assumptions C343_after.
Print Assumptions C344_before_refuted.
Print Assumptions C344_main_refuted.
Print Assumptions C344_released_partial.
Print Assumptions C345_not_lost.
Print Assumptions C345_rate.
Print Assumptions C345_never_more.
Print Assumptions C346_built.
Print Assumptions C346_rates.
Print Assumptions C346_order.
Print Assumptions C347_overlap_refuted.
Print Assumptions C347_self_partial.
Print Assumptions C348_backlog_refuted.
Print Assumptions C348_backlog_partial.
Print Assumptions C349_monitors_refuted.
Print Assumptions C349_example_partial.
Print Assumptions C349_monitors_partial.
Print Assumptions C350_copies_refuted.
Print Assumptions C350_example_partial.
