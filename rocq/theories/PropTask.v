(** Property theorems of core and task classes (C13-C20, C79-C89). *)
From Coq Require Import Permutation Reals Lra Floats.SpecFloat.
From Flocq Require Import Core.Raux.
From Verif Require Import Prelude Num TaskModel TaskSpec TaskProofs.
Open Scope Z_scope.

(** C13 *)
Theorem C13_ring_buffer_fifo : forall (T : Type) N (junk : nat -> T) os, (0 < N)%nat ->
  snd (rb_runs N (ring_new junk) os) = snd (q_runs N [] os) /\
  rlen (fst (rb_runs N (ring_new junk) os)) = length (fst (q_runs N [] os)).
Proof. exact @ring_fifo. Qed.
Print Assumptions C13_ring_buffer_fifo.

Example C13_example :
  snd (rb_runs 2 (ring_new (fun _ => 0%nat)) [Push 1; Push 2; Push 3; Pop; Push 4; Pop; Pop; Pop]%nat)
  = [RPush true; RPush true; RPush false; RPop (Some 1); RPush true; RPop (Some 2); RPop (Some 4);
     RPop None]%nat.
Proof. reflexivity. Qed.

(** C14 *)
Theorem C14_harmonic_count : forall n task m, 1 <= n ->
  Z.of_nat (count_true (snd (harmonic_runs (harmonic_new task n) m))) = Z.of_nat m / n.
Proof. exact harmonic_every_kth. Qed.
Print Assumptions C14_harmonic_count.

Theorem C14_harmonic_exact_runs : forall n task m i, 1 <= n -> (i < m)%nat ->
  nth i (snd (harmonic_runs (harmonic_new task n) m)) false = (Z.of_nat (S i) mod n =? 0).
Proof. exact harmonic_exact_runs. Qed.
Print Assumptions C14_harmonic_exact_runs.

Example C14_example : snd (harmonic_runs (harmonic_new 0 3) 7)
  = [false; false; true; false; false; true; false].
Proof. reflexivity. Qed.

(** C15 *)
Theorem C15_harmonic_list : forall l m i,
  (forall a, In a l -> 1 <= snd a) -> (i < m)%nat ->
  nth i (snd (hlist_runs (hlist_of l) m)) [] =
  map fst (filter (fun a => Z.of_nat (S i) mod snd a =? 0) l).
Proof. exact hlist_each_own_rate. Qed.
Print Assumptions C15_harmonic_list.

Example C15_example : snd (hlist_runs (hlist_of [(7%nat, 2); (8%nat, 1); (9%nat, 3)]) 6)
  = [[8]; [7; 8]; [8; 9]; [7; 8]; [8]; [7; 8; 9]]%nat.
Proof. reflexivity. Qed.

(** C16, full statement (false of the code): a task is accepted iff its period is within 1 %
    of k times the base period for some integer k >= 1, and then with the nearest such k. *)
Theorem C16_accepted_factor_partial : forall (p b lim : R) k,
  (0 < p)%R -> (0 < b)%R -> (lim < 1)%R ->
  harmonic_factor Rnum lim p b = Ok (Some k) ->
  1 <= k /\ (Rabs (p - IZR k * b) <= lim * p)%R.
Proof. exact factor_accepted. Qed.
Print Assumptions C16_accepted_factor_partial.

Theorem C16_exact_multiple_partial : forall (m : Z) (b lim : R),
  1 <= m < 2 ^ 31 -> (0 < b)%R -> (0 <= lim)%R ->
  harmonic_factor Rnum lim (IZR m * b)%R b = Ok (Some m).
Proof. exact factor_multiple. Qed.
Print Assumptions C16_exact_multiple_partial.

(** 0.3 s and 0.1 s: the quotient in binary64 is below 3. *)
Theorem C16_double_multiple_refuted :
  exists p b : dbl, p = dlit 3 10 /\ b = dlit 1 10 /\
    harmonic_factor Dnum (dlit 1 100) p b = Ok None.
Proof. exists (dlit 3 10), (dlit 1 10). split; [reflexivity|]. split; [reflexivity|]. vm_compute. reflexivity. Qed.
Print Assumptions C16_double_multiple_refuted.

(** A period within 1 % below a multiple is rejected, even in exact arithmetic. *)
Theorem C16_within_limit_refuted :
  exists (p b : R) (k : Z), (0 < b)%R /\ 1 <= k /\ (Rabs (p - IZR k * b) <= 1 / 100 * p)%R /\
    harmonic_factor Rnum (1 / 100)%R p b = Ok None.
Proof.
  exists (299 / 100)%R, 1%R, 3. split; [lra|]. split; [lia|]. split.
  - apply Rabs_le. lra.
  - unfold harmonic_factor, to_int; cbn.
    replace (299 / 100 / 1)%R with (299 / 100)%R by field.
    assert (E : Ztrunc (299 / 100) = 2).
    { rewrite Ztrunc_floor by lra. apply Zfloor_imp. split; [cbn; lra|]. replace (2 + 1) with 3 by lia. lra. }
    rewrite E. cbn. rewrite Rabs_pos_eq by lra. rewrite Rlt_bool_true by lra. reflexivity.
Qed.
Print Assumptions C16_within_limit_refuted.

(** Period 0: the deviation is NaN, the task is accepted with factor 0. *)
Theorem C16_zero_period_refuted :
  exists b : dbl, harmonic_factor Dnum (dlit 1 100) (dofZ 0) b = Ok (Some 0).
Proof. exists (dlit 1 10). vm_compute. reflexivity. Qed.
Print Assumptions C16_zero_period_refuted.

Example C16_example : harmonic_factor Dnum (dlit 1 100) (dlit 4 10) (dlit 1 10) = Ok (Some 4).
Proof. vm_compute. reflexivity. Qed.

(** C17 *)
Theorem C17_statistics : forall big low vs, vs <> [] ->
  let s := stats_adds (stats_reset Rnum big low) vs in
  scount s = Z.of_nat (length vs) /\ smean s = rmean vs /\ svar s = rvariance vs /\
  slast s = last vs 0%R /\
  ((forall v, In v vs -> (low <= v <= big)%R) ->
     In (smin s) vs /\ In (smax s) vs /\ forall v, In v vs -> (smin s <= v <= smax s)%R).
Proof. exact stats_correct. Qed.
Print Assumptions C17_statistics.

Example C17_example : rmean [1; 2; 6]%R = 3%R /\ rvariance [1; 2; 6]%R = (14 / 3)%R.
Proof. unfold rvariance, rmean, rsum; cbn. split; field. Qed.

(** C18 *)
Theorem C18_at_most_once : forall os,
  aRuns (async_runs async_new os) <=
  Z.of_nat (length (filter (fun o => match o with APost => true | _ => false end) os)).
Proof. exact async_at_most_posts. Qed.
Print Assumptions C18_at_most_once.

Theorem C18_no_trigger_lost : forall os,
  existsb (fun o => match o with AStop => true | _ => false end) os = false ->
  exists n, aRuns (async_runs async_new (os ++ repeat AWorker n)) =
  Z.of_nat (length (filter (fun o => match o with APost => true | _ => false end) os)).
Proof. exact async_all_posts. Qed.

Print Assumptions C18_no_trigger_lost.

Example C18_example :
  let s := async_runs async_new [APost; AWorker; APost; APost; AWorker; AWorker] in
  aRuns s = 2 /\ aPosts s = 3.
Proof. split; reflexivity. Qed.

(** C19 *)
Theorem C19_shorter_period_first : forall P (lt : P -> P -> bool) l n a b ka kb,
  (forall p, lt p p = false) ->
  std_sorted (prio_less lt) l -> NoDup (map pid l) ->
  In a l -> In b l -> prt a = true -> prt b = true -> lt (pperiod a) (pperiod b) = true ->
  In (pid a, ka) (assign_nice n l) -> In (pid b, kb) (assign_nice n l) -> ka < kb.
Proof. exact assign_nice_order. Qed.
Print Assumptions C19_shorter_period_first.

Theorem C19_realtime_first : forall P (lt : P -> P -> bool) l1 a l2 b,
  std_sorted (prio_less lt) (l1 ++ a :: l2) -> In b l2 -> prt b = true -> prt a = true.
Proof. exact sorted_realtime_first. Qed.
Print Assumptions C19_realtime_first.

Theorem C19_levels : forall P (l : list (pinfo P)) n,
  map snd (assign_nice n l) = map (fun i => n + Z.of_nat i) (seq 0 (length (filter prt l))) /\
  map fst (assign_nice n l) = map pid (filter prt l).
Proof. exact assign_nice_values. Qed.
Print Assumptions C19_levels.

(** Every realtime task, however deep in the before and after lists, gets a priority. *)
Theorem C19_every_task : forall P (ts : list (ptask P)) l n id per,
  Permutation (traverse ts) l -> occurs ts id per true -> exists k, In (id, k) (assign_nice n l) /\ n <= k.
Proof. exact every_task_priority. Qed.
Print Assumptions C19_every_task.

Example C19_example :
  let l := traverse [PTask 1%nat 2 true [] []; PTask 2%nat 5 true [PTask 3%nat 9 true [] []] [];
                     PTask 4%nat 1 false [] []] in
  std_sorted (prio_less Z.ltb) l /\ assign_nice 1 l = [(1%nat, 1); (2%nat, 2); (3%nat, 3)].
Proof. cbn. repeat split; intros b H; repeat (destruct H as [<-|H]; [reflexivity|]); destruct H. Qed.

(** C20, full statement (false of the code):
    forall os1 os2, In XRun os1 -> after os1, XStop, os2 the loop is left at its next check. *)
Theorem C20_stop_lost_refuted :
  exists os, forall n,
    let s := exec_runs (exec_new false) (XRun :: XStop :: os ++ repeat XCheck n) in
    xphase_of s = XLooping /\ xCycles s = Z.of_nat n.
Proof.
  exists [XReady]. intros n. cbn zeta. cbn [app].
  assert (G : forall n s, xphase_of s = XLooping -> xRunning s = true ->
    xphase_of (exec_runs s (repeat XCheck n)) = XLooping /\
    xCycles (exec_runs s (repeat XCheck n)) = xCycles s + Z.of_nat n).
  { clear. induction n as [|n IH]; intros s H1 H2.
    - cbn. split; [exact H1|lia].
    - cbn [repeat exec_runs fold_left].
      assert (E : exec_step s XCheck = {| xphase_of := XLooping; xRunning := true; xCycles := xCycles s + 1 |}).
      { unfold exec_step. rewrite H1, H2. reflexivity. }
      rewrite E. destruct (IH {| xphase_of := XLooping; xRunning := true; xCycles := xCycles s + 1 |} eq_refl eq_refl) as [I1 I2].
      split; [exact I1|]. unfold exec_runs in I2. rewrite I2. cbn [xCycles]. lia. }
  destruct (G n {| xphase_of := XLooping; xRunning := true; xCycles := 0 |} eq_refl eq_refl) as [G1 G2].
  split; [exact G1|exact G2].
Qed.
Print Assumptions C20_stop_lost_refuted.

Theorem C20_stop_while_looping_partial : forall s os,
  xphase_of s = XLooping ->
  xphase_of (exec_runs s (XStop :: os ++ [XCheck])) = XExited.
Proof. exact stop_while_looping. Qed.
Print Assumptions C20_stop_while_looping_partial.

Example C20_example :
  xphase_of (exec_runs (exec_new false) [XRun; XReady; XCheck]) = XLooping.
Proof. reflexivity. Qed.

(** C79 *)
Theorem C79_wakeup_no_drift : forall (start period : R) n,
  wakeup Rnum start period n = (start + INR (S n) * period)%R.
Proof. exact wakeup_no_drift. Qed.
Print Assumptions C79_wakeup_no_drift.

Example C79_example : wakeup Rnum 1%R 2%R 2 = 7%R.
Proof. cbn. ring. Qed.

(** C80 *)
Theorem C80_period_measurement : forall ra nominal t0 (c : pcounter Rnum) s1 e1 ts,
  pc_new Rnum ra nominal t0 = Ok c ->
  let c' := pc_cycles c ((s1, e1) :: ts) in
  cperiods c' = diffs s1 (map fst ts) /\
  cjitters c' = map (fun p => (p - nominal)%R) (diffs s1 (map fst ts)) /\
  cruns c' = map (fun st => (snd st - fst st)%R) ((s1, e1) :: ts).
Proof. exact pc_measures. Qed.
Print Assumptions C80_period_measurement.

Example C80_example : to_int Dnum (ndiv Dnum (dofZ 20) (dlit 1 1000)) = Ok 20000.
Proof. vm_compute. reflexivity. Qed.

(** C81 *)
Theorem C81_default_monitor : forall period tol T : R,
  default_monitor_warns Rnum period tol T = false <->
  (period * (1 - tol) <= T <= period * (1 + tol))%R.
Proof. exact monitor_exact. Qed.
Print Assumptions C81_default_monitor.

Example C81_example :
  default_monitor_warns Dnum (dofZ 1) (dlit 1 20) (dlit 11 10) = true /\
  default_monitor_warns Dnum (dofZ 1) (dlit 1 20) (dlit 101 100) = false.
Proof. split; vm_compute; reflexivity. Qed.

(** C82, full statement (false of the code): constructing a PeriodicCounter is never undefined. *)
Theorem C82_default_counter_refuted :
  exists t0 : dbl, pc_new Dnum (dofZ 20) (dofZ 0) t0 = UB.
Proof. exists (dofZ 0). reflexivity. Qed.
Print Assumptions C82_default_counter_refuted.

Theorem C82_counter_defined_partial : forall period t0 : R,
  (20 / IZR (2 ^ 31 - 1) <= period)%R ->
  exists c, pc_new Rnum 20%R period t0 = Ok c.
Proof. exact pc_new_defined. Qed.
Print Assumptions C82_counter_defined_partial.

Example C82_example : (20 / IZR (2 ^ 31 - 1) <= 1 / 1000)%R.
Proof.
  apply Rmult_le_reg_r with (IZR (2 ^ 31 - 1)); [apply IZR_lt; reflexivity|].
  unfold Rdiv. rewrite Rmult_assoc, Rinv_l; [|apply IZR_neq; discriminate].
  replace (IZR (2 ^ 31 - 1)) with 2147483647%R by reflexivity. lra.
Qed.

(** C83, full statement (false of the code): forall os, ctor_runs (0, 0) os <> UB. *)
Theorem C83_async_construction_refuted : exists os, ctor_runs (0, 0)%nat os = UB.
Proof. exists [CInit; CInit; CInit; CInit; CInit; CUse; CUse]. reflexivity. Qed.
Print Assumptions C83_async_construction_refuted.

Theorem C83_async_construction_partial : forall os,
  exists s, ctor_runs (0, 0)%nat ([CInit; CInit; CInit; CInit; CInit; CInit; CInit] ++ os) = Ok s.
Proof. exact ctor_first. Qed.
Print Assumptions C83_async_construction_partial.

Example C83_example :
  ctor_runs (0, 0)%nat [CInit; CInit; CInit; CInit; CInit; CUse; CInit; CInit; CUse; CUse] = Ok (7, 3)%nat.
Proof. reflexivity. Qed.

(** C84 *)
Theorem C84_nested_rate : forall l m, (forall a, In a l -> 1 <= snd a) ->
  Z.of_nat (count_true (snd (chain_runs (map (fun a => harmonic_new (fst a) (snd a)) l) m)))
  = Z.of_nat m / zprod (map snd l).
Proof. exact nested_rate. Qed.
Print Assumptions C84_nested_rate.

Example C84_example :
  count_true (snd (chain_runs [harmonic_new 1 2; harmonic_new 2 3] 20)) = 3%nat.
Proof. reflexivity. Qed.

(** C85 *)
Theorem C85_thread_tree : forall (lim base : R) (t : ptask R) th,
  (lim < 1)%R -> (0 < base)%R -> positive_periods t ->
  create_thread Rnum lim base t = Ok th -> realises lim base t th.
Proof. exact create_thread_realises. Qed.
Print Assumptions C85_thread_tree.

Theorem C85_exact_multiples_accepted : forall (lim : R) (t : ptask R) base,
  (0 <= lim)%R -> (0 < base)%R -> exact_multiples base t ->
  exists th, create_thread Rnum lim base t = Ok th.
Proof. exact create_thread_exact. Qed.
Print Assumptions C85_exact_multiples_accepted.

Example C85_example :
  create_thread Dnum (dlit 1 100) (dofZ 1)
    (PTask 1%nat (dofZ 2) true [PTask 2%nat (dofZ 6) true [] []] [PTask 3%nat (dofZ 4) false [] []])
  = Ok (Thr 2 1 [Thr 3 2 [] []] [Thr 2 3 [] []]).
Proof. vm_compute. reflexivity. Qed.

(** C86, full statement (false of the code): every assigned priority is at least 1. *)
Theorem C86_priority_range_refuted :
  exists l : list (pinfo Z), exists x k, In (x, k) (assign_nice 1 l) /\ sched_priority k < 1.
Proof.
  exists (repeat {| pid := 0; pperiod := 1; prt := true |} 49), 0%nat, 49. split; [|reflexivity].
  vm_compute. tauto.
Qed.
Print Assumptions C86_priority_range_refuted.

Theorem C86_priority_range_partial : forall P (l : list (pinfo P)) x k,
  (length (filter prt l) <= 48)%nat -> In (x, k) (assign_nice 1 l) -> 1 <= sched_priority k <= 48.
Proof. exact priority_range. Qed.
Print Assumptions C86_priority_range_partial.

Example C86_example : In (5%nat, 1) (assign_nice 1 [{| pid := 5; pperiod := 1; prt := true |}]).
Proof. left. reflexivity. Qed.

(** C87, full statement (false of the code): the variance is never negative. *)
Theorem C87_double_variance_refuted :
  exists vs : list dbl, nltb Dnum (svar (stats_adds (stats_reset Dnum (dofZ 1000) (dofZ (-1000))) vs)) (dofZ 0) = true.
Proof. exists (repeat (dlit 7 3) 7). vm_compute. reflexivity. Qed.
Print Assumptions C87_double_variance_refuted.

Theorem C87_variance_nonneg_partial : forall big low vs, vs <> [] ->
  (0 <= svar (stats_adds (stats_reset Rnum big low) vs))%R.
Proof. exact stats_variance_nonneg. Qed.
Print Assumptions C87_variance_nonneg_partial.

Example C87_example : [1%R] <> [].
Proof. discriminate. Qed.

(** C88 *)
Theorem C88_clock_order : forall s1 n1 s2 n2,
  0 <= n1 < 1000000000 -> 0 <= n2 < 1000000000 ->
  0 <= s1 < 18000000000 -> 0 <= s2 < 18000000000 ->
  (timespec2nsec s1 n1 < timespec2nsec s2 n2 <-> s1 < s2 \/ (s1 = s2 /\ n1 < n2)).
Proof. exact timespec_order. Qed.
Print Assumptions C88_clock_order.

Example C88_example : timespec2nsec 3 5 = 3000000005.
Proof. reflexivity. Qed.

(** C89, full statement (false of the code): the thread of a derived class always runs the
    derived class's run(). *)
Theorem C89_thread_runs_base_refuted : exists os, tcalled (thread_runs os) = Some TBase.
Proof. exists [TCall; TConstructed]. reflexivity. Qed.
Print Assumptions C89_thread_runs_base_refuted.

Theorem C89_thread_runs_derived_partial : forall os,
  tcalled (thread_runs (TConstructed :: os ++ [TCall])) = Some TDerived.
Proof. exact thread_late_call'. Qed.
Print Assumptions C89_thread_runs_derived_partial.

Example C89_example : tcalled (thread_runs [TConstructed; TCall]) = Some TDerived.
Proof. reflexivity. Qed.
