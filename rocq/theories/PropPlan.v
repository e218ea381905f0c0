(** Properties of the path planners: C52-C55, C110-C113.

    [Xnum] are the real numbers extended by infinities and NaN (a component that does not move
    divides its limit by zero); [xv f] is the vector of the real components f i, [Dnum] are
    binary64 numbers, [Rnum] the real numbers. *)
From Coq Require Import Floats.SpecFloat Reals Lia ZArith Bool List.
From Verif Require Import Prelude Num NumX PlanModel PlanModel2 PlanSpec PlanProofs3 PlanProofs8 PlanProofs9 PlanMain PlanExamples PlanExamples2.
Import ListNotations.
Open Scope R_scope.

(** C52: an accepted move of the constant acceleration planner ends in the target. *)
Theorem C52_reaches_target : forall (s : pa Xnum) (dt : R) (vmax acc dec start endp : nat -> R) (L : nat -> R * R * R),
  dy_fin (pa_dy s) = true -> (0 < pa_d s)%nat -> pa_dt s = Fin dt -> / 10 ^ 12 <= dt ->
  pa_vmax s = xv vmax -> pa_acc s = xv acc -> pa_dec s = xv dec -> dy_last (pa_dy s) = (fun i => o3 (L i)) ->
  (forall i, (i < pa_d s)%nat -> vmax i <> 0 /\ acc i <> 0 /\ dec i <> 0) ->
  (exists i, (i < pa_d s)%nat /\ start i <> endp i) ->
  exists s' n, pa_move Xnum xsqrt s (xv start) (xv endp) = (s', true) /\
    let at_ k := pa_dy (Nat.iter k (pa_run Xnum) s') in
    (forall k, (k <= n)%nat -> dy_fin (at_ k) = false) /\ (forall k, (n < k)%nat -> dy_fin (at_ k) = true) /\
    forall i, (i < pa_d s)%nat ->
      fst (dy_last (at_ n) i) = (Fin (endp i), Fin 0) /\
      (forall k, (n < k)%nat -> dy_last (at_ k) i = (Fin (endp i), Fin 0, Fin 0)) /\
      forall k, (0 < k)%nat -> exists p v a, dy_last (at_ k) i = (Fin p, Fin v, Fin a) /\
        Rmin (start i) (endp i) <= p <= Rmax (start i) (endp i) /\ Rabs v <= Rabs (vmax i) /\
        (0 < (endp i - start i) * a -> Rabs a <= Rabs (acc i)) /\ ((endp i - start i) * a <= 0 -> Rabs a <= Rabs (dec i)).
Proof. exact acc_reach. Qed.
Print Assumptions C52_reaches_target.

(** The outputs of every cycle are those of a trapezoidal profile. *)
Theorem C52_profile : forall (s : pa Xnum) (dt : R) (vmax acc dec start endp : nat -> R) (L : nat -> R * R * R),
  dy_fin (pa_dy s) = true -> (0 < pa_d s)%nat -> pa_dt s = Fin dt -> / 10 ^ 12 <= dt ->
  pa_vmax s = xv vmax -> pa_acc s = xv acc -> pa_dec s = xv dec -> dy_last (pa_dy s) = (fun i => o3 (L i)) ->
  (forall i, (i < pa_d s)%nat -> vmax i <> 0 /\ acc i <> 0 /\ dec i <> 0) ->
  (exists i, (i < pa_d s)%nat /\ start i <> endp i) ->
  let dist i := endp i - start i in
  exists s' n1 n2 n3,
    pa_move Xnum xsqrt s (xv start) (xv endp) = (s', true) /\ pa_d s' = pa_d s /\ (0 < n1)%nat /\ (0 < n3)%nat /\
    (let V := 1 / (INR n2 * dt + (INR n1 * dt + INR n3 * dt) / 2) in 0 < V /\
     forall i, (i < pa_d s)%nat -> V * Rabs (dist i) <= Rabs (vmax i) /\
       V / (INR n1 * dt) * Rabs (dist i) <= Rabs (acc i) /\ V / (INR n3 * dt) * Rabs (dist i) <= Rabs (dec i)) /\
    forall k, (0 < k)%nat ->
      dy_fin (pa_dy (Nat.iter k (pa_run Xnum) s')) = (acc_cycles n1 n2 n3 <? k)%nat /\
      forall i, (i < pa_d s)%nat -> dy_last (pa_dy (Nat.iter k (pa_run Xnum) s')) i = o3 (acc_cycle dt start dist n1 n2 n3 k i).
Proof. exact acc_planner. Qed.
Print Assumptions C52_profile.

Example C52_example : exists s' n, pa_move Xnum xsqrt easy_acc (xv (rc 0)) (xv two) = (s', true) /\
  dy_fin (pa_dy (Nat.iter (S n) (pa_run Xnum) s')) = true /\
  dy_last (pa_dy (Nat.iter (S n) (pa_run Xnum) s')) 1%nat = (Fin 10, Fin 0, Fin 0).
Proof. exact easy_acc_ends. Qed.

(** C53, full statement (false of the code): every accepted move of the constant jerk planner
    ends. *)
Theorem C53_jerk_never_ends_refuted : exists (s s' : pj Xnum),
  pj_d s = 1%nat /\ pj_dt s = Fin 1 /\ pj_vmax s 0%nat = Fin 10 /\ pj_jerk s 0%nat = Fin 1 /\
  pj_move Xnum xsqrt xcbrt s (xv (fun _ => 0)) (xv (fun _ => 1)) = (s', true) /\
  forall k, dy_fin (pj_dy (Nat.iter k (pj_run Xnum) s')) = false.
Proof. exact quick_never. Qed.
Print Assumptions C53_jerk_never_ends_refuted.

(** It ends if the velocity limit is reached (some moving component's velocity limit binds
    before the jerk limits); every cycle integrates the constant jerk of that cycle. *)
Theorem C53_jerk_reaches_partial : forall (s : pj Xnum) (dt : R) (vmax jerk start endp : nat -> R) (L : nat -> R * R * R * R),
  dy_fin (pj_dy s) = true -> (0 < pj_d s)%nat -> pj_dt s = Fin dt -> / 10 ^ 12 <= dt ->
  pj_vmax s = xv vmax -> pj_jerk s = xv jerk -> dy_last (pj_dy s) = (fun i => o4 (L i)) ->
  (forall i, (i < pj_d s)%nat -> vmax i <> 0 /\ jerk i <> 0) ->
  (exists i, (i < pj_d s)%nat /\ start i <> endp i /\ forall i', (i' < pj_d s)%nat -> start i' <> endp i' ->
    4 * Rabs (vmax i / (endp i - start i)) ^ 3 < Rabs (jerk i' / (endp i' - start i'))) ->
  exists s' n, pj_move Xnum xsqrt xcbrt s (xv start) (xv endp) = (s', true) /\
    let at_ k := pj_dy (Nat.iter k (pj_run Xnum) s') in
    (forall k, (k <= n)%nat -> dy_fin (at_ k) = false) /\ (forall k, (n < k)%nat -> dy_fin (at_ k) = true) /\
    forall i, (i < pj_d s)%nat -> exists p v a j : nat -> R,
      p 0%nat = start i /\ v 0%nat = 0 /\ a 0%nat = 0 /\
      (forall k, (0 < k)%nat -> dy_last (at_ k) i = (Fin (p k), Fin (v k), Fin (a k), Fin (j k))) /\
      (forall k, (k < n)%nat -> (p (S k), v (S k), a (S k)) = integrate (j (S k)) dt (p k, v k, a k)) /\
      (forall k, (n <= k)%nat -> p k = endp i /\ v k = 0 /\ a k = 0) /\
      (forall k, (0 < k)%nat -> Rabs (v k) <= Rabs (vmax i) /\ Rabs (j k) <= Rabs (jerk i)).
Proof. exact jerk_reach. Qed.
Print Assumptions C53_jerk_reaches_partial.

Example C53_example : exists s' n, pj_move Xnum xsqrt xcbrt easy_jerk (xv (rc 0)) (xv two) = (s', true) /\
  dy_fin (pj_dy (Nat.iter (S n) (pj_run Xnum) s')) = true /\
  fst (dy_last (pj_dy (Nat.iter (S n) (pj_run Xnum) s')) 1%nat) = (Fin 10, Fin 0, Fin 0).
Proof. exact easy_jerk_ends. Qed.

(** C54: the path of the file, moved to p0: outputs are the exact integrals of the piecewise
    constant jerk. *)
Theorem C54_path_integrates : forall (s : cubic Rnum) (dt p0 : R) (ns : list nat),
  let rows := cu_raw s in let segs := combine (visit ns) (map (@r_j Rnum) rows) in
  0 < dt -> idle dt s -> rows <> [] -> length ns = length rows ->
  (forall i, (i < length rows)%nat -> r_t (at_row rows i) = INR (nth i ns 0%nat) * dt) ->
  (forall i, (S i < length rows)%nat -> (0 < nth i ns 0%nat)%nat) ->
  path_from_rest rows ->
  exists s', cu_move_raw Rnum s p0 = Ok (s', true) /\
    (forall k, (k < total segs)%nat -> cu_fin (Nat.iter (S k) (cu_run Rnum) s') = false /\
      exists o, cu_out (Nat.iter (S k) (cu_run Rnum) s') = Some o /\ (o_p o, o_v o, o_a o) = sample dt segs (p0, 0, 0) k /\ o_j o = active segs k) /\
    cu_fin (Nat.iter (S (total segs)) (cu_run Rnum) s') = true /\
    cu_out (Nat.iter (S (total segs)) (cu_run Rnum) s') = cu_out (Nat.iter (total segs) (cu_run Rnum) s').
Proof. exact cubic_raw. Qed.
Print Assumptions C54_path_integrates.

(** The scaled path: the same for the rounded durations and scaled jerks. *)
Theorem C54_scaled_integrates : forall (s : cubic Rnum) (dt time p0 dp : R) (ns : list nat),
  0 < dt -> idle dt s -> cu_raw s <> [] -> length ns = length (cu_raw s) ->
  let tot := rsum (map (@r_t Rnum) (cu_raw s)) in
  (forall i, (i < length (cu_raw s))%nat -> nround Rnum (r_t (at_row (cu_raw s) i) * (time / tot) / dt) = INR (nth i ns 0%nat)) ->
  (forall i, (S i < length (cu_raw s))%nat -> (0 < nth i ns 0%nat)%nat) ->
  let scale := rsum (map (fun n => INR n * dt) ns) / tot in
  let gain := dp / r_p (at_row (cu_raw s) (length (cu_raw s) - 1)) in
  let segs := combine (visit ns) (map (fun r : row Rnum => r_j r * gain / (scale * scale * scale)) (cu_raw s)) in
  exists s', cu_move Rnum s time p0 dp = Ok (s', true) /\
    (forall k, (k < total segs)%nat -> cu_fin (Nat.iter (S k) (cu_run Rnum) s') = false /\
      exists o, cu_out (Nat.iter (S k) (cu_run Rnum) s') = Some o /\ (o_p o, o_v o, o_a o) = sample dt segs (p0, 0, 0) k /\ o_j o = active segs k) /\
    cu_fin (Nat.iter (S (total segs)) (cu_run Rnum) s') = true /\
    cu_out (Nat.iter (S (total segs)) (cu_run Rnum) s') = cu_out (Nat.iter (total segs) (cu_run Rnum) s').
Proof. exact cubic_scaled. Qed.
Print Assumptions C54_scaled_integrates.

Example C54_example : exists s', cu_move_raw Rnum cur 3 = Ok (s', true) /\ cu_fin (Nat.iter 5 (cu_run Rnum) s') = true.
Proof. exact cubic_plain. Qed.

(** After the end of a path the outputs stay, in any arithmetic. *)
Theorem C54_holds : forall (N : num) (s : cubic N) (o : cout N) k, cu_fin s = true -> cu_prev s = o ->
  cu_fin (Nat.iter (S k) (cu_run N) s) = true /\ cu_out (Nat.iter (S k) (cu_run N) s) = Some o.
Proof. exact cubic_holds. Qed.
Print Assumptions C54_holds.

(** [cu_prev] is the last output: *)
Theorem C54_previous : forall (N : num) (s : cubic N), cu_out s = Some (cu_prev s) -> cu_out (cu_run N s) = Some (cu_prev (cu_run N s)).
Proof. exact cubic_prev. Qed.
Print Assumptions C54_previous.

(** C55: requests during a motion and for no distance are refused and change nothing. *)
Theorem C55_busy : forall (N : num) (nsqrt ncbrt : N -> N),
  (forall s start endp, dy_fin (pa_dy s) = false -> pa_move N nsqrt s start endp = (s, false)) /\
  (forall s start endp, dy_fin (pj_dy s) = false -> pj_move N nsqrt ncbrt s start endp = (s, false)) /\
  (forall s time p0 dp, cu_fin s = false -> cu_move N s time p0 dp = Ok (s, false) /\ cu_move_raw N s p0 = Ok (s, false)).
Proof. exact (fun N f g => conj (pa_busy N f) (conj (pj_busy N f g) (cu_busy N))). Qed.
Print Assumptions C55_busy.

Theorem C55_no_distance : forall (N : num) (nsqrt ncbrt : N -> N),
  (forall s start endp, (forall i, (i < pa_d s)%nat -> neqb N (nsub N (endp i) (start i)) (nofZ N 0) = true) ->
    exists s', pa_move N nsqrt s start endp = (s', false) /\ pa_dy s' = pa_dy s) /\
  (forall s start endp, (forall i, (i < pj_d s)%nat -> neqb N (nsub N (endp i) (start i)) (nofZ N 0) = true) ->
    pj_move N nsqrt ncbrt s start endp = (s, false)).
Proof. exact (fun N f g => conj (pa_zero N f) (pj_zero N f g)). Qed.
Print Assumptions C55_no_distance.

Theorem C55_refused_unchanged : forall (N : num) (nsqrt ncbrt : N -> N),
  (forall s start endp s', pa_move N nsqrt s start endp = (s', false) ->
    pa_dy s' = pa_dy s /\ forall k, dy_last (pa_dy (Nat.iter k (pa_run N) s')) = dy_last (pa_dy (Nat.iter k (pa_run N) s)) /\
      dy_fin (pa_dy (Nat.iter k (pa_run N) s')) = dy_fin (pa_dy (Nat.iter k (pa_run N) s))) /\
  (forall s start endp s', pj_move N nsqrt ncbrt s start endp = (s', false) -> s' = s).
Proof. exact (fun N f g => conj (pa_refused N f) (pj_refused N f g)). Qed.
Print Assumptions C55_refused_unchanged.

Example C55_example : snd (pa_move Dnum dsqrt tri (cst (dlit 0 1)) (cst (dlit 1 1))) = true /\
  pa_move Dnum dsqrt tri' (cst (dlit 0 1)) (cst (dlit 2 1)) = (tri', false).
Proof. exact (conj tri_move (pa_busy Dnum dsqrt tri' _ _ eq_refl)). Qed.

(** C110, full statement (false of the code): every accepted move of the constant acceleration
    planner ends, in binary64 arithmetic. *)
Theorem C110_move_never_ends_refuted : exists (s s' : pa Dnum) (start endp : nat -> Dnum), pa_d s = 1%nat /\ pa_dt s = dlit 1 10 /\
  pa_vmax s 0%nat = dlit 1 10 /\ pa_acc s 0%nat = dlit 1 1 /\ pa_dec s 0%nat = dlit 1 1 /\ start 0%nat = dlit 0 1 /\ endp 0%nat = dlit 10 1 /\
  pa_move Dnum dsqrt s start endp = (s', true) /\ forall k, dy_fin (pa_dy (Nat.iter k (pa_run Dnum) s')) = false.
Proof. exact slow_ex. Qed.
Print Assumptions C110_move_never_ends_refuted.

(** Also when an axis without velocity and without distance is the first component. *)
Theorem C110_locked_axis_refuted : exists (s : pa Dnum) (start endp : nat -> Dnum),
  pa_d s = 2%nat /\ pa_vmax s 0%nat = dlit 0 1 /\ pa_vmax s 1%nat = dlit 1 1 /\
  snd (pa_move Dnum dsqrt s start endp) = true /\
  forall k, dy_fin (pa_dy (Nat.iter k (pa_run Dnum) (fst (pa_move Dnum dsqrt s start endp)))) = false.
Proof.
  exact (ex_intro _ lock (ex_intro _ (cst (dlit 0 1)) (ex_intro _ (ax (dlit 0 1) (dlit 1 1))
    (conj eq_refl (conj eq_refl (conj eq_refl (conj lock_move lock_never))))))).
Qed.
Print Assumptions C110_locked_axis_refuted.

(** In exact arithmetic every accepted move ends. *)
Theorem C110_ends_partial : forall (s : pa Xnum) (dt : R) (vmax acc dec start endp : nat -> R) (L : nat -> R * R * R),
  dy_fin (pa_dy s) = true -> (0 < pa_d s)%nat -> pa_dt s = Fin dt -> / 10 ^ 12 <= dt ->
  pa_vmax s = xv vmax -> pa_acc s = xv acc -> pa_dec s = xv dec -> dy_last (pa_dy s) = (fun i => o3 (L i)) ->
  (forall i, (i < pa_d s)%nat -> vmax i <> 0 /\ acc i <> 0 /\ dec i <> 0) ->
  (exists i, (i < pa_d s)%nat /\ start i <> endp i) ->
  exists s' n, pa_move Xnum xsqrt s (xv start) (xv endp) = (s', true) /\
    forall k, dy_fin (pa_dy (Nat.iter k (pa_run Xnum) s')) = (n <? k)%nat.
Proof. exact acc_ends. Qed.
Print Assumptions C110_ends_partial.

Example C110_example : pa_dT2 (pa_pl slow') = slow_T2 /\ PlanProofs4.misses 1000 (dlit 0 1) (dlit 1 10) slow_T2 = Some slow_tK.
Proof. exact (conj slow_dur slow_misses). Qed.

(** C111, full statement (false of the code): the planned positions are the integral of the
    planned velocities. *)
Theorem C111_position_stalls_refuted : exists (s : pa Dnum) (start endp : nat -> Dnum),
  snd (pa_move Dnum dsqrt s start endp) = true /\
  let out k := fst (dy_last (pa_dy (Nat.iter k (pa_run Dnum) (fst (pa_move Dnum dsqrt s start endp)))) 0%nat) in
  out 4%nat = (dlit 1 2, dlit 1 1) /\ out 5%nat = (dlit 1 2, dlit 1 1) /\ out 9%nat = (dlit 1 1, dlit 0 1).
Proof. exact tri_ex. Qed.
Print Assumptions C111_position_stalls_refuted.

(** With a constant velocity phase they are; without one the position always stalls for a
    cycle at the maximum velocity. *)
Theorem C111_integral_partial : forall (s : pa Xnum) (dt : R) (vmax acc dec start endp : nat -> R) (L : nat -> R * R * R),
  dy_fin (pa_dy s) = true -> (0 < pa_d s)%nat -> pa_dt s = Fin dt -> / 10 ^ 12 <= dt ->
  pa_vmax s = xv vmax -> pa_acc s = xv acc -> pa_dec s = xv dec -> dy_last (pa_dy s) = (fun i => o3 (L i)) ->
  (forall i, (i < pa_d s)%nat -> vmax i <> 0 /\ acc i <> 0 /\ dec i <> 0) ->
  (exists i, (i < pa_d s)%nat /\ start i <> endp i) ->
  exists s' n1 n2 n3, pa_move Xnum xsqrt s (xv start) (xv endp) = (s', true) /\
    ((0 < n2)%nat -> forall i, (i < pa_d s)%nat -> exists p v : nat -> R, p 0%nat = start i /\ v 0%nat = 0 /\
       (forall k, (0 < k)%nat -> fst (dy_last (pa_dy (Nat.iter k (pa_run Xnum) s')) i) = (Fin (p k), Fin (v k))) /\
       forall k, (k < n1 + n2 + n3)%nat -> p (S k) - p k = (v k + v (S k)) / 2 * dt) /\
    (n2 = 0%nat -> forall i, (i < pa_d s)%nat -> start i <> endp i -> exists p v : R, v <> 0 /\
       fst (dy_last (pa_dy (Nat.iter n1 (pa_run Xnum) s')) i) = (Fin p, Fin v) /\
       fst (dy_last (pa_dy (Nat.iter (S n1) (pa_run Xnum) s')) i) = (Fin p, Fin v)).
Proof. exact acc_integral. Qed.
Print Assumptions C111_integral_partial.

(** C112, full statement (false of the code): a scaled cubic path leads to start + distance. *)
Theorem C112_misses_target_refuted : exists s : cubic Dnum, cu_dt s = dlit 1 1 /\ cu_raw s = file /\
  match cu_after (cu_move Dnum s (dlit 9 2) (dlit 0 1) (dlit 19 1)) 7 with
  | Some (true, p) => SFltb (dlit 21 1) p && SFltb p (dlit 22 1) | _ => false end = true.
Proof. exact (ex_intro _ cu0 (conj eq_refl (conj eq_refl cu_off))). Qed.
Print Assumptions C112_misses_target_refuted.

(** It does if no duration has to be rounded, the path of the file is consistent and starts at
    rest in 0 and its last row has no duration. *)
Theorem C112_target_partial : forall (s : cubic Rnum) (dt time p0 dp : R) (ns : list nat),
  let rows := cu_raw s in let tot := rsum (map (@r_t Rnum) rows) in let last := at_row rows (length rows - 1) in
  0 < dt -> idle dt s -> rows <> [] -> path_from_rest rows -> length ns = length rows ->
  tot <> 0 -> time <> 0 -> r_p last <> 0 ->
  (forall i, (i < length rows)%nat -> r_t (at_row rows i) * (time / tot) = INR (nth i ns 0%nat) * dt) ->
  (forall i, (S i < length rows)%nat -> (0 < nth i ns 0%nat)%nat) -> nth (length rows - 1) ns 0%nat = 0%nat ->
  exists s' n, cu_move Rnum s time p0 dp = Ok (s', true) /\
    cu_fin (Nat.iter n (cu_run Rnum) s') = true /\
    exists o, cu_out (Nat.iter n (cu_run Rnum) s') = Some o /\ o_p o = p0 + dp.
Proof. exact cubic_target. Qed.
Print Assumptions C112_target_partial.

Example C112_example : exists s' n, cu_move Rnum cur 6 3 190 = Ok (s', true) /\
  cu_fin (Nat.iter n (cu_run Rnum) s') = true /\
  exists o, cu_out (Nat.iter n (cu_run Rnum) s') = Some o /\ o_p o = 3 + 190.
Proof. exact cubic_far. Qed.

(** C113, full statement (false of the code): an accepted cubic move begins at its start
    position. *)
Theorem C113_after_reset_refuted : exists (s : cubic Dnum), cu_fin s = false /\
  match cu_after (cu_move Dnum (cu_reset Dnum s) (dlit 3 1) (dlit 100 1) (dlit 19 1)) 1 with
  | Some (false, p) => SFltb p (dlit 100 1) | _ => false end = true.
Proof. exact cu_reset_ex. Qed.
Print Assumptions C113_after_reset_refuted.

Theorem C113_first_move_refuted : exists t0, match cu_after (cu_move Dnum (cu_init Dnum (cu_new Dnum (dlit 1 1) t0 (dlit 0 1)) file)
    (dlit 3 1) (dlit 100 1) (dlit 19 1)) 1 with
  | Some (false, p) => SFltb p (dlit 100 1) | _ => false end = true.
Proof. exact (ex_intro _ (dlit (-5) 1) cu_early). Qed.
Print Assumptions C113_first_move_refuted.

(** It does after at least one idle cycle (for the motion that follows see C54). *)
Theorem C113_begins_partial : forall (s : cubic Rnum) (time p0 dp : R), cu_fin s = true -> 0 < cu_dt s -> cu_raw s <> [] ->
  idle (@cu_dt Rnum s) (cu_run Rnum s) /\
  exists s', cu_move Rnum (cu_run Rnum s) time p0 dp = Ok (s', true) /\
    cu_fin (cu_run Rnum s') = false /\ exists o, cu_out (cu_run Rnum s') = Some o /\ (o_p o, o_v o, o_a o) = (p0, 0, 0).
Proof. exact cubic_begins. Qed.
Print Assumptions C113_begins_partial.

Example C113_example : idle 1 cur /\ cu_raw cur = filer.
Proof. exact cur_idle. Qed.
