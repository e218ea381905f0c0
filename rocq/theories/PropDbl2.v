(** Rounding of sums, products of matrices, statistics and a control loop: C233-C236.

    [dval x] is the real number a machine number denotes, [dok x] says that x is a finite machine number; [uro] = 2^-53,
    [eta] = 2^-1075, [big] = 2^1000. *)
From Coq Require Import Floats.SpecFloat Reals Lra Lia ZArith Bool List.
From Flocq Require Import Core.
From Verif Require Import Prelude Num NumDbl NumDbl3 CtrlModel CtrlModel2 MatModel TaskModel TaskSpec NetModel NetSpec DblSpec DblSpec2 DblProofs DblProofs7 DblProofs8 DblNet DblNet2 DblExamples2.
Import ListNotations.
Open Scope R_scope.

(** C233: the Sum block. *)
Theorem C233_sum : forall neg (vs : list Dnum), Forall dok vs ->
  let ts := map (fun p => signed (fst p, dval (snd p))) (combine neg vs) in
  (1 + uro) ^ length ts * mass ts <= big ->
  dok (sum_acc Dnum neg vs) /\ Rabs (dval (sum_acc Dnum neg vs) - total ts) <= ((1 + uro) ^ length ts - 1) * mass ts.
Proof. exact sum_close. Qed.
Print Assumptions C233_sum.
Theorem C233_cycle : forall (s : CtrlModel.sum Dnum) (is : list (signal Dnum)), s_first s = false -> Forall (fun i => dok (sv i)) is ->
  let ts := map (fun p => signed (fst p, dval (sv (snd p)))) (combine (s_neg s) is) in
  (1 + uro) ^ length ts * mass ts <= big ->
  let y := snd (sum_run Dnum s is) in
  dok (sv y) /\ Rabs (dval (sv y) - total ts) <= ((1 + uro) ^ length ts - 1) * mass ts.
Proof. exact sum_run_close. Qed.
Print Assumptions C233_cycle.
Example C233_example : (1 + uro) ^ 2 * mass [3; -1] <= big /\ total [3; -1] = 2 /\ sum_acc Dnum [false; true] [dofZ 3; dofZ 1] = dofZ 2.
Proof. exact sum_ex. Qed.

(** C234: products of matrices. *)
Theorem C234_product : forall M N K (a b g : mem Dnum),
  (forall m n, (m < M)%nat -> (n < N)%nat -> dok (a (M * n + m)%nat)) ->
  (forall n k, (n < N)%nat -> (k < K)%nat -> dok (b (N * k + n)%nat)) ->
  exists r, m_mul Dnum M N K a b g = Ok r /\ forall m k, (m < M)%nat -> (k < K)%nat ->
    let x := fun n => dval (a (M * n + m)%nat) in let y := fun n => dval (b (N * k + n)%nat) in
    let W := isum (fun n => Rabs (x n * y n)) N in
    (1 + uro) ^ (N + 1) * (W + INR N * eta) <= big ->
    dok (r (M * k + m)%nat) /\ Rabs (dval (r (M * k + m)%nat) - isum (fun n => x n * y n) N) <= ((1 + uro) ^ (N + 1) - 1) * W + (1 + uro) ^ N * (INR N * eta).
Proof. exact product_close. Qed.
Print Assumptions C234_product.
Example C234_example : exists r, m_mul Dnum 1 2 1 (fun n => dofZ (Z.of_nat n + 1)) (fun n => dofZ (Z.of_nat n + 3)) (fun _ => dofZ 0) = Ok r /\ r 0%nat = dofZ 11.
Proof. exact product_ex. Qed.

(** C235: the statistics. *)
Theorem C235_mean_variance : forall (us : list Dnum) M b l, us <> [] -> Forall dok us -> Forall (fun v => Rabs (dval v) <= M) us ->
  bpow radix2 (-400) <= M <= bpow radix2 400 -> (Z.of_nat (length us) <= 2 ^ 40)%Z ->
  let s := stats_adds (stats_reset Dnum b l) us in let x := INR (length us) * bpow radix2 (-53) in
  dok (smean s) /\ Rabs (dval (smean s) - rmean (map dval us)) <= 5 * (x * M) /\
  dok (svar s) /\ Rabs (dval (svar s) - rvariance (map dval us)) <= 64 * (x * (M * M)).
Proof. exact stats_close. Qed.
Print Assumptions C235_mean_variance.
Theorem C235_extremes : forall (us : list Dnum) (b l : Dnum), us <> [] -> Forall dok us -> dok b -> dok l ->
  Forall (fun v => dval l <= dval v <= dval b) us ->
  let s := stats_adds (stats_reset Dnum b l) us in
  scount s = Z.of_nat (length us) /\ slast s = last us (nofZ Dnum 0) /\
  (exists v, In v us /\ dval (smin s) = dval v) /\ (exists v, In v us /\ dval (smax s) = dval v) /\
  (forall v, In v us -> dval (smin s) <= dval v <= dval (smax s)).
Proof. exact stats_extremes. Qed.
Print Assumptions C235_extremes.
Example C235_example : let s := stats_adds (stats_reset Dnum (dofZ 1000) (dofZ (-1000))) [dofZ 1; dofZ 2; dofZ 6] in
  Forall (fun v : Dnum => Rabs (dval v) <= 6) [dofZ 1; dofZ 2; dofZ 6] /\ smean s = dofZ 3 /\ smin s = dofZ 1 /\ smax s = dofZ 6.
Proof. exact stats_ex. Qed.

(** C236, full statement (false of the code): the control loop of C232 reaches every neighbourhood of its reference. *)
Theorem C236_settles_refuted : exists r K mn mx y0 lo hi : Dnum, dval r = 1 /\ dval K = 10 /\ dval y0 = 1 - bpow radix2 (-53) /\
  forall junk t0 ts, (0 <= t0)%Z -> short t0 ts ->
    exists y : Dnum, w_out (loop_cycles Dnum (dloop_start r K mn mx y0 lo hi junk) (t0 :: ts)) 3%nat 0%nat = mksig (y : nT Dnum) (last ts t0) /\ dval y = dval y0.
Proof. exact settles_not. Qed.
Print Assumptions C236_settles_refuted.
Theorem C236_converges_partial : forall r K mn mx lo hi : Dnum, dok r -> dok K -> dok mn -> dok mx -> dok lo -> dok hi -> dval mn <= dval K <= dval mx ->
  forall M T q, Rabs (dval r) <= M -> 0 <= dval K -> bpow radix2 (-900) <= M <= bpow radix2 900 -> dval K * M <= bpow radix2 900 ->
  T <= IZR (2 ^ 35) -> 0 <= q -> 0 <= T ->
  let q' := q + 6 * uro * (dval K * T) + 12 * uro in let e := 2 * uro * M in
  q' < 1 -> dval lo < - M -> M < dval hi ->
  forall (y0 : Dnum) junk t0 ts, dok y0 -> (0 <= t0)%Z -> ascending t0 ts -> Forall (fun u => IZR u / 1000000000 <= T) ts ->
  Rabs (dval r) + Rabs (dval y0 - dval r) + e / (1 - q') <= M -> shrinking (dval K) q t0 ts ->
  exists y : Dnum, w_out (loop_cycles Dnum (dloop_start r K mn mx y0 lo hi junk) (t0 :: ts)) 3%nat 0%nat = mksig (y : nT Dnum) (last ts t0) /\ dok y /\
    Rabs (dval y - dval r) <= q' ^ length ts * Rabs (dval y0 - dval r) + e / (1 - q').
Proof. exact dloop_converges. Qed.
Print Assumptions C236_converges_partial.
Example C236_example : exists y : Dnum, w_out (loop_cycles Dnum (dloop_start (dofZ 2) (dofZ 10) (dofZ (-100)) (dofZ 100) (dofZ 0) (dofZ (-1000)) (dofZ 1000) (fun _ _ => mksig (dnan : nT Dnum) 0%Z))
    [0; 10000000; 20000000; 30000000; 40000000]%Z) 3%nat 0%nat = mksig (y : nT Dnum) 40000000%Z /\ Rabs (dval y - 2) <= 1.4.
Proof. exact dloop_ex. Qed.
