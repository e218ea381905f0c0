(** What the machine computes in binary64: C223-C227, and C53, C110 in binary64.

    [dval x] is the real number a machine number denotes, [dok x] says that x is a finite machine number. *)
From Coq Require Import Floats.SpecFloat Reals Lra Lia ZArith Bool List.
From Flocq Require Import Core.
From Verif Require Import Prelude Num NumDbl NumDbl3 CtrlModel CtrlModel2 PlanModel PlanSpec PlanExamples DblModel DblSpec DblProofs DblProofs2 DblProofs3 DblProofs4 DblProofs5 DblProofs6 DblExamples.
Import ListNotations.
Open Scope R_scope.

(** C223: wake-up times of the executor.  Exact for a period of whole nanoseconds. *)
Theorem C223_whole_nanoseconds_partial : forall now period k n, (0 <= now)%Z -> (0 <= k)%Z ->
  dok (period_ns period) -> dval (period_ns period) = IZR k -> (now + (Z.of_nat n + 1) * k <= 2 ^ 53)%Z ->
  dok (exec_wake now period n) /\ dval (exec_wake now period n) = IZR (now + (Z.of_nat n + 1) * k).
Proof. exact wake_exact. Qed.
Print Assumptions C223_whole_nanoseconds_partial.

Theorem C223_error_bound_partial : forall now period n, (0 <= now <= 2 ^ 53)%Z -> dok period -> / IZR (2 ^ 30) <= dval period <= IZR (2 ^ 30) ->
  let T := IZR now + INR (S n) * (dval period * 1000000000) in
  INR (S n) <= IZR (2 ^ 50) -> T <= IZR (2 ^ 62) ->
  dok (exec_wake now period n) /\ Rabs (dval (exec_wake now period n) - T) <= INR (S n) * / IZR (2 ^ 50) * T.
Proof. exact wake_close. Qed.
Print Assumptions C223_error_bound_partial.

(** A period of 1/3000 s: after 11.6 days of uptime every cycle takes 333333.375 ns, the error grows with every cycle. *)
Theorem C223_drift_refuted : exists (now : Z) (period : Dnum), period = dlit 1 3000 /\
  forall n, (Z.of_nat n < 10 ^ 8)%Z -> dval (exec_wake now period n) = IZR now + INR (S n) * 333333.375.
Proof. exact (ex_intro _ (10 ^ 15)%Z (ex_intro _ (dlit 1 3000) (conj eq_refl wake_drift))). Qed.
Print Assumptions C223_drift_refuted.

Example C223_example : dval (period_ns (dlit 1 1000)) = IZR 1000000.
Proof.
  assert (E : period_ns (dlit 1 1000) = dofZ 1000000) by (vm_compute; reflexivity). rewrite E. apply (dofZ_val 1000000). lia.
Qed.

(** C224: the low pass filter in binary64.  Its output can leave the range of the inputs. *)
Theorem C224_leaves_range_refuted : exists (alpha : Dnum) (l : list (signal Dnum)) (y : signal Dnum),
  dok alpha /\ 0 < dval alpha < 1 /\ (forall i, In i l -> sv i = dlit 3 1) /\ dval (dlit 3 1) = 3 /\
  In y (lp_runs Dnum (lp_new Dnum dnan alpha) l) /\ 3 < dval (sv y).
Proof. exact lp_over. Qed.
Print Assumptions C224_leaves_range_refuted.

(** In any number of cycles it does so by at most 2^-30 of the bound of the inputs. *)
Theorem C224_range_partial : forall B alpha nan (i0 : signal Dnum) l (a b : R),
  / IZR (2 ^ 900) <= B <= IZR (2 ^ 900) -> dok alpha -> / IZR (2 ^ 20) <= dval alpha <= 1 ->
  (forall i, In i (i0 :: l) -> dok (sv i) /\ Rabs (dval (sv i)) <= B /\ a <= dval (sv i) <= b) ->
  forall y, In y (lp_runs Dnum (lp_new Dnum nan alpha) (i0 :: l)) ->
  dok (sv y) /\ a - B / IZR (2 ^ 30) <= dval (sv y) <= b + B / IZR (2 ^ 30).
Proof. exact lp_range_close. Qed.
Print Assumptions C224_range_partial.

(** It stays that close to the filter computed with real numbers. *)
Theorem C224_follows_partial : forall B alpha nan r0 (l : list (signal Dnum)),
  / IZR (2 ^ 900) <= B <= IZR (2 ^ 900) -> dok alpha -> / IZR (2 ^ 20) <= dval alpha <= 1 ->
  (forall i, In i l -> dok (sv i) /\ Rabs (dval (sv i)) <= B) ->
  Forall2 (near (B * / IZR (2 ^ 30))) (lp_runs Dnum (lp_new Dnum nan alpha) l) (lp_runs Rnum (lp_new Rnum r0 (dval alpha)) (map real_sig l)).
Proof. exact (fun B alpha nan r0 l HB Ka Ha => lp_close B HB alpha Ka Ha nan r0 l). Qed.
Print Assumptions C224_follows_partial.

Example C224_example : forall y, In y (lp_runs Dnum (lp_new Dnum dnan (dlit 1 5)) [mksig (dlit 3 1) 0; mksig (dlit 3 1) 1]) ->
  3 - 3 / IZR (2 ^ 30) <= dval (sv y) <= 3 + 3 / IZR (2 ^ 30).
Proof.
  intros y Hy. destruct fifth_val as [K F]. apply Rabs_le_inv in F. destruct three_val as [K3 T3].
  eapply (C224_range_partial 3 (dlit 1 5) dnan (mksig (dlit 3 1) 0) [mksig (dlit 3 1) 1] 3 3).
  - split; [|apply IZR_le; vm_compute; discriminate]. apply Rle_trans with (/ 1); [|lra]. apply Rinv_le_contravar; [lra|apply IZR_le; vm_compute; discriminate].
  - exact K.
  - change (dlit 1 5) with fifth. change (2 ^ 20)%Z with 1048576%Z. lra.
  - intros i [<-|[<-|[]]]; cbn [sv]; change (dlit 3 1) with three; (split; [exact K3|]; rewrite T3; split; [rewrite Rabs_pos_eq; lra|lra]).
  - exact Hy.
Qed.

(** C225: the moving average in binary64 stays within rounding of the exact weighted sum. *)
Theorem C225_follows : forall B W (c : list Dnum) (l : list (signal Dnum)),
  / IZR (2 ^ 900) <= W * B <= IZR (2 ^ 900) -> 0 < B -> 0 < W ->
  c <> [] -> Forall dok c -> weight c <= W -> INR (length c) + 1 <= IZR (2 ^ 50) ->
  (forall i, In i l -> dok (sv i) /\ Rabs (dval (sv i)) <= B) ->
  Forall2 (near ((INR (length c) + 1) * / IZR (2 ^ 51) * (W * B))) (ma_runs Dnum (ma_new Dnum c) l)
    (ma_runs Rnum (ma_new Rnum (map dval c)) (map real_sig l)).
Proof. exact (fun B W c l HB B0 W0 => ma_close B W HB B0 W0 c l). Qed.
Print Assumptions C225_follows.

Example C225_example : map sv (ma_runs Dnum (ma_new Dnum [dlit 1 3; dlit 1 3; dlit 1 3]) [mksig (dlit 1 1) 0; mksig (dlit 1 1) 1; mksig (dlit 1 1) 2]) =
  [S754_finite false 6004799503160661 (-54); S754_finite false 6004799503160661 (-53); dlit 1 1].
Proof. vm_compute. reflexivity. Qed.

(** C226: the integrator in binary64 follows the exact integral. *)
Theorem C226_follows : forall (s : integ Dnum) l B M tmax, i_first s = false -> i_en s = true ->
  dok (sv (i_prev s)) -> dok (i_hi s) -> dok (i_lo s) -> M <= dval (i_hi s) -> dval (i_lo s) <= - M ->
  (forall i, In i l -> dok (sv i) /\ Rabs (dval (sv i)) <= B /\ (st i <= tmax)%Z) -> ascending (st (i_prev s)) (map st l) ->
  (0 <= st (i_prev s))%Z -> (tmax < 2 ^ 64)%Z -> 0 <= B ->
  2 * (Rabs (dval (sv (i_prev s))) + B * (IZR tmax / 1000000000)) <= M -> / IZR (2 ^ 900) <= M <= IZR (2 ^ 900) ->
  (Z.of_nat (length l) <= 2 ^ 48)%Z ->
  Forall2 (close (INR (length l) * (M / IZR (2 ^ 50)))) (outs s l) (integral (dval (sv (i_prev s))) (st (i_prev s)) l).
Proof. exact int_close. Qed.
Print Assumptions C226_follows.

(** At rest it holds its value exactly, for ever. *)
Theorem C226_holds : forall l (s : integ Dnum), i_first s = false -> dok (sv (i_prev s)) ->
  (forall i, In i l -> dok (sv i) /\ dval (sv i) = 0) -> ascending (st (i_prev s)) (map st l) ->
  forall y, In y (outs s l) -> dok (sv y) /\ dval (sv y) = dval (sv (i_prev s)).
Proof. exact int_hold_runs. Qed.
Print Assumptions C226_holds.

(** The time step the integrator and the differentiator compute from two time stamps. *)
Theorem C226_time_step : forall t0 t1, (0 <= t0 <= t1)%Z -> (t1 < 2 ^ 64)%Z ->
  dok (nsub Dnum (secs Dnum t1) (secs Dnum t0)) /\
  Rabs (dval (nsub Dnum (secs Dnum t1) (secs Dnum t0)) - (IZR t1 - IZR t0) / 1000000000) <= 5.1 * / IZR (2 ^ 53) * (IZR t1 / 1000000000).
Proof. exact dt_close. Qed.
Print Assumptions C226_time_step.

(** Ten seconds of the input 0.1 in steps of 1 s. *)
Definition tenth_int : integ Dnum :=
  {| i_first := false; i_en := true; i_prev := mksig (dlit 0 1 : nT Dnum) 0; i_hi := dlit 1000 1; i_lo := dlit (-1000) 1 |}.
Definition tenths : list (signal Dnum) := map (fun k => mksig (dlit 1 10) (Z.of_nat k * 1000000000)) (seq 1 10).
Example C226_example : map sv (skipn 9 (outs tenth_int tenths)) = [S754_finite false 9007199254740991 (-53)].
Proof. vm_compute. reflexivity. Qed.
Example C226_example_bound : Forall2 (close (10 * (/ 2 ^ 10))) (outs tenth_int tenths) (integral 0 0 tenths).
Proof.
  assert (Z0 : dok (dlit 0 1) /\ dval (dlit 0 1) = 0) by (split; [split; [vm_compute; reflexivity|exact I]|unfold dval; cbn; reflexivity]).
  assert (T0 : dok (dlit 1 10) /\ 0 <= dval (dlit 1 10) <= 1).
  { split; [split; [vm_compute; reflexivity|exact I]|]. assert (E : dlit 1 10 = S754_finite false 7205759403792794 (-56)) by (vm_compute; reflexivity).
    rewrite E. unfold dval, IEEE754.BinarySingleNaN.SF2R, F2R. cbn [Fnum Fexp cond_Zopp]. change (bpow radix2 (-56)) with (/ 72057594037927936). lra. }
  destruct (dofZ_val 1000 ltac:(lia)) as [Kh Eh]. destruct (dofZ_val (-1000) ltac:(lia)) as [Kl El].
  assert (HI : dlit 1000 1 = dofZ 1000) by (vm_compute; reflexivity). assert (LO : dlit (-1000) 1 = dofZ (-1000)) by (vm_compute; reflexivity).
  destruct Z0 as [KZ EZ]. destruct T0 as [KT ET].
  assert (G : Forall2 (close (INR (length tenths) * (200 / IZR (2 ^ 50)))) (outs tenth_int tenths) (integral (dval (sv (i_prev tenth_int))) (st (i_prev tenth_int)) tenths)).
  { apply (C226_follows tenth_int tenths 1 200 (10 * 1000000000)); unfold tenth_int; cbn [i_first i_en i_prev i_hi i_lo sv st]; try reflexivity; try assumption; rewrite ?HI, ?LO, ?Eh, ?El, ?EZ; try assumption; try lra; try lia.
    - intros i Hi. unfold tenths in Hi. apply in_map_iff in Hi. destruct Hi as (k & <- & Hk). apply in_seq in Hk. cbn [sv st].
      split; [exact KT|]. split; [rewrite Rabs_pos_eq; lra|lia].
    - cbn. lia.
    - rewrite Rabs_R0, mult_IZR. lra.
    - vm_compute. discriminate. }
  cbn [tenth_int i_prev sv st] in G. rewrite EZ in G.
  revert G. generalize (integral 0 0 tenths). change (outs _ tenths) with (outs tenth_int tenths). generalize (outs tenth_int tenths).
  assert (LE : INR (length tenths) * (200 / IZR (2 ^ 50)) <= 10 * / 2 ^ 10).
  { change (length tenths) with 10%nat. change (2 ^ 50)%Z with 1125899906842624%Z. cbn [INR]. cbn. lra. }
  revert LE. generalize (INR (length tenths) * (200 / IZR (2 ^ 50))) (10 * / 2 ^ 10). intros a b LE l1 l2 G.
  induction G as [|x y l1 l2 [C1 C2] G IH]; constructor; [split; [exact C1|lra]|exact IH].
Qed.

(** C227: the differentiator in binary64.  Its error is the rounding amplified by the ratio of the absolute time to the
    time step. *)
Theorem C227_error_bound : forall (s : diff Dnum) (i : signal Dnum), d_first s = false -> dok (sv (d_prev s)) -> dok (sv i) ->
  Rabs (dval (sv i)) <= IZR (2 ^ 400) -> Rabs (dval (sv (d_prev s))) <= IZR (2 ^ 400) ->
  let t0 := st (d_prev s) in let t1 := st i in let h := (IZR t1 - IZR t0) / 1000000000 in let T := IZR t1 / 1000000000 in
  (0 <= t0 < t1)%Z -> (t1 < 2 ^ 64)%Z -> T <= IZR (2 ^ 43) * h ->
  let q := (dval (sv i) - dval (sv (d_prev s))) / h in
  let o := sv (snd (d_run Dnum s i)) in
  dok o /\ Rabs (dval o - q) <= (6 * (T / h) + 3) * / IZR (2 ^ 53) * Rabs q + / IZR (2 ^ 1075).
Proof. exact diff_close. Qed.
Print Assumptions C227_error_bound.

(** From 1.7 s to 1.8 s the value rises by 1: the slope comes out as 9.999999999999991. *)
Example C227_example : sv (snd (d_run Dnum {| d_prev := mksig (dlit 0 1 : nT Dnum) 1700000000; d_out := dlit 0 1; d_time := 1700000000; d_first := false |}
  (mksig (dlit 1 1) 1800000000))) = S754_finite false 5629499534213115 (-49).
Proof. vm_compute. reflexivity. Qed.

(** C110 in binary64: phases of n cycles with n^2 dt at most about 4096 end after n cycles. *)
Theorem C110_ends_double_partial : forall sq (s s' : pa Dnum) start endp n1 n2 n3,
  (0 < pa_d s)%nat -> dok (pa_dt s) -> / 1000000000 <= dval (pa_dt s) ->
  pa_move Dnum sq s start endp = (s', true) ->
  pa_dT1 (pa_pl s') = nmul Dnum (nofZ Dnum (Z.of_nat n1)) (pa_dt s) -> pa_dT2 (pa_pl s') = nmul Dnum (nofZ Dnum (Z.of_nat n2)) (pa_dt s) ->
  pa_dT3 (pa_pl s') = nmul Dnum (nofZ Dnum (Z.of_nat n3)) (pa_dt s) -> (0 < n1)%nat -> (0 < n3)%nat ->
  (forall n, n = n1 \/ n = n2 \/ n = n3 -> (INR n + 1) * (INR n + 1) * dval (pa_dt s) <= 4096) ->
  forall k, let y := pa_dy (Nat.iter k (pa_run Dnum) s') in
    dy_fin y = (acc_cycles n1 n2 n3 <? k)%nat /\
    ((acc_cycles n1 n2 n3 < k)%nat -> forall i, (i < pa_d s)%nat -> dy_last y i = (endp i, nofZ Dnum 0, nofZ Dnum 0)).
Proof. exact double_ends. Qed.
Print Assumptions C110_ends_double_partial.

(** A move over 2 m with 1 m/s, 1 m/s^2 and a cycle of 1 ms ends after 3001 cycles. *)
Example C110_double_example : forall k, dy_fin (pa_dy (Nat.iter k (pa_run Dnum) go')) = (3000 <? k)%nat.
Proof.
  intros k. destruct go_times as (E1 & E2 & E3). destruct milli as [Km Hm].
  assert (M : pa_move Dnum dsqrt go (cst (dlit 0 1)) (cst (dlit 2 1)) = (go', true)) by (rewrite (surjective_pairing (pa_move Dnum dsqrt go (cst (dlit 0 1)) (cst (dlit 2 1)))), go_move; reflexivity).
  assert (I : INR 1000 = 1000) by (rewrite INR_IZR_INZ; f_equal).
  pose proof (C110_ends_double_partial dsqrt go go' (cst (dlit 0 1)) (cst (dlit 2 1)) 1000 1000 1000) as H.
  change (pa_d go) with 1%nat in H. change (pa_dt go) with (dlit 1 1000) in H. change (Z.of_nat 1000) with 1000%Z in H.
  destruct (H ltac:(lia) Km ltac:(lra) M E1 E2 E3 ltac:(lia) ltac:(lia)) with (k := k) as [H1 _].
  - intros n Hn. assert (n = 1000%nat) as -> by tauto. rewrite I. lra.
  - rewrite H1. f_equal.
Qed.

(** C53 in binary64, for moves with a constant velocity phase. *)
Theorem C53_ends_double_partial : forall sq cb (s s' : pj Dnum) start endp n1 n2,
  (0 < pj_d s)%nat -> dok (pj_dt s) -> / 1000000000 <= dval (pj_dt s) ->
  pj_move Dnum sq cb s start endp = (s', true) ->
  pj_dT1 (pj_pl s') = nmul Dnum (nofZ Dnum (Z.of_nat n1)) (pj_dt s) -> pj_dT2 (pj_pl s') = nmul Dnum (nofZ Dnum (Z.of_nat n2)) (pj_dt s) ->
  (0 < n1)%nat -> (0 < n2)%nat ->
  (forall n, n = n1 \/ n = n2 -> (INR n + 1) * (INR n + 1) * dval (pj_dt s) <= 4096) ->
  forall k, let y := pj_dy (Nat.iter k (pj_run Dnum) s') in
    dy_fin y = (4 * n1 + n2 <? k)%nat /\
    ((4 * n1 + n2 < k)%nat -> forall i, (i < pj_d s)%nat -> dy_last y i = (endp i, nofZ Dnum 0, nofZ Dnum 0, nofZ Dnum 0)).
Proof. exact jerk_double_ends. Qed.
Print Assumptions C53_ends_double_partial.

Example C53_double_example : forall k, dy_fin (pj_dy (Nat.iter k (pj_run Dnum) jgo')) = (700 <? k)%nat.
Proof.
  intros k. destruct jgo_times as (E1 & E2). destruct centi as [Km Hm].
  assert (M : pj_move Dnum dsqrt cbrt25 jgo (cst (dlit 0 1)) (cst (dlit 5 1)) = (jgo', true)) by (rewrite (surjective_pairing (pj_move Dnum dsqrt cbrt25 jgo (cst (dlit 0 1)) (cst (dlit 5 1)))), jgo_move; reflexivity).
  assert (I1 : INR 100 = 100) by (rewrite INR_IZR_INZ; f_equal). assert (I8 : INR 300 = 300) by (rewrite INR_IZR_INZ; f_equal).
  pose proof (C53_ends_double_partial dsqrt cbrt25 jgo jgo' (cst (dlit 0 1)) (cst (dlit 5 1)) 100 300) as H.
  change (pj_d jgo) with 1%nat in H. change (pj_dt jgo) with (dlit 1 100) in H. change (Z.of_nat 100) with 100%Z in H. change (Z.of_nat 300) with 300%Z in H.
  destruct (H ltac:(lia) Km ltac:(lra) M E1 E2 ltac:(lia) ltac:(lia)) with (k := k) as [H1 _].
  - intros n [->| ->]; rewrite ?I1, ?I8; lra.
  - rewrite H1. f_equal.
Qed.
