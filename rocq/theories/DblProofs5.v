(** The time step of the integrator and the differentiator in binary64. *)
From Coq Require Import ZArith Reals Lra Lia Floats.SpecFloat Bool List.
From Flocq Require Import Core IEEE754.BinarySingleNaN Relative.
From Verif Require Import Prelude Num NumDbl NumDbl3 CtrlModel DblSpec DblProofs DblProofs2.
Import ListNotations.
Open Scope R_scope.

Lemma ddiv_B (x y : binary_float dprec demax) : SFdiv dprec demax (B2SF x) (B2SF y) = B2SF (Bdiv mode_NE x y).
Proof.
  destruct x as [sx|sx| |sx mx ex Bx], y as [sy|sy| |sy my ey By]; [now (trivial || simpl; case Bool.eqb)..|].
  simpl. rewrite B2SF_SF2B. set (d := SFdiv_core_binary _ _ _ _ _ _). destruct d as [[mz ez] lz]. apply bra_equiv.
Qed.
Lemma ddiv_val x y : dok x -> dok y -> dval y <> 0 -> Rabs (dval x / dval y) <= big ->
  dok (ndiv Dnum x y) /\ dval (ndiv Dnum x y) = drnd (dval x / dval y).
Proof.
  intros Hx Hy N L. cbn [ndiv Dnum]. destruct Hx as [Vx Fx]. destruct Hy as [Vy Fy].
  rewrite <- (toB_SF x Vx), <- (toB_SF y Vy) in *. set (bx := toB x Vx) in *. set (b := toB y Vy) in *. clearbody bx b. clear Vx Vy.
  rewrite !dval_B in *. apply dfin_B in Fx, Fy. rewrite ddiv_B.
  pose proof (Bdiv_correct dprec demax Dprec_gt Dprec_emax mode_NE bx b N) as C.
  rewrite Rlt_bool_true in C by (apply drnd_big; exact L). destruct C as (C1 & C2 & _). rewrite Fx in C2.
  split; [split; [apply B_valid|now apply dfin_B]|]. rewrite dval_B. exact C1.
Qed.
Lemma dofZ_rnd z : (Z.abs z <= 2 ^ 100)%Z -> dok (dofZ z) /\ dval (dofZ z) = drnd (IZR z).
Proof.
  intros H.
  assert (A : Rabs (drnd (IZR z)) < bpow radix2 demax).
  { apply drnd_big. rewrite <- abs_IZR. apply Rle_trans with (IZR (2 ^ 100)); [apply IZR_le; exact H|]. rewrite <- big_lit. apply IZR_le. apply Z.pow_le_mono_r; lia. }
  destruct z as [|p|p].
  - split; [split; reflexivity|]. symmetry. apply drnd_id. apply generic_format_0.
  - unfold dofZ. rewrite br_equiv.
    pose proof (binary_round_correct dprec demax Dprec_gt Dprec_emax mode_NE false p 0) as C. cbv zeta in C.
    destruct C as [V C]. cbn [cond_Zopp] in C. replace (F2R (Float radix2 (Z.pos p) 0)) with (IZR (Z.pos p)) in C by (unfold F2R; cbn; ring).
    rewrite Rlt_bool_true in C by exact A. destruct C as (C1 & C2 & _). split; [split; [exact V|]|exact C1].
    destruct (BinarySingleNaN.binary_round _ _ _ _ _ _); try discriminate; exact I.
  - unfold dofZ. rewrite br_equiv.
    pose proof (binary_round_correct dprec demax Dprec_gt Dprec_emax mode_NE true p 0) as C. cbv zeta in C.
    destruct C as [V C]. cbn [cond_Zopp] in C. replace (F2R (Float radix2 (- Z.pos p) 0)) with (IZR (Z.neg p)) in C by (unfold F2R; cbn; ring).
    rewrite Rlt_bool_true in C by exact A. destruct C as (C1 & C2 & _). split; [split; [exact V|]|exact C1].
    destruct (BinarySingleNaN.binary_round _ _ _ _ _ _); try discriminate; exact I.
Qed.

Lemma drnd_ge0 x : 0 <= x -> 0 <= drnd x.
Proof. intros H. rewrite <- (drnd_id 0 (generic_format_0 _ _)). now apply drnd_le. Qed.
Lemma int_err z : (0 <= z)%Z -> Rabs (drnd (IZR z) - IZR z) <= uro * IZR z.
Proof.
  intros H. destruct (Z_le_gt_dec z (2 ^ 53)) as [L|L].
  - rewrite drnd_id by (apply format_int; lia). replace (IZR z - IZR z) with 0 by ring. rewrite Rabs_R0. apply Rmult_le_pos; [apply Rlt_le, uro_pos|apply IZR_le; lia].
  - destruct (relative_error_N_FLT_ex radix2 (-1074) 53 ltac:(lia) (fun z => negb (Z.even z)) (IZR z)) as (e & He & E).
    + apply Rle_trans with (bpow radix2 53); [apply bpow_le; lia|]. change (bpow radix2 53) with (IZR (2 ^ 53)).
      rewrite Rabs_pos_eq by (apply IZR_le; lia). apply IZR_le. lia.
    + change (round radix2 (FLT_exp (-1074) 53) (Znearest (fun z => negb (Z.even z))) (IZR z)) with (drnd (IZR z)) in E. rewrite E.
      replace (IZR z * (1 + e) - IZR z) with (e * IZR z) by ring. rewrite Rabs_mult, (Rabs_pos_eq (IZR z)) by (apply IZR_le; lia).
      apply Rmult_le_compat_r; [apply IZR_le; lia|]. eapply Rle_trans; [exact He|].
      unfold uro. replace (-53)%Z with (-(1) + (-53 + 1))%Z by ring. rewrite bpow_plus. cbn. lra.
Qed.

(** The time stamp in seconds. *)
Lemma secs_close t : (0 <= t < 2 ^ 64)%Z ->
  dok (secs Dnum t) /\ 0 <= dval (secs Dnum t) /\ Rabs (dval (secs Dnum t) - IZR t / 1000000000) <= 2.01 * uro * (IZR t / 1000000000).
Proof.
  intros H. destruct (Z.eq_dec t 0) as [->|N0].
  { assert (E : secs Dnum 0 = S754_zero false) by (vm_compute; reflexivity). rewrite E. split; [split; reflexivity|].
    unfold dval. cbn. split; [lra|]. replace (0 - 0 / 1000000000) with 0 by lra. rewrite Rabs_R0. lra. }
  destruct (dofZ_rnd t) as [K E]; [lia|]. destruct dns_ok as [K9 E9].
  assert (T1 : 1 <= IZR t) by (apply IZR_le; lia).
  assert (T2 : IZR t <= IZR (2 ^ 64)) by (apply IZR_le; lia). change (2 ^ 64)%Z with 18446744073709551616%Z in T2.
  assert (T0 : (0 <= t)%Z) by lia. pose proof (int_err t T0) as R. rewrite <- E in R. pose proof uro_lit as U. pose proof uro_pos as UP.
  assert (P : 0 <= dval (dofZ t)) by (rewrite E; apply drnd_ge0; lra).
  assert (Q : dval (dofZ t) <= 2 * IZR t). { apply Rabs_le_inv in R. rewrite U in R. lra. }
  unfold secs. cbn [nofZ Dnum] in *.
  destruct (ddiv_val (dofZ t) (dofZ 1000000000) K K9) as [Kd Ed].
  - rewrite E9. lra.
  - rewrite E9. apply big_ge. change (2 ^ 64)%Z with 18446744073709551616%Z. rewrite Rabs_pos_eq by lra. lra.
  - split; [exact Kd|]. rewrite Ed, E9. split; [apply drnd_ge0; lra|].
    pose proof (drnd_err (dval (dofZ t) / 1000000000)) as R2. rewrite (Rabs_pos_eq (dval (dofZ t) / 1000000000)) in R2 by lra.
    replace (drnd (dval (dofZ t) / 1000000000) - IZR t / 1000000000) with
      ((drnd (dval (dofZ t) / 1000000000) - dval (dofZ t) / 1000000000) + (dval (dofZ t) - IZR t) / 1000000000) by lra.
    eapply Rle_trans; [apply Rabs_triang|].
    assert (R3 : Rabs ((dval (dofZ t) - IZR t) / 1000000000) <= uro * IZR t / 1000000000).
    { unfold Rdiv. rewrite Rabs_mult, (Rabs_pos_eq (/ 1000000000)) by lra. apply Rmult_le_compat_r; [lra|exact R]. }
    assert (R4 : uro * (dval (dofZ t) / 1000000000) <= uro * ((IZR t + uro * IZR t) / 1000000000)).
    { apply Rmult_le_compat_l; [lra|]. apply Rabs_le_inv in R. lra. }
    assert (ES : eta <= 0.001 * uro * (IZR t / 1000000000)).
    { eapply Rle_trans; [exact eta_small|]. apply Rle_trans with (/ IZR (2 ^ 93)).
      - apply Rinv_le; [apply IZR_lt; reflexivity|apply IZR_le; apply Z.pow_le_mono_r; lia].
      - change (2 ^ 93)%Z with 9903520314283042199192993792%Z. rewrite U. lra. }
    rewrite U in *. lra.
Qed.

Definition step (t0 t1 : Z) : R := (IZR t1 - IZR t0) / 1000000000.
Lemma dt_close t0 t1 : (0 <= t0 <= t1)%Z -> (t1 < 2 ^ 64)%Z ->
  let dt := nsub Dnum (secs Dnum t1) (secs Dnum t0) in
  dok dt /\ Rabs (dval dt - step t0 t1) <= 5.1 * uro * (IZR t1 / 1000000000).
Proof.
  intros H0 H1. destruct (secs_close t0 ltac:(lia)) as (K0 & P0 & E0). destruct (secs_close t1 ltac:(lia)) as (K1 & P1 & E1).
  assert (L : IZR t0 <= IZR t1) by (apply IZR_le; lia). assert (L0 : 0 <= IZR t0) by (apply IZR_le; lia).
  assert (L1 : IZR t1 <= IZR (2 ^ 64)) by (apply IZR_le; lia). change (2 ^ 64)%Z with 18446744073709551616%Z in L1.
  pose proof uro_lit as U. pose proof uro_pos as UP.
  assert (E0' : Rabs (dval (secs Dnum t0) - IZR t0 / 1000000000) <= 2.01 * uro * (IZR t1 / 1000000000)).
  { eapply Rle_trans; [exact E0|]. apply Rmult_le_compat_l; lra. }
  set (s0 := dval (secs Dnum t0)) in *. set (s1 := dval (secs Dnum t1)) in *.
  assert (B : Rabs (s1 - s0) <= 1.01 * (IZR t1 / 1000000000)).
  { apply Rabs_le. apply Rabs_le_inv in E0', E1. rewrite U in *. lra. }
  destruct (dsub_val (secs Dnum t1) (secs Dnum t0) K1 K0) as [K E].
  - fold s0 s1. eapply Rle_trans; [exact B|]. apply big_ge. change (2 ^ 64)%Z with 18446744073709551616%Z. lra.
  - cbv zeta. split; [exact K|]. pose proof (dsub_err (secs Dnum t1) (secs Dnum t0) K1 K0) as R. rewrite <- E in R. fold s0 s1 in R.
    assert (R' : uro * Rabs (s1 - s0) <= uro * (1.01 * (IZR t1 / 1000000000))) by (apply Rmult_le_compat_l; lra).
    replace (dval (nsub Dnum (secs Dnum t1) (secs Dnum t0)) - step t0 t1) with
      ((dval (nsub Dnum (secs Dnum t1) (secs Dnum t0)) - (s1 - s0)) + ((s1 - IZR t1 / 1000000000) - (s0 - IZR t0 / 1000000000))) by (unfold step; lra).
    eapply Rle_trans; [apply Rabs_triang|]. assert (Rabs ((s1 - IZR t1 / 1000000000) - (s0 - IZR t0 / 1000000000)) <= Rabs (s1 - IZR t1 / 1000000000) + Rabs (s0 - IZR t0 / 1000000000)).
    { unfold Rminus at 1. eapply Rle_trans; [apply Rabs_triang|]. rewrite Rabs_Ropp. lra. }
    assert (0 <= uro * (IZR t1 / 1000000000)) by (apply Rmult_le_pos; lra). lra.
Qed.

(** ** Integrator at rest *)
Lemma int_hold (s : integ Dnum) (i : signal Dnum) : i_first s = false -> dok (sv (i_prev s)) -> dok (sv i) -> dval (sv i) = 0 ->
  (0 <= st (i_prev s) <= st i)%Z -> (st i < 2 ^ 64)%Z ->
  let o := snd (i_run Dnum s None i) in dok (sv o) /\ dval (sv o) = dval (sv (i_prev s)) /\ st o = st i.
Proof.
  intros F Kp Ki Z0 T0 T1. unfold i_run. rewrite F. cbv zeta. cbn [snd sv st].
  destruct (dt_close (st (i_prev s)) (st i) T0 T1) as [Kd _]. set (dt := nsub Dnum (secs Dnum (st i)) (secs Dnum (st (i_prev s)))) in *.
  destruct (dmul_val (sv i) dt Ki Kd) as [Km Em]. { rewrite Z0, Rmult_0_l, Rabs_R0. apply bpow_ge_0. }
  rewrite Z0, Rmult_0_l, drnd_id in Em by apply generic_format_0.
  assert (AB : Rabs (dval (sv (i_prev s)) + dval (nmul Dnum (sv i) dt)) <= bpow radix2 1024).
  { rewrite Em, Rplus_0_r. destruct Kp as [V _]. rewrite <- (toB_SF _ V), dval_B. apply Rlt_le, (abs_B2R_lt_emax dprec demax). }
  assert (KE : dok (nadd Dnum (sv (i_prev s)) (nmul Dnum (sv i) dt)) /\ dval (nadd Dnum (sv (i_prev s)) (nmul Dnum (sv i) dt)) = dval (sv (i_prev s))).
  { clear AB. set (m := nmul Dnum (sv i) dt) in *. set (p := sv (i_prev s)) in *. clearbody m p. clear -Kp Km Em.
    destruct Kp as [Vx Fx]. destruct Km as [Vy Fy]. cbn [nadd Dnum].
    rewrite <- (toB_SF p Vx), <- (toB_SF m Vy) in *. set (bx := toB p Vx) in *. set (b := toB m Vy) in *. clearbody bx b. clear Vx Vy.
    rewrite !dval_B in *. apply dfin_B in Fx, Fy. rewrite dadd_B.
    pose proof (Bplus_correct dprec demax Dprec_gt Dprec_emax mode_NE bx b Fx Fy) as C. rewrite Em, Rplus_0_r in C.
    rewrite round_generic in C by (try apply valid_rnd_N; apply generic_format_B2R).
    rewrite Rlt_bool_true in C by apply abs_B2R_lt_emax. destruct C as (C1 & C2 & _).
    split; [split; [apply B_valid|now apply dfin_B]|]. rewrite dval_B. exact C1. }
  destruct (i_en s); [|split; [exact Kp|split; reflexivity]].
  destruct (nltb Dnum _ (i_hi s) && nltb Dnum (i_lo s) _); [|split; [exact Kp|split; reflexivity]].
  destruct KE as [K E]. split; [exact K|split; [exact E|reflexivity]].
Qed.
Lemma int_hold_runs l : forall (s : integ Dnum), i_first s = false -> dok (sv (i_prev s)) ->
  (forall i, In i l -> dok (sv i) /\ dval (sv i) = 0) -> ascending (st (i_prev s)) (map st l) ->
  forall y, In y (outs s l) -> dok (sv y) /\ dval (sv y) = dval (sv (i_prev s)).
Proof.
  induction l as [|i l IH]; intros s F K Hl Ha y Hy; [destruct Hy|].
  cbn [map ascending] in Ha. destruct Ha as (A1 & A2 & A3).
  destruct (Hl i (or_introl eq_refl)) as [Ki Zi].
  destruct (int_hold s i F K Ki Zi A1 A2) as (K1 & E1 & T1).
  cbn [outs] in Hy. destruct (i_run Dnum s None i) as [s' o] eqn:R. cbn [snd] in *.
  assert (S : i_first s' = false /\ i_prev s' = o).
  { unfold i_run in R. rewrite F in R. injection R as <- <-. split; reflexivity. }
  destruct S as [S1 S2]. destruct Hy as [<-|Hy]; [now split|].
  destruct (IH s' S1) with (y := y) as [Ky Ey]; try assumption; try (rewrite S2; assumption).
  - intros j Hj. apply Hl. now right.
  - rewrite S2, T1. exact A3.
  - split; [exact Ky|]. rewrite Ey, S2. exact E1.
Qed.

(** ** Difference quotient *)
Lemma deqb_val x y : dok x -> dok y -> dval x <> dval y -> neqb Dnum x y = false.
Proof.
  intros Hx Hy N. destruct (neqb Dnum x y) eqn:E; [exfalso|reflexivity]. apply N. cbn [neqb Dnum] in E.
  destruct Hx as [Vx Fx]. destruct Hy as [Vy Fy]. rewrite <- (toB_SF x Vx), <- (toB_SF y Vy) in *.
  set (bx := toB x Vx) in *. set (b := toB y Vy) in *. clearbody bx b. rewrite !dval_B. apply dfin_B in Fx, Fy.
  change (SFeqb (B2SF bx) (B2SF b)) with (Beqb bx b) in E. rewrite Beqb_correct in E by assumption.
  destruct (Req_bool_spec (B2R bx) (B2R b)); [assumption|discriminate].
Qed.

Lemma quot_close (n dt D h u e : R) : 0 < h -> 0 <= u <= 0.01 -> 0 <= e <= 0.01 -> Rabs (n - D) <= u * Rabs D -> Rabs (dt - h) <= e * h ->
  Rabs (n / dt - D / h) <= 1.02 * (u + e) * Rabs (D / h).
Proof.
  intros Hh Hu He Hn Hd. apply Rabs_le_inv in Hd.
  assert (P : 0.99 * h <= dt). { assert (e * h <= 0.01 * h) by (apply Rmult_le_compat_r; lra). lra. }
  assert (P0 : 0 < dt) by lra.
  replace (n / dt - D / h) with ((n - D) / dt + D * (h - dt) / (dt * h)) by (field; lra).
  eapply Rle_trans; [apply Rabs_triang|].
  assert (A0 : 0 <= Rabs D) by apply Rabs_pos.
  assert (HD : Rabs (D / h) = Rabs D / h) by (unfold Rdiv; rewrite Rabs_mult, (Rabs_pos_eq (/ h)); [reflexivity|apply Rlt_le, Rinv_0_lt_compat; lra]).
  rewrite HD. set (a := Rabs D) in *.
  assert (I : / dt <= 1.02 * / h).
  { apply Rmult_le_reg_l with dt; [exact P0|]. rewrite Rinv_r by lra. replace (dt * (1.02 * / h)) with (1.02 * (dt / h)) by (unfold Rdiv; ring).
    assert (0.99 <= dt / h). { apply Rmult_le_reg_r with h; [exact Hh|]. unfold Rdiv. rewrite Rmult_assoc, Rinv_l by lra. lra. } lra. }
  assert (I0 : 0 < / dt) by (apply Rinv_0_lt_compat; lra). assert (J0 : 0 < / h) by (apply Rinv_0_lt_compat; lra).
  assert (T1 : Rabs ((n - D) / dt) <= u * a * (1.02 * / h)).
  { unfold Rdiv. rewrite Rabs_mult, (Rabs_pos_eq (/ dt)) by lra. apply Rmult_le_compat; try apply Rabs_pos; try lra; exact Hn. }
  assert (T2 : Rabs (D * (h - dt) / (dt * h)) <= a * e * (1.02 * / h)).
  { replace (D * (h - dt) / (dt * h)) with (D * ((h - dt) / h) * / dt) by (field; lra).
    rewrite !Rabs_mult, (Rabs_pos_eq (/ dt)) by lra. fold a.
    apply Rmult_le_compat; try lra; [apply Rmult_le_pos; [exact A0|apply Rabs_pos]|]. apply Rmult_le_compat_l; [exact A0|].
    apply Rabs_le. assert (e = e * h / h) by (field; lra). assert ((h - dt) / h <= e * h / h) by (apply Rmult_le_compat_r; lra).
    assert (- (e * h) / h <= (h - dt) / h) by (apply Rmult_le_compat_r; lra). split; [|lra]. replace (- e) with (- (e * h) / h) by (field; lra). assumption. }
  unfold Rdiv. lra.
Qed.

Lemma diff_close (s : diff Dnum) (i : signal Dnum) : d_first s = false -> dok (sv (d_prev s)) -> dok (sv i) ->
  Rabs (dval (sv i)) <= bpow radix2 400 -> Rabs (dval (sv (d_prev s))) <= bpow radix2 400 ->
  let t0 := st (d_prev s) in let t1 := st i in let h := (IZR t1 - IZR t0) / 1000000000 in let T := IZR t1 / 1000000000 in
  (0 <= t0 < t1)%Z -> (t1 < 2 ^ 64)%Z -> T <= IZR (2 ^ 43) * h ->
  let q := (dval (sv i) - dval (sv (d_prev s))) / h in
  let o := sv (snd (d_run Dnum s i)) in
  dok o /\ Rabs (dval o - q) <= (6 * (T / h) + 3) * / IZR (2 ^ 53) * Rabs q + bpow radix2 (-1075).
Proof.
  intros F K0 K1 B1 B0 t0 t1 h T Ht Ht1 HT q o. unfold o, d_run. rewrite F. fold t0 t1.
  assert (L : 1 <= IZR t1 - IZR t0) by (rewrite <- minus_IZR; apply IZR_le; lia).
  assert (L1 : IZR t1 <= IZR (2 ^ 64)) by (apply IZR_le; lia). change (2 ^ 64)%Z with 18446744073709551616%Z in L1.
  assert (L0 : 0 <= IZR t0) by (apply IZR_le; lia).
  assert (Hh : / 1000000000 <= h) by (unfold h; lra). assert (hp : 0 < h) by lra.
  change (2 ^ 43)%Z with 8796093022208%Z in HT.
  pose proof uro_lit as U. pose proof uro_pos as UP.
  assert (LT : (0 <= t0 <= t1)%Z) by lia.
  destruct (secs_close t0 ltac:(lia)) as (Ks0 & _ & _). destruct (secs_close t1 ltac:(lia)) as (Ks1 & _ & _).
  destruct (dt_close t0 t1 LT Ht1) as [Kd Ed]. cbv zeta in Kd, Ed. change (step t0 t1) with h in Ed. change (IZR t1 / 1000000000) with T in Ed.
  set (dt := nsub Dnum (secs Dnum t1) (secs Dnum t0)) in *.
  assert (Tp : 0 <= T) by (unfold T; lra).
  assert (e0 : 0 <= 5.1 * uro * (T / h)). { apply Rmult_le_pos; [lra|]. apply Rmult_le_pos; [exact Tp|apply Rlt_le, Rinv_0_lt_compat; exact hp]. }
  assert (e1 : 5.1 * uro * (T / h) <= 0.005).
  { assert (T / h <= 8796093022208). { apply Rmult_le_reg_r with h; [exact hp|]. unfold Rdiv. rewrite Rmult_assoc, Rinv_l by lra. lra. } rewrite U. lra. }
  assert (Ed' : Rabs (dval dt - h) <= 5.1 * uro * (T / h) * h). { replace (5.1 * uro * (T / h) * h) with (5.1 * uro * T) by (field; lra). exact Ed. }
  assert (dtp : 0.99 * h <= dval dt).
  { apply Rabs_le_inv in Ed'. assert (5.1 * uro * (T / h) * h <= 0.005 * h) by (apply Rmult_le_compat_r; lra). lra. }
  assert (NE : neqb Dnum (secs Dnum t1) (secs Dnum t0) = false).
  { apply deqb_val; [assumption..|]. intros E. destruct (dsub_val (secs Dnum t1) (secs Dnum t0) Ks1 Ks0) as [_ E'].
    - rewrite E. replace (dval (secs Dnum t0) - dval (secs Dnum t0)) with 0 by ring. rewrite Rabs_R0. apply bpow_ge_0.
    - fold dt in E'. rewrite E in E'. replace (dval (secs Dnum t0) - dval (secs Dnum t0)) with 0 in E' by ring. rewrite (drnd_id 0) in E' by apply generic_format_0. lra. }
  rewrite NE. cbn [snd sv].
  set (x1 := sv i) in *. set (x0 := sv (d_prev s)) in *.
  assert (DB : Rabs (dval x1 - dval x0) <= 2 * bpow radix2 400) by (unfold Rminus; eapply Rle_trans; [apply Rabs_triang|]; rewrite Rabs_Ropp; lra).
  assert (BB : 2 * bpow radix2 400 = bpow radix2 401) by reflexivity.
  destruct (dsub_val x1 x0 K1 K0) as [Kn En]. { eapply Rle_trans; [exact DB|]. rewrite BB. apply bpow_le. lia. }
  pose proof (dsub_err x1 x0 K1 K0) as Rn. rewrite <- En in Rn. set (n := dval (nsub Dnum x1 x0)) in *.
  assert (Uu : 0 <= uro <= 0.01) by (rewrite U; lra).
  pose proof (quot_close n (dval dt) (dval x1 - dval x0) h uro (5.1 * uro * (T / h)) hp Uu ltac:(lra) Rn Ed') as Q. fold q in Q.
  assert (Qq : Rabs (n / dval dt) <= 1.02 * Rabs q).
  { replace (n / dval dt) with ((n / dval dt - q) + q) by ring. eapply Rle_trans; [apply Rabs_triang|].
    assert (1.02 * (uro + 5.1 * uro * (T / h)) * Rabs q <= 0.02 * Rabs q) by (apply Rmult_le_compat_r; [apply Rabs_pos|]; rewrite U in *; lra). lra. }
  assert (QB : Rabs q <= bpow radix2 500).
  { unfold q, Rdiv. rewrite Rabs_mult, (Rabs_pos_eq (/ h)) by (apply Rlt_le, Rinv_0_lt_compat; lra).
    apply Rle_trans with (bpow radix2 401 * 1000000000).
    - apply Rmult_le_compat; [apply Rabs_pos|apply Rlt_le, Rinv_0_lt_compat; lra|lra|]. rewrite <- (Rinv_inv 1000000000). apply Rinv_le; lra.
    - apply Rle_trans with (bpow radix2 401 * bpow radix2 99); [apply Rmult_le_compat_l; [apply bpow_ge_0|]; change (bpow radix2 99) with (IZR (2 ^ 99)); apply IZR_le; vm_compute; discriminate|].
      rewrite <- bpow_plus. apply bpow_le. lia. }
  destruct (ddiv_val (nsub Dnum x1 x0) dt Kn Kd) as [Ko Eo].
  - lra.
  - fold n. apply (below_big (bpow radix2 500)); [apply bpow_le; lia|]. pose proof (bpow_ge_0 radix2 500). lra.
  - split; [exact Ko|]. rewrite Eo. fold n. pose proof (drnd_err (n / dval dt)) as R. fold eta.
    replace (drnd (n / dval dt) - q) with ((drnd (n / dval dt) - n / dval dt) + (n / dval dt - q)) by ring.
    eapply Rle_trans; [apply Rabs_triang|].
    assert (R' : uro * Rabs (n / dval dt) <= uro * (1.02 * Rabs q)) by (apply Rmult_le_compat_l; lra).
    replace (/ IZR (2 ^ 53)) with uro by (rewrite U; reflexivity).
    assert (QP : 0 <= Rabs q) by apply Rabs_pos. set (x := T / h) in *.
    assert (x0p : 0 <= uro * x * Rabs q). { apply Rmult_le_pos; [|exact QP]. lra. }
    assert (u0p : 0 <= uro * Rabs q) by (apply Rmult_le_pos; lra).
    replace ((6 * x + 3) * uro * Rabs q) with (6 * (uro * x * Rabs q) + 3 * (uro * Rabs q)) by ring.
    replace (1.02 * (uro + 5.1 * uro * x) * Rabs q) with (1.02 * (uro * Rabs q) + 1.02 * 5.1 * (uro * x * Rabs q)) in Q by ring.
    lra.
Qed.
