(** The integrator in binary64 follows the exact integral. *)
From Coq Require Import ZArith Reals Lra Lia Floats.SpecFloat Bool List.
From Flocq Require Import Core IEEE754.BinarySingleNaN Relative.
From Verif Require Import Prelude Num NumDbl NumDbl3 CtrlModel DblSpec DblProofs DblProofs2 DblProofs5.
Import ListNotations.
Open Scope R_scope.

Section Int.
  Variables (B T M : R) (tmax : Z).
  Hypotheses (HB : 0 <= B) (HT : T = IZR tmax / 1000000000) (Hmax : (tmax < 2 ^ 64)%Z).
  Hypotheses (HM0 : bpow radix2 (-900) <= M) (HM1 : M <= bpow radix2 900).

  Lemma int_step (s : integ Dnum) (i : signal Dnum) (z e : R) : i_first s = false -> i_en s = true ->
    dok (sv (i_prev s)) -> dok (i_hi s) -> dok (i_lo s) -> M <= dval (i_hi s) -> dval (i_lo s) <= - M ->
    dok (sv i) -> Rabs (dval (sv i)) <= B -> (0 <= st (i_prev s) <= st i)%Z -> (st i <= tmax)%Z ->
    2 * (B * T) <= M -> 0 <= e -> e + 5 * uro * M <= / 4 * M ->
    Rabs (dval (sv (i_prev s)) - z) <= e ->
    let z' := z + dval (sv i) * ((IZR (st i) - IZR (st (i_prev s))) / 1000000000) in Rabs z' <= M / 2 -> Rabs z <= M / 2 ->
    close (e + 5 * uro * M) (snd (i_run Dnum s None i)) z'.
  Proof.
    intros F En Kp Kh Kl Lh Ll Ki Bi T0 T1 HBT He HeM Ep z' Hz' Hz. unfold close, i_run. rewrite F, En. cbv zeta. cbn [snd sv].
    pose proof uro_lit as U. pose proof uro_pos as UP. pose proof (bpow_gt_0 radix2 (-900)) as P9. assert (MP : 0 < M) by lra.
    destruct (dt_close (st (i_prev s)) (st i) T0 ltac:(lia)) as [Kd Ed]. cbv zeta in Kd, Ed.
    set (dt := nsub Dnum (secs Dnum (st i)) (secs Dnum (st (i_prev s)))) in *.
    set (h := step (st (i_prev s)) (st i)) in *.
    assert (LT : IZR (st i) / 1000000000 <= T) by (rewrite HT; assert (IZR (st i) <= IZR tmax) by (apply IZR_le; lia); lra).
    assert (L0 : 0 <= IZR (st (i_prev s))) by (apply IZR_le; lia). assert (L1 : IZR (st (i_prev s)) <= IZR (st i)) by (apply IZR_le; lia).
    assert (TP : 0 <= T) by lra.
    assert (Hh : 0 <= h <= T) by (unfold h, step; lra).
    set (x := dval (sv i)) in *. set (p := dval (sv (i_prev s))) in *.
    assert (Ed' : Rabs (dval dt - h) <= 5.1 * uro * T) by (eapply Rle_trans; [exact Ed|]; apply Rmult_le_compat_l; lra).
    assert (DT : Rabs (dval dt) <= 1.01 * T). { apply Rabs_le. apply Rabs_le_inv in Ed'. rewrite U in *. lra. }
    assert (BT0 : 0 <= B * T) by (apply Rmult_le_pos; lra).
    assert (XD : Rabs (x * dval dt) <= 0.505 * M).
    { rewrite Rabs_mult. apply Rle_trans with (B * (1.01 * T)); [apply Rmult_le_compat; try apply Rabs_pos; assumption|]. lra. }
    assert (MB : 4 * M <= bpow radix2 1000).
    { apply Rle_trans with (bpow radix2 2 * bpow radix2 900); [change (bpow radix2 2) with 4; lra|]. rewrite <- bpow_plus. apply bpow_le. lia. }
    destruct (dmul_val (sv i) dt Ki Kd) as [Km Em]. { fold x. change big with (bpow radix2 1000). lra. }
    fold x in Em. pose proof (drnd_err (x * dval dt)) as Rm. rewrite <- Em in Rm. set (m := dval (nmul Dnum (sv i) dt)) in *.
    assert (EM : eta <= 0.01 * uro * M).
    { change eta with (bpow radix2 (-1075)). apply Rle_trans with (bpow radix2 (-960) * bpow radix2 (-53)); [rewrite <- bpow_plus; apply bpow_le; lia|].
      change (bpow radix2 (-53)) with uro. replace (0.01 * uro * M) with (0.01 * M * uro) by ring. apply Rmult_le_compat_r; [lra|].
      apply Rle_trans with (0.01 * bpow radix2 (-900)); [|lra]. replace (-960)%Z with (-60 + -900)%Z by reflexivity. rewrite bpow_plus. apply Rmult_le_compat_r; [lra|].
      change (bpow radix2 (-60)) with (/ IZR (2 ^ 60)). change (2 ^ 60)%Z with 1152921504606846976%Z. lra. }
    assert (UM : 0 <= uro * M) by (apply Rmult_le_pos; lra).
    assert (Rm' : Rabs (m - x * dval dt) <= 0.52 * (uro * M)).
    { assert (uro * Rabs (x * dval dt) <= uro * (0.505 * M)) by (apply Rmult_le_compat_l; lra). lra. }
    assert (Rx : Rabs (x * dval dt - x * h) <= 2.55 * (uro * M)).
    { replace (x * dval dt - x * h) with (x * (dval dt - h)) by ring. rewrite Rabs_mult.
      apply Rle_trans with (B * (5.1 * uro * T)); [apply Rmult_le_compat; try apply Rabs_pos; assumption|].
      replace (B * (5.1 * uro * T)) with (2.55 * (uro * (2 * (B * T)))) by lra. apply Rmult_le_compat_l; [lra|]. apply Rmult_le_compat_l; lra. }
    change z' with (z + x * h) in *.
    assert (S1 : Rabs (p + m - (z + x * h)) <= e + 3.07 * (uro * M)).
    { replace (p + m - (z + x * h)) with ((p - z) + ((m - x * dval dt) + (x * dval dt - x * h))) by ring.
      eapply Rle_trans; [apply Rabs_triang|]. apply Rplus_le_compat; [exact Ep|]. eapply Rle_trans; [apply Rabs_triang|]. lra. }
    assert (S2 : Rabs (p + m) <= 0.8 * M).
    { apply Rabs_le. apply Rabs_le_inv in S1, Hz'. lra. }
    destruct (dadd_val (sv (i_prev s)) (nmul Dnum (sv i) dt) Kp Km) as [Ka Ea]. { fold p m. change big with (bpow radix2 1000). lra. }
    pose proof (dadd_err (sv (i_prev s)) (nmul Dnum (sv i) dt) Kp Km) as Ra. rewrite <- Ea in Ra. fold p m in Ra.
    set (v := nadd Dnum (sv (i_prev s)) (nmul Dnum (sv i) dt)) in *.
    assert (Ra' : uro * Rabs (p + m) <= uro * (0.8 * M)) by (apply Rmult_le_compat_l; lra).
    assert (S3 : Rabs (dval v - (z + x * h)) <= e + 5 * uro * M).
    { replace (dval v - (z + x * h)) with ((dval v - (p + m)) + (p + m - (z + x * h))) by ring. eapply Rle_trans; [apply Rabs_triang|]. lra. }
    assert (V : - M < dval v < M). { apply Rabs_le_inv in S3, Hz'. lra. }
    assert (V1 : nltb Dnum v (i_hi s) = true) by (apply dltb_val; [assumption..|lra]).
    assert (V2 : nltb Dnum (i_lo s) v = true) by (apply dltb_val; [assumption..|lra]).
    rewrite V1, V2. cbn [andb]. split; [exact Ka|exact S3].
  Qed.

  Lemma int_runs l : forall (s : integ Dnum) (z e W : R), i_first s = false -> i_en s = true ->
    dok (sv (i_prev s)) -> dok (i_hi s) -> dok (i_lo s) -> M <= dval (i_hi s) -> dval (i_lo s) <= - M ->
    (forall i, In i l -> dok (sv i) /\ Rabs (dval (sv i)) <= B /\ (st i <= tmax)%Z) -> ascending (st (i_prev s)) (map st l) ->
    0 <= IZR (st (i_prev s)) / 1000000000 -> Rabs z <= W + B * (IZR (st (i_prev s)) / 1000000000) -> 0 <= W -> 2 * (W + B * T) <= M ->
    0 <= e -> e + INR (length l) * (5 * uro * M) <= / 4 * M -> Rabs (dval (sv (i_prev s)) - z) <= e ->
    Forall2 (close (e + INR (length l) * (5 * uro * M))) (outs s l) (integral z (st (i_prev s)) l).
  Proof.
    pose proof uro_pos as UP. pose proof (bpow_gt_0 radix2 (-900)) as P9. assert (MP : 0 < M) by lra.
    assert (UM : 0 <= 5 * uro * M) by (apply Rmult_le_pos; lra).
    induction l as [|i l IH]; intros s z e W F En Kp Kh Kl Lh Ll Hl Ha Hn HW W0 HM He HeM Ep; [constructor|].
    destruct (Hl i (or_introl eq_refl)) as (Ki & Bi & Ti). cbn [map ascending] in Ha. destruct Ha as (A1 & A2 & A3).
    change (length (i :: l)) with (S (length l)) in *. rewrite S_INR in *. assert (N0 : 0 <= INR (length l)) by apply pos_INR.
    assert (NU : 0 <= INR (length l) * (5 * uro * M)) by (apply Rmult_le_pos; lra).
    assert (LT : IZR (st i) / 1000000000 <= T) by (rewrite HT; assert (IZR (st i) <= IZR tmax) by (apply IZR_le; lia); lra).
    assert (L1 : IZR (st (i_prev s)) <= IZR (st i)) by (apply IZR_le; lia).
    assert (BT : B * (IZR (st i) / 1000000000) <= B * T) by (apply Rmult_le_compat_l; assumption).
    assert (BT1 : B * (IZR (st (i_prev s)) / 1000000000) <= B * (IZR (st i) / 1000000000)) by (apply Rmult_le_compat_l; lra).
    set (z' := z + dval (sv i) * ((IZR (st i) - IZR (st (i_prev s))) / 1000000000)).
    assert (Hz' : Rabs z' <= W + B * (IZR (st i) / 1000000000)).
    { unfold z'. eapply Rle_trans; [apply Rabs_triang|]. rewrite Rabs_mult, (Rabs_pos_eq ((IZR (st i) - IZR (st (i_prev s))) / 1000000000)) by lra.
      assert (Rabs (dval (sv i)) * ((IZR (st i) - IZR (st (i_prev s))) / 1000000000) <= B * ((IZR (st i) - IZR (st (i_prev s))) / 1000000000)) by (apply Rmult_le_compat_r; lra).
      apply Rle_trans with ((W + B * (IZR (st (i_prev s)) / 1000000000)) + B * ((IZR (st i) - IZR (st (i_prev s))) / 1000000000)); [apply Rplus_le_compat; assumption|].
      apply Req_le. field. }
    pose proof (int_step s i z e F En Kp Kh Kl Lh Ll Ki Bi A1 Ti ltac:(lra) He ltac:(lra) Ep) as C. cbv zeta in C. fold z' in C.
    assert (Z1 : Rabs z' <= M / 2) by lra. assert (Z2 : Rabs z <= M / 2) by lra. specialize (C Z1 Z2).
    cbn [outs integral]. cbv zeta. fold z'. destruct (i_run Dnum s None i) as [s' o] eqn:R. cbn [snd] in C.
    assert (S : i_first s' = false /\ i_prev s' = o /\ i_en s' = true /\ i_hi s' = i_hi s /\ i_lo s' = i_lo s /\ st o = st i).
    { unfold i_run in R. rewrite F in R. injection R as <- <-. repeat split; assumption. }
    destruct S as (S1 & S2 & S3 & S4 & S5 & S6).
    constructor; [destruct C as [C1 C2]; split; [exact C1|lra]|].
    replace (e + (INR (length l) + 1) * (5 * uro * M)) with ((e + 5 * uro * M) + INR (length l) * (5 * uro * M)) by ring.
    assert (S7 : st (i_prev s') = st i) by (rewrite S2; exact S6).
    cut (Forall2 (close (e + 5 * uro * M + INR (length l) * (5 * uro * M))) (outs s' l) (integral z' (st (i_prev s')) l)); [rewrite S7; exact (fun H => H)|].
    apply (IH s' z' (e + 5 * uro * M) W); try assumption; rewrite ?S2, ?S4, ?S5, ?S6; try assumption; try lra.
    - apply C.
    - intros j Hj. apply Hl. now right.
    - apply C.
  Qed.
End Int.

Lemma int_close (s : integ Dnum) l B M tmax : i_first s = false -> i_en s = true ->
  dok (sv (i_prev s)) -> dok (i_hi s) -> dok (i_lo s) -> M <= dval (i_hi s) -> dval (i_lo s) <= - M ->
  (forall i, In i l -> dok (sv i) /\ Rabs (dval (sv i)) <= B /\ (st i <= tmax)%Z) -> ascending (st (i_prev s)) (map st l) ->
  (0 <= st (i_prev s))%Z -> (tmax < 2 ^ 64)%Z -> 0 <= B ->
  2 * (Rabs (dval (sv (i_prev s))) + B * (IZR tmax / 1000000000)) <= M -> / IZR (2 ^ 900) <= M <= IZR (2 ^ 900) ->
  (Z.of_nat (length l) <= 2 ^ 48)%Z ->
  Forall2 (close (INR (length l) * (M / IZR (2 ^ 50)))) (outs s l) (integral (dval (sv (i_prev s))) (st (i_prev s)) l).
Proof.
  intros F En Kp Kh Kl Lh Ll Hl Ha H0 Hmax HB HM [M0 M1] Hn.
  assert (MP : 0 < M). { eapply Rlt_le_trans; [|exact M0]. apply Rinv_0_lt_compat, IZR_lt. reflexivity. }
  pose proof uro_lit as U. pose proof uro_pos as UP. set (W := Rabs (dval (sv (i_prev s)))) in *.
  assert (N1 : INR (length l) <= IZR (2 ^ 48)) by (rewrite INR_IZR_INZ; apply IZR_le; exact Hn). change (2 ^ 48)%Z with 281474976710656%Z in N1.
  assert (N0 : 0 <= INR (length l)) by apply pos_INR.
  assert (Q : INR (length l) * (5 * uro * M) <= / 4 * M).
  { replace (INR (length l) * (5 * uro * M)) with ((INR (length l) * (5 * uro)) * M) by ring. apply Rmult_le_compat_r; [lra|]. rewrite U. lra. }
  assert (L0 : 0 <= IZR (st (i_prev s))) by (apply IZR_le; lia).
  assert (W0 : 0 <= W) by apply Rabs_pos.
  assert (BP : 0 <= B * (IZR (st (i_prev s)) / 1000000000)) by (apply Rmult_le_pos; lra).
  assert (E0 : Rabs (dval (sv (i_prev s)) - dval (sv (i_prev s))) <= 0) by (replace (dval (sv (i_prev s)) - dval (sv (i_prev s))) with 0 by ring; rewrite Rabs_R0; lra).
  pose proof (int_runs B (IZR tmax / 1000000000) M tmax HB eq_refl Hmax M0 M1 l s (dval (sv (i_prev s))) 0 W F En Kp Kh Kl Lh Ll Hl Ha
    ltac:(lra) ltac:(fold W; lra) W0 HM ltac:(lra) ltac:(lra) E0) as H.
  assert (LE : 0 + INR (length l) * (5 * uro * M) <= INR (length l) * (M / IZR (2 ^ 50))).
  { rewrite Rplus_0_l. apply Rmult_le_compat_l; [exact N0|]. change (2 ^ 50)%Z with 1125899906842624%Z. rewrite U. unfold Rdiv. lra. }
  revert H LE. generalize (0 + INR (length l) * (5 * uro * M)) (INR (length l) * (M / IZR (2 ^ 50))). clear. intros a b H LE.
  induction H as [|x y l1 l2 [C1 C2] H IH]; constructor; [split; [exact C1|lra]|exact IH].
Qed.
