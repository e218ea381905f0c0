(** Proofs about the low pass filter and the moving average in binary64. *)
From Coq Require Import ZArith Reals Lra Lia Floats.SpecFloat Bool List.
From Flocq Require Import Core IEEE754.BinarySingleNaN.
From Verif Require Import Prelude Num NumDbl NumDbl3 CtrlModel CtrlModel2 DblSpec DblProofs.
Import ListNotations.
Open Scope R_scope.

Lemma dsub_err x y : dok x -> dok y -> Rabs (drnd (dval x - dval y) - (dval x - dval y)) <= uro * Rabs (dval x - dval y).
Proof.
  intros Hx Hy.
  assert (E : exists z, dok z /\ dval z = - dval y).
  { destruct Hy as [V F]. exists (SFopp y). rewrite <- (toB_SF y V) in *. set (b := toB y V) in *. clearbody b.
    replace (SFopp (B2SF b)) with (B2SF (Bopp b)) by (destruct b; reflexivity).
    split; [split; [apply B_valid|destruct b; exact F]|]. rewrite !dval_B. apply B2R_Bopp. }
  destruct E as (z & Kz & Ez). replace (dval x - dval y) with (dval x + dval z) by (rewrite Ez; ring). now apply dadd_err.
Qed.

Lemma uro_pos : 0 < uro. Proof. apply bpow_gt_0. Qed.
Lemma eta_pos : 0 < eta. Proof. apply bpow_gt_0. Qed.
Lemma eta_le B : bpow radix2 (-900) <= B -> eta <= / 100 * (uro * B).
Proof.
  intros H. apply Rle_trans with (bpow radix2 (-7) * (uro * bpow radix2 (-900))).
  - unfold uro, eta. rewrite <- !bpow_plus. apply bpow_le. lia.
  - apply Rmult_le_compat; [apply bpow_ge_0|apply Rmult_le_pos; apply bpow_ge_0|change (bpow radix2 (-7)) with (/ 128); lra|].
    apply Rmult_le_compat_l; [apply bpow_ge_0|exact H].
Qed.
Lemma below_big B x : B <= bpow radix2 900 -> x <= 8 * B -> x <= big.
Proof.
  intros H1 H2. apply Rle_trans with (bpow radix2 3 * bpow radix2 900); [change (bpow radix2 3) with 8; lra|].
  rewrite <- bpow_plus. apply bpow_le. lia.
Qed.

Lemma one_ok : dok (nofZ Dnum 1) /\ dval (nofZ Dnum 1) = 1. Proof. exact (dofZ_val 1 ltac:(lia)). Qed.

Section LowPass.
  Context (B : R) (HB : bpow radix2 (-900) <= B <= bpow radix2 900).
  Context (alpha : Dnum) (Ka : dok alpha) (Ha : / IZR (2 ^ 20) <= dval alpha <= 1).
  Let a := dval alpha.
  Let D := B * / IZR (2 ^ 30).
  Lemma B_pos : 0 < B. Proof. pose proof (bpow_gt_0 radix2 (-900)). lra. Qed.

  Lemma lp_coef : dok (nsub Dnum (nofZ Dnum 1) alpha) /\ Rabs (dval (nsub Dnum (nofZ Dnum 1) alpha) - (1 - a)) <= uro * (1 - a).
  Proof.
    destruct one_ok as [K1 E1].
    assert (P : 0 < / IZR (2 ^ 20)) by (apply Rinv_0_lt_compat, IZR_lt; reflexivity).
    destruct (dsub_val (nofZ Dnum 1) alpha K1 Ka) as [K E].
    - rewrite E1. apply big_ge. rewrite Rabs_pos_eq by lra. change (2 ^ 64)%Z with 18446744073709551616%Z. lra.
    - split; [exact K|]. rewrite E. pose proof (dsub_err (nofZ Dnum 1) alpha K1 Ka) as H. rewrite E1 in *.
      fold a in H |- *. rewrite (Rabs_pos_eq (1 - a)) in H by (unfold a; lra). exact H.
  Qed.

  Lemma lp_step_close (x p : Dnum) (q : R) : dok x -> dok p -> Rabs (dval x) <= B -> Rabs q <= B -> Rabs (dval p - q) <= D ->
    let o := nadd Dnum (nmul Dnum x alpha) (nmul Dnum p (nsub Dnum (nofZ Dnum 1) alpha)) in
    let r := dval x * a + q * (1 - a) in
    dok o /\ Rabs r <= B /\ Rabs (dval o - r) <= D.
  Proof.
    intros Kx Kp Hx Hq Hp. pose proof B_pos as B0. pose proof uro_pos as U0. pose proof eta_pos as N0.
    assert (P : 0 < / IZR (2 ^ 20)) by (apply Rinv_0_lt_compat, IZR_lt; reflexivity).
    pose proof (eta_le B (proj1 HB)) as N1. destruct lp_coef as [Kb Hb]. set (cb := nsub Dnum (nofZ Dnum 1) alpha) in *. set (b := dval cb) in *.
    assert (A0 : / 1048576 <= a <= 1) by exact Ha.
    assert (U1 : uro = / 9007199254740992) by exact uro_lit.
    assert (HD : D = B * / 1073741824) by reflexivity.
    assert (UB : 0 < uro * B) by (apply Rmult_lt_0_compat; lra).
    assert (UA : uro * (1 - a) <= uro). { rewrite <- (Rmult_1_r uro) at 2. apply Rmult_le_compat_l; lra. }
    assert (UA0 : 0 <= uro * (1 - a)) by (apply Rmult_le_pos; lra).
    assert (Bb : Rabs b <= 1 + uro).
    { replace b with ((b - (1 - a)) + (1 - a)) by ring. eapply Rle_trans; [apply Rabs_triang|]. rewrite (Rabs_pos_eq (1 - a)) by lra. lra. }
    assert (Pp : Rabs (dval p) <= B + D).
    { replace (dval p) with ((dval p - q) + q) by ring. eapply Rle_trans; [apply Rabs_triang|]. lra. }
    (* first product *)
    assert (X1 : Rabs (dval x * a) <= B). { rewrite Rabs_mult, (Rabs_pos_eq a) by lra. rewrite <- (Rmult_1_r B). apply Rmult_le_compat; try lra. apply Rabs_pos. }
    destruct (dmul_val x alpha Kx Ka) as [K1 E1]; [fold a; apply (below_big B); lra|]. fold a in E1.
    pose proof (drnd_err (dval x * a)) as R1. rewrite <- E1 in R1. set (m1 := dval (nmul Dnum x alpha)) in *.
    assert (R1' : Rabs (m1 - dval x * a) <= uro * B + eta).
    { eapply Rle_trans; [exact R1|]. apply Rplus_le_compat_r. apply Rmult_le_compat_l; lra. }
    (* second product *)
    assert (X2 : Rabs (dval p * b) <= 2 * B).
    { rewrite Rabs_mult. apply Rle_trans with ((B + D) * (1 + uro)); [apply Rmult_le_compat; try apply Rabs_pos; assumption|].
      rewrite HD, U1. lra. }
    destruct (dmul_val p cb Kp Kb) as [K2 E2]; [fold b; apply (below_big B); lra|]. fold b in E2.
    pose proof (drnd_err (dval p * b)) as R2. rewrite <- E2 in R2. set (m2 := dval (nmul Dnum p cb)) in *.
    assert (R2' : Rabs (m2 - dval p * b) <= uro * (2 * B) + eta).
    { eapply Rle_trans; [exact R2|]. apply Rplus_le_compat_r. apply Rmult_le_compat_l; lra. }
    assert (R3 : Rabs (dval p * b - q * (1 - a)) <= (B + D) * uro + D * (1 - a)).
    { replace (dval p * b - q * (1 - a)) with (dval p * (b - (1 - a)) + (dval p - q) * (1 - a)) by ring.
      eapply Rle_trans; [apply Rabs_triang|]. rewrite !Rabs_mult, (Rabs_pos_eq (1 - a)) by lra. apply Rplus_le_compat.
      - apply Rmult_le_compat; try apply Rabs_pos; lra.
      - apply Rmult_le_compat_r; lra. }
    assert (R0 : Rabs (dval x * a + q * (1 - a)) <= B).
    { eapply Rle_trans; [apply Rabs_triang|]. rewrite !Rabs_mult, (Rabs_pos_eq a), (Rabs_pos_eq (1 - a)) by lra.
      assert (Rabs (dval x) * a <= B * a) by (apply Rmult_le_compat_r; lra).
      assert (Rabs q * (1 - a) <= B * (1 - a)) by (apply Rmult_le_compat_r; lra). lra. }
    assert (DA : D * (1 - a) <= D - / 1048576 * D). { assert (0 < D) by (rewrite HD; lra). assert (/ 1048576 * D <= a * D) by (apply Rmult_le_compat_r; lra). lra. }
    set (r := dval x * a + q * (1 - a)) in *.
    assert (S1 : Rabs (m1 + m2 - r) <= uro * B + eta + (uro * (2 * B) + eta) + ((B + D) * uro + D * (1 - a))).
    { unfold r. replace (m1 + m2 - (dval x * a + q * (1 - a))) with ((m1 - dval x * a) + (m2 - dval p * b) + (dval p * b - q * (1 - a))) by ring.
      eapply Rle_trans; [apply Rabs_triang|]. apply Rplus_le_compat; [|exact R3]. eapply Rle_trans; [apply Rabs_triang|]. now apply Rplus_le_compat. }
    assert (HU : uro * B = / 9007199254740992 * B) by now rewrite U1.
    assert (S2 : Rabs (m1 + m2) <= 2 * B).
    { replace (m1 + m2) with ((m1 + m2 - r) + r) by ring. eapply Rle_trans; [apply Rabs_triang|].
      rewrite HD, U1 in *. lra. }
    destruct (dadd_val (nmul Dnum x alpha) (nmul Dnum p cb) K1 K2) as [K3 E3]; [fold m1 m2; apply (below_big B); lra|].
    fold m1 m2 in E3. cbv zeta. split; [exact K3|]. split; [exact R0|].
    pose proof (dadd_err (nmul Dnum x alpha) (nmul Dnum p cb) K1 K2) as R4. fold m1 m2 in R4. rewrite <- E3 in R4.
    set (o := dval (nadd Dnum (nmul Dnum x alpha) (nmul Dnum p cb))) in *.
    assert (R4' : Rabs (o - (m1 + m2)) <= uro * (2 * B)) by (eapply Rle_trans; [exact R4|]; apply Rmult_le_compat_l; lra).
    replace (o - r) with ((o - (m1 + m2)) + (m1 + m2 - r)) by ring. eapply Rle_trans; [apply Rabs_triang|].
    rewrite HD, U1 in *. lra.
  Qed.

  Lemma lp_follow l : forall (p : Dnum) (q : R), (forall i, In i l -> dok (sv i) /\ Rabs (dval (sv i)) <= B) ->
    dok p -> Rabs q <= B -> Rabs (dval p - q) <= D ->
    Forall2 (near D) (lp_runs Dnum {| lp_alpha := alpha; lp_first := false; lp_en := true; lp_prev := p |} l)
      (lp_runs Rnum {| lp_alpha := (a : nT Rnum); lp_first := false; lp_en := true; lp_prev := q |} (map real_sig l)).
  Proof.
    induction l as [|i l IH]; intros p q Hl Kp Hq Hp; [constructor|].
    destruct (Hl i (or_introl eq_refl)) as [Ki Hi].
    destruct (lp_step_close (sv i) p q Ki Kp Hi Hq Hp) as (K & Hr & E).
    cbn [lp_runs map]. unfold lp_run. cbn [lp_first lp_prev lp_en lp_alpha].
    constructor.
    - unfold near, real_sig. cbn [sv st]. split; [reflexivity|]. split; [exact K|exact E].
    - apply IH; [intros; apply Hl; now right|exact K|exact Hr|exact E].
  Qed.

  Lemma lp_close nan (r0 : R) l : (forall i, In i l -> dok (sv i) /\ Rabs (dval (sv i)) <= B) ->
    Forall2 (near D) (lp_runs Dnum (lp_new Dnum nan alpha) l) (lp_runs Rnum (lp_new Rnum r0 a) (map real_sig l)).
  Proof.
    intros Hl. destruct l as [|i l]; [constructor|].
    destruct (Hl i (or_introl eq_refl)) as [Ki Hi]. pose proof B_pos as B0.
    assert (D0 : 0 <= D). { unfold D. apply Rmult_le_pos; [lra|]. apply Rlt_le, Rinv_0_lt_compat, IZR_lt. reflexivity. }
    assert (Z0 : Rabs (dval (sv i) - dval (sv i)) <= D) by (replace (dval (sv i) - dval (sv i)) with 0 by ring; rewrite Rabs_R0; exact D0).
    destruct (lp_step_close (sv i) (sv i) (dval (sv i)) Ki Ki Hi Hi Z0) as (K & Hr & E).
    cbn [lp_runs map]. unfold lp_run, lp_new. cbn [lp_first lp_prev lp_en lp_alpha].
    constructor.
    - unfold near, real_sig. cbn [sv st]. split; [reflexivity|]. split; [exact K|exact E].
    - apply lp_follow; [intros; apply Hl; now right|exact K|exact Hr|exact E].
  Qed.
End LowPass.
