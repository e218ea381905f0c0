(** The control loop in binary64 stops before it reaches its reference. *)
From Coq Require Import ZArith Reals Lra Lia Floats.SpecFloat Bool List.
From Flocq Require Import Core IEEE754.BinarySingleNaN Relative.
From Verif Require Import Prelude Num NumDbl NumDbl3 CtrlModel CtrlModel2 CtrlSpec NetModel NetSpec NetProofs NetProofs2 DblSpec DblSpec2 DblProofs DblProofs2 DblProofs5 DblProofs7 DblNet.
Import ListNotations.
Open Scope R_scope.

(** 1 - 2^-53, the number before 1. *)
Definition pre1 : Dnum := S754_finite false 9007199254740991 (-53).
Definition tiny : Dnum := S754_finite false 4503599627370496 (-107).
Lemma pre1_val : dok pre1 /\ dval pre1 = 1 - uro.
Proof.
  split; [split; reflexivity|]. unfold dval, pre1, SF2R, F2R. cbn [Fnum Fexp cond_Zopp]. change (bpow radix2 (-53)) with uro. rewrite uro_lit. cbn. lra.
Qed.
Lemma tiny_val : dok tiny /\ dval tiny = uro / 4.
Proof.
  split; [split; reflexivity|]. unfold dval, tiny, SF2R, F2R. cbn [Fnum Fexp cond_Zopp].
  replace (-107)%Z with (-53 + -54)%Z by reflexivity. rewrite bpow_plus. change (bpow radix2 (-53)) with uro. cbn. lra.
Qed.
Lemma near_pre1 m : Rabs m <= uro / 4 -> drnd (1 - uro + m) = 1 - uro.
Proof.
  intros H. destruct pre1_val as [K1 V1]. destruct tiny_val as [K2 V2]. pose proof uro_lit as U.
  assert (B : forall x, Rabs x <= 2 -> Rabs x <= big) by (intros x Hx; apply big_ge; change (2 ^ 64)%Z with 18446744073709551616%Z; lra).
  destruct (dadd_val pre1 tiny K1 K2) as [_ A]. { apply B. rewrite V1, V2. apply Rabs_le. rewrite U. lra. }
  destruct (dsub_val pre1 tiny K1 K2) as [_ S]. { apply B. rewrite V1, V2. apply Rabs_le. rewrite U. lra. }
  assert (EA : nadd Dnum pre1 tiny = pre1) by (vm_compute; reflexivity). assert (ES : nsub Dnum pre1 tiny = pre1) by (vm_compute; reflexivity).
  rewrite EA in A. rewrite ES in S. rewrite V1, V2 in A, S. apply Rabs_le_inv in H.
  apply Rle_antisym; [rewrite A at 2|rewrite S at 1]; apply drnd_le; lra.
Qed.

Section Stuck.
  Let r := dofZ 1. Let K := dofZ 10. Let mn := dofZ (-100). Let mx := dofZ 100. Let lo := dofZ (-1000). Let hi := dofZ 1000.
  Lemma stuck_step (y : Dnum) t t' : dok y -> dval y = 1 - uro -> (0 <= t)%Z -> (t <= t' <= t + 10 ^ 7)%Z -> (t' <= 10 ^ 18)%Z ->
    let v := nadd Dnum y (nmul Dnum (nmul Dnum K (nsub Dnum (nadd Dnum (dofZ 0) r) y)) (nsub Dnum (secs Dnum t') (secs Dnum t))) in
    dok v /\ dval v = 1 - uro.
  Proof.
    intros Ky Vy H0 H1 H2 v. pose proof uro_lit as U. pose proof uro_pos as UP.
    assert (B : forall x, Rabs x <= 20 -> Rabs x <= big) by (intros x Hx; apply big_ge; change (2 ^ 64)%Z with 18446744073709551616%Z; lra).
    destruct (dofZ_val 1 ltac:(lia)) as [K1 V1]. destruct (dofZ_val 10 ltac:(lia)) as [K10 V10]. fold r in K1, V1. fold K in K10, V10.
    destruct (add_zero r K1) as [Kr Vr]. set (r' := nadd Dnum (dofZ 0) r) in *.
    destruct (dsub_val r' y Kr Ky) as [Kd Vd]. { apply B. rewrite Vr, Vy, V1. apply Rabs_le. rewrite U. lra. }
    assert (Ed : dval (nsub Dnum r' y) = uro).
    { rewrite Vd, Vr, Vy, V1. replace (1 - (1 - uro)) with uro by ring. apply drnd_id. unfold uro. apply format_bpow. lia. }
    set (d := nsub Dnum r' y) in *.
    destruct (dmul_close K d K10 Kd) as [Kp Ep]. { apply B. rewrite V10, Ed. apply Rabs_le. rewrite U. lra. }
    rewrite V10, Ed in Ep. set (p := nmul Dnum K d) in *.
    assert (E0 : eta <= 0.001 * uro). { pose proof eta_small. change (2 ^ 200)%Z with 1606938044258990275541962092341162602522202993782792835301376%Z in H. rewrite U. eapply Rle_trans; [exact H|]. lra. }
    rewrite (Rabs_pos_eq (10 * uro)) in Ep by lra.
    assert (Up : uro * (10 * uro) <= 0.001 * uro). { replace (uro * (10 * uro)) with (10 * uro * uro) by ring. apply Rmult_le_compat_r; rewrite ?U; lra. }
    assert (Bp : Rabs (dval p) <= 10.01 * uro). { replace (dval p) with ((dval p - 10 * uro) + 10 * uro) by ring. eapply Rle_trans; [apply Rabs_triang|]. rewrite (Rabs_pos_eq (10 * uro)) by lra. lra. }
    destruct (dt_close t t' ltac:(lia) ltac:(lia)) as [Kt Et]. cbv zeta in Kt, Et. set (dt := nsub Dnum (secs Dnum t') (secs Dnum t)) in *.
    assert (Bt : Rabs (dval dt) <= 0.011).
    { unfold step in Et. assert (L1 : IZR t <= IZR t') by (apply IZR_le; lia). assert (L2 : IZR t' <= IZR (t + 10000000)) by (apply IZR_le; lia). rewrite plus_IZR in L2.
      assert (L3 : IZR t' <= IZR (10 ^ 18)) by (apply IZR_le; lia). change (10 ^ 18)%Z with 1000000000000000000%Z in L3. assert (L0 : 0 <= IZR t) by (apply IZR_le; lia).
      rewrite U in Et. apply Rabs_le_inv in Et. apply Rabs_le. lra. }
    assert (Bm : Rabs (dval p * dval dt) <= 10.01 * uro * 0.011) by (rewrite Rabs_mult; apply Rmult_le_compat; try apply Rabs_pos; assumption).
    destruct (dmul_close p dt Kp Kt) as [Km Em]. { apply B. rewrite U in Bm. lra. }
    set (m := nmul Dnum p dt) in *.
    assert (Bm' : Rabs (dval m) <= uro / 4).
    { replace (dval m) with ((dval m - dval p * dval dt) + dval p * dval dt) by ring. eapply Rle_trans; [apply Rabs_triang|].
      assert (uro * Rabs (dval p * dval dt) <= uro * (10.01 * uro * 0.011)) by (apply Rmult_le_compat_l; lra).
      assert (uro * (10.01 * uro * 0.011) <= 0.001 * uro). { replace (uro * (10.01 * uro * 0.011)) with (0.11011 * uro * uro) by lra. apply Rmult_le_compat_r; rewrite ?U; lra. }
      lra. }
    destruct (dadd_val y m Ky Km) as [Kv Vv]. { apply B. rewrite Vy. apply Rabs_le_inv in Bm'. apply Rabs_le. rewrite U in *. lra. }
    split; [exact Kv|]. unfold v. rewrite Vv, Vy. now apply near_pre1.
  Qed.

  Lemma stuck junk t0 ts : (0 <= t0)%Z -> short t0 ts ->
    exists y : Dnum, w_out (loop_cycles Dnum (dloop_start r K mn mx pre1 lo hi junk) (t0 :: ts)) 3%nat 0%nat = mksig (y : nT Dnum) (last ts t0) /\ dval y = 1 - uro.
  Proof.
    intros H0 Hs. pose proof uro_lit as U. destruct pre1_val as [Kp Vp].
    assert (Z1 : forall z, (Z.abs z <= 1000)%Z -> dok (dofZ z) /\ dval (dofZ z) = IZR z) by (intros; apply dofZ_val; lia).
    destruct (Z1 1%Z ltac:(lia)) as [K1 V1]. destruct (Z1 10%Z ltac:(lia)) as [K10 V10]. destruct (Z1 (-100)%Z ltac:(lia)) as [Kmn Vmn]. destruct (Z1 100%Z ltac:(lia)) as [Kmx Vmx].
    destruct (Z1 (-1000)%Z ltac:(lia)) as [Klo Vlo]. destruct (Z1 1000%Z ltac:(lia)) as [Khi Vhi].
    assert (HK : dval mn <= dval K <= dval mx) by (unfold mn, mx, K; rewrite Vmn, V10, Vmx; lra).
    pose proof (dcycle_step r K mn mx lo hi K10 Kmn Kmx HK) as CS.
    assert (G : forall ts y t w, dloop_inv r K mn mx lo hi false false y t w -> w_out w 3%nat 0%nat = mksig (y : nT Dnum) t -> dok y -> dval y = 1 - uro -> (0 <= t)%Z -> short t ts ->
      exists y' : Dnum, w_out (loop_cycles Dnum w ts) 3%nat 0%nat = mksig (y' : nT Dnum) (last ts t) /\ dval y' = 1 - uro).
    { clear ts Hs. induction ts as [|t' ts IH]; intros y t w I Ho Ky Vy Ht Hs; [exists y; auto|].
      destruct Hs as (S1 & S2 & Hs). destruct (CS false false y t t' w I) as [I' O']. cbv zeta in I', O'. rewrite Ho in I', O'.
      destruct (stuck_step y t t' Ky Vy Ht S1 S2) as [Kv Vv]. cbv zeta in Kv, Vv.
      set (v := nadd Dnum y (nmul Dnum (nmul Dnum K (nsub Dnum (nadd Dnum (dofZ 0) r) y)) (nsub Dnum (secs Dnum t') (secs Dnum t)))) in *.
      assert (N1 : nltb Dnum v hi = true) by (apply dltb_val; [assumption..|unfold hi; rewrite Vv, Vhi, U; lra]).
      assert (N2 : nltb Dnum lo v = true) by (apply dltb_val; [assumption..|unfold lo; rewrite Vv, Vlo, U; lra]).
      assert (Er : sv (snd (i_run Dnum (dint lo hi false y t) None (drive r K (mksig (y : nT Dnum) t) t'))) = v).
      { unfold i_run, dint, drive. cbn [i_first i_en i_prev i_hi i_lo sv st snd]. fold v. rewrite N1, N2. reflexivity. }
      rewrite Er in I', O'. destruct (IH v t' (dcycle t' w) I' O' Kv Vv ltac:(lia) Hs) as (y' & E & V).
      exists y'. cbn [loop_cycles]. fold (dcycle t' w). split; [|exact V]. rewrite E. f_equal. destruct ts as [|a ts]; [reflexivity|]. exact (last_default ts a t' t). }
    cbn [loop_cycles]. fold (dcycle t0 (dloop_start r K mn mx pre1 lo hi junk)).
    destruct (CS true true pre1 0%Z t0 (dloop_start r K mn mx pre1 lo hi junk)) as [I O]; [repeat split|]. cbv zeta in I, O.
    set (y1 := sv (snd (i_run Dnum (dint lo hi true pre1 0) None (drive r K (w_out (dloop_start r K mn mx pre1 lo hi junk) 3%nat 0%nat) t0)))) in *.
    assert (Y : dok y1 /\ dval y1 = 1 - uro).
    { unfold y1, i_run, dint, drive. cbn [i_first i_en i_prev i_hi i_lo sv st snd].
      destruct (times_zero pre1 (nmul Dnum K (nsub Dnum (nadd Dnum (dofZ 0) r) (sv (w_out (dloop_start r K mn mx pre1 lo hi junk) 3%nat 0%nat)))) Kp) as [E | [Kv Ev] ].
      - cbv zeta in E. change (nofZ Dnum 0) with (dofZ 0). rewrite E. cbn [nltb Dnum]. split; [exact Kp|exact Vp].
      - cbv zeta in Kv, Ev. change (nofZ Dnum 0) with (dofZ 0). destruct (_ && _); [split; [exact Kv|congruence]|split; [exact Kp|exact Vp]]. }
    destruct Y as [Ky Vy]. exact (G ts y1 t0 _ I O Ky Vy H0 Hs).
  Qed.
End Stuck.

Lemma settles_not : exists r K mn mx y0 lo hi : Dnum, dval r = 1 /\ dval K = 10 /\ dval y0 = 1 - bpow radix2 (-53) /\
  forall junk t0 ts, (0 <= t0)%Z -> short t0 ts ->
    exists y : Dnum, w_out (loop_cycles Dnum (dloop_start r K mn mx y0 lo hi junk) (t0 :: ts)) 3%nat 0%nat = mksig (y : nT Dnum) (last ts t0) /\ dval y = dval y0.
Proof.
  destruct pre1_val as [_ Vp].
  refine (ex_intro _ (dofZ 1) (ex_intro _ (dofZ 10) (ex_intro _ (dofZ (-100)) (ex_intro _ (dofZ 100) (ex_intro _ pre1 (ex_intro _ (dofZ (-1000)) (ex_intro _ (dofZ 1000) _))))))).
  split; [apply (dofZ_val 1); lia|]. split; [apply (dofZ_val 10); lia|]. split; [exact Vp|].
  intros junk t0 ts H0 Hs. rewrite Vp. exact (stuck junk t0 ts H0 Hs).
Qed.
