(** The control loop of C232 in binary64. *)
From Coq Require Import ZArith Reals Lra Lia Floats.SpecFloat Bool List.
From Flocq Require Import Core IEEE754.BinarySingleNaN Relative.
From Verif Require Import Prelude Num NumDbl NumDbl3 CtrlModel CtrlModel2 CtrlSpec NetModel NetSpec NetProofs NetProofs2 DblSpec DblSpec2 DblProofs DblProofs2 DblProofs5 DblProofs7.
Import ListNotations.
Open Scope R_scope.

Lemma add_zero (r : Dnum) : dok r -> dok (nadd Dnum (dofZ 0) r) /\ dval (nadd Dnum (dofZ 0) r) = dval r.
Proof.
  intros K. destruct (dofZ_val 0 ltac:(lia)) as [K0 V0]. 
  destruct r as [s|s| |s m e]; try (destruct K as [_ K]; discriminate K || contradiction K).
  - destruct s; cbn; split; try reflexivity; (split; [reflexivity|exact I] || (split; reflexivity)).
  - cbn. split; [exact K|reflexivity].
Qed.

Lemma times_zero (y x : Dnum) : dok y -> let v := nadd Dnum y (nmul Dnum x (dofZ 0)) in v = S754_nan \/ (dok v /\ dval v = dval y).
Proof.
  intros K v. unfold v. change (dofZ 0) with (S754_zero false).
  destruct x as [sx|sx| |sx mx ex]; destruct y as [s|s| |s m e]; try (destruct K as [_ K]; discriminate K || contradiction K);
    cbn; auto; right; try (split; [exact K|reflexivity]); destruct s, sx; cbn; (split; [split; reflexivity|reflexivity]).
Qed.

Lemma dstep (r K y : Dnum) (t t' : Z) (M T q : R) : dok r -> dok K -> dok y -> 0 <= dval K -> Rabs (dval r) <= M -> Rabs (dval y) <= M ->
  (0 <= t <= t')%Z -> (t' < 2 ^ 64)%Z -> IZR t' / 1000000000 <= T -> T <= IZR (2 ^ 35) -> 
  bpow radix2 (-900) <= M <= bpow radix2 900 -> dval K * M <= bpow radix2 900 ->
  Rabs (1 - dval K * ((IZR t' - IZR t) / 1000000000)) <= q -> q <= 1 -> 6 * uro * (dval K * T) <= 1 ->
  let v := nadd Dnum y (nmul Dnum (nmul Dnum K (nsub Dnum (nadd Dnum (dofZ 0) r) y)) (nsub Dnum (secs Dnum t') (secs Dnum t))) in
  dok v /\ Rabs (dval v - dval r) <= (q + 6 * uro * (dval K * T) + 12 * uro) * Rabs (dval y - dval r) + 2 * uro * M.
Proof.
  intros Kr KK Ky K0 Br By Ht Ht' HT HT35 HM HKM Hq q1 HK6 v.
  pose proof uro_lit as U. pose proof uro_pos as UP.
  destruct (add_zero r Kr) as [K1 V1]. set (r' := nadd Dnum (dofZ 0) r) in *.
  assert (MP : 0 < M) by (pose proof (bpow_gt_0 radix2 (-900)); lra).
  assert (BB : 16 * bpow radix2 900 <= big).
  { replace 16 with (bpow radix2 4) by (cbn; lra). rewrite <- bpow_plus. unfold big. apply bpow_le. lia. }
  set (k := dval K) in *. set (R0 := dval r) in *. set (Y := dval y) in *. set (D := Rabs (Y - R0)).
  assert (D0 : 0 <= D) by apply Rabs_pos.
  assert (DE : Rabs (R0 - Y) = D) by (unfold D; apply Rabs_minus_sym).
  assert (DM : D <= 2 * M). { unfold D, Rminus. eapply Rle_trans; [apply Rabs_triang|]. rewrite Rabs_Ropp. lra. }
  (* difference *)
  destruct (dsub_val r' y K1 Ky) as [Kd Vd]; [rewrite V1; fold R0 Y; lra|].
  pose proof (dsub_err r' y K1 Ky) as Ed. rewrite <- Vd, V1 in Ed. fold R0 Y in Ed. rewrite DE in Ed.
  set (d := nsub Dnum r' y) in *.
  assert (UD : uro * D <= 0.001 * D) by (apply Rmult_le_compat_r; rewrite ?U; lra).
  assert (UD0 : 0 <= uro * D) by (apply Rmult_le_pos; lra).
  assert (Bd : Rabs (dval d) <= 1.001 * D). { replace (dval d) with ((dval d - (R0 - Y)) + (R0 - Y)) by ring. eapply Rle_trans; [apply Rabs_triang|]. lra. }
  (* gain *)
  assert (kD0 : 0 <= k * D) by (apply Rmult_le_pos; lra).
  assert (kD : k * D <= 2 * (k * M)). { replace (2 * (k * M)) with (k * (2 * M)) by ring. apply Rmult_le_compat_l; lra. }
  assert (Bkd : Rabs (k * dval d) <= 1.001 * (k * D)).
  { rewrite Rabs_mult, (Rabs_pos_eq k) by lra. replace (1.001 * (k * D)) with (k * (1.001 * D)) by lra. apply Rmult_le_compat_l; lra. }
  destruct (dmul_close K d KK Kd) as [Kp Ep]; [fold k; lra|]. fold k in Ep. set (p := nmul Dnum K d) in *.
  assert (E0 : 0 <= eta) by apply bpow_ge_0.
  set (X := k * (R0 - Y)) in *.
  assert (AX : Rabs X = k * D) by (unfold X; rewrite Rabs_mult, (Rabs_pos_eq k), DE by lra; reflexivity).
  assert (UkD0 : 0 <= uro * (k * D)) by (apply Rmult_le_pos; lra).
  assert (Epx : Rabs (dval p - X) <= 2.01 * (uro * (k * D)) + eta).
  { replace (dval p - X) with ((dval p - k * dval d) + k * (dval d - (R0 - Y))) by (unfold X; ring).
    eapply Rle_trans; [apply Rabs_triang|]. rewrite (Rabs_mult k), (Rabs_pos_eq k) by lra.
    assert (k * Rabs (dval d - (R0 - Y)) <= k * (uro * D)) by (apply Rmult_le_compat_l; lra).
    assert (uro * Rabs (k * dval d) <= uro * (1.001 * (k * D))) by (apply Rmult_le_compat_l; lra). lra. }
  (* time *)
  destruct (dt_close t t' Ht Ht') as [Kt Et]. cbv zeta in Kt, Et. set (dt := nsub Dnum (secs Dnum t') (secs Dnum t)) in *.
  unfold step in Et. set (h := (IZR t' - IZR t) / 1000000000) in *.
  assert (L0 : 0 <= IZR t) by (apply IZR_le; lia). assert (L1 : IZR t <= IZR t') by (apply IZR_le; lia).
  assert (H0 : 0 <= h <= T) by (unfold h; lra). assert (T0 : 0 <= T) by lra.
  assert (Et' : Rabs (dval dt - h) <= 5.1 * (uro * T)). { eapply Rle_trans; [exact Et|]. rewrite Rmult_assoc. apply Rmult_le_compat_l; [lra|]. apply Rmult_le_compat_l; lra. }
  assert (kh : k * h <= 2). { apply Rabs_le_inv in Hq. lra. }
  assert (kh0 : 0 <= k * h) by (apply Rmult_le_pos; lra).
  assert (UT : uro * T <= 0.001 * T) by (apply Rmult_le_compat_r; rewrite ?U; lra).
  assert (UT0 : 0 <= uro * T) by (apply Rmult_le_pos; lra).
  assert (Bdt : Rabs (dval dt) <= h + 5.1 * (uro * T)). { replace (dval dt) with ((dval dt - h) + h) by ring. eapply Rle_trans; [apply Rabs_triang|]. rewrite (Rabs_pos_eq h) by lra. lra. }
  set (w := uro * (k * T)) in *.
  assert (w0 : 0 <= w) by (unfold w; apply Rmult_le_pos; [lra|apply Rmult_le_pos; lra]).
  assert (w6 : 6 * w <= 1) by (unfold w; lra).
  assert (wD0 : 0 <= w * D) by (apply Rmult_le_pos; lra).
  assert (wD : w * D <= / 6 * D) by (apply Rmult_le_compat_r; lra).
  assert (ET : eta * (h + 5.1 * (uro * T)) <= 0.001 * (uro * M) /\ eta <= 0.001 * (uro * M)).
  { assert (A1 : bpow radix2 (-1040) <= 0.001 * (uro * M) * bpow radix2 (-1)).
    { apply Rle_trans with (bpow radix2 (-10) * (bpow radix2 (-53) * bpow radix2 (-900)) * bpow radix2 (-1)).
      - rewrite <- !bpow_plus. apply bpow_le. lia.
      - apply Rmult_le_compat_r; [apply bpow_ge_0|]. apply Rmult_le_compat; [apply bpow_ge_0|apply Rmult_le_pos; apply bpow_ge_0|cbn; lra|].
        apply Rmult_le_compat_l; [apply bpow_ge_0|lra]. }
    assert (A2 : bpow radix2 (-1) = / 2) by reflexivity. rewrite A2 in A1.
    assert (UM0 : 0 < uro * M) by (apply Rmult_lt_0_compat; lra).
    split.
    - apply Rle_trans with (eta * (2 * T)); [apply Rmult_le_compat_l; lra|].
      assert (A3 : eta * T <= bpow radix2 (-1040)).
      { replace (-1040)%Z with (-1075 + 35)%Z by reflexivity. rewrite bpow_plus. apply Rmult_le_compat; [exact E0|exact T0|apply Rle_refl|exact HT35]. }
      lra.
    - apply Rle_trans with (bpow radix2 (-1040)); [apply bpow_le; lia|lra]. }
  destruct ET as [ET1 ET2].
  assert (UM0 : 0 < uro * M) by (apply Rmult_lt_0_compat; lra).
  (* product *)
  assert (E1 : Rabs (dval p * dval dt - X * h) <= 4.02 * (uro * D) + 5.2 * (w * D) + 0.001 * (uro * M)).
  { replace (dval p * dval dt - X * h) with ((dval p - X) * dval dt + X * (dval dt - h)) by ring.
    eapply Rle_trans; [apply Rabs_triang|]. rewrite !Rabs_mult, AX.
    assert (P1 : Rabs (dval p - X) * Rabs (dval dt) <= (2.01 * (uro * (k * D)) + eta) * (h + 5.1 * (uro * T))) by (apply Rmult_le_compat; try apply Rabs_pos; assumption).
    assert (P2 : k * D * Rabs (dval dt - h) <= k * D * (5.1 * (uro * T))) by (apply Rmult_le_compat_l; lra).
    replace (k * D * (5.1 * (uro * T))) with (5.1 * (w * D)) in P2 by (unfold w; lra).
    replace ((2.01 * (uro * (k * D)) + eta) * (h + 5.1 * (uro * T))) with
      (2.01 * (uro * D) * (k * h) + 10.251 * uro * (w * D) + eta * (h + 5.1 * (uro * T))) in P1 by (unfold w; lra).
    assert (P3 : 2.01 * (uro * D) * (k * h) <= 2.01 * (uro * D) * 2) by (apply Rmult_le_compat_l; lra).
    assert (P4 : 10.251 * uro * (w * D) <= 0.1 * (w * D)) by (apply Rmult_le_compat_r; rewrite ?U; lra).
    lra. }
  assert (BX : Rabs (X * h) <= 2 * D).
  { rewrite Rabs_mult, AX, (Rabs_pos_eq h) by lra. replace (k * D * h) with (k * h * D) by ring. apply Rmult_le_compat_r; lra. }
  assert (UM : uro * M <= 0.001 * M) by (apply Rmult_le_compat_r; rewrite ?U; lra).
  assert (Bpd : Rabs (dval p * dval dt) <= 4 * D + 0.001 * (uro * M)).
  { replace (dval p * dval dt) with ((dval p * dval dt - X * h) + X * h) by ring. eapply Rle_trans; [apply Rabs_triang|]. lra. }
  destruct (dmul_close p dt Kp Kt) as [Km Em]; [lra|]. set (m := nmul Dnum p dt) in *.
  assert (Em' : Rabs (dval m - X * h) <= 8.1 * (uro * D) + 5.2 * (w * D) + 0.003 * (uro * M)).
  { replace (dval m - X * h) with ((dval m - dval p * dval dt) + (dval p * dval dt - X * h)) by ring. eapply Rle_trans; [apply Rabs_triang|].
    assert (uro * Rabs (dval p * dval dt) <= uro * (4 * D + 0.001 * (uro * M))) by (apply Rmult_le_compat_l; lra).
    assert (uro * (0.001 * (uro * M)) <= 0.001 * (uro * M)). { assert (uro * (0.001 * (uro * M)) <= 1 * (0.001 * (uro * M))) by (apply Rmult_le_compat_r; rewrite ?U in *; lra). lra. }
    lra. }
  (* sum *)
  assert (C : Rabs (Y + dval m - R0) <= q * D + (8.1 * (uro * D) + 5.2 * (w * D) + 0.003 * (uro * M))).
  { replace (Y + dval m - R0) with ((1 - k * h) * (Y - R0) + (dval m - X * h)) by (unfold X; ring).
    eapply Rle_trans; [apply Rabs_triang|]. apply Rplus_le_compat; [|exact Em']. rewrite Rabs_mult. fold D. apply Rmult_le_compat_r; lra. }
  assert (qD : q * D <= 1 * D) by (apply Rmult_le_compat_r; lra).
  assert (BS : Rabs (Y + dval m) <= M + 2 * D + 0.003 * (uro * M)).
  { replace (Y + dval m) with ((Y + dval m - R0) + R0) by ring. eapply Rle_trans; [apply Rabs_triang|]. lra. }
  destruct (dadd_val y m Ky Km) as [Kv Vv]; [fold Y; lra|].
  pose proof (dadd_err y m Ky Km) as Ev. rewrite <- Vv in Ev. fold Y in Ev. fold v in Kv, Ev.
  split; [exact Kv|].
  replace (dval v - R0) with ((dval v - (Y + dval m)) + (Y + dval m - R0)) by ring. eapply Rle_trans; [apply Rabs_triang|].
  assert (F1 : uro * Rabs (Y + dval m) <= uro * (M + 2 * D + 0.003 * (uro * M))) by (apply Rmult_le_compat_l; lra).
  assert (F2 : uro * (0.003 * (uro * M)) <= 0.003 * (uro * M)). { assert (uro * (0.003 * (uro * M)) <= 1 * (0.003 * (uro * M))) by (apply Rmult_le_compat_r; rewrite ?U in *; lra). lra. }
  replace ((q + 6 * uro * (k * T) + 12 * uro) * D) with (q * D + 6 * (w * D) + 12 * (uro * D)) by (unfold w; ring).
  assert (F3 : uro * (M + 2 * D + 0.003 * (uro * M)) = uro * M + 2 * (uro * D) + uro * (0.003 * (uro * M))) by ring.
  lra.
Qed.

Section Loop.
  Context (r K mn mx lo hi : Dnum) (Kr : dok r) (KK : dok K) (Kmn : dok mn) (Kmx : dok mx) (Klo : dok lo) (Khi : dok hi) (HK : dval mn <= dval K <= dval mx).
  Definition dint (f : bool) (y : Dnum) (t : Z) : integ Dnum := {| i_first := f; i_en := true; i_prev := mksig (y : nT Dnum) t; i_hi := hi; i_lo := lo |}.
  Definition dloop_inv (f1 f : bool) (y : Dnum) (t : Z) (w : world (kind Dnum) (signal Dnum)) : Prop :=
    w_st w 0%nat = KConst Dnum r /\ w_st w 1%nat = KSum Dnum {| s_neg := [false; true]; s_first := f1; s_init := [None; None] |} /\
    w_st w 2%nat = KGain Dnum (g_new Dnum K mx mn) /\ w_st w 3%nat = KInt Dnum (dint f y t).
  Definition dcycle (t : Z) (w : world (kind Dnum) (signal Dnum)) : world (kind Dnum) (signal Dnum) :=
    fst (td_run (block_run (kind_net Dnum t loop_src)) {| tdrunning := true; tdblocks := [0; 1; 2; 3]%nat; tdsafety := true |} w).

  Lemma not_ltb (a b : Dnum) : dok a -> dok b -> dval b <= dval a -> nltb Dnum a b = false.
  Proof. intros Ka Kb H. destruct (nltb Dnum a b) eqn:E; [|reflexivity]. apply dltb_val in E; auto. lra. Qed.
  Lemma dgain_K (x : Dnum) (t : Z) : g_run Dnum (g_new Dnum K mx mn) (mksig (x : nT Dnum) t) = (g_new Dnum K mx mn, mksig (nmul Dnum K x) t).
  Proof.
    assert (A : g_adapt Dnum (g_new Dnum K mx mn) = K).
    { unfold g_adapt, g_new. cbn [g_gain g_smooth g_max g_min]. rewrite (not_ltb mx K) by (try assumption; lra). now rewrite (not_ltb K mn) by (try assumption; lra). }
    unfold g_run. rewrite A. reflexivity.
  Qed.
  Lemma dsum_two f1 (a b : signal Dnum) : sum_run Dnum {| s_neg := [false; true]; s_first := f1; s_init := [None; None] |} [a; b] =
    ({| s_neg := [false; true]; s_first := false; s_init := [None; None] |}, mksig (nsub Dnum (nadd Dnum (dofZ 0) (sv a)) (sv b)) (st a)).
  Proof. destruct f1; reflexivity. Qed.

  Definition drive (o : signal Dnum) (t : Z) : signal Dnum := mksig (nmul Dnum K (nsub Dnum (nadd Dnum (dofZ 0) r) (sv o))) t.
  Lemma dcycle_step f1 f y t t' w : dloop_inv f1 f y t w ->
    let y' := sv (snd (i_run Dnum (dint f y t) None (drive (w_out w 3%nat 0%nat) t'))) in
    dloop_inv false false y' t' (dcycle t' w) /\ w_out (dcycle t' w) 3%nat 0%nat = mksig (y' : nT Dnum) t'.
  Proof.
    intros (H0 & H1 & H2 & H3). cbv zeta. set (o := drive (w_out w 3%nat 0%nat) t').
    assert (C : exists w1 w2 w3, dcycle t' w = {| w_st := upd (w_st w3) 3%nat (KInt Dnum (fst (i_run Dnum (dint f y t) None o)));
        w_out := upd (w_out w3) 3%nat (fun _ => snd (i_run Dnum (dint f y t) None o)) |} /\
      w3 = {| w_st := upd (w_st w2) 2%nat (KGain Dnum (g_new Dnum K mx mn)); w_out := upd (w_out w2) 2%nat (fun _ => o) |} /\
      w2 = {| w_st := upd (w_st w1) 1%nat (KSum Dnum {| s_neg := [false; true]; s_first := false; s_init := [None; None] |});
              w_out := upd (w_out w1) 1%nat (fun _ => mksig (nsub Dnum (nadd Dnum (dofZ 0) r) (sv (w_out w 3%nat 0%nat))) t') |} /\
      w1 = {| w_st := upd (w_st w) 0%nat (KConst Dnum r); w_out := upd (w_out w) 0%nat (fun _ => mksig (r : nT Dnum) t') |}).
    { eexists _, _, _. split; [|split; [reflexivity|split; reflexivity]].
      unfold dcycle, td_run. cbn [tdrunning tdblocks run_blocks].
      unfold block_run at 1. cbn [kind_net n_src loop_src read_inputs n_fun]. rewrite H0. cbn [kind_run].
      unfold block_run at 1. cbn [kind_net n_src loop_src read_inputs n_fun w_st w_out]. ups. rewrite H1. cbn [kind_run].
      rewrite dsum_two. ups. cbn [sv st].
      unfold block_run at 1. cbn [kind_net n_src loop_src read_inputs n_fun w_st w_out]. ups. rewrite H2. cbn [kind_run].
      ups. rewrite dgain_K. fold o.
      unfold block_run at 1. cbn [kind_net n_src loop_src read_inputs n_fun w_st w_out]. ups. rewrite H3. cbn [kind_run].
      ups. unfold o, drive. destruct (i_run Dnum (dint f y t) None _) as [s' o']. reflexivity. }
    destruct C as (w1 & w2 & w3 & -> & -> & -> & ->). cbn [w_st w_out]. split.
    - unfold dloop_inv. cbn [w_st w_out]. ups. repeat split.
    - rewrite upd_same. reflexivity.
  Qed.

  Context (M T q : R) (Br : Rabs (dval r) <= M) (K0 : 0 <= dval K) (HM : bpow radix2 (-900) <= M <= bpow radix2 900) (HKM : dval K * M <= bpow radix2 900)
    (HT35 : T <= IZR (2 ^ 35)) (q0 : 0 <= q) (HT0 : 0 <= T).
  Let q' := q + 6 * uro * (dval K * T) + 12 * uro.
  Let e := 2 * uro * M.
  Context (q1 : q' < 1) (Hlo : dval lo < - M) (Hhi : M < dval hi).

  Lemma dloop_run ts : forall (y : Dnum) t w D, dloop_inv false false y t w -> w_out w 3%nat 0%nat = mksig (y : nT Dnum) t ->
    dok y -> (0 <= t)%Z -> ascending t ts -> Forall (fun u => IZR u / 1000000000 <= T) ts ->
    Rabs (dval y - dval r) <= D + e / (1 - q') -> 0 <= D -> Rabs (dval r) + D + e / (1 - q') <= M -> shrinking (dval K) q t ts ->
    exists y' : Dnum, w_out (loop_cycles Dnum w ts) 3%nat 0%nat = mksig (y' : nT Dnum) (last ts t) /\ dok y' /\
      Rabs (dval y' - dval r) <= q' ^ length ts * D + e / (1 - q').
  Proof.
    pose proof uro_pos as UP. assert (kT : 0 <= dval K * T) by (apply Rmult_le_pos; lra).
    assert (MP : 0 < M) by (pose proof (bpow_gt_0 radix2 (-900)); lra).
    assert (w0 : 0 <= 6 * uro * (dval K * T)) by (apply Rmult_le_pos; lra).
    assert (q'0 : 0 <= q') by (unfold q'; lra).
    assert (e0 : 0 <= e) by (unfold e; apply Rmult_le_pos; lra).
    assert (g0 : 0 <= e / (1 - q')) by (apply Rmult_le_pos; [exact e0|left; apply Rinv_0_lt_compat; lra]).
    induction ts as [|t' ts IH]; intros y t w D I Ho Ky Ht Ha Hf HD D0 HDM Hs.
    - exists y. split; [exact Ho|]. split; [exact Ky|]. cbn. lra.
    - cbn [shrinking] in Hs. destruct Hs as [Hs1 Hs]. destruct (dcycle_step false false y t t' w I) as [I' O']. cbv zeta in I', O'. rewrite Ho in I', O'.
      inversion Hf as [|? ? Hf2 Hf']; subst. destruct Ha as (Ha1 & Ha2 & Ha).
      assert (By : Rabs (dval y) <= M). { replace (dval y) with ((dval y - dval r) + dval r) by ring. eapply Rle_trans; [apply Rabs_triang|]. lra. }
      destruct (dstep r K y t t' M T q) as [Kv Bv]; try assumption; try lia; try (unfold q' in *; lra). cbv zeta in Kv, Bv.
      fold q' in Bv. fold e in Bv.
      set (v := nadd Dnum y (nmul Dnum (nmul Dnum K (nsub Dnum (nadd Dnum (dofZ 0) r) y)) (nsub Dnum (secs Dnum t') (secs Dnum t)))) in *.
      assert (Bv' : Rabs (dval v - dval r) <= q' * D + e / (1 - q')).
      { eapply Rle_trans; [exact Bv|]. apply Rle_trans with (q' * (D + e / (1 - q')) + e); [apply Rplus_le_compat_r; apply Rmult_le_compat_l; lra|].
        apply Req_le. field. lra. }
      assert (qD : q' * D <= 1 * D) by (apply Rmult_le_compat_r; lra). assert (qD0 : 0 <= q' * D) by (apply Rmult_le_pos; lra).
      assert (Av : Rabs (dval v) <= M). { replace (dval v) with ((dval v - dval r) + dval r) by ring. eapply Rle_trans; [apply Rabs_triang|]. lra. }
      apply Rabs_le_inv in Av.
      assert (V1 : nltb Dnum v hi = true) by (apply dltb_val; [assumption..|lra]).
      assert (V2 : nltb Dnum lo v = true) by (apply dltb_val; [assumption..|lra]).
      assert (Er : sv (snd (i_run Dnum (dint false y t) None (drive (mksig (y : nT Dnum) t) t'))) = v).
      { unfold i_run, dint, drive. cbn [i_first i_en i_prev i_hi i_lo sv st snd]. fold v. rewrite V1, V2. reflexivity. }
      rewrite Er in I', O'.
      destruct (IH v t' (dcycle t' w) (q' * D) I' O' Kv ltac:(lia) Ha Hf' Bv' qD0 ltac:(lra) Hs) as (y' & E & Ky' & B).
      exists y'. cbn [loop_cycles]. fold (dcycle t' w). split; [|split; [exact Ky'|]].
      + rewrite E. f_equal. destruct ts as [|a ts]; [reflexivity|]. exact (last_default ts a t' t).
      + cbn [length pow]. replace (q' * q' ^ length ts * D) with (q' ^ length ts * (q' * D)) by ring. exact B.
  Qed.

  Lemma dloop_converges (y0 : Dnum) junk t0 ts : dok y0 -> (0 <= t0)%Z -> ascending t0 ts -> Forall (fun u => IZR u / 1000000000 <= T) ts ->
    Rabs (dval r) + Rabs (dval y0 - dval r) + e / (1 - q') <= M -> shrinking (dval K) q t0 ts ->
    exists y : Dnum, w_out (loop_cycles Dnum (dloop_start r K mn mx y0 lo hi junk) (t0 :: ts)) 3%nat 0%nat = mksig (y : nT Dnum) (last ts t0) /\ dok y /\
      Rabs (dval y - dval r) <= q' ^ length ts * Rabs (dval y0 - dval r) + e / (1 - q').
  Proof.
    intros Ky Ht Ha Hf HD Hs. cbn [loop_cycles]. fold (dcycle t0 (dloop_start r K mn mx y0 lo hi junk)).
    destruct (dcycle_step true true y0 0 t0 (dloop_start r K mn mx y0 lo hi junk)) as [I O]; [repeat split|]. cbv zeta in I, O.
    set (y1 := sv (snd (i_run Dnum (dint true y0 0) None (drive (w_out (dloop_start r K mn mx y0 lo hi junk) 3%nat 0%nat) t0)))) in *.
    assert (Y : dok y1 /\ dval y1 = dval y0).
    { unfold y1, i_run, dint, drive. cbn [i_first i_en i_prev i_hi i_lo sv st snd].
      destruct (times_zero y0 (nmul Dnum K (nsub Dnum (nadd Dnum (dofZ 0) r) (sv (w_out (dloop_start r K mn mx y0 lo hi junk) 3%nat 0%nat)))) Ky) as [E | [Kv Ev] ].
      - cbv zeta in E. change (nofZ Dnum 0) with (dofZ 0). rewrite E. cbn. split; [exact Ky|reflexivity].
      - cbv zeta in Kv, Ev. change (nofZ Dnum 0) with (dofZ 0). destruct (_ && _); [split; assumption|split; [exact Ky|reflexivity]]. }
    destruct Y as [K1 V1].
    assert (g0 : 0 <= e / (1 - q')).
    { pose proof uro_pos. assert (0 < M) by (pose proof (bpow_gt_0 radix2 (-900)); lra). apply Rmult_le_pos; [unfold e; apply Rmult_le_pos; lra|left; apply Rinv_0_lt_compat; lra]. }
    apply (dloop_run ts y1 t0 _ (Rabs (dval y0 - dval r)) I O K1 Ht Ha Hf); try assumption; try apply Rabs_pos. rewrite V1. lra.
  Qed.
End Loop.
