(** Examples for sums, statistics and the control loop in binary64. *)
From Coq Require Import Floats.SpecFloat Reals Lra Lia ZArith Bool List.
From Flocq Require Import Core.
From Verif Require Import Prelude Num NumDbl NumDbl3 CtrlModel CtrlModel2 MatModel TaskModel TaskSpec NetModel NetSpec DblSpec DblSpec2 DblProofs DblProofs2 DblProofs7 DblProofs8 DblNet DblNet2.
Import ListNotations.
Open Scope R_scope.

Lemma sum_run_close (s : CtrlModel.sum Dnum) (is : list (signal Dnum)) : s_first s = false -> Forall (fun i => dok (sv i)) is ->
  let ts := map (fun p => signed (fst p, dval (sv (snd p)))) (combine (s_neg s) is) in
  (1 + uro) ^ length ts * mass ts <= big ->
  let y := snd (sum_run Dnum s is) in
  dok (sv y) /\ Rabs (dval (sv y) - total ts) <= ((1 + uro) ^ length ts - 1) * mass ts.
Proof.
  intros F Hk. unfold sum_run, sum_vals. rewrite F. cbn [snd sv].
  assert (E : map (fun p => signed (fst p, dval (sv (snd p)))) (combine (s_neg s) is) = map (fun p => signed (fst p, dval (snd p))) (combine (s_neg s) (map sv is))).
  { generalize (s_neg s). clear. induction is as [|i is IH]; intros [|b l]; cbn [combine map]; try reflexivity. now rewrite IH. }
  rewrite E. apply sum_close. apply Forall_map. exact Hk.
Qed.

Lemma sum_ex : (1 + uro) ^ 2 * mass [3; -1] <= big /\ total [3; -1] = 2 /\ sum_acc Dnum [false; true] [dofZ 3; dofZ 1] = dofZ 2.
Proof.
  split; [|split; [cbn; lra|vm_compute; reflexivity] ].
  apply big_ge. change (2 ^ 64)%Z with 18446744073709551616%Z. cbn [mass pow]. rewrite (Rabs_left (-1)), (Rabs_pos_eq 3) by lra. rewrite uro_lit. lra.
Qed.
Lemma product_ex : exists r, m_mul Dnum 1 2 1 (fun n => dofZ (Z.of_nat n + 1)) (fun n => dofZ (Z.of_nat n + 3)) (fun _ => dofZ 0) = Ok r /\ r 0%nat = dofZ 11.
Proof.
  destruct (m_mul Dnum 1 2 1 (fun n => dofZ (Z.of_nat n + 1)) (fun n => dofZ (Z.of_nat n + 3)) (fun _ => dofZ 0)) as [r| |] eqn:E.
  - exists r. split; [reflexivity|].
    assert (E2 : match m_mul Dnum 1 2 1 (fun n => dofZ (Z.of_nat n + 1)) (fun n => dofZ (Z.of_nat n + 3)) (fun _ => dofZ 0) with Ok r => r 0%nat | _ => dofZ 0 end = dofZ 11) by (vm_compute; reflexivity).
    rewrite E in E2. exact E2.
  - exfalso. assert (E2 : match m_mul Dnum 1 2 1 (fun n => dofZ (Z.of_nat n + 1)) (fun n => dofZ (Z.of_nat n + 3)) (fun _ => dofZ 0) with Ok _ => true | _ => false end = true) by (vm_compute; reflexivity).
    rewrite E in E2. discriminate.
  - exfalso. assert (E2 : match m_mul Dnum 1 2 1 (fun n => dofZ (Z.of_nat n + 1)) (fun n => dofZ (Z.of_nat n + 3)) (fun _ => dofZ 0) with Ok _ => true | _ => false end = true) by (vm_compute; reflexivity).
    rewrite E in E2. discriminate.
Qed.
Lemma stats_ex : let s := stats_adds (stats_reset Dnum (dofZ 1000) (dofZ (-1000))) [dofZ 1; dofZ 2; dofZ 6] in
  Forall (fun v : Dnum => Rabs (dval v) <= 6) [dofZ 1; dofZ 2; dofZ 6] /\ smean s = dofZ 3 /\ smin s = dofZ 1 /\ smax s = dofZ 6.
Proof.
  cbv zeta. split; [|repeat split; vm_compute; reflexivity].
  assert (G : forall z, (0 <= z <= 6)%Z -> Rabs (dval (dofZ z)) <= 6). { intros z H. rewrite (proj2 (dofZ_val z ltac:(lia))), <- abs_IZR. apply IZR_le. lia. }
  apply Forall_forall. intros v [<- | [<- | [<- | [] ] ] ]; apply G; lia.
Qed.
Lemma dloop_ex : exists y : Dnum, w_out (loop_cycles Dnum (dloop_start (dofZ 2) (dofZ 10) (dofZ (-100)) (dofZ 100) (dofZ 0) (dofZ (-1000)) (dofZ 1000) (fun _ _ => mksig (dnan : nT Dnum) 0%Z))
    [0; 10000000; 20000000; 30000000; 40000000]%Z) 3%nat 0%nat = mksig (y : nT Dnum) 40000000%Z /\ Rabs (dval y - 2) <= 1.4.
Proof.
  assert (Z1 : forall z, (Z.abs z <= 1000)%Z -> dok (dofZ z) /\ dval (dofZ z) = IZR z) by (intros; apply dofZ_val; lia).
  destruct (Z1 2%Z ltac:(lia)) as [K2 V2]. destruct (Z1 10%Z ltac:(lia)) as [K10 V10]. destruct (Z1 (-100)%Z ltac:(lia)) as [Kmn Vmn]. destruct (Z1 100%Z ltac:(lia)) as [Kmx Vmx].
  destruct (Z1 (-1000)%Z ltac:(lia)) as [Klo Vlo]. destruct (Z1 1000%Z ltac:(lia)) as [Khi Vhi]. destruct (Z1 0%Z ltac:(lia)) as [K0 V0].
  assert (P : 100 <= bpow radix2 900). { apply Rle_trans with (bpow radix2 7); [cbn; lra|apply bpow_le; lia]. }
  assert (P1 : bpow radix2 (-900) <= 5). { apply Rle_trans with (bpow radix2 0); [apply bpow_le; lia|cbn; lra]. }
  assert (P3 : 1 <= IZR (2 ^ 35)) by (apply IZR_le; lia).
  destruct (dloop_converges (dofZ 2) (dofZ 10) (dofZ (-100)) (dofZ 100) (dofZ (-1000)) (dofZ 1000)) with (M := 5) (T := 1) (q := 0.9) (y0 := dofZ 0)
    (junk := fun _ _ : nat => mksig (dnan : nT Dnum) 0%Z) (t0 := 0%Z) (ts := [10000000; 20000000; 30000000; 40000000]%Z) as (y & E & _ & B); try assumption; rewrite ?V2, ?V10, ?Vmn, ?Vmx, ?Vlo, ?Vhi, ?V0, ?uro_lit in *; try lia; try lra.
  - rewrite Rabs_pos_eq; lra.
  - cbn. lia.
  - repeat constructor; lra.
  - rewrite (Rabs_pos_eq 2), Rabs_left by lra. lra.
  - cbn. repeat split; rewrite Rabs_pos_eq; lra.
  - exists y. split; [exact E|]. eapply Rle_trans; [exact B|]. rewrite Rabs_left by lra. cbn. lra.
Qed.
