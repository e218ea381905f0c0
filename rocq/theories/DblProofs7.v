(** Rounding of sums: the sum block, the matrix product and the statistics. *)
From Coq Require Import Floats.SpecFloat Reals Lra Lia ZArith Bool List.
From Flocq Require Import Core.
From Verif Require Import Prelude Num NumDbl NumDbl3 CtrlModel MatModel MatProofs TaskModel DblSpec DblSpec2 DblProofs DblProofs2 DblProofs5.
Import ListNotations.
Open Scope R_scope.

Lemma pow_u_ge1 n : 1 <= (1 + uro) ^ n.
Proof. apply pow_R1_Rle. pose proof uro_pos. lra. Qed.
Lemma pow_u n : INR n * uro <= / 2 -> (1 + uro) ^ n <= 1 + 2 * (INR n * uro).
Proof.
  pose proof uro_pos as U. induction n as [|n IH]; intros H; [cbn; lra|].
  rewrite S_INR in *. assert (0 <= INR n * uro) by (apply Rmult_le_pos; [apply pos_INR|lra]).
  assert (H1 : (1 + uro) ^ n <= 1 + 2 * (INR n * uro)) by (apply IH; lra).
  cbn [pow]. apply Rle_trans with ((1 + uro) * (1 + 2 * (INR n * uro))); [apply Rmult_le_compat_l; lra|].
  replace ((1 + uro) * (1 + 2 * (INR n * uro))) with (1 + 2 * (INR n * uro) + uro + 2 * (INR n * uro) * uro) by ring.
  assert (2 * (INR n * uro) * uro <= 1 * uro) by (apply Rmult_le_compat_r; lra). lra.
Qed.

Lemma mass_nonneg l : 0 <= mass l.
Proof. induction l as [|x l IH]; cbn; [lra|pose proof (Rabs_pos x); lra]. Qed.

(** One addition. *)
Lemma add_step (S : R) (c E W t : R) k : c = drnd (S + t) -> Rabs (c - (S + t)) <= uro * Rabs (S + t) ->
  Rabs S <= (1 + uro) ^ k * W -> Rabs (S - E) <= ((1 + uro) ^ k - 1) * W -> 0 <= W ->
  Rabs c <= (1 + uro) ^ (k + 1) * (W + Rabs t) /\ Rabs (c - (E + t)) <= ((1 + uro) ^ (k + 1) - 1) * (W + Rabs t).
Proof.
  intros _ He HS HE HW. pose proof uro_pos as U. pose proof (pow_u_ge1 k) as P. pose proof (Rabs_pos t) as T0.
  set (p := (1 + uro) ^ k) in *. replace ((1 + uro) ^ (k + 1)) with (p * (1 + uro)) by (unfold p; rewrite Nat.add_1_r; cbn; ring).
  assert (ST : Rabs (S + t) <= p * W + Rabs t) by (eapply Rle_trans; [apply Rabs_triang|lra]).
  assert (pt : Rabs t <= p * Rabs t). { rewrite <- (Rmult_1_l (Rabs t)) at 1. apply Rmult_le_compat_r; lra. }
  assert (US : uro * Rabs (S + t) <= uro * (p * W + Rabs t)) by (apply Rmult_le_compat_l; lra).
  assert (Upt : uro * Rabs t <= uro * (p * Rabs t)) by (apply Rmult_le_compat_l; lra).
  assert (uW : 0 <= uro * W) by (apply Rmult_le_pos; lra).
  assert (upt : 0 <= uro * (p * Rabs t)) by (apply Rmult_le_pos; [lra|apply Rmult_le_pos; lra]).
  split.
  - replace c with ((c - (S + t)) + (S + t)) by ring. eapply Rle_trans; [apply Rabs_triang|].
    replace (p * (1 + uro) * (W + Rabs t)) with (p * W + p * Rabs t + uro * (p * W) + uro * (p * Rabs t)) by ring.
    rewrite Rmult_plus_distr_l in US. lra.
  - replace (c - (E + t)) with ((c - (S + t)) + (S - E)) by ring. eapply Rle_trans; [apply Rabs_triang|].
    replace ((p * (1 + uro) - 1) * (W + Rabs t)) with ((p - 1) * W + uro * (p * W) + (p - 1) * Rabs t + uro * (p * Rabs t)) by ring.
    rewrite Rmult_plus_distr_l in US.
    assert (0 <= (p - 1) * Rabs t) by (apply Rmult_le_pos; lra). lra.
Qed.
Lemma dsub_err x y : dok x -> dok y -> Rabs (drnd (dval x - dval y) - (dval x - dval y)) <= uro * Rabs (dval x - dval y).
Proof.
  intros Hx Hy.
  assert (P : FLX.Prec_gt_0 53) by reflexivity.
  destruct (Plus_error.FLT_plus_error_N_ex radix2 (-1074) 53 (fun z => negb (Z.even z)) (dval x) (- dval y) (format_dval x Hx) (generic_format_opp _ _ _ (format_dval y Hy))) as (e & He & E).
  change (round radix2 (FLT_exp (-1074) 53) (Znearest (fun z => negb (Z.even z))) (dval x + - dval y)) with (drnd (dval x - dval y)) in E.
  rewrite E. replace ((dval x + - dval y) * (1 + e) - (dval x - dval y)) with (e * (dval x - dval y)) by ring. rewrite Rabs_mult.
  apply Rmult_le_compat_r; [apply Rabs_pos|]. eapply Rle_trans; [exact He|].
  assert (U : Relative.u_ro radix2 53 = uro). { unfold Relative.u_ro, uro. replace (-53)%Z with (-(1) + (-53 + 1))%Z by ring. rewrite bpow_plus. cbn. lra. }
  rewrite U. assert (0 < uro) by apply bpow_gt_0. unfold Rdiv. rewrite <- (Rmult_1_r uro) at 3. apply Rmult_le_compat_l; [lra|]. rewrite <- Rinv_1. apply Rinv_le; lra.
Qed.

(** ** Sum with signs *)
Section Acc.
  Let f := fun (a : Dnum) (p : bool * Dnum) => if fst p : bool then nsub Dnum a (snd p) else nadd Dnum a (snd p).
  Lemma acc_close l : forall (acc : Dnum) (E W : R) k, dok acc -> Forall (fun p => dok (snd p)) l -> 0 <= W ->
    Rabs (dval acc) <= (1 + uro) ^ k * W -> Rabs (dval acc - E) <= ((1 + uro) ^ k - 1) * W ->
    let ts := map (fun p => signed (fst p, dval (snd p))) l in
    (1 + uro) ^ (k + length l) * (W + mass ts) <= big ->
    dok (fold_left f l acc) /\ Rabs (dval (fold_left f l acc)) <= (1 + uro) ^ (k + length l) * (W + mass ts) /\
    Rabs (dval (fold_left f l acc) - (E + total ts)) <= ((1 + uro) ^ (k + length l) - 1) * (W + mass ts).
  Proof.
    induction l as [|[b x] l IH]; intros acc E W k Ka Hl W0 HA HE ts HB.
    - cbn [fold_left length map mass total ts]. rewrite Nat.add_0_r, !Rplus_0_r. auto.
    - inversion Hl as [|? ? Kx Hl']; subst. cbn [snd] in Kx. cbn [fold_left].
      set (t := signed (b, dval x)) in *.
      assert (Tt : ts = t :: map (fun p => signed (fst p, dval (snd p))) l) by reflexivity.
      set (ts' := map (fun p => signed (fst p, dval (snd p))) l) in *.
      pose proof (mass_nonneg ts') as M0. pose proof (Rabs_pos t) as T0. pose proof (pow_u_ge1 k) as P1.
      assert (Mts : mass ts = Rabs t + mass ts') by (rewrite Tt; reflexivity).
      assert (Tts : total ts = t + total ts') by (rewrite Tt; reflexivity).
      assert (Lim : Rabs (dval acc + t) <= big).
      { eapply Rle_trans; [|exact HB]. eapply Rle_trans; [apply Rabs_triang|].
        assert (A1 : (1 + uro) ^ k * (W + Rabs t) <= (1 + uro) ^ (k + length ((b, x) :: l)) * (W + mass ts)).
        { rewrite Mts. apply Rmult_le_compat; try lra. apply Rle_pow; [pose proof uro_pos; lra|lia]. }
        assert (A2 : Rabs t <= (1 + uro) ^ k * Rabs t) by (rewrite <- (Rmult_1_l (Rabs t)) at 1; apply Rmult_le_compat_r; lra).
        rewrite Rmult_plus_distr_l in A1. lra. }
      assert (ST : dok (f acc (b, x)) /\ dval (f acc (b, x)) = drnd (dval acc + t) /\
                   Rabs (dval (f acc (b, x)) - (dval acc + t)) <= uro * Rabs (dval acc + t)).
      { unfold f, t, signed in *. cbn [fst snd] in *. destruct b.
        - destruct (dsub_val acc x Ka Kx Lim) as [K V]. split; [exact K|]. split; [exact V|]. rewrite V. apply dsub_err; assumption.
        - destruct (dadd_val acc x Ka Kx Lim) as [K V]. split; [exact K|]. split; [exact V|]. rewrite V. apply dadd_err; assumption. }
      destruct ST as (K1 & V1 & E1).
      destruct (add_step (dval acc) (dval (f acc (b, x))) E W t k V1 E1 HA HE W0) as [B1 B2].
      assert (KL : (k + length ((b, x) :: l) = k + 1 + length l)%nat) by (cbn [length]; lia).
      assert (ML : W + mass ts = W + Rabs t + mass ts') by (rewrite Mts; ring).
      destruct (IH (f acc (b, x)) (E + t) (W + Rabs t) (k + 1)%nat K1 Hl') as (C1 & C2 & C3); auto; try lra.
      { fold ts'. rewrite <- KL, <- ML. exact HB. }
      split; [exact C1|]. fold ts' in C2, C3. rewrite KL, ML. split; [exact C2|]. rewrite Tts, <- Rplus_assoc. exact C3.
  Qed.
End Acc.

Lemma sum_close neg (vs : list Dnum) : Forall dok vs ->
  let ts := map (fun p => signed (fst p, dval (snd p))) (combine neg vs) in
  (1 + uro) ^ length ts * mass ts <= big ->
  dok (sum_acc Dnum neg vs) /\ Rabs (dval (sum_acc Dnum neg vs) - total ts) <= ((1 + uro) ^ length ts - 1) * mass ts.
Proof.
  intros Hv ts HB. destruct (dofZ_val 0 ltac:(lia)) as [K0 V0].
  assert (L : length ts = length (combine neg vs)) by (unfold ts; apply map_length). rewrite L in *.
  destruct (acc_close (combine neg vs) (nofZ Dnum 0) 0 0 0) as (C1 & _ & C3); cbn [nofZ Dnum] in *; try rewrite V0; auto; try lra.
  - apply Forall_forall. intros [b x] H. apply in_combine_r in H. cbn [snd]. rewrite Forall_forall in Hv. now apply Hv.
  - rewrite Rabs_R0. cbn. lra.
  - replace (0 - 0) with 0 by ring. rewrite Rabs_R0. cbn. lra.
  - fold ts. rewrite Nat.add_0_l, Rplus_0_l. exact HB.
  - fold ts in C3. rewrite Nat.add_0_l, !Rplus_0_l in C3. split; [exact C1|exact C3].
Qed.

(** ** Products of matrices *)
Lemma dmul_close (x y : Dnum) : dok x -> dok y -> Rabs (dval x * dval y) <= big ->
  dok (nmul Dnum x y) /\ Rabs (dval (nmul Dnum x y) - dval x * dval y) <= uro * Rabs (dval x * dval y) + eta.
Proof. intros Kx Ky H. destruct (dmul_val x y Kx Ky H) as [K V]. split; [exact K|]. rewrite V. apply drnd_err. Qed.
Lemma ddiv_close (x y : Dnum) : dok x -> dok y -> dval y <> 0 -> Rabs (dval x / dval y) <= big ->
  dok (ndiv Dnum x y) /\ Rabs (dval (ndiv Dnum x y) - dval x / dval y) <= uro * Rabs (dval x / dval y) + eta.
Proof. intros Kx Ky Hy H. destruct (ddiv_val x y Kx Ky Hy H) as [K V]. split; [exact K|]. rewrite V. apply drnd_err. Qed.

Lemma isum_nonneg x n : (forall i, (i < n)%nat -> 0 <= x i) -> 0 <= isum x n.
Proof. induction n as [|n IH]; intros H; cbn; [lra|]. assert (0 <= isum x n) by (apply IH; intros; apply H; lia). specialize (H n ltac:(lia)). lra. Qed.
Lemma isum_le x y n : (forall i, (i < n)%nat -> x i <= y i) -> isum x n <= isum y n.
Proof. induction n as [|n IH]; intros H; cbn; [lra|]. assert (isum x n <= isum y n) by (apply IH; intros; apply H; lia). specialize (H n ltac:(lia)). lra. Qed.
Lemma isum_abs x n : Rabs (isum x n) <= isum (fun i => Rabs (x i)) n.
Proof. induction n as [|n IH]; cbn; [rewrite Rabs_R0; lra|]. eapply Rle_trans; [apply Rabs_triang|]. lra. Qed.
Lemma isum_minus x y n : isum x n - isum y n = isum (fun i => x i - y i) n.
Proof. induction n as [|n IH]; cbn; [ring|]. rewrite <- IH. ring. Qed.
Lemma isum_lin a x c n : isum (fun i => a * x i + c) n = a * isum x n + INR n * c.
Proof. induction n as [|n IH]; cbn [isum]; [cbn; ring|]. rewrite IH, S_INR. ring. Qed.

Lemma accum_close (x : nat -> Dnum) n : (forall i, (i < n)%nat -> dok (x i)) ->
  let W := isum (fun i => Rabs (dval (x i))) n in
  (1 + uro) ^ n * W <= big ->
  dok (accum Dnum x n) /\ Rabs (dval (accum Dnum x n)) <= (1 + uro) ^ n * W /\
  Rabs (dval (accum Dnum x n) - isum (fun i => dval (x i)) n) <= ((1 + uro) ^ n - 1) * W.
Proof.
  induction n as [|n IH]; intros Hx W HB.
  - destruct (dofZ_val 0 ltac:(lia)) as [K0 V0]. cbn [accum nofZ Dnum]. rewrite V0. unfold W. cbn. rewrite Rminus_0_r, Rabs_R0. repeat split; try lra; exact K0.
  - set (W' := isum (fun i => Rabs (dval (x i))) n) in *. assert (EW : W = W' + Rabs (dval (x n))) by reflexivity.
    assert (W0 : 0 <= W') by (apply isum_nonneg; intros; apply Rabs_pos).
    pose proof (Rabs_pos (dval (x n))) as T0. pose proof (pow_u_ge1 n) as P1. pose proof uro_pos as U.
    assert (HB' : (1 + uro) ^ n * (W' + Rabs (dval (x n))) <= big).
    { eapply Rle_trans; [|exact HB]. rewrite EW. apply Rmult_le_compat_r; [lra|]. apply Rle_pow; [lra|lia]. }
    assert (A2 : Rabs (dval (x n)) <= (1 + uro) ^ n * Rabs (dval (x n))) by (rewrite <- (Rmult_1_l (Rabs (dval (x n)))) at 1; apply Rmult_le_compat_r; lra).
    rewrite Rmult_plus_distr_l in HB'.
    destruct IH as (C1 & C2 & C3); [intros; apply Hx; lia|fold W'; lra|]. fold W' in C2, C3.
    assert (Kn : dok (x n)) by (apply Hx; lia).
    destruct (dadd_val (accum Dnum x n) (x n) C1 Kn) as [K V]; [eapply Rle_trans; [apply Rabs_triang|lra]|].
    destruct (add_step _ (dval (nadd Dnum (accum Dnum x n) (x n))) (isum (fun i => dval (x i)) n) W' (dval (x n)) n V) as [B1 B2]; auto.
    { rewrite V. apply dadd_err; assumption. }
    rewrite Nat.add_1_r, <- EW in B1, B2. split; [exact K|]. split; [exact B1|exact B2].
Qed.

(** The entry of a product of matrices. *)
Lemma dot_close (a b : nat -> Dnum) n : (forall i, (i < n)%nat -> dok (a i) /\ dok (b i)) ->
  let W := isum (fun i => Rabs (dval (a i) * dval (b i))) n in
  (1 + uro) ^ (n + 1) * (W + INR n * eta) <= big -> 
  let c := accum Dnum (fun i => nmul Dnum (a i) (b i)) n in
  dok c /\ Rabs (dval c - isum (fun i => dval (a i) * dval (b i)) n) <= ((1 + uro) ^ (n + 1) - 1) * W + (1 + uro) ^ n * (INR n * eta).
Proof.
  intros H W HB c. pose proof uro_pos as U. pose proof (pow_u_ge1 n) as P1.
  assert (E0 : 0 <= eta) by apply bpow_ge_0.
  assert (En : 0 <= INR n * eta) by (apply Rmult_le_pos; [apply pos_INR|exact E0]).
  assert (W0 : 0 <= W) by (apply isum_nonneg; intros; apply Rabs_pos).
  assert (PW : W <= big).
  { eapply Rle_trans; [|exact HB]. rewrite <- (Rmult_1_l W). apply Rmult_le_compat; try lra. apply pow_u_ge1. }
  assert (Hi : forall i, (i < n)%nat -> Rabs (dval (a i) * dval (b i)) <= W).
  { clear. unfold W. induction n as [|n IH]; intros i Hi; [lia|]. cbn [isum].
    assert (0 <= isum (fun i => Rabs (dval (a i) * dval (b i))) n) by (apply isum_nonneg; intros; apply Rabs_pos).
    pose proof (Rabs_pos (dval (a n) * dval (b n))). destruct (Nat.eq_dec i n) as [->|]; [lra|]. specialize (IH i ltac:(lia)). lra. }
  assert (Hm : forall i, (i < n)%nat -> dok (nmul Dnum (a i) (b i)) /\ Rabs (dval (nmul Dnum (a i) (b i)) - dval (a i) * dval (b i)) <= uro * Rabs (dval (a i) * dval (b i)) + eta).
  { intros i L. destruct (H i L) as [Ka Kb]. apply dmul_close; auto. eapply Rle_trans; [apply Hi, L|exact PW]. }
  set (V := isum (fun i => Rabs (dval (nmul Dnum (a i) (b i)))) n).
  assert (HV : V <= (1 + uro) * W + INR n * eta).
  { unfold V, W. rewrite <- isum_lin. apply isum_le. intros i L. destruct (Hm i L) as [_ B].
    replace (dval (nmul Dnum (a i) (b i))) with ((dval (nmul Dnum (a i) (b i)) - dval (a i) * dval (b i)) + dval (a i) * dval (b i)) by ring.
    eapply Rle_trans; [apply Rabs_triang|]. lra. }
  assert (HD : Rabs (isum (fun i => dval (nmul Dnum (a i) (b i))) n - isum (fun i => dval (a i) * dval (b i)) n) <= uro * W + INR n * eta).
  { rewrite isum_minus. eapply Rle_trans; [apply isum_abs|]. unfold W. rewrite <- isum_lin. apply isum_le. intros i L. apply (Hm i L). }
  assert (PS : (1 + uro) ^ (n + 1) = (1 + uro) ^ n * (1 + uro)) by (rewrite Nat.add_1_r; cbn; ring).
  assert (XB : (1 + uro) ^ n * V <= (1 + uro) ^ (n + 1) * W + (1 + uro) ^ n * (INR n * eta)).
  { rewrite PS. eapply Rle_trans; [apply Rmult_le_compat_l; [lra|exact HV]|]. lra. }
  destruct (accum_close (fun i => nmul Dnum (a i) (b i)) n) as (C1 & _ & C3); [intros i L; apply (Hm i L)| |].
  { fold V. eapply Rle_trans; [exact XB|]. eapply Rle_trans; [|exact HB]. rewrite (Rmult_plus_distr_l _ W).
    apply Rplus_le_compat_l. apply Rmult_le_compat_r; [exact En|]. apply Rle_pow; [lra|lia]. }
  split; [exact C1|]. fold V in C3.
  replace (dval c - isum (fun i => dval (a i) * dval (b i)) n) with
    ((dval c - isum (fun i => dval (nmul Dnum (a i) (b i))) n) + (isum (fun i => dval (nmul Dnum (a i) (b i))) n - isum (fun i => dval (a i) * dval (b i)) n)) by ring.
  eapply Rle_trans; [apply Rabs_triang|].
  assert (V0 : 0 <= V) by (apply isum_nonneg; intros; apply Rabs_pos).
  assert (C4 : ((1 + uro) ^ n - 1) * V <= ((1 + uro) ^ n - 1) * ((1 + uro) * W + INR n * eta)) by (apply Rmult_le_compat_l; lra).
  rewrite PS.
  replace (((1 + uro) ^ n * (1 + uro) - 1) * W + (1 + uro) ^ n * (INR n * eta)) with
     (((1 + uro) ^ n - 1) * ((1 + uro) * W + INR n * eta) + (uro * W + INR n * eta)) by ring.
  unfold c in *. lra.
Qed.

Lemma product_close M N K (a b g : mem Dnum) :
  (forall m n, (m < M)%nat -> (n < N)%nat -> dok (a (M * n + m)%nat)) ->
  (forall n k, (n < N)%nat -> (k < K)%nat -> dok (b (N * k + n)%nat)) ->
  exists r, m_mul Dnum M N K a b g = Ok r /\ forall m k, (m < M)%nat -> (k < K)%nat ->
    let x := fun n => dval (a (M * n + m)%nat) in let y := fun n => dval (b (N * k + n)%nat) in
    let W := isum (fun n => Rabs (x n * y n)) N in
    (1 + uro) ^ (N + 1) * (W + INR N * eta) <= big ->
    dok (r (M * k + m)%nat) /\ Rabs (dval (r (M * k + m)%nat) - isum (fun n => x n * y n) N) <= ((1 + uro) ^ (N + 1) - 1) * W + (1 + uro) ^ N * (INR N * eta).
Proof.
  intros Ha Hb. destruct (mul_ok Dnum M N K a b g) as (r & E & H). exists r. split; [exact E|].
  intros m k Lm Lk x y W HB. rewrite (H m k Lm Lk).
  apply (dot_close (fun n => a (M * n + m)%nat) (fun n => b (N * k + n)%nat) N); [|exact HB]. intros i L. split; [now apply Ha|now apply Hb].
Qed.
