(** Proofs about what the machine computes with binary64 numbers: wake-up times. *)
From Coq Require Import ZArith Reals Lra Lia Floats.SpecFloat Bool.
From Flocq Require Import Core IEEE754.BinarySingleNaN.
From Verif Require Import Prelude Num NumDbl NumDbl3 TaskModel DblModel.
Open Scope R_scope.

Lemma uro_lit : uro = / 9007199254740992. Proof. unfold uro. cbn. reflexivity. Qed.
Lemma big_lit : IZR (2 ^ 1000) = big. Proof. reflexivity. Qed.
Lemma big_ge x : x <= IZR (2 ^ 64) -> x <= big.
Proof. intros H. eapply Rle_trans; [exact H|]. rewrite <- big_lit. apply IZR_le. apply Z.pow_le_mono_r; lia. Qed.

Lemma format_int z : (Z.abs z <= 2 ^ 53)%Z -> generic_format radix2 (SpecFloat.fexp dprec demax) (IZR z).
Proof. intros H. destruct (dofZ_val z H) as [K E]. rewrite <- E. now apply format_dval. Qed.

(** Sums of integers below 2^53 are exact. *)
Lemma dadd_int x y a b : dok x -> dok y -> dval x = IZR a -> dval y = IZR b -> (Z.abs (a + b) <= 2 ^ 53)%Z ->
  dok (nadd Dnum x y) /\ dval (nadd Dnum x y) = IZR (a + b).
Proof.
  intros Kx Ky Ex Ey H.
  destruct (dadd_val x y Kx Ky) as [K E].
  - rewrite Ex, Ey, <- plus_IZR, <- abs_IZR. apply big_ge. apply IZR_le. lia.
  - split; [exact K|]. rewrite E, Ex, Ey, <- plus_IZR. apply drnd_id. now apply format_int.
Qed.

Lemma wake_exact now period k n : (0 <= now)%Z -> (0 <= k)%Z -> dok (period_ns period) -> dval (period_ns period) = IZR k ->
  (now + (Z.of_nat n + 1) * k <= 2 ^ 53)%Z ->
  dok (exec_wake now period n) /\ dval (exec_wake now period n) = IZR (now + (Z.of_nat n + 1) * k).
Proof.
  intros Hn Hk Kp Ep. unfold exec_wake. cbn [nofZ Dnum]. induction n as [|n IH]; intros H.
  - cbn [wakeup]. destruct (dofZ_val now) as [K E]; [nia|]. replace (now + (Z.of_nat 0 + 1) * k)%Z with (now + k)%Z in * by lia. apply dadd_int; auto; lia.
  - destruct IH as [K E]; [nia|]. cbn [wakeup].
    replace (now + (Z.of_nat (S n) + 1) * k)%Z with ((now + (Z.of_nat n + 1) * k) + k)%Z in * by lia.
    apply dadd_int; auto; nia.
Qed.

(** Error of one further sum: relative to the sum of both terms. *)
Lemma wake_step x y X Y e : dok x -> dok y -> 0 <= X -> 0 <= Y -> X + Y <= IZR (2 ^ 63) -> dval y = Y -> 0 <= e -> e <= X + Y ->
  Rabs (dval x - X) <= e ->
  dok (nadd Dnum x y) /\ Rabs (dval (nadd Dnum x y) - (X + Y)) <= e + 2 * uro * (X + Y).
Proof.
  intros Kx Ky HX HY HB Ey He Hs Hx.
  assert (A : Rabs (dval x + dval y) <= 2 * (X + Y)).
  { rewrite Ey. replace (dval x + Y) with ((dval x - X) + (X + Y)) by ring. eapply Rle_trans; [apply Rabs_triang|]. rewrite (Rabs_pos_eq (X + Y)) by lra. lra. }
  destruct (dadd_val x y Kx Ky) as [K E].
  - eapply Rle_trans; [exact A|]. apply big_ge. change (2 ^ 64)%Z with (2 * 2 ^ 63)%Z. rewrite mult_IZR. lra.
  - split; [exact K|]. rewrite E.
    replace (drnd (dval x + dval y) - (X + Y)) with ((drnd (dval x + dval y) - (dval x + dval y)) + (dval x - X)) by (rewrite Ey; ring).
    eapply Rle_trans; [apply Rabs_triang|]. pose proof (dadd_err x y Kx Ky) as D.
    assert (uro * Rabs (dval x + dval y) <= uro * (2 * (X + Y))) by (apply Rmult_le_compat_l; [rewrite uro_lit; lra|exact A]). lra.
Qed.

Lemma dns_ok : dok (nofZ Dnum 1000000000) /\ dval (nofZ Dnum 1000000000) = 1000000000.
Proof. exact (dofZ_val 1000000000 ltac:(lia)). Qed.
Lemma eta_small : eta <= / IZR (2 ^ 200).
Proof. unfold eta. change (/ IZR (2 ^ 200)) with (bpow radix2 (-200)). apply bpow_le. lia. Qed.

Lemma period_close period : dok period -> / IZR (2 ^ 30) <= dval period <= IZR (2 ^ 30) ->
  dok (period_ns period) /\ Rabs (dval (period_ns period) - dval period * 1000000000) <= 2 * uro * (dval period * 1000000000).
Proof.
  intros K H. destruct dns_ok as [K9 E9]. unfold period_ns.
  assert (P : 0 < / IZR (2 ^ 30)) by (apply Rinv_0_lt_compat, IZR_lt; reflexivity).
  destruct (dmul_val period (nofZ Dnum 1000000000) K K9) as [Km Em].
  - rewrite E9. rewrite Rabs_pos_eq by lra. apply big_ge. assert (IZR (2 ^ 30) * 1000000000 <= IZR (2 ^ 64)) by (rewrite <- mult_IZR; apply IZR_le; lia). lra.
  - split; [exact Km|]. rewrite Em, E9. eapply Rle_trans; [apply drnd_err|]. rewrite Rabs_pos_eq by lra.
    assert (eta <= uro * (dval period * 1000000000)); [|lra].
    eapply Rle_trans; [exact eta_small|]. rewrite uro_lit.
    change (2 ^ 30)%Z with 1073741824%Z in *.
    assert (/ IZR (2 ^ 200) <= / IZR (2 ^ 83)) by (apply Rinv_le; [apply IZR_lt; reflexivity|apply IZR_le; lia]).
    change (2 ^ 83)%Z with 9671406556917033397649408%Z in *. lra.
Qed.

Lemma wake_close now period n : (0 <= now <= 2 ^ 53)%Z -> dok period -> / IZR (2 ^ 30) <= dval period <= IZR (2 ^ 30) ->
  let T := IZR now + INR (S n) * (dval period * 1000000000) in
  INR (S n) <= IZR (2 ^ 50) -> T <= IZR (2 ^ 62) ->
  dok (exec_wake now period n) /\ Rabs (dval (exec_wake now period n) - T) <= INR (S n) * / IZR (2 ^ 50) * T.
Proof.
  intros Hn K H. destruct (period_close period K H) as [Kp Ep].
  set (P := dval period * 1000000000) in *. set (p := dval (period_ns period)) in *.
  assert (P0 : 0 < / IZR (2 ^ 30)) by (apply Rinv_0_lt_compat, IZR_lt; reflexivity).
  assert (HP : 0 < P) by (unfold P; lra).
  rewrite uro_lit in Ep.
  assert (Hp : 0 <= p) by (apply Rabs_le_inv in Ep; lra).
  assert (N0 : 0 <= IZR now) by (apply IZR_le; lia).
  unfold exec_wake. cbn [nofZ Dnum].
  (* relative to the rounded period *)
  assert (S0 : forall m, INR (S m) <= IZR (2 ^ 50) -> IZR now + INR (S m) * p <= IZR (2 ^ 63) ->
    dok (wakeup Dnum (dofZ now) (period_ns period) m) /\
    Rabs (dval (wakeup Dnum (dofZ now) (period_ns period) m) - (IZR now + INR (S m) * p)) <= INR (S m) * (2 * uro) * (IZR now + INR (S m) * p)).
  { induction m as [|m IH]; intros M1 M2.
    - cbn [wakeup]. destruct (dofZ_val now) as [Kn En]; [lia|].
      destruct (wake_step (dofZ now) (period_ns period) (IZR now) p 0) as [Kw Ew]; auto; try lra.
      + change (INR 1) with 1 in *. lra.
      + rewrite En. replace (IZR now - IZR now) with 0 by ring. rewrite Rabs_R0. lra.
      + change (INR 1) with 1 in *. rewrite !Rmult_1_l in *. split; [exact Kw|]. lra.
    - rewrite (S_INR (S m)) in *. pose proof (pos_INR (S m)) as Q.
      assert (M3 : 0 <= INR (S m) * p) by (apply Rmult_le_pos; assumption).
      assert (MB : INR (S m) <= IZR (2 ^ 50)) by lra.
      assert (MC : IZR now + INR (S m) * p <= IZR (2 ^ 63)) by lra.
      destruct (IH MB MC) as [Kw Ew]. cbn [wakeup].
      set (X := IZR now + INR (S m) * p) in *. assert (HX : 0 <= X) by (unfold X; lra).
      replace (IZR now + (INR (S m) + 1) * p) with (X + p) in * by (unfold X; ring).
      assert (SM : INR (S m) * (2 * uro) <= 1).
      { rewrite uro_lit. assert (IZR (2 ^ 50) * (2 * / 9007199254740992) <= 1) by (change (2 ^ 50)%Z with 1125899906842624%Z; lra).
        assert (INR (S m) * (2 * / 9007199254740992) <= IZR (2 ^ 50) * (2 * / 9007199254740992)) by (apply Rmult_le_compat_r; lra). lra. }
      assert (Q2 : 0 <= INR (S m) * (2 * uro)) by (rewrite uro_lit; apply Rmult_le_pos; lra).
      assert (Q3 : INR (S m) * (2 * uro) * X <= 1 * X) by (apply Rmult_le_compat_r; lra).
      assert (Q4 : INR (S m) * (2 * uro) * X <= INR (S m) * (2 * uro) * (X + p)) by (apply Rmult_le_compat_l; lra).
      destruct (wake_step _ (period_ns period) X p (INR (S m) * (2 * uro) * X) Kw Kp HX Hp M2 eq_refl) as [Kw' Ew']; auto.
      + apply Rmult_le_pos; assumption.
      + lra.
      + split; [exact Kw'|]. eapply Rle_trans; [exact Ew'|]. lra. }
  cbv zeta. intros M1 M2.
  set (k := INR (S n)) in *. assert (Hk : 1 <= k). { unfold k. rewrite S_INR. pose proof (pos_INR n). lra. }
  assert (D1 : Rabs (k * (p - P)) <= k * (2 * / 9007199254740992) * P).
  { rewrite Rabs_mult, (Rabs_pos_eq k) by lra. rewrite Rmult_assoc. apply Rmult_le_compat_l; lra. }
  assert (KU : 0 <= k * (2 * / 9007199254740992) <= 1).
  { split; [apply Rmult_le_pos; lra|]. assert (IZR (2 ^ 50) * (2 * / 9007199254740992) <= 1) by (change (2 ^ 50)%Z with 1125899906842624%Z; lra).
    assert (k * (2 * / 9007199254740992) <= IZR (2 ^ 50) * (2 * / 9007199254740992)) by (apply Rmult_le_compat_r; lra). lra. }
  set (T := IZR now + k * P) in *. set (Tp := IZR now + k * p).
  assert (KP : 0 <= k * P) by (apply Rmult_le_pos; lra).
  assert (PK : P <= k * P). { rewrite <- (Rmult_1_l P) at 1. apply Rmult_le_compat_r; lra. }
  assert (D2 : Rabs (Tp - T) <= k * (2 * / 9007199254740992) * P) by (replace (Tp - T) with (k * (p - P)) by (unfold Tp, T; ring); exact D1).
  assert (D3 : k * (2 * / 9007199254740992) * P <= / 4503599627370496 * T).
  { unfold T. replace (k * (2 * / 9007199254740992) * P) with (/ 4503599627370496 * (k * P)) by lra. apply Rmult_le_compat_l; lra. }
  assert (T0 : 0 <= T) by (unfold T; lra).
  pose proof (Rabs_le_inv _ _ D2) as D4.
  assert (B : Tp <= IZR (2 ^ 63)). { change (2 ^ 63)%Z with (2 * 2 ^ 62)%Z. rewrite mult_IZR. lra. }
  destruct (S0 n M1 B) as [Kw Ew]. split; [exact Kw|].
  change (IZR now + INR (S n) * p) with Tp in Ew. change (INR (S n)) with k in Ew. rewrite uro_lit in Ew.
  replace (dval (wakeup Dnum (dofZ now) (period_ns period) n) - T) with ((dval (wakeup Dnum (dofZ now) (period_ns period) n) - Tp) + (Tp - T)) by ring.
  eapply Rle_trans; [apply Rabs_triang|].
  assert (E5 : k * (2 * / 9007199254740992) * Tp <= k * (2 * / 9007199254740992) * (T + / 4503599627370496 * T)) by (apply Rmult_le_compat_l; lra).
  change (2 ^ 50)%Z with 1125899906842624%Z.
  assert (E6 : T <= k * T). { rewrite <- (Rmult_1_l T) at 1. apply Rmult_le_compat_r; lra. }
  assert (E7 : k * (2 * / 9007199254740992) * (T + / 4503599627370496 * T) = (/ 4503599627370496 + / 4503599627370496 * / 4503599627370496) * (k * T)) by lra.
  assert (Z0 : 0 <= k * T) by (apply Rmult_le_pos; lra).
  replace (k * / 1125899906842624 * T) with (4 * / 4503599627370496 * (k * T)) by lra. lra.
Qed.

(** Between 2^49 and 2^50 machine numbers are multiples of 1/8. *)
Lemma drnd_eighth y z : IZR (2 ^ 49) <= y < IZR (2 ^ 50) -> Rabs (y * 8 - IZR z) < / 2 -> drnd y = IZR z / 8.
Proof.
  intros H N. unfold drnd, round, F2R, scaled_mantissa, cexp.
  assert (M : mag radix2 y = 50%Z :> Z).
  { apply mag_unique_pos. change (bpow radix2 (50 - 1)) with (IZR (2 ^ 49)). change (bpow radix2 50) with (IZR (2 ^ 50)). exact H. }
  rewrite M. change (SpecFloat.fexp dprec demax 50) with (-3)%Z. cbn [Fnum Fexp Z.opp].
  change (bpow radix2 3) with 8. change (bpow radix2 (-3)) with (/ 8). rewrite (Znearest_imp _ _ z) by exact N. reflexivity.
Qed.

Definition odd_period : Dnum := dlit 1 3000.
Lemma odd_period_ok : dok (period_ns odd_period) /\ Rabs (dval (period_ns odd_period) * 8 - IZR 2666667) < / 2 /\
  dval (period_ns odd_period) < 333333.334.
Proof.
  assert (E : period_ns odd_period = S754_finite false 5726623061333333 (-34)) by (vm_compute; reflexivity). rewrite E.
  split; [split; [vm_compute; reflexivity|exact I]|]. unfold dval, SF2R, F2R. cbn [Fnum Fexp cond_Zopp].
  change (bpow radix2 (-34)) with (/ 17179869184). split; [|lra].
  apply Rabs_def1; lra.
Qed.
(** At an uptime of 10^15 ns (11.6 days) a period of 1/3000 s is executed as 333333.375 ns in every cycle. *)
Lemma wake_drift n : (Z.of_nat n < 10 ^ 8)%Z ->
  dval (exec_wake (10 ^ 15) odd_period n) = IZR (10 ^ 15) + INR (S n) * 333333.375.
Proof.
  destruct odd_period_ok as (Kp & Rp & Lp). intros H.
  enough (G : dok (exec_wake (10 ^ 15) odd_period n) /\ dval (exec_wake (10 ^ 15) odd_period n) = IZR (8 * 10 ^ 15 + (Z.of_nat n + 1) * 2666667) / 8).
  { destruct G as [_ G]. rewrite G, plus_IZR, !mult_IZR, plus_IZR, <- INR_IZR_INZ, S_INR. lra. }
  unfold exec_wake. cbn [nofZ Dnum].
  assert (S0 : forall x a, dok x -> dval x = IZR a / 8 -> (8 * 10 ^ 15 <= a <= 8 * 10 ^ 15 + 10 ^ 8 * 2666667)%Z ->
     dok (nadd Dnum x (period_ns odd_period)) /\ dval (nadd Dnum x (period_ns odd_period)) = IZR (a + 2666667) / 8).
  { intros x a K E B.
    assert (B1 : IZR (8 * 10 ^ 15) <= IZR a) by (apply IZR_le; lia).
    assert (B2 : IZR a <= IZR (8 * 10 ^ 15 + 10 ^ 8 * 2666667)) by (apply IZR_le; lia).
    change (8 * 10 ^ 15)%Z with 8000000000000000%Z in B1. change (8 * 10 ^ 15 + 10 ^ 8 * 2666667)%Z with 8266666700000000%Z in B2.
    apply Rabs_lt_inv in Rp.
    destruct (dadd_val x (period_ns odd_period) K Kp) as [K' E'].
    - rewrite E. apply big_ge. change (2 ^ 64)%Z with 18446744073709551616%Z. rewrite Rabs_pos_eq; lra.
    - split; [exact K'|]. rewrite E', E. apply drnd_eighth.
      + change (2 ^ 49)%Z with 562949953421312%Z. change (2 ^ 50)%Z with 1125899906842624%Z. lra.
      + rewrite plus_IZR. apply Rabs_def1; lra. }
  induction n as [|n IH].
  - destruct (dofZ_val (10 ^ 15)) as [K E]; [lia|]. change (8 * 10 ^ 15 + (Z.of_nat 0 + 1) * 2666667)%Z with (8 * 10 ^ 15 + 2666667)%Z.
    cbn [wakeup]. apply S0; [exact K| |lia]. rewrite E, mult_IZR. lra.
  - destruct IH as [K E]; [lia|].
    replace (8 * 10 ^ 15 + (Z.of_nat (S n) + 1) * 2666667)%Z with (8 * 10 ^ 15 + (Z.of_nat n + 1) * 2666667 + 2666667)%Z by lia.
    cbn [wakeup]. apply S0; [exact K|exact E|]. split; [nia|]. assert (Z.of_nat n + 1 <= 10 ^ 8)%Z by lia. nia.
Qed.
