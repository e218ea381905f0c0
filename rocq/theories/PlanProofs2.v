(** Proofs about PathPlannerConstAcc in exact arithmetic. *)
From Coq Require Import Reals Lra Lia ZArith FunctionalExtensionality.
From Flocq Require Import Core.Raux.
From Verif Require Import Prelude Num PlanModel PlanSpec PlanProofs.
Open Scope R_scope.

Lemma nceil_R x : 0 <= x -> exists n, nceil Rnum x = INR n /\ x <= INR n /\ (0 < x -> (0 < n)%nat) /\ (x = 0 -> n = 0%nat).
Proof.
  intros Hx. unfold nceil. cbn. rewrite Ztrunc_floor by assumption. pose proof (Zfloor_lb x). pose proof (Zfloor_ub x).
  assert (F : (0 <= Zfloor x)%Z) by (apply Zfloor_lub; exact Hx).
  assert (K : exists z, (if Rlt_bool (IZR (Zfloor x)) x then IZR (Zfloor x + 1) else IZR (Zfloor x)) = IZR z /\ (0 <= z)%Z /\ x <= IZR z /\ (x = 0 -> z = 0%Z)).
  { destruct (Rlt_bool_spec (IZR (Zfloor x)) x) as [L|L].
    - exists (Zfloor x + 1)%Z. repeat split; [lia|rewrite plus_IZR; lra|].
      intros X. exfalso. rewrite X in L at 2. apply lt_IZR in L. lia.
    - exists (Zfloor x). repeat split; auto. intros X. rewrite X in H, F |- *. apply le_IZR in H. lia. }
  destruct K as (z & E & Z0 & Le & Zr). exists (Z.to_nat z).
  assert (I : INR (Z.to_nat z) = IZR z) by (rewrite INR_IZR_INZ, Z2Nat.id; auto).
  rewrite I. split; [|repeat split].
  - rewrite <- E. now destruct (Rlt_bool (IZR (Zfloor x)) x).
  - exact Le.
  - intros P. apply INR_lt. rewrite I. cbn. lra.
  - intros P. rewrite (Zr P). reflexivity.
Qed.

Section Make.
  Context (dt v a dc : R) (start dist endp : nat -> R).
  Hypothesis Hdt : 0 < dt. Hypothesis Hv : 0 < v. Hypothesis Ha : 0 < a. Hypothesis Hdc : 0 < dc.
  Notation p := (pa_make Rnum sqrt dt start dist endp v a dc).

  Lemma make_durations : exists n1 n2 n3,
    pa_dT1 p = INR n1 * dt /\ pa_dT2 p = INR n2 * dt /\ pa_dT3 p = INR n3 * dt /\ (0 < n1)%nat /\ (0 < n3)%nat /\
    let V := 1 / (INR n2 * dt + (INR n1 * dt + INR n3 * dt) / 2) in
    0 < V <= v /\ V / (INR n1 * dt) <= a /\ V / (INR n3 * dt) <= dc.
  Proof.
    unfold pa_make, pa_times, pa_coefs, lit. cbn [pa_dT1 pa_dT2 pa_dT3 nadd nsub nmul ndiv nltb nofZ Rnum]. change (nT Rnum) with R in *.
    set (vm := sqrt (2 * (a * dc) / (a + dc))).
    set (v1 := if Rlt_bool vm v then vm else v).
    assert (Q : 0 < 2 * (a * dc) / (a + dc)) by (apply Rdiv_lt_0_compat; nra).
    assert (Hvm : 0 < vm) by (apply sqrt_lt_R0; exact Q).
    assert (S2 : vm * vm = 2 * (a * dc) / (a + dc)) by (apply sqrt_sqrt; lra).
    assert (V1 : 0 < v1 /\ v1 <= v /\ v1 <= vm).
    { unfold v1. destruct (Rlt_bool_spec vm v); lra. }
    destruct V1 as (P1 & L1 & L2). clearbody v1.
    set (t1 := v1 / a). set (t3 := v1 / dc).
    assert (T1p : 0 < t1) by (apply Rdiv_lt_0_compat; assumption).
    assert (T3p : 0 < t3) by (apply Rdiv_lt_0_compat; assumption).
    set (t2 := 1 / v1 - (t1 + t3) * (1 / 2)).
    assert (T2p : 0 <= t2).
    { unfold t2, t1, t3. assert (v1 * v1 * (a + dc) <= 2 * (a * dc)).
      { assert (v1 * v1 <= vm * vm) by nra. rewrite S2 in H.
        apply Rmult_le_compat_r with (r := a + dc) in H; [|lra].
        replace (2 * (a * dc) / (a + dc) * (a + dc)) with (2 * (a * dc)) in H by (field; lra). exact H. }
      assert (E : 1 / v1 - (v1 / a + v1 / dc) * (1 / 2) = (2 * (a * dc) - v1 * v1 * (a + dc)) / (2 * (v1 * a * dc))) by (field; repeat split; lra).
      rewrite E. apply Rmult_le_pos; [lra|]. left. apply Rinv_0_lt_compat. assert (0 < v1 * a) by nra. nra. }
    replace (if Rlt_bool t2 0 then 0 else t2) with t2 by (now rewrite Rlt_bool_false).
    destruct (nceil_R (t1 / dt)) as (n1 & E1 & G1 & Q1 & _); [apply Rlt_le, Rdiv_lt_0_compat; assumption|].
    destruct (nceil_R (t2 / dt)) as (n2 & E2 & G2 & _); [apply Rmult_le_pos; [assumption|apply Rlt_le, Rinv_0_lt_compat; assumption]|].
    destruct (nceil_R (t3 / dt)) as (n3 & E3 & G3 & Q3 & _); [apply Rlt_le, Rdiv_lt_0_compat; assumption|].
    exists n1, n2, n3. unfold nT in *. cbn in E1, E2, E3 |- *.
    rewrite E1, E2, E3. repeat split.
    1: apply Q1, Rdiv_lt_0_compat; assumption. 1: apply Q3, Rdiv_lt_0_compat; assumption.
    all: assert (B1 : t1 <= INR n1 * dt) by (apply Rmult_le_compat_r with (r := dt) in G1; [|lra]; replace (t1 / dt * dt) with t1 in G1 by (field; lra); exact G1).
    all: assert (B2 : t2 <= INR n2 * dt) by (apply Rmult_le_compat_r with (r := dt) in G2; [|lra]; replace (t2 / dt * dt) with t2 in G2 by (field; lra); exact G2).
    all: assert (B3 : t3 <= INR n3 * dt) by (apply Rmult_le_compat_r with (r := dt) in G3; [|lra]; replace (t3 / dt * dt) with t3 in G3 by (field; lra); exact G3).
    all: assert (B : 1 / v1 <= INR n2 * dt + (INR n1 * dt + INR n3 * dt) / 2) by (unfold t2 in *; lra).
    all: assert (I1 : 0 < 1 / v1) by (apply Rdiv_lt_0_compat; lra).
    all: set (X := INR n2 * dt + (INR n1 * dt + INR n3 * dt) / 2) in *.
    all: assert (VX : 1 / X <= v1) by (replace v1 with (1 / (1 / v1)) by (field; lra); unfold Rdiv; rewrite !Rmult_1_l; apply Rinv_le_contravar; unfold Rdiv in *; rewrite ?Rmult_1_l in *; lra).
    all: assert (VP : 0 < 1 / X) by (apply Rdiv_lt_0_compat; lra).
    - exact VP.
    - lra.
    - apply Rle_trans with (v1 / t1); [|unfold t1; right; field; lra].
      unfold Rdiv at 1 2. apply Rmult_le_compat; [lra| |exact VX|apply Rinv_le_contravar; assumption].
      apply Rlt_le, Rinv_0_lt_compat; lra.
    - apply Rle_trans with (v1 / t3); [|unfold t3; right; field; lra].
      unfold Rdiv at 1 2. apply Rmult_le_compat; [lra| |exact VX|apply Rinv_le_contravar; assumption].
      apply Rlt_le, Rinv_0_lt_compat; lra.
  Qed.

  (** The coefficients describe the trapezoidal profile. *)
  Lemma make_values n1 n2 n3 : pa_dT1 p = INR n1 * dt -> pa_dT2 p = INR n2 * dt -> pa_dT3 p = INR n3 * dt ->
    (0 < n1)%nat -> (0 < n3)%nat -> forall r t i, (r = 1 \/ r = 2 \/ r = 3)%Z ->
    pa_val Rnum p r t i = along start dist (trapezoid (INR n1 * dt) (INR n2 * dt) (INR n3 * dt) r t) i.
  Proof.
    intros E1 E2 E3 H1 H3 r t i Hr. rewrite <- E1, <- E2, <- E3.
    assert (Q1 : 0 < pa_dT1 p) by (rewrite E1; apply Rmult_lt_0_compat; [apply lt_0_INR; lia|assumption]).
    assert (Q3 : 0 < pa_dT3 p) by (rewrite E3; apply Rmult_lt_0_compat; [apply lt_0_INR; lia|assumption]).
    assert (Q2 : 0 <= pa_dT2 p) by (rewrite E2; apply Rmult_le_pos; [apply pos_INR|lra]).
    clear E1 E2 E3 H1 H3. revert Q1 Q2 Q3. unfold pa_make. destruct (pa_times Rnum sqrt dt v a dc) as [[T1 T2] T3].
    unfold pa_coefs. cbv zeta. cbn [pa_dT1 pa_dT2 pa_dT3].
    intros Q1 Q2 Q3. unfold lit, nopp in *. cbn [nadd nsub nmul ndiv nltb nofZ Rnum nT] in *.
    destruct Hr as [->|[->| ->]]; unfold pa_val, trapezoid, along; cbn; repeat (f_equal; []);
      repeat match goal with |- (_, _) = (_, _) => f_equal end; try (field; repeat split; lra).
  Qed.
End Make.

Section AccMaster.
  Context (d : nat) (dt : R) (start dist endp : nat -> R) (p : pa_plan Rnum) (n1 n2 n3 : nat).
  Hypothesis Hd : (0 < d)%nat.
  Hypothesis Hdt : eps Rnum <= dt.
  Hypothesis E1 : pa_dT1 p = INR n1 * dt. Hypothesis E2 : pa_dT2 p = INR n2 * dt. Hypothesis E3 : pa_dT3 p = INR n3 * dt.
  Hypothesis H1 : (0 < n1)%nat. Hypothesis H3 : (0 < n3)%nat.
  Hypothesis Hval : forall r t i, (r = 1 \/ r = 2 \/ r = 3)%Z ->
    pa_val Rnum p r t i = along start dist (trapezoid (INR n1 * dt) (INR n2 * dt) (INR n3 * dt) r t) i.
  Hypothesis Hend : forall i, pa_endp p i = start i + dist i.
  Notation ph := (pa_phases Rnum d p).
  Notation run := (ph_run Rnum ph dt).
  Notation D := (@Build_dyn Rnum (out3 Rnum)).

  Lemma acc_master L k : (0 < k)%nat ->
    let s := Nat.iter k run (D false 1%Z 0 L) in
    dy_fin s = (acc_cycles n1 n2 n3 <? k)%nat /\
    dy_last s = patch d (acc_cycle dt start dist n1 n2 n3 k) L.
  Proof.
    intros Hk. cbn zeta. pose proof eps_pos as Hep.
    assert (V : forall r t, (r = 1 \/ r = 2 \/ r = 3)%Z ->
      ph_val ph r t = along start dist (trapezoid (INR n1 * dt) (INR n2 * dt) (INR n3 * dt) r t)).
    { intros r t Hr. apply functional_extensionality; intro i. apply Hval, Hr. }
    assert (I1 : inner ph 1) by (unfold inner; cbn; lia). assert (I2 : inner ph 2) by (unfold inner; cbn; lia).
    assert (I3 : inner ph 3) by (unfold inner; cbn; lia).
    assert (P1 : Nat.iter n1 run (D false 1%Z 0 L) = D false 2%Z 0 (patch d (along start dist (trapezoid (INR n1 * dt) (INR n2 * dt) (INR n3 * dt) 1%Z (INR n1 * dt))) L)).
    { rewrite (phase_end ph dt Hd Hdt 1%Z n1 L I1 E1 H1). rewrite V by auto. reflexivity. }
    (* state at the start of phase 3 *)
    assert (P2 : exists L2, Nat.iter (n1 + Nat.max 1 n2) run (D false 1%Z 0 L) = D false 3%Z 0 (patch d L2 L) /\
       L2 = acc_cycle dt start dist n1 n2 n3 (n1 + Nat.max 1 n2)).
    { rewrite iter_add, P1. destruct (Nat.eq_dec n2 0) as [Hz|Hz].
      - assert (Z2 : ph_dur ph 2 = 0) by (cbn; rewrite E2, Hz; cbn [INR]; ring).
        rewrite Hz. cbn [Nat.max Nat.iter nat_rect].
        assert (Dd : eps Rnum <= ph_dur ph 3).
        { cbn -[eps]. rewrite E3. assert (1 <= INR n3) by (apply (le_INR 1); lia). nra. }
        rewrite (phase_skip ph dt Hd Hdt 2%Z _ I2 I3 eq_refl Z2 eq_refl Dd). cbn [Z.add Pos.add Pos.succ].
        eexists. rewrite <- Hz. split; [f_equal; apply patch_patch|].
        apply functional_extensionality; intro i. unfold acc_cycle. rewrite Hz.
        replace (n1 + 1 <=? n1)%nat with false by (symmetry; apply Nat.leb_gt; lia).
        replace (n1 + 1 <=? n1 + 0)%nat with false by (symmetry; apply Nat.leb_gt; lia).
        rewrite !Nat.eqb_refl. cbn [andb]. rewrite (V 3%Z) by auto. rewrite Hz. unfold patch.
        destruct (Nat.eqb_spec i 0) as [->|]; [|reflexivity]. now replace (0 <? d)%nat with true by (symmetry; apply Nat.ltb_lt; lia).
      - rewrite (Nat.max_r 1 n2) by lia.
        rewrite (phase_end ph dt Hd Hdt 2%Z n2 _ I2 E2) by lia. cbn [Z.add Pos.add Pos.succ].
        eexists. split; [f_equal; apply patch_patch|]. rewrite V by auto.
        apply functional_extensionality; intro i. unfold acc_cycle.
        replace (n1 + n2 <=? n1)%nat with false by (symmetry; apply Nat.leb_gt; lia).
        rewrite Nat.leb_refl. replace (n1 + n2 - n1)%nat with n2 by lia. reflexivity. }
    destruct P2 as (L2 & P2 & EL2).
    assert (P3 : Nat.iter (acc_cycles n1 n2 n3) run (D false 1%Z 0 L) =
       D false 4%Z 0 (patch d (along start dist (trapezoid (INR n1 * dt) (INR n2 * dt) (INR n3 * dt) 3%Z (INR n3 * dt))) L)).
    { unfold acc_cycles. rewrite iter_add, P2. rewrite (phase_end ph dt Hd Hdt 3%Z n3 _ I3 E3 H3). rewrite V by auto.
      cbn [Z.add Pos.add Pos.succ]. f_equal. apply patch_patch. }
    unfold acc_cycles in *.
    destruct (le_lt_dec k n1) as [K1|K1].
    { (* phase 1 *)
      replace (n1 + Nat.max 1 n2 + n3 <? k)%nat with false by (symmetry; apply Nat.ltb_ge; lia).
      assert (A : acc_cycle dt start dist n1 n2 n3 k = along start dist (trapezoid (INR n1 * dt) (INR n2 * dt) (INR n3 * dt) 1 (INR k * dt))).
      { apply functional_extensionality; intro i. unfold acc_cycle.
        now replace (k <=? n1)%nat with true by (symmetry; apply Nat.leb_le; lia). }
      rewrite A. destruct (Nat.eq_dec k n1) as [->|].
      - rewrite P1. now split.
      - rewrite (phase_inside ph dt Hd Hdt 1%Z n1 L k I1 E1) by lia. rewrite V by auto.
        replace (k =? 0)%nat with false by (symmetry; apply Nat.eqb_neq; lia). now split. }
    destruct (le_lt_dec k (n1 + Nat.max 1 n2)) as [K2|K2].
    { replace (n1 + Nat.max 1 n2 + n3 <? k)%nat with false by (symmetry; apply Nat.ltb_ge; lia).
      destruct (Nat.eq_dec k (n1 + Nat.max 1 n2)) as [->|Hne].
      - rewrite P2, EL2. now split.
      - assert (n2 <> 0)%nat by (clear -K1 K2 Hne; intros ->; cbn [Nat.max] in *; lia). rewrite
 (Nat.max_r 1 n2) in * by lia.
        assert (Ek : Nat.iter k run (D false 1%Z 0 L) = Nat.iter (k - n1) run (Nat.iter n1 run (D false 1%Z 0 L))) by (rewrite <- iter_add; f_equal; lia).
        rewrite Ek, P1.
        rewrite (phase_inside ph dt Hd Hdt 2%Z n2 _ (k - n1) I2 E2) by lia. rewrite V by auto.
        replace (k - n1 =? 0)%nat with false by (symmetry; apply Nat.eqb_neq; lia). split; [reflexivity|].
        cbn [dy_last]. etransitivity; [apply patch_patch|]. f_equal. apply functional_extensionality; intro i. unfold acc_cycle.
        replace (k <=? n1)%nat with false by (symmetry; apply Nat.leb_gt; lia).
        now replace (k <=? n1 + n2)%nat with true by (symmetry; apply Nat.leb_le; lia). }
    assert (C1 : (k <=? n1)%nat = false) by (apply Nat.leb_gt; lia).
    assert (C2 : (k <=? n1 + n2)%nat = false) by (apply Nat.leb_gt; lia).
    assert (C3 : ((n2 =? 0) && (k =? n1 + 1))%nat = false).
    { destruct (Nat.eqb_spec n2 0); [|reflexivity]. cbn [andb]. subst n2. cbn in K2. apply Nat.eqb_neq. lia. }
    destruct (le_lt_dec k (n1 + Nat.max 1 n2 + n3)) as [K3|K3].
    { replace (n1 + Nat.max 1 n2 + n3 <? k)%nat with false by (symmetry; apply Nat.ltb_ge; lia).
      assert (A : acc_cycle dt start dist n1 n2 n3 k = along start dist (trapezoid (INR n1 * dt) (INR n2 * dt) (INR n3 * dt) 3 (INR (k - n1 - Nat.max 1 n2) * dt))).
      { apply functional_extensionality; intro i. unfold acc_cycle, acc_cycles. rewrite C1, C2, C3.
        now replace (k <=? n1 + Nat.max 1 n2 + n3)%nat with true by (symmetry; apply Nat.leb_le; lia). }
      rewrite A. destruct (Nat.eq_dec k (n1 + Nat.max 1 n2 + n3)) as [E|Hne].
      - assert (Ek : Nat.iter k run (D false 1%Z 0 L) = Nat.iter (n1 + Nat.max 1 n2 + n3) run (D false 1%Z 0 L)) by now rewrite E.
        rewrite Ek, P3. split; [reflexivity|]. now replace (k - n1 - Nat.max 1 n2)%nat with n3 by lia.
      - assert (Ek : Nat.iter k run (D false 1%Z 0 L) = Nat.iter (k - n1 - Nat.max 1 n2) run (Nat.iter (n1 + Nat.max 1 n2) run (D false 1%Z 0 L))) by (rewrite <- iter_add; f_equal; lia).
        rewrite Ek, P2.
        rewrite (phase_inside ph dt Hd Hdt 3%Z n3 _ (k - n1 - Nat.max 1 n2) I3 E3) by lia. rewrite V by auto.
        replace (k - n1 - Nat.max 1 n2 =? 0)%nat with false by (symmetry; apply Nat.eqb_neq; lia). split; [reflexivity|].
        cbn [dy_last]. apply patch_patch. }
    replace (n1 + Nat.max 1 n2 + n3 <? k)%nat with true by (symmetry; apply Nat.ltb_lt; lia).
    assert (A : acc_cycle dt start dist n1 n2 n3 k = fun i => (start i + dist i, 0, 0)).
    { apply functional_extensionality; intro i. unfold acc_cycle, acc_cycles. rewrite C1, C2, C3.
      now replace (k <=? n1 + Nat.max 1 n2 + n3)%nat with false by (symmetry; apply Nat.leb_gt; lia). }
    rewrite A. replace k with ((n1 + Nat.max 1 n2 + n3) + (1 + (k - (n1 + Nat.max 1 n2 + n3) - 1)))%nat by lia.
    rewrite iter_add, P3, iter_add.
    match goal with |- context [Nat.iter 1 run ?x] => change (Nat.iter 1 run x) with (run x) end.
    pose proof (phase_final ph dt Hd 0 (patch d (along start dist (trapezoid (INR n1 * dt) (INR n2 * dt) (INR n3 * dt) 3 (INR n3 * dt))) L) ltac:(cbn; lia)) as F.
    cbn [ph_n pa_phases Z.add Pos.add Pos.succ] in F. rewrite F.
    assert (G : forall j t L', exists t', Nat.iter j run (D true 4%Z t L') = D true 4%Z t' L').
    { induction j; intros t L'; [now exists t|]. destruct (IHj t L') as [t' Ej]. rewrite iter_S, Ej, run_idle. eexists; reflexivity. }
    destruct (G (k - (n1 + Nat.max 1 n2 + n3) - 1)%nat (0 + dt) (patch (ph_dim ph) (ph_end ph) (patch d (along start dist (trapezoid (INR n1 * dt) (INR n2 * dt) (INR n3 * dt) 3 (INR n3 * dt))) L))) as [t' G'].
    rewrite G'. split; [reflexivity|]. cbn [dy_last ph_dim pa_phases]. rewrite patch_patch. f_equal.
    apply functional_extensionality; intro i. cbn. now rewrite Hend.
  Qed.
End AccMaster.
