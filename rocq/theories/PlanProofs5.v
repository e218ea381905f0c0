(** Proofs about PathPlannerConstJerk in exact arithmetic. *)
From Coq Require Import Reals Lra Lia ZArith FunctionalExtensionality Bool.
From Flocq Require Import Core.Raux.
From Verif Require Import Prelude Num NumX PlanModel PlanSpec PlanProofs PlanProofs2 PlanProofs3.
Open Scope R_scope.

(** Motions whose phases all last at least one cycle. *)
Section AllPhases.
  Context {Y : Type} (p : phases Rnum Y) (dt : R) (c : Z -> nat).
  Hypothesis Hd : (0 < ph_dim p)%nat.
  Hypothesis Hdt : eps Rnum <= dt.
  Hypothesis Hc : forall r, inner p r -> ph_dur p r = INR (c r) * dt /\ (0 < c r)%nat.
  Notation run := (ph_run Rnum p dt).
  Notation D := (@Build_dyn Rnum Y).
  (** First cycle of phase r (as number of cycles before). *)
  Fixpoint begins (r : nat) : nat := match r with O => 0 | S O => 0 | S r' => begins r' + c (Z.of_nat r') end.

  Lemma begins_S r : (0 < r)%nat -> begins (S r) = (begins r + c (Z.of_nat r))%nat.
  Proof. destruct r; [lia|reflexivity]. Qed.

  Lemma at_begin r L : (1 <= r)%nat -> (Z.of_nat r <= ph_n p + 1)%Z ->
    exists L', Nat.iter (begins r) run (D false 1%Z 0 L) = D false (Z.of_nat r) 0 (patch (ph_dim p) L' L).
  Proof.
    induction r as [|r IH]; intros H1 H2; [lia|]. destruct r as [|r].
    - exists L. cbn. now rewrite patch_keep.
    - rewrite begins_S by lia. rewrite iter_add. destruct IH as [L' E]; [lia|lia|]. rewrite E.
      assert (I : inner p (Z.of_nat (S r))) by (unfold inner; lia). destruct (Hc _ I) as [Hd1 Hd2].
      rewrite (phase_end p dt Hd Hdt _ _ _ I Hd1 Hd2). eexists. rewrite patch_patch.
      f_equal. lia.
  Qed.

  Lemma in_phase r L k : (1 <= r)%nat -> (Z.of_nat r <= ph_n p)%Z -> (begins r < k <= begins (S r))%nat ->
    let s := Nat.iter k run (D false 1%Z 0 L) in
    dy_fin s = false /\ dy_last s = patch (ph_dim p) (ph_val p (Z.of_nat r) (INR (k - begins r) * dt)) L.
  Proof.
    intros H1 H2 Hk. destruct (at_begin r L H1 ltac:(lia)) as [L' E]. cbn zeta.
    rewrite begins_S in Hk by lia. set (j := (k - begins r)%nat). assert (Hj : (0 < j <= c (Z.of_nat r))%nat) by (unfold j; lia).
    assert (Ek : k = (begins r + j)%nat) by (unfold j; lia). clearbody j. subst k. rewrite iter_add, E.
    assert (I : inner p (Z.of_nat r)) by (unfold inner; lia). destruct (Hc _ I) as [Hd1 Hd2].
    destruct (Nat.eq_dec j (c (Z.of_nat r))) as [Ej|Hne].
    - rewrite Ej. rewrite (phase_end p dt Hd Hdt _ _ _ I Hd1 Hd2). split;
 [reflexivity|]. apply patch_patch.
    - rewrite (phase_inside p dt Hd Hdt _ _ _ j I Hd1) by lia. replace (j =? 0)%nat with false by (symmetry; apply Nat.eqb_neq; lia).
      split; [reflexivity|]. apply patch_patch.
  Qed.

  Lemma past_phases L k : (0 <= ph_n p)%Z -> (begins (S (Z.to_nat (ph_n p))) < k)%nat ->
    let s := Nat.iter k run (D false 1%Z 0 L) in
    dy_fin s = true /\ dy_last s = patch (ph_dim p) (ph_end p) L.
  Proof.
    intros Hn Hk. cbn zeta. set (m := S (Z.to_nat (ph_n p))) in *.
    destruct (at_begin m L ltac:(lia) ltac:(lia)) as [L' E].
    replace k with (begins m + (1 + (k - begins m - 1)))%nat by lia. rewrite iter_add, E, iter_add.
    match goal with |- context [Nat.iter 1 run ?x] => change (Nat.iter 1 run x) with (run x) end.
    replace (Z.of_nat m) with (ph_n p + 1)%Z by lia.
    rewrite (phase_final p dt Hd 0 _ Hn). rewrite patch_patch.
    assert (G : forall j t r L0, exists t', Nat.iter j run (D true r t L0) = D true r t' L0).
    { induction j; intros t r L0; [now exists t|]. destruct (IHj t r L0) as [t' Ej]. rewrite iter_S, Ej, run_idle. eexists; reflexivity. }
    destruct (G (k - begins m - 1)%nat (0 + dt) (ph_n p + 1)%Z (patch (ph_dim p) (ph_end p) L)) as [t' ->]. now split.
  Qed.
End AllPhases.

Section MakeJ.
  Context (cb : R -> R) (dt v j : R) (start dist endp : nat -> R).
  Hypothesis Hcb : forall x, 0 < x -> 0 < cb x /\ cb x * cb x * cb x = x.
  Hypothesis Hdt : 0 < dt. Hypothesis Hv : 0 < v. Hypothesis Hj : 0 < j.
  Notation p := (pj_make Rnum sqrt cb dt start dist endp v j).
  Notation vm := (1 / (2 * cb (1 / (2 * j)))).

  Lemma vm_cube : 0 < vm /\ 4 * (vm * vm * vm) = j.
  Proof.
    assert (P : 0 < 1 / (2 * j)) by (apply Rdiv_lt_0_compat; lra).
    destruct (Hcb _ P) as [C1 C2]. set (c := cb (1 / (2 * j))) in *. split; [apply Rdiv_lt_0_compat; lra|].
    replace (4 * (1 / (2 * c) * (1 / (2 * c)) * (1 / (2 * c)))) with (1 / (2 * (c * c * c))) by (field; lra).
    rewrite C2. field. lra.
  Qed.

  Lemma makej_durations : exists n1 n2,
    pj_dT1 p = INR n1 * dt /\ pj_dT2 p = INR n2 * dt /\ (0 < n1)%nat /\
    (let V := 1 / (INR n2 * dt + 2 * (INR n1 * dt)) in
     0 < V <= v /\ V / (INR n1 * dt * (INR n1 * dt)) <= j) /\ (vm < v -> n2 = 0%nat) /\ (v < vm -> (0 < n2)%nat).
  Proof.
    destruct vm_cube as [Hvm C]. unfold pj_make, pj_times, lit, p2. cbn [pj_dT1 pj_dT2 nadd nsub nmul ndiv nltb nofZ Rnum].
    change (nT Rnum) with R in *. set (w := vm) in *.
    set (v1 := if Rlt_bool w v then w else v).
    assert (V1 : 0 < v1 /\ v1 <= v /\ v1 <= w) by (unfold v1; destruct (Rlt_bool_spec w v); lra).
    destruct V1 as (P1 & L1 & L2).
    set (t1 := sqrt (v1 / j)).
    assert (Q : 0 < v1 / j) by (apply Rdiv_lt_0_compat; assumption).
    assert (T1p : 0 < t1) by (apply sqrt_lt_R0; exact Q).
    assert (S1 : t1 * t1 = v1 / j) by (apply sqrt_sqrt; lra).
    assert (J1 : j * (t1 * t1) = v1) by (rewrite S1; field; lra).
    (* 2 v1 t1 <= 1 *)
    assert (M : 2 * v1 * t1 <= 1).
    { assert (v1 * v1 * v1 <= w * w * w) by (repeat apply Rmult_le_compat; nra).
      assert (j * ((2 * v1 * t1) * (2 * v1 * t1)) <= j).
      { replace (j * ((2 * v1 * t1) * (2 * v1 * t1))) with (4 * (v1 * v1) * (j * (t1 * t1))) by ring. rewrite J1. nra. }
      assert ((2 * v1 * t1) * (2 * v1 * t1) <= 1) by nra. destruct (Rle_or_lt (2 * v1 * t1) 1); [assumption|nra]. }
    set (t2 := 1 / v1 - 4 * t1 * (1 / 2)).
    assert (E2 : t2 * v1 = 1 - 2 * v1 * t1) by (unfold t2; field; lra).
    assert (T2p : 0 <= t2) by nra.
    replace (if Rlt_bool t2 0 then 0 else t2) with t2 by (now rewrite Rlt_bool_false).
    destruct (nceil_R (t1 / dt)) as (n1 & C1 & G1 & Q1 & _); [apply Rlt_le, Rdiv_lt_0_compat; assumption|].
    destruct (nceil_R (t2 / dt)) as (n2 & C2 & G2 & Q2 & Z2); [apply Rmult_le_pos; [assumption|apply Rlt_le, Rinv_0_lt_compat; assumption]|].
    exists n1, n2. cbn in C1, C2 |- *. rewrite C1, C2.
    assert (N1 : (0 < n1)%nat) by (apply Q1, Rdiv_lt_0_compat; assumption).
    assert (B1 : t1 <= INR n1 * dt) by (apply Rmult_le_compat_r with (r := dt) in G1; [|lra]; replace (t1 / dt * dt) with t1 in G1 by (field; lra); exact G1).
    assert (B2 : t2 <= INR n2 * dt) by (apply Rmult_le_compat_r with (r := dt) in G2; [|lra]; replace (t2 / dt * dt) with t2 in G2 by (field; lra); exact G2).
    repeat split; try exact N1.
    1,2,3: assert (B : 1 / v1 <= INR n2 * dt + 2 * (INR n1 * dt)) by (unfold t2 in *; lra).
    1,2,3: assert (I1 : 0 < 1 / v1) by (apply Rdiv_lt_0_compat; lra).
    1,2,3: set (X := INR n2 * dt + 2 * (INR n1 * dt)) in *.
    1,2,3: assert (VX : 1 / X <= v1) by (replace v1 with (1 / (1 / v1)) by (field; lra); unfold Rdiv; rewrite !Rmult_1_l; apply Rinv_le_contravar; unfold Rdiv in *; rewrite ?Rmult_1_l in *; lra).
    1,2,3: assert (VP : 0 < 1 / X) by (apply Rdiv_lt_0_compat; lra).
    - exact VP.
    - lra.
    - apply Rle_trans with (v1 / (t1 * t1)); [|rewrite S1; right; field; lra].
      unfold Rdiv at 1 2. apply Rmult_le_compat; [lra| |exact VX|apply Rinv_le_contravar; nra].
      apply Rlt_le, Rinv_0_lt_compat; nra.
    - intros H. apply Z2. unfold v1 in *. rewrite Rlt_bool_true in * by exact H.
      assert (K : (2 * w * t1) * (2 * w * t1) = 1).
      { replace ((2 * w * t1) * (2 * w * t1)) with (4 * (w * w) * (t1 * t1)) by ring. rewrite S1.
        replace (4 * (w * w) * (w / j)) with (4 * (w * w * w) / j) by (field; lra). rewrite C. field. lra. }
      assert (W : 2 * w * t1 = 1).
      { assert (A : 0 < 2 * w * t1) by (apply Rmult_lt_0_compat; lra). revert K A. generalize (2 * w * t1). intros x K A.
        assert (F : (x - 1) * (x + 1) = 0) by lra. apply Rmult_integral in F. destruct F; lra. }
      assert (Z0 : t2 * w = 0) by lra. apply Rmult_integral in Z0. destruct Z0 as [Z0|Z0]; [|lra]. rewrite Z0. field. lra.
    - intros H. apply Q2. unfold v1 in *. rewrite Rlt_bool_false in * by lra.
      assert (2 * v * t1 < 1).
      { assert (A1 : v * v < w * w) by nra. assert (A2 : v * v * v < w * w * w) by (apply Rmult_gt_0_lt_compat; nra).
        assert (A3 : j * ((2 * v * t1) * (2 * v * t1)) < j).
        { replace (j * ((2 * v * t1) * (2 * v * t1))) with (4 * (v * v) * (j * (t1 * t1))) by ring. rewrite J1. lra. }
        destruct (Rle_or_lt 1 (2 * v * t1)) as [A4|A4]; [|exact A4]. exfalso.
        assert (1 <= (2 * v * t1) * (2 * v * t1)) by (revert A4; generalize (2 * v * t1); intros; nra).
        revert A3 H. generalize ((2 * v * t1) * (2 * v * t1)). intros; nra. }
      apply Rdiv_lt_0_compat; [|exact Hdt]. apply Rmult_lt_reg_r with v; [exact Hv|]. lra.

  Qed.

  Lemma makej_values n1 n2 : pj_dT1 p = INR n1 * dt -> pj_dT2 p = INR n2 * dt -> (0 < n1)%nat ->
    forall r t i, (r = 1 \/ r = 2 \/ r = 3 \/ r = 4 \/ r = 5)%Z ->
    pj_val Rnum p r t i = along4 start dist (jerk_profile (INR n1 * dt) (INR n2 * dt) r t) i.
  Proof.
    intros E1 E2 H1 r t i Hr. rewrite <- E1, <- E2.
    assert (Q1 : 0 < pj_dT1 p) by (rewrite E1; apply Rmult_lt_0_compat; [apply lt_0_INR; lia|assumption]).
    assert (Q2 : 0 <= pj_dT2 p) by (rewrite E2; apply Rmult_le_pos; [apply pos_INR|lra]).
    clear E1 E2 H1. revert Q1 Q2. unfold pj_make. destruct (pj_times Rnum sqrt cb dt v j) as [T1 T2].
    unfold pj_coefs. cbv zeta. cbn [pj_dT1 pj_dT2].
    intros Q1 Q2. unfold lit, nopp, p2, p3 in *.
 cbn [nadd nsub nmul ndiv nltb nofZ Rnum nT] in *.
    unfold pj_val, jerk_profile, along4, integrate, p2, p3.
    destruct Hr as [->|[->|[->|[->| ->]]]]; cbn;
      repeat match goal with |- (_, _) = (_, _) => f_equal end; try (field; repeat split; lra).
  Qed.
End MakeJ.
