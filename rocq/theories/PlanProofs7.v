(** Shape of the constant jerk motion: limits, continuity, end. *)
From Coq Require Import Reals Lra Lia ZArith FunctionalExtensionality Bool.
From Verif Require Import Prelude PlanSpec.
Open Scope R_scope.

Lemma integrate_split j t h q : integrate j (t + h) q = integrate j h (integrate j t q).
Proof. destruct q as [[s w] a]. unfold integrate. repeat match goal with |- (_, _) = (_, _) => f_equal end; field. Qed.
Lemma integrate_0 j q : integrate j 0 q = q.
Proof. destruct q as [[s w] a]. unfold integrate. repeat match goal with |- (_, _) = (_, _) => f_equal end; field. Qed.
Lemma along_integrate start dist i j T q : integrate (dist i * j) T (along start dist q i) = along start dist (integrate j T q) i.
Proof. destruct q as [[s w] a]. unfold integrate, along. repeat match goal with |- (_, _) = (_, _) => f_equal end; field. Qed.
Lemma along4_along start dist q j i : along4 start dist (q, j) i = (along start dist q i, dist i * j).
Proof. destruct q as [[s w] a]. reflexivity. Qed.

Section Profile.
  Context (T1 T2 : R).
  Hypothesis H1 : 0 < T1. Hypothesis H2 : 0 <= T2.
  Notation J := (1 / (T2 + 2 * T1) / (T1 * T1)).
  Notation V := (1 / (T2 + 2 * T1)).
  Notation jp := (jerk_profile T1 T2).
  Definition pdur (r : Z) : R := if Z.eqb r 3 then T2 else T1.
  Definition pjerk (r : Z) : R := if Z.eqb r 1 then J else if Z.eqb r 2 then - J else if Z.eqb r 3 then 0 else if Z.eqb r 4 then - J else J.
  Definition five (r : Z) : Prop := (r = 1 \/ r = 2 \/ r = 3 \/ r = 4 \/ r = 5)%Z.

  Lemma prof_form r t : five r -> jp r t = (integrate (pjerk r) t (fst (jp r 0)), pjerk r).
  Proof.
    intros Hr. destruct Hr as [->|[->|[->|[->| ->]]]]; unfold jerk_profile, pjerk; cbv zeta; cbn [Z.eqb Pos.eqb]; cbn [fst];
    now rewrite integrate_0.
  Qed.
  Lemma prof_join r : (r = 1 \/ r = 2 \/ r = 3 \/ r = 4)%Z -> fst (jp r (pdur r)) = fst (jp (r + 1) 0).
  Proof.
    intros Hr. destruct Hr as [->|[->|[->| ->]]]; unfold jerk_profile, pdur; cbv zeta; cbn [Z.eqb Pos.eqb Z.add Pos.add Pos.succ fst];
    now rewrite integrate_0.
  Qed.
  Lemma prof_start : fst (jp 1 0) = (0, 0, 0).
  Proof. unfold jerk_profile. cbv zeta. cbn [Z.eqb Pos.eqb fst]. apply integrate_0. Qed.
  Lemma prof_end : fst (jp 5 T1) = (1, 0, 0).
  Proof.
    unfold jerk_profile. cbv zeta. cbn [Z.eqb Pos.eqb fst]. unfold integrate.
    repeat match goal with |- (_, _) = (_, _) => f_equal end; field; lra.
  Qed.
  Lemma V_posj : 0 < V. Proof. apply Rdiv_lt_0_compat; lra. Qed.
  Lemma J_posj : 0 < J. Proof. apply Rdiv_lt_0_compat; [apply V_posj|nra]. Qed.
  Lemma JV : J * (T1 * T1) = V. Proof. field. lra. Qed.

  Lemma prof_limits r t : five r -> 0 <= t <= pdur r ->
    let '(s, w, a, j) := jp r t in 0 <= s <= 1 /\ 0 <= w <= V /\ Rabs a <= J * T1 /\ Rabs j <= J.
  Proof.
    intros Hr Ht. pose proof J_posj as HJ. pose proof V_posj as HV. pose proof JV as E.
    assert (EV : V * (T2 + 2 * T1) = 1) by (field; lra).
    destruct Hr as [->|[->|[->|[->| ->]]]]; unfold jerk_profile, pdur in *; cbv zeta; cbn [Z.eqb Pos.eqb] in *; unfold integrate;
      set (v := 1 / (T2 + 2 * T1)) in *; set (j := v / (T1 * T1)) in *; clearbody j; clearbody v; subst v; clear HV;
      assert (U : forall u, 0 <= u <= T1 -> (0 <= j * u <= j * T1) /\ (0 <= j * (u * u) <= j * (T1 * T1)) /\ (0 <= j * (u * u * u) <= j * (T1 * T1 * T1))
        /\ (0 <= j * (T1 * T1) * u <= j * (T1 * T1 * T1)) /\ (j * (u * u * u) <= j * (T1 * T1) * u) /\ j * (u * u) <= j * T1 * u)
       by (intros u Hu; assert (0 <= u * u <= T1 * T1) by nra; assert (0 <= u * u * u <= T1 * T1 * T1) by (split; [|apply Rmult_le_compat]; nra);
           assert (0 <= j * (T1 * T1)) by nra; assert (u * u * u <= T1 * T1 * u) by (apply Rmult_le_compat_r; lra); repeat split; nra);
      assert (B : 0 <= j * (T1 * T1) * T2) by (repeat apply Rmult_le_pos; lra);
      assert (0 < j * T1) by nra; assert (0 <= j * (T1 * T1 * T1)) by (repeat apply Rmult_le_pos; lra).
    - pose proof (U t Ht). repeat split; try (apply Rabs_le); lra.
    - pose proof (U t Ht). pose proof (U (T1 - t) ltac:(lra)). repeat split; try (apply Rabs_le); lra.
    - assert (0 <= j * (T1 * T1) * t <= j * (T1 * T1) * T2) by (split; [repeat apply Rmult_le_pos|apply Rmult_le_compat_l; [repeat apply Rmult_le_pos|]]; lra).
      pose proof (U T1 ltac:(lra)). repeat split; try (apply Rabs_le); lra.
    - pose proof (U t Ht). repeat split; try (apply Rabs_le); lra.
    - pose proof (U t Ht). pose proof (U (T1 - t) ltac:(lra)). repeat split; try (apply Rabs_le); lra.
  Qed.
End Profile.

Section Cycle.
  Context (dt : R) (start dist : nat -> R) (n1 n2 : nat).
  Hypothesis Hdt : 0 < dt. Hypothesis H1 : (0 < n1)%nat. Hypothesis H2 : (0 < n2)%nat.
  Notation T1 := (INR n1 * dt). Notation T2 := (INR n2 * dt).
  Notation jp := (jerk_profile T1 T2).
  Notation cyc := (jerk_cycle dt start dist n1 n2).
  Definition first_of (r : Z) : nat :=
    if Z.eqb r 1 then 0 else if Z.eqb r 2 then n1 else if Z.eqb r 3 then 2 * n1 else if Z.eqb r 4 then 2 * n1 + n2 else 3 * n1 + n2.
  Definition len_of (r : Z) : nat := if Z.eqb r 3 then n2 else n1.
  Definition motion (k : nat) (i : nat) : R * R * R := match k with O => (start i, 0, 0) | _ => fst (cyc k i) end.

  Lemma T1p : 0 < T1. Proof. apply Rmult_lt_0_compat; [apply lt_0_INR; lia|exact Hdt]. Qed.
  Lemma T2p : 0 < T2. Proof. apply Rmult_lt_0_compat; [apply lt_0_INR; lia|exact Hdt]. Qed.
  Lemma len_dur r : pdur T1 T2 r = INR (len_of r) * dt.
  Proof. unfold pdur, len_of. now destruct (Z.eqb r 3). Qed.

  Lemma cyc_loc r j i : five r -> (0 < j <= len_of r)%nat -> cyc (first_of r + j) i = along4 start dist (jp r (INR j * dt)) i.
  Proof.
    intros Hr Hj.
    assert (B1 : forall b a : nat, (b < a)%nat -> (a <=? b)%nat = false) by (intros; apply Nat.leb_gt; lia).
    assert (B2 : forall b a : nat, (a <= b)%nat -> (a <=? b)%nat = true) by (intros; apply Nat.leb_le; lia).
    unfold jerk_cycle. cbv zeta.
    destruct Hr as [->|[->|[->|[->| ->]]]]; unfold first_of, len_of in *; cbn [Z.eqb Pos.eqb] in *;
    repeat first [rewrite B1 by lia | rewrite B2 by lia];
    match goal with |- along4 _ _ (jerk_profile _ _ _ (INR ?a * _)) _ = along4 _ _ (jerk_profile _ _ _ (INR ?b * _)) _ => replace a with b by lia end;
    reflexivity.
  Qed.

  Lemma locate k : (0 < k <= 4 * n1 + n2)%nat -> exists r j, five r /\ (j < len_of r)%nat /\ k = (first_of r + S j)%nat.
  Proof.
    intros Hk. unfold five.
    destruct (le_lt_dec k n1). { exists 1%Z, (k - 1)%nat. unfold first_of, len_of; cbn [Z.eqb Pos.eqb]. repeat split; [auto|lia|lia]. }
    destruct (le_lt_dec k (2 * n1)). { exists 2%Z, (k - n1 - 1)%nat. unfold first_of, len_of; cbn [Z.eqb Pos.eqb]. repeat split; [auto|lia|lia]. }
    destruct (le_lt_dec k (2 * n1 + n2)). { exists 3%Z, (k - 2 * n1 - 1)%nat. unfold first_of, len_of; cbn [Z.eqb Pos.eqb]. repeat split; [auto|lia|lia]. }
    destruct (le_lt_dec k (3 * n1 + n2)). { exists 4%Z, (k - 2 * n1 - n2 - 1)%nat. unfold first_of, len_of; cbn [Z.eqb Pos.eqb]. repeat split; [auto 6|lia|lia]. }
    exists 5%Z, (k - 3 * n1 - n2 - 1)%nat. unfold first_of, len_of; cbn [Z.eqb Pos.eqb]. repeat split; [auto 6|lia|lia].
  Qed.

  Lemma fst_along4 q i : fst (along4 start dist q i) = along start dist (fst q) i.
  Proof. destruct q as [q j]. now rewrite along4_along. Qed.

  Lemma motion_loc r j i : five r -> (j <= len_of r)%nat -> motion (first_of r + j) i = along start dist (fst (jp r (INR j * dt))) i.
  Proof.
    intros Hr Hj. destruct j as [|j].
    - change (INR 0) with 0. rewrite (Rmult_0_l dt). destruct (Z.eq_dec r 1) as [->|Hne].
      + unfold first_of. cbn [Z.eqb Pos.eqb Nat.add motion]. rewrite prof_start. unfold along. repeat match goal with |- (_, _) = (_, _) => f_equal end; ring.
      + assert (Hp : five (r - 1)) by (unfold five in *; lia).
        assert (Ef : (first_of r + 0 = first_of (r - 1) + len_of (r - 1))%nat).
        { unfold five in Hr. destruct Hr as [->|[->|[->|[->| ->]]]]; [lia| | | |]; unfold first_of, len_of; cbn; lia. }
        assert (L : (0 < len_of (r - 1))%nat) by (unfold len_of; destruct (Z.eqb (r - 1) 3); assumption).
        rewrite Ef. unfold motion. destruct (first_of (r - 1) + len_of (r - 1))%nat eqn:En; [lia|]. rewrite <- En.
        rewrite cyc_loc by (try exact Hp; lia). rewrite fst_along4. f_equal. rewrite <- len_dur.
        rewrite prof_join by (unfold five in *; lia). now replace (r - 1 + 1)%Z with r by lia.
    - unfold motion. destruct (first_of r + S j)%nat eqn:En; [lia|]. rewrite <- En. rewrite cyc_loc by (try exact Hr; lia). apply fst_along4.
  Qed.

  (** Every cycle continues the previous one with the constant jerk it puts out. *)
  Lemma jerk_cycle_step k i : (k < 4 * n1 + n2)%nat ->
    motion (S k) i = integrate (snd (cyc (S k) i)) dt (motion k i).
  Proof.
    intros Hk. destruct (locate (S k) ltac:(lia)) as (r & j & Hr & Hj & Ek). rewrite Ek.
    assert (Ek' : k = (first_of r + j)%nat) by lia. rewrite Ek'. rewrite !motion_loc by (try exact Hr; lia).
    rewrite cyc_loc by (try exact Hr; lia). rewrite !(prof_form T1 T2 r (INR _ * dt) Hr).
    rewrite along4_along. cbn [snd fst]. rewrite along_integrate. f_equal. rewrite <- integrate_split. f_equal.
    rewrite S_INR. ring.
  Qed.

  Lemma jerk_cycle_reach i : motion (4 * n1 + n2) i = (start i + dist i, 0, 0).
  Proof.
    assert (E : (4 * n1 + n2 = first_of 5 + n1)%nat) by (unfold first_of; cbn; lia). rewrite E.
    rewrite motion_loc by (unfold five, len_of; cbn; auto 6; lia). rewrite prof_end by (pose proof T1p; pose proof T2p; lra).
    unfold along. repeat match goal with |- (_, _) = (_, _) => f_equal end; ring.
  Qed.

  Lemma jerk_cycle_limits k i : (0 < k)%nat ->
    let V := 1 / (T2 + 2 * T1) in
    let '(p, v, a, j) := cyc k i in
    Rabs v <= V * Rabs (dist i) /\ Rabs a <= V / T1 * Rabs (dist i) /\ Rabs j <= V / (T1 * T1) * Rabs (dist i).
  Proof.
    intros Hk. cbv zeta. pose proof T1p as P1. pose proof T2p as P2. pose proof (V_posj T1 T2 P1 ltac:(lra)) as PV.
    pose proof (J_posj T1 T2 P1 ltac:(lra)) as PJ. pose proof (Rabs_pos (dist i)) as PD.
    destruct (le_lt_dec k (4 * n1 + n2)) as [Hle|Hgt].
    - destruct (locate k ltac:(lia)) as (r & j & Hr & Hj & Ek). rewrite Ek. rewrite cyc_loc by (try exact Hr; lia).
      assert (Ht : 0 <= INR (S j) * dt <= pdur T1 T2 r).
      { rewrite len_dur. split; [apply Rmult_le_pos; [apply pos_INR|lra]|]. apply Rmult_le_compat_r; [lra|]. apply le_INR; lia. }
      pose proof (prof_limits T1 T2 P1 ltac:(lra) r _ Hr Ht) as B. destruct (jp r (INR (S j) * dt)) as [[[s w] a] jj].
      destruct B as (Bs & Bw & Ba & Bj). unfold along4. rewrite !Rabs_mult. rewrite (Rabs_pos_eq w) by lra.
      assert (G : forall x b, x <> 0 -> b / (x * x) * x = b / x) by (intros; field; assumption).
      assert (EJ : 1 / (T2 + 2 * T1) / (T1 * T1) * T1 = 1 / (T2 + 2 * T1) / T1) by (apply G; lra).
      rewrite EJ in Ba. rewrite !(Rmult_comm (Rabs (dist i))). repeat split; apply Rmult_le_compat_r; lra.
    - unfold jerk_cycle. cbv zeta. rewrite !(proj2 (Nat.leb_gt _ _)) by lia. rewrite !Rabs_R0.
      repeat split; apply Rmult_le_pos; try lra. apply Rlt_le, Rdiv_lt_0_compat; lra.
  Qed.
End Cycle.
