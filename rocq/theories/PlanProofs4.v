(** Limits and exactness of the planned motion; accumulation of time in binary64. *)
From Coq Require Import Reals Lra Lia ZArith Bool Floats.SpecFloat.
From Flocq Require Import Core.Raux.
From Verif Require Import Prelude Num NumX NumOrd NumDbl PlanModel PlanSpec PlanProofs PlanProofs2 PlanProofs3.
Open Scope R_scope.

Section Profile.
  Context (T1 T2 T3 : R).
  Hypothesis H1 : 0 < T1. Hypothesis H2 : 0 <= T2. Hypothesis H3 : 0 < T3.
  Notation V := (1 / (T2 + (T1 + T3) / 2)).
  Notation tr := (trapezoid T1 T2 T3).
  Lemma V_pos : 0 < V. Proof. apply Rdiv_lt_0_compat; lra. Qed.
  Lemma V_one : V * (T2 + (T1 + T3) / 2) = 1. Proof. field. lra. Qed.
  Definition dur (r : Z) : R := if (r =? 1)%Z then T1 else if (r =? 2)%Z then T2 else T3.

  Lemma trap_range r t : (r = 1 \/ r = 2 \/ r = 3)%Z -> 0 <= t <= dur r ->
    let '(s, w, a) := tr r t in 0 <= s <= 1 /\ 0 <= w <= V /\ - (V / T3) <= a <= V / T1.
  Proof.
    pose proof V_pos as VP. pose proof V_one as V1. unfold trapezoid, dur. set (v := V) in *. clearbody v.
    assert (A1 : 0 < v / T1) by (apply Rdiv_lt_0_compat; assumption).
    assert (A3 : 0 < v / T3) by (apply Rdiv_lt_0_compat; assumption).
    assert (E1 : v / T1 * T1 = v) by (field; lra). assert (E3 : v / T3 * T3 = v) by (field; lra).
    set (a1 := v / T1) in *. set (a3 := v / T3) in *. clearbody a1 a3.
    intros [->|[->| ->]] Ht; cbn in *.
    - assert (a1 * t <= v) by nra. assert (0 <= a1 * t) by nra.
      assert (0 <= a1 * (t * t)) by nra. assert (a1 * (t * t) <= v * T1) by nra.
      repeat split; try lra; nra.
    - repeat split; try lra; nra.
    - assert (a3 * t <= v) by nra. assert (0 <= a3 * t) by nra.
      assert (Q : v * T1 / 2 + v * T2 + v * t - a3 * (t * t) / 2 = 1 - a3 * ((T3 - t) * (T3 - t)) / 2).
      { replace (v * T1 / 2 + v * T2) with (1 - v * T3 / 2) by (rewrite <- V1; field). rewrite <- E3. field. }
      assert (0 <= a3 * ((T3 - t) * (T3 - t))) by (apply Rmult_le_pos; [lra|nra]).
      assert (0 <= v * t - a3 * (t * t) / 2) by nra.
      repeat split; try lra; try nra.
  Qed.

  Lemma trap_start : tr 1 0 = (0, 0, V / T1).
  Proof. unfold trapezoid. cbn. repeat f_equal; field; lra. Qed.
  Lemma trap_12 : fst (tr 1 T1) = fst (tr 2 0).
  Proof. unfold trapezoid. cbn. f_equal; field; lra. Qed.
  Lemma trap_23 : fst (tr 2 T2) = fst (tr 3 0).
  Proof. unfold trapezoid. cbn. f_equal; field; lra. Qed.
  Lemma trap_peak : snd (fst (tr 1 T1)) = V.
  Proof. unfold trapezoid. cbn. field. lra. Qed.
  Lemma trap_end : fst (tr 3 T3) = (1, 0).
  Proof. unfold trapezoid. cbn. f_equal; field; lra. Qed.

  (** Within a phase the velocity is the exact mean slope. *)
  Lemma trap_step r t h : (r = 1 \/ r = 2 \/ r = 3)%Z ->
    let '(s, w, _) := tr r t in let '(s', w', a') := tr r (t + h) in
    s' - s = (w + w') / 2 * h /\ w' - w = a' * h.
  Proof. unfold trapezoid. intros [->|[->| ->]]; cbn; split; field; lra. Qed.
End Profile.

Section Cycle.
  Context (dt : R) (start dist : nat -> R) (n1 n2 n3 : nat).
  Hypothesis Hdt : 0 < dt. Hypothesis H1 : (0 < n1)%nat. Hypothesis H3 : (0 < n3)%nat.
  Notation V := (1 / (INR n2 * dt + (INR n1 * dt + INR n3 * dt) / 2)).
  Lemma T1_pos : 0 < INR n1 * dt. Proof. apply Rmult_lt_0_compat; [apply lt_0_INR; lia|exact Hdt]. Qed.
  Lemma T3_pos : 0 < INR n3 * dt. Proof. apply Rmult_lt_0_compat; [apply lt_0_INR; lia|exact Hdt]. Qed.
  Lemma T2_pos : 0 <= INR n2 * dt. Proof. apply Rmult_le_pos; [apply pos_INR|lra]. Qed.

  Lemma along_range q i a1 a3 v : 0 < a1 -> 0 < a3 ->
    (let '(s, w, a) := q in 0 <= s <= 1 /\ 0 <= w <= v /\ - a3 <= a <= a1) ->
    let '(p, w, a) := along start dist q i in
    (Rmin (start i) (start i + dist i) <= p <= Rmax (start i) (start i + dist i)) /\
    Rabs w <= v * Rabs (dist i) /\
    (0 < dist i * a -> Rabs a <= a1 * Rabs (dist i)) /\ (dist i * a <= 0 -> Rabs a <= a3 * Rabs (dist i)).
  Proof.
    destruct q as [[s w] a]. intros P1 P3 (Hs & Hw & Ha). unfold along. repeat split.
    - unfold Rmin. destruct (Rle_dec _ _); nra.
    - unfold Rmax. destruct (Rle_dec _ _); nra.
    - rewrite Rabs_mult, (Rabs_pos_eq w) by lra. pose proof (Rabs_pos (dist i)). nra.
    - intros H. assert (0 < a). { destruct (Rle_or_lt a 0); [|assumption]. exfalso. pose proof (Rle_0_sqr (dist i)) as Q. unfold Rsqr in Q. nra. }
      rewrite Rabs_mult, (Rabs_pos_eq a) by lra. pose proof (Rabs_pos (dist i)). nra.
    - intros H. destruct (Req_dec (dist i) 0) as [->|Hd]; [rewrite Rmult_0_l, Rabs_R0; lra|].
      assert (a <= 0). { destruct (Rle_or_lt a 0); [assumption|]. exfalso. assert (Q : 0 < dist i * dist i) by nra. nra. }
      rewrite Rabs_mult, (Rabs_left1 a) by lra. pose proof (Rabs_pos (dist i)). nra.
  Qed.

  Lemma INR_range k n : (k <= n)%nat -> 0 <= INR k * dt <= INR n * dt.
  Proof. intros H. apply le_INR in H. pose proof (pos_INR k). split; nra. Qed.

  Lemma acc_cycle_limits k i : (0 < k)%nat ->
    let '(p, w, a) := acc_cycle dt start dist n1 n2 n3 k i in
    (Rmin (start i) (start i + dist i) <= p <= Rmax (start i) (start i + dist i)) /\
    Rabs w <= V * Rabs (dist i) /\
    (0 < dist i * a -> Rabs a <= V / (INR n1 * dt) * Rabs (dist i)) /\
    (dist i * a <= 0 -> Rabs a <= V / (INR n3 * dt) * Rabs (dist i)).
  Proof.
    intros Hk. pose proof T1_pos as P1. pose proof T2_pos as P2. pose proof T3_pos as P3.
    pose proof (V_pos _ _ _ P1 P2 P3) as VP.
    assert (A1 : 0 < V / (INR n1 * dt)) by (apply Rdiv_lt_0_compat; assumption).
    assert (A3 : 0 < V / (INR n3 * dt)) by (apply Rdiv_lt_0_compat; assumption).
    assert (G : forall r t, (r = 1 \/ r = 2 \/ r = 3)%Z -> 0 <= t <= dur (INR n1 * dt) (INR n2 * dt) (INR n3 * dt) r ->
      let '(p, w, a) := along start dist (trapezoid (INR n1 * dt) (INR n2 * dt) (INR n3 * dt) r t) i in
      (Rmin (start i) (start i + dist i) <= p <= Rmax (start i) (start i + dist i)) /\
      Rabs w <= V * Rabs (dist i) /\
      (0 < dist i * a -> Rabs a <= V / (INR n1 * dt) * Rabs (dist i)) /\ (dist i * a <= 0 -> Rabs a <= V / (INR n3 * dt) * Rabs (dist i))).
    { intros r t Hr Ht. apply along_range; try assumption. apply trap_range; assumption. }
    unfold acc_cycle.
    destruct (Nat.leb_spec k n1); [apply G; [auto|apply INR_range; assumption]|].
    destruct (Nat.leb_spec k (n1 + n2)); [apply G; [auto|apply INR_range; lia]|].
    destruct ((n2 =? 0) && (k =? n1 + 1))%nat eqn:C.
    { destruct (i =? 0)%nat; apply G; auto; cbn; lra. }
    destruct (Nat.leb_spec k (acc_cycles n1 n2 n3)).
    { apply G; [auto|]. apply INR_range. unfold acc_cycles in *. lia. }
    repeat split.
    - unfold Rmin. destruct (Rle_dec _ _); lra.
    - unfold Rmax. destruct (Rle_dec _ _); lra.
    - rewrite Rabs_R0. pose proof (Rabs_pos (dist i)). nra.
    - rewrite Rabs_R0. pose proof (Rabs_pos (dist i)). nra.
    - rewrite Rabs_R0. pose proof (Rabs_pos (dist i)). nra.
  Qed.

  (** Before the report the target is reached with velocity zero. *)
  Lemma acc_cycle_reach i : let '(p, w, _) := acc_cycle dt start dist n1 n2 n3 (acc_cycles n1 n2 n3) i in
    p = start i + dist i /\ w = 0.
  Proof.
    unfold acc_cycle, acc_cycles.
    replace (n1 + Nat.max 1 n2 + n3 <=? n1)%nat with false by (symmetry; apply Nat.leb_gt; lia).
    replace (n1 + Nat.max 1 n2 + n3 <=? n1 + n2)%nat with false by (symmetry; apply Nat.leb_gt; lia).
    replace ((n2 =? 0) && (n1 + Nat.max 1 n2 + n3 =? n1 + 1))%nat with false.
    2:{ symmetry. apply andb_false_intro2, Nat.eqb_neq. lia. }
    rewrite Nat.leb_refl. replace (n1 + Nat.max 1 n2 + n3 - n1 - Nat.max 1 n2)%nat with n3 by lia.
    pose proof (trap_end _ _ _ T1_pos T2_pos T3_pos) as E.
    destruct (trapezoid (INR n1 * dt) (INR n2 * dt) (INR n3 * dt) 3 (INR n3 * dt)) as [[s w] a].
    cbn in E. injection E as -> ->. cbn. split; ring.
  Qed.

  (** State of the motion after k cycles (position and velocity), starting at rest. *)
  Definition moved (k i : nat) : R * R := if (k =? 0)%nat then (start i, 0) else fst (acc_cycle dt start dist n1 n2 n3 k i).

  (** With a constant velocity phase the positions integrate the velocities exactly. *)
  Lemma moved_step k i : (0 < n2)%nat -> (k < acc_cycles n1 n2 n3)%nat ->
    fst (moved (S k) i) - fst (moved k i) = (snd (moved k i) + snd (moved (S k) i)) / 2 * dt.
  Proof.
    intros H2 Hk. unfold acc_cycles in Hk. rewrite (Nat.max_r 1 n2) in Hk by lia.
    pose proof T1_pos as P1. pose proof T2_pos as P2. pose proof T3_pos as P3.
    set (tr := trapezoid (INR n1 * dt) (INR n2 * dt) (INR n3 * dt)).
    assert (G : forall r a, (r = 1 \/ r = 2 \/ r = 3)%Z ->
      fst (fst (along start dist (tr r (INR (S a) * dt)) i)) - fst (fst (along start dist (tr r (INR a * dt)) i)) =
      (snd (fst (along start dist (tr r (INR a * dt)) i)) + snd (fst (along start dist (tr r (INR (S a) * dt)) i))) / 2 * dt).
    { intros r a Hr. pose proof (trap_step _ _ _ P1 P2 P3 r (INR a * dt) dt Hr) as TS.
      replace (INR (S a) * dt) with (INR a * dt + dt) by (rewrite S_INR; ring). fold tr in TS.
      destruct (tr r (INR a * dt)) as [[s w] x]. destruct (tr r (INR a * dt + dt)) as [[s' w'] x'].
      destruct TS as [TS _]. cbn. replace (start i + dist i * s' - (start i + dist i * s)) with (dist i * (s' - s)) by ring.
      rewrite TS. field. }
    (* value at cycle k in the phase that covers the step *)
    assert (M : forall j, moved j i = fst (if (j <=? n1)%nat then along start dist (tr 1%Z (INR j * dt)) i
        else if (j <=? n1 + n2)%nat then along start dist (tr 2%Z (INR (j - n1) * dt)) i
        else if (j <=? n1 + n2 + n3)%nat then along start dist (tr 3%Z (INR (j - n1 - n2) * dt)) i
        else (start i + dist i, 0, 0))).
    { intros j. unfold moved. destruct (Nat.eqb_spec j 0) as [->|Hj].
      - replace (0 <=? n1)%nat with true by reflexivity. cbn [INR]. rewrite Rmult_0_l. unfold tr. rewrite trap_start by assumption.
        cbn. f_equal; ring.
      - unfold acc_cycle, acc_cycles. rewrite (Nat.max_r 1 n2) by lia. fold tr.
        replace (n2 =? 0)%nat with false by (symmetry; apply Nat.eqb_neq; lia). cbn [andb]. reflexivity. }
    rewrite !M.
    destruct (le_lt_dec (S k) n1) as [K|K].
    { replace (S k <=? n1)%nat with true by (symmetry; apply Nat.leb_le; lia).
      replace (k <=? n1)%nat with true by (symmetry; apply Nat.leb_le; lia). apply G. auto. }
    replace (S k <=? n1)%nat with false by (symmetry; apply Nat.leb_gt; lia).
    destruct (le_lt_dec (S k) (n1 + n2)) as [K2|K2].
    { replace (S k <=? n1 + n2)%nat with true by (symmetry; apply Nat.leb_le; lia).
      destruct (Nat.leb_spec k n1).
      - replace k with n1 by lia. pose proof (trap_12 _ _ _ P1 P2 P3) as E. fold tr in E.
        specialize (G 2%Z 0%nat ltac:(auto)). replace (INR 0 * dt) with 0 in G by (cbn; ring).
        replace (S n1 - n1)%nat with 1%nat by lia.
        destruct (tr 1%Z (INR n1 * dt)) as [[s w] x]. destruct (tr 2%Z 0) as [[s' w'] x']. cbn in E. injection E as -> ->. exact G.
      - replace (k <=? n1 + n2)%nat with true by (symmetry; apply Nat.leb_le; lia).
        replace (S k - n1)%nat with (S (k - n1)) by lia. apply G. auto. }
    replace (S k <=? n1 + n2)%nat with false by (symmetry; apply Nat.leb_gt; lia).
    replace (S k <=? n1 + n2 + n3)%nat with true by (symmetry; apply Nat.leb_le; lia).
    replace (k <=? n1)%nat with false by (symmetry; apply Nat.leb_gt; lia).
    destruct (Nat.leb_spec k (n1 + n2)).
    - replace k with (n1 + n2)%nat by lia. pose proof (trap_23 _ _ _ P1 P2 P3) as E. fold tr in E.
      specialize (G 3%Z 0%nat ltac:(auto)). replace (INR 0 * dt) with 0 in G by (cbn; ring).
      replace (n1 + n2 - n1)%nat with n2 by lia. replace (S (n1 + n2) - n1 - n2)%nat with 1%nat by lia.
      destruct (tr 2%Z (INR n2 * dt)) as [[s w] x]. destruct (tr 3%Z 0) as [[s' w'] x']. cbn in E. injection E as -> ->. exact G.
    - replace (k <=? n1 + n2 + n3)%nat with true by (symmetry; apply Nat.leb_le; lia).
      replace (S k - n1 - n2)%nat with (S (k - n1 - n2)) by lia. apply G. auto.
  Qed.

  (** Without one, the position stands still for one cycle at peak velocity. *)
  Lemma moved_stall i : n2 = 0%nat -> dist i <> 0 ->
    fst (moved (S n1) i) = fst (moved n1 i) /\ snd (moved n1 i) = snd (moved (S n1) i) /\ snd (moved n1 i) <> 0.
  Proof.
    intros Z Hd. pose proof T1_pos as P1. pose proof T2_pos as P2. pose proof T3_pos as P3.
    assert (A : moved n1 i = fst (along start dist (trapezoid (INR n1 * dt) (INR n2 * dt) (INR n3 * dt) 1%Z (INR n1 * dt)) i)).
    { unfold moved, acc_cycle. replace (n1 =? 0)%nat with false by (symmetry; apply Nat.eqb_neq; lia). now rewrite Nat.leb_refl. }
    assert (B : moved (S n1) i = moved n1 i).
    { rewrite A. unfold moved, acc_cycle.
      replace (S n1 =? 0)%nat with false by reflexivity.
      replace (S n1 <=? n1)%nat with false by (symmetry; apply Nat.leb_gt; lia).
      rewrite Z at 1. replace (S n1 <=? n1 + 0)%nat with false by (symmetry; apply Nat.leb_gt; lia).
      replace ((n2 =? 0) && (S n1 =? n1 + 1))%nat with true.
      2:{ symmetry. apply andb_true_intro; split; apply Nat.eqb_eq; lia. }
      destruct (i =? 0)%nat; [reflexivity|].
      pose proof (trap_12 _ _ _ P1 P2 P3) as E1. pose proof (trap_23 _ _ _ P1 P2 P3) as E2.
      replace (INR n2 * dt) with 0 in E2 at 2 by (rewrite Z; cbn; ring).
      rewrite E2 in E1.
      destruct (trapezoid (INR n1 * dt) (INR n2 * dt) (INR n3 * dt) 1 (INR n1 * dt)) as [[s w] x].
      destruct (trapezoid (INR n1 * dt) (INR n2 * dt) (INR n3 * dt) 3 0) as [[s' w'] x']. cbn in E1. injection E1 as -> ->. reflexivity. }
    rewrite B. repeat split. rewrite A. pose proof (V_pos _ _ _ P1 P2 P3) as VP. pose proof (trap_peak _ _ _ P1 P2 P3) as E.
    destruct (trapezoid (INR n1 * dt) (INR n2 * dt) (INR n3 * dt) 1 (INR n1 * dt)) as [[s w] x].
    unfold along. cbn [fst snd] in *. rewrite E. apply Rmult_integral_contrapositive_currified; lra.
  Qed.
End Cycle.

(** ** Accumulated time in binary64 *)
Definition neard (t dur : Dnum) : bool := nltb Dnum (nabs Dnum (nsub Dnum t dur)) (eps Dnum).
(** None of t+dt, t+2dt, ..., t+n*dt is near the duration; returns t+n*dt. *)
Fixpoint misses (n : nat) (t dt dur : Dnum) : option Dnum :=
  match n with
  | O => Some t
  | S n' => let t' := nadd Dnum t dt in if neard t' dur then None else misses n' t' dt dur
  end.

  Lemma dsub_inf x : dfin x -> nsub Dnum (S754_infinity false) x = S754_infinity false.
  Proof. destruct x as [|[]| |]; intros; try contradiction; reflexivity. Qed.
  Lemma abs_ge (x : Dnum) e : SFleb e x = true -> SFleb (S754_zero false) e = true -> SFltb (SFabs x) e = false.
  Proof.
    intros H P. assert (X : SFabs x = x \/ exists s, x = S754_zero s).
    { pose proof (ol_le_trans Dnum_ord _ _ _ P H) as Q. clear H. change (SFleb (S754_zero false) x = true) in Q.
      destruct x as [s|[]| |[] m e']; try discriminate Q; eauto. }
    destruct X as [->|[s ->]].
    - apply (ol_le_nlt Dnum_ord) in H. exact H.
    - apply (ol_le_nlt Dnum_ord) in H. destruct s, e as [|[]| |[]]; exact H.
  Qed.

Section StuckD.
  Context {O : Type} (p : phases Dnum O) (dt dr : Dnum) (r : Z).
  Hypothesis Hr : ((1 <=? r) && (r <=? ph_n p))%Z = true.
  Hypothesis Hdr : ph_dur p r = dr.
  Hypothesis He : ph_early p r && nltb Dnum dr (eps Dnum) = false.
  Notation run := (ph_run Dnum p dt).
  Notation D := (@Build_dyn Dnum O).

  Lemma runD_miss t L : neard (nadd Dnum t dt) dr = false -> exists L', run (D false r t L) = D false r (nadd Dnum t dt) L'.
  Proof.
    intros Hm. unfold ph_run. cbn [dy_fin dy_range dy_t dy_last].
    generalize (seq 0 (ph_dim p)). intro l. revert L. generalize dependent (nadd Dnum t dt). clear t. intros t Hm.
    induction l as [|i l IH]; intros L; [now exists L|].
    cbn [fold_left]. unfold ph_elem at 2. cbn [dy_fin dy_range dy_t dy_last]. rewrite Hr, Hdr, He.
    unfold neard in Hm. rewrite Hm. cbn [andb orb]. apply IH.
  Qed.
  Lemma iterD_miss n : forall t L t', misses n t dt dr = Some t' ->
    exists L', Nat.iter n run (D false r t L) = D false r t' L'.
  Proof.
    induction n; intros t L t' H; cbn [misses] in H.
    - injection H as <-. now exists L.
    - destruct (neard (nadd Dnum t dt) dr) eqn:E; [discriminate|].
      destruct (runD_miss t L E) as [L1 R1]. destruct (IHn _ L1 _ H) as [L2 R2].
      exists L2. replace (S n) with (1 + n)%nat by reflexivity. rewrite iter_add.
      change (Nat.iter 1 run (D false r t L)) with (run (D false r t L)). now rewrite R1.
  Qed.

  (** Past the duration: never near again. *)
  Hypothesis Vdt : dvalid dt. Hypothesis Fdt : dfin dt. Hypothesis Pdt : SFleb (S754_zero false) dt = true.
  Hypothesis Vdr : dvalid dr. Hypothesis Fdr : dfin dr.
  Context (tK : Dnum).
  Hypothesis VK : dvalid tK. Hypothesis FK : dfin tK. Hypothesis Fe : dfin (nsub Dnum tK dr).
  Hypothesis Le : SFleb (eps Dnum) (nsub Dnum tK dr) = true.
  Definition past (t : Dnum) : Prop := dvalid t /\ (dpos_inf t \/ dfin t /\ SFleb tK t = true).

  Lemma past_next t : past t -> past (nadd Dnum t dt).
  Proof.
    intros [V [I|[F L]]].
    - split; [apply dadd_valid; assumption|]. left. unfold dpos_inf in I. rewrite I.
      destruct dt as [|[]| |]; try contradiction; reflexivity.
    - split; [apply dadd_valid; assumption|].
      destruct (dadd_ge t dt V Vdt F Fdt Pdt) as [G [Q|Q]]; [right|now left].
      split; [exact Q|]. eapply (ol_le_trans Dnum_ord); [exact L|exact G].
  Qed.
  Lemma past_far t : past t -> neard t dr = false.
  Proof.
    assert (Pe : SFleb (S754_zero false) (eps Dnum) = true) by (vm_compute; reflexivity).
    intros [V [I|[F L]]]; unfold neard.
    - unfold dpos_inf in I. rewrite I, dsub_inf by assumption. vm_compute. reflexivity.
    - change (SFltb (SFabs (nsub Dnum t dr)) (eps Dnum) = false). apply abs_ge; [|exact Pe].
      eapply (ol_le_trans Dnum_ord); [exact Le|].
      apply dsub_mono; assumption.
  Qed.
  Lemma stuck_past n : forall t L, past t -> dy_fin (Nat.iter n run (D false r t L)) = false.
  Proof.
    assert (G : forall t L, past t -> exists t' L', Nat.iter n run (D false r t L) = D false r t' L' /\ past t').
    { induction n; intros t L P; [exists t, L; split; [reflexivity|exact P]|].
      destruct (IHn t L P) as (t' & L' & E & P'). rewrite iter_S, E.
      destruct (runD_miss t' L' (past_far _ (past_next _ P'))) as [L2 E2]. exists (nadd Dnum t' dt), L2.
      split; [exact E2|apply past_next, P']. }
    intros t L P. destruct (G t L P) as (t' & L' & -> & _). reflexivity.
  Qed.

  (** Once the time has passed the end of the phase, the motion never ends. *)
  Lemma stuck_forever K t0 L : misses K t0 dt dr = Some tK -> forall n, dy_fin (Nat.iter n run (D false r t0 L)) = false.
  Proof.
    intros HK n. destruct (le_lt_dec n K) as [Hn|Hn].
    - assert (G : exists t', misses n t0 dt dr = Some t').
      { clear - HK Hn. revert t0 n HK Hn. induction K; intros t0 n HK Hn; [exists t0; now replace n with 0%nat by lia|].
        destruct n; [now exists t0|]. cbn [misses] in *. destruct (neard _ _); [discriminate|]. apply (IHK _ _ HK). lia. }
      destruct G as [t' G]. destruct (iterD_miss n t0 L t' G) as [L' ->]. reflexivity.
    - destruct (iterD_miss K t0 L tK HK) as [L' E]. replace n with (K + (n - K))%nat by lia. rewrite iter_add, E.
      apply stuck_past. split; [exact VK|right]. split; [exact FK|]. apply (ol_le_refl Dnum_ord).
      unfold Dok. intros ->. exact FK.
  Qed.
End StuckD.
