(** Proofs about pretty. *)
From Coq Require Import Reals Lra.
From Flocq Require Import Core.Raux.
From Verif Require Import Prelude PrettyModel.
Open Scope Z_scope.

Lemma ln10_pos : (0 < ln 10)%R.
Proof. rewrite <- ln_1. apply ln_increasing; lra. Qed.
Lemma Rpower_log10 : forall x, (0 < x)%R -> Rpower 10 (log10 x) = x.
Proof.
  intros x Hx. unfold Rpower, log10. replace (ln x / ln 10 * ln 10)%R with (ln x). { now apply exp_ln. }
  field. pose proof ln10_pos; lra.
Qed.
Lemma powerRZ_Rpower10 : forall z, powerRZ 10 z = Rpower 10 (IZR z).
Proof. intros z. apply powerRZ_Rpower. lra. Qed.
Lemma log10_le : forall x z, (0 < x)%R -> (IZR z <= log10 x)%R -> (powerRZ 10 z <= x)%R.
Proof. intros x z Hx H. rewrite <- (Rpower_log10 x Hx), powerRZ_Rpower10. apply Rle_Rpower; lra. Qed.
Lemma log10_lt : forall x z, (0 < x)%R -> (log10 x < IZR z)%R -> (x < powerRZ 10 z)%R.
Proof. intros x z Hx H. rewrite <- (Rpower_log10 x Hx) at 1. rewrite powerRZ_Rpower10. apply Rpower_lt; lra. Qed.
Lemma log10_ge : forall x z, (0 < x)%R -> (log10 x <= IZR z)%R -> (x <= powerRZ 10 z)%R.
Proof. intros x z Hx H. rewrite <- (Rpower_log10 x Hx) at 1. rewrite powerRZ_Rpower10. apply Rle_Rpower; lra. Qed.
Lemma log10_gt : forall x z, (0 < x)%R -> (IZR z < log10 x)%R -> (powerRZ 10 z < x)%R.
Proof. intros x z Hx H. rewrite <- (Rpower_log10 x Hx). rewrite powerRZ_Rpower10. apply Rpower_lt; lra. Qed.
Lemma p10_pos : forall z, (0 < powerRZ 10 z)%R.
Proof. intros; apply powerRZ_lt; lra. Qed.

(** Truncation to a multiple of three. *)
Lemma trunc3 : forall l, (0 <= l)%R -> let r := Z.quot (Ztrunc l) 3 * 3 in 0 <= r /\ r mod 3 = 0 /\ (IZR r <= l < IZR (r + 3))%R.
Proof.
  intros l Hl r. unfold r. rewrite Ztrunc_floor by assumption.
  assert (Hf : 0 <= Zfloor l). { apply Zfloor_lub. exact Hl. }
  rewrite Z.quot_div_nonneg by lia.
  pose proof (Z.div_mod (Zfloor l) 3 ltac:(lia)) as D. pose proof (Z.mod_pos_bound (Zfloor l) 3 ltac:(lia)) as M.
  split; [lia|]. split; [apply Z.mod_mul; lia|]. split.
  - apply Rle_trans with (IZR (Zfloor l)); [apply IZR_le; lia|apply Zfloor_lb].
  - apply Rlt_le_trans with (IZR (Zfloor l) + 1)%R; [apply Zfloor_ub|]. rewrite <- plus_IZR. apply IZR_le. lia.
Qed.
Lemma split1000 : forall z, (0 <= z)%R -> let left := Ztrunc z in let right := Ztrunc ((z - IZR left) * 1000)%R in
  0 <= left /\ 0 <= right <= 999 /\ (IZR left + IZR right / 1000 <= z < IZR left + IZR right / 1000 + / 1000)%R.
Proof.
  intros z Hz left right. unfold right, left. rewrite (Ztrunc_floor z) by assumption.
  pose proof (Zfloor_lb z) as L. pose proof (Zfloor_ub z) as U.
  rewrite Ztrunc_floor by (apply Rmult_le_pos; lra).
  set (y := ((z - IZR (Zfloor z)) * 1000)%R).
  pose proof (Zfloor_lb y) as L2. pose proof (Zfloor_ub y) as U2.
  assert (Hy : (0 <= y < 1000)%R) by (unfold y; split; [apply Rmult_le_pos; lra|lra]).
  split; [apply Zfloor_lub; exact Hz|]. split; [split|].
  - apply Zfloor_lub. apply Hy.
  - enough (Zfloor y < 1000) by lia. apply lt_IZR. lra.
  - assert (Ez : z = (IZR (Zfloor z) + y / 1000)%R) by (unfold y; field). lra.
Qed.

(** The scaled value: for a >= 1 in [1,1000), else in (1,1000]. *)
Definition scaled (a : R) : bool * Z * R :=
  let l := log10 a in
  let positive := Rle_bool 0 l in
  let l := if positive then l else (- l)%R in
  let r := Z.quot (Ztrunc l) 3 * 3 in
  let r := if positive then r else r + 3 in
  (positive, r, if positive then (a / powerRZ 10 r)%R else (a * powerRZ 10 r)%R).
Lemma pretty_scaled : forall neg a, pretty_abs neg a =
  let '(p, r, x) := scaled a in PText neg (Ztrunc x) (Ztrunc ((x - IZR (Ztrunc x)) * 1000)%R) p r.
Proof. reflexivity. Qed.
Lemma scaled_range : forall a p r x, (0 < a)%R -> scaled a = (p, r, x) ->
  (a = x * powerRZ 10 (if p then r else - r))%R /\ r mod 3 = 0 /\
  (p = true -> 0 <= r /\ (1 <= x < 1000)%R /\ (1 <= a)%R) /\ (p = false -> 3 <= r /\ (1 < x <= 1000)%R /\ (a < 1)%R /\ (x = 1000 -> a = powerRZ 10 (3 - r))%R).
Proof.
  intros a p r x Ha H. unfold scaled in H.
  assert (P3 : powerRZ 10 3 = 1000%R) by (change (10 ^ 3 = 1000)%R; ring).
  destruct (Rle_bool_spec 0 (log10 a)) as [Hl|Hl].
  - destruct (trunc3 _ Hl) as (R0 & R1 & R2). set (r0 := _ * 3) in *. injection H as <- <- <-.
    pose proof (p10_pos r0) as Hp. repeat split; try assumption; try discriminate.
    + field. lra.
    + apply (Rmult_le_reg_r (powerRZ 10 r0)); [assumption|]. unfold Rdiv. rewrite Rmult_assoc, Rinv_l, Rmult_1_r, Rmult_1_l by lra. apply log10_le; lra.
    + apply (Rmult_lt_reg_r (powerRZ 10 r0)); [assumption|]. unfold Rdiv. rewrite Rmult_assoc, Rinv_l, Rmult_1_r by lra.
      rewrite <- P3, <- powerRZ_add by lra. apply log10_lt; [assumption|]. rewrite Z.add_comm. lra.
    + change 1%R with (powerRZ 10 0). apply log10_le; assumption.
  - assert (Hl' : (0 <= - log10 a)%R) by lra.
    destruct (trunc3 _ Hl') as (R0 & R1 & R2 & R3). set (r0 := _ * 3) in *. injection H as <- <- <-.
    pose proof (p10_pos (r0 + 3)) as Hp. rewrite plus_IZR in R3.
    assert (Hx : (a * powerRZ 10 (r0 + 3) <= 1000)%R).
    { rewrite powerRZ_add, P3 by lra. rewrite <- Rmult_assoc.
      assert (a * powerRZ 10 r0 <= 1)%R; [|lra].
      replace 1%R with (powerRZ 10 (- r0) * powerRZ 10 r0)%R by (rewrite <- powerRZ_add by lra; rewrite Z.add_opp_diag_l; reflexivity).
      apply Rmult_le_compat_r; [left; apply p10_pos|]. apply log10_ge; [assumption|]. rewrite opp_IZR. lra. }
    assert (Ea : (a = a * powerRZ 10 (r0 + 3) * powerRZ 10 (- (r0 + 3)))%R).
    { rewrite Rmult_assoc, <- powerRZ_add by lra. rewrite Z.add_opp_diag_r. cbn. ring. }
    repeat split; try assumption; try discriminate.
    + rewrite <- Zplus_mod_idemp_l, R1. reflexivity.
    + lia.
    + replace 1%R with (powerRZ 10 (- (r0 + 3)) * powerRZ 10 (r0 + 3))%R by (rewrite <- powerRZ_add by lra; rewrite Z.add_opp_diag_l; reflexivity).
      apply Rmult_lt_compat_r; [assumption|]. apply log10_gt; [assumption|]. rewrite opp_IZR, plus_IZR. lra.
    + change 1%R with (powerRZ 10 0). apply log10_lt; assumption.
    + intros E. rewrite Ea, E, <- P3, <- powerRZ_add by lra. reflexivity.
Qed.

Lemma pretty_abs_spec : forall neg a, (0 < a)%R -> exists left right positive r, pretty_abs neg a = PText neg left right positive r /\
  1 <= left <= 1000 /\ 0 <= right <= 999 /\ r mod 3 = 0 /\ 0 <= r /\
  let u := powerRZ 10 (if positive then r else - r) in
  ((IZR left + IZR right / 1000) * u <= a < (IZR left + IZR right / 1000) * u + u / 1000)%R /\
  (left = 1000 -> a = powerRZ 10 (3 - r)) /\ (positive = true -> (1 <= a)%R /\ left <= 999) /\ (positive = false -> (a < 1)%R /\ 3 <= r).
Proof.
  intros neg a Ha. rewrite pretty_scaled. destruct (scaled a) as [[p r] x] eqn:E.
  destruct (scaled_range _ _ _ _ Ha E) as (Ea & Er & Hp & Hn).
  assert (Hx : (1 <= x <= 1000)%R). { destruct p; [destruct (Hp eq_refl)|destruct (Hn eq_refl)]; lra. }
  destruct (split1000 x ltac:(lra)) as (S0 & S1 & S2).
  exists (Ztrunc x), (Ztrunc ((x - IZR (Ztrunc x)) * 1000)%R), p, r. split; [reflexivity|].
  rewrite (Ztrunc_floor x) in * by lra.
  pose proof (Zfloor_lb x) as F1. pose proof (Zfloor_ub x) as F2.
  split; [split|].
  - apply Zfloor_lub. apply Hx.
  - apply le_IZR. lra.
  - split; [exact S1|]. split; [exact Er|]. split; [destruct p; [apply Hp; reflexivity|destruct (Hn eq_refl); lia]|].
    cbv zeta. set (rt := Ztrunc ((x - IZR (Zfloor x)) * 1000)%R) in *.
    set (u := powerRZ 10 (if p then r else - r)) in *. assert (Hu : (0 < u)%R) by apply p10_pos.
    split; [split|split; [|split]].
    + rewrite Ea. apply Rmult_le_compat_r; lra.
    + rewrite Ea. unfold Rdiv. rewrite (Rmult_comm u), <- Rmult_plus_distr_r. apply Rmult_lt_compat_r; lra.
    + intros EL. rewrite EL in F1. destruct p.
      * destruct (Hp eq_refl). lra.
      * destruct (Hn eq_refl) as (_ & _ & _ & Hq). apply Hq. lra.
    + intros ->. destruct (Hp eq_refl) as (? & ? & ?). split; [assumption|]. enough (Zfloor x < 1000) by lia. apply lt_IZR. lra.
    + intros ->. destruct (Hn eq_refl) as (? & ? & ? & ?). split; assumption.
Qed.

Lemma pretty_cases : forall x, (/ 10 ^ 12 <= Rabs x)%R -> exists neg, pretty x = pretty_abs neg (Rabs x) /\ (neg = true <-> (x < 0)%R).
Proof.
  intros x H. unfold pretty. destruct (Rle_bool_spec 0 x) as [Hx|Hx]; cbn [negb].
  - exists false. rewrite Rabs_pos_eq in * by assumption. rewrite Rlt_bool_false by assumption. split; [reflexivity|]. split; [discriminate|lra].
  - exists true. rewrite Rabs_left in * by assumption. rewrite Rlt_bool_false by assumption. split; [reflexivity|]. split; auto.
Qed.

(** The printed number is the argument truncated at the last printed digit. *)
Lemma pretty_value : forall x, (/ 10 ^ 12 <= Rabs x)%R -> exists neg left right positive r, pretty x = PText neg left right positive r /\
  (1 <= left <= 1000) /\ (0 <= right <= 999) /\
  (Rabs (denotes (pretty x)) <= Rabs x < Rabs (denotes (pretty x)) + powerRZ 10 (if positive then r else - r) / 1000)%R /\
  (neg = true <-> (x < 0)%R).
Proof.
  intros x H. destruct (pretty_cases x H) as (neg & E & Hn). rewrite E.
  assert (Ha : (0 < Rabs x)%R). { apply Rlt_le_trans with (2 := H). apply Rinv_0_lt_compat. apply pow_lt. lra. }
  destruct (pretty_abs_spec neg (Rabs x) Ha) as (l & r & p & e & Ep & H1 & H2 & _ & _ & H3 & _). rewrite Ep.
  exists neg, l, r, p, e. split; [reflexivity|]. split; [assumption|]. split; [assumption|]. split; [|assumption].
  cbv zeta in H3. unfold denotes. cbv zeta.
  set (v := ((IZR l + IZR r / 1000) * powerRZ 10 (if p then e else - e))%R) in *.
  assert (Hv : (0 <= v)%R).
  { apply Rmult_le_pos; [|left; apply p10_pos]. apply Rplus_le_le_0_compat; [apply IZR_le; lia|]. apply Rmult_le_pos; [apply IZR_le; lia|lra]. }
  destruct neg; [rewrite Rabs_Ropp|]; rewrite (Rabs_pos_eq v Hv); exact H3.
Qed.

Lemma digits_small : forall z, 0 <= z <= 999 -> digits z = if z <? 10 then 1 else if z <? 100 then 2 else 3.
Proof.
  intros z H. unfold digits. cbn [digits_fuel]. destruct (Z.ltb_spec z 10); [reflexivity|].
  assert (D : z / 10 < 10 <-> z < 100). { split; intros; [|apply Z.div_lt_upper_bound; lia]. pose proof (Z.div_mod z 10). pose proof (Z.mod_pos_bound z 10). lia. }
  destruct (Z.ltb_spec (z / 10) 10); destruct (Z.ltb_spec z 100); try lia.
  assert (z / 10 / 10 < 10). { rewrite Z.div_div by lia. apply Z.div_lt_upper_bound; lia. }
  rewrite (proj2 (Z.ltb_lt _ _)) by assumption. reflexivity.
Qed.

Lemma Rinv_pow10 : forall k : nat, (/ 10 ^ k = powerRZ 10 (- Z.of_nat k))%R.
Proof.
  intros k. rewrite powerRZ_neg by lra. rewrite <- pow_powerRZ. now rewrite pow_inv.
Qed.

Lemma pretty_width : forall x, (/ 10 ^ 12 < Rabs x < 10 ^ 15)%R -> (forall k : nat, Rabs x <> / 10 ^ (3 * k) \/ k = 0%nat)%R -> width (pretty x) = 9.
Proof.
  intros x [H1 H2] Hk. destruct (pretty_cases x (Rlt_le _ _ H1)) as (neg & E & _). rewrite E.
  assert (Ha : (0 < Rabs x)%R). { apply Rlt_trans with (2 := H1). apply Rinv_0_lt_compat. apply pow_lt. lra. }
  destruct (pretty_abs_spec neg (Rabs x) Ha) as (l & r & p & e & Ep & L & Rr & E3 & E0 & B & B1 & Bp & Bn). rewrite Ep.
  cbv zeta in B.
  assert (Hl : l <= 999).
  { destruct (Z.eq_dec l 1000) as [El|]; [|lia]. exfalso.
    destruct p; [destruct (Bp eq_refl); lia|]. destruct (Bn eq_refl) as [Hlt He]. specialize (B1 El).
    set (k := Z.to_nat (e / 3 - 1)).
    assert (Hz : (3 - e = - Z.of_nat (3 * k))%Z).
    { unfold k. pose proof (Z.div_mod e 3 ltac:(lia)). pose proof (Z.div_le_mono 3 e 3 ltac:(lia) He). change (3 / 3) with 1 in *. lia. }
    destruct (Hk k) as [Hne|H0].
    - apply Hne. rewrite B1, Hz, Rinv_pow10. reflexivity.
    - rewrite H0 in Hz. change (- Z.of_nat (3 * 0)) with 0 in Hz. rewrite Hz in B1. cbn in B1. lra. }
  assert (He : e = 0 \/ e = 3 \/ e = 6 \/ e = 9 \/ e = 12).
  { assert (He12 : e < 15).
    { destruct p.
      - apply Z.nle_gt. intros Hge. destruct (Bp eq_refl) as [_ _]. destruct B as [B _].
        assert (powerRZ 10 15 <= powerRZ 10 e)%R. { rewrite !powerRZ_Rpower10. apply Rle_Rpower; [lra|]. now apply IZR_le. }
        assert (powerRZ 10 15 = 10 ^ 15)%R by (rewrite pow_powerRZ; reflexivity).
        assert (1 * powerRZ 10 e <= (IZR l + IZR r / 1000) * powerRZ 10 e)%R.
        { apply Rmult_le_compat_r; [left; apply p10_pos|]. assert (1 <= IZR l)%R by (apply IZR_le; lia). assert (0 <= IZR r)%R by (apply IZR_le; lia). lra. }
        lra.
      - apply Z.nle_gt. intros Hge. destruct B as [_ B].
        assert (Hu : (powerRZ 10 (- e) <= powerRZ 10 (- 15))%R). { rewrite !powerRZ_Rpower10. apply Rle_Rpower; [lra|]. apply IZR_le. lia. }
        assert (Hm : ((IZR l + IZR r / 1000) + / 1000 <= 1000)%R).
        { assert (IZR l <= 999)%R by (apply IZR_le; lia). assert (IZR r <= 999)%R by (apply IZR_le; lia). lra. }
        assert (Hlt : (Rabs x < 1000 * powerRZ 10 (- e))%R).
        { apply Rlt_le_trans with (1 := B). pose proof (p10_pos (- e)). unfold Rdiv. rewrite (Rmult_comm (powerRZ 10 (- e)) (/ 1000)), <- Rmult_plus_distr_r.
          apply Rmult_le_compat_r; lra. }
        assert (H12 : (/ 10 ^ 12 = 1000 * powerRZ 10 (- 15))%R).
        { rewrite Rinv_pow10. change (- Z.of_nat 12) with (3 + (-15)). rewrite powerRZ_add by lra. f_equal. change (10 ^ 3 = 1000)%R. ring. }
        lra. }
    pose proof (Z.div_mod e 3 ltac:(lia)). assert (e / 3 < 5) by (apply Z.div_lt_upper_bound; lia). assert (0 <= e / 3) by (apply Z.div_pos; lia). lia. }
  unfold width. rewrite (digits_small l), (digits_small r) by lia.
  replace ((e =? 0) || (e =? 3) || (e =? 6) || (e =? 9) || (e =? 12)) with true.
  - destruct (l <? 10); destruct (l <? 100); destruct (r <? 10); destruct (r <? 100) eqn:E4; cbn; reflexivity.
  - destruct He as [->|[->|[->|[->| ->]]]]; reflexivity.
Qed.

Lemma pretty_milli : pretty (/ 1000)%R = PText false 1000 0 false 6.
Proof.
  assert (Hl : log10 (/ 1000) = (-3)%R).
  { unfold log10. rewrite ln_Rinv by lra. replace 1000%R with (10 ^ 3)%R by (cbn; lra).
    replace (ln (10 ^ 3)) with (3 * ln 10)%R. { field. pose proof ln10_pos; lra. }
    cbn [pow]. rewrite Rmult_1_r, !ln_mult by lra. ring. }
  unfold pretty. rewrite Rle_bool_true by lra.
  rewrite Rlt_bool_false by (rewrite <- (Rmult_1_r (/ 10 ^ 12)); cbn; lra).
  unfold pretty_abs. rewrite Hl. rewrite Rle_bool_false by lra. cbn [negb].
  replace (- -3)%R with (IZR 3) by (cbn; lra). rewrite Ztrunc_IZR. change (Z.quot 3 3 * 3 + 3) with 6.
  replace (/ 1000 * powerRZ 10 6)%R with (IZR 1000) by (change (1000 = / 1000 * 10 ^ 6)%R; field).
  rewrite Ztrunc_IZR. replace ((IZR 1000 - IZR 1000) * 1000)%R with (IZR 0) by (cbn; lra). rewrite Ztrunc_IZR. reflexivity.
Qed.
Lemma pretty_wide : exists x : R, (/ 10 ^ 12 < Rabs x < 10 ^ 15)%R /\ width (pretty x) <> 9.
Proof.
  exists (/ 1000)%R. rewrite pretty_milli. split; [|discriminate].
  rewrite Rabs_pos_eq by lra. split; cbn; lra.
Qed.
