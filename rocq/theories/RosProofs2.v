(** The conversion of time stamps through a double. *)
From Coq Require Import Reals Lra Floats.SpecFloat.
From Flocq Require Import Core Calc.Operations IEEE754.BinarySingleNaN.
From Verif Require Import Prelude Num NumDbl NumDbl2 RosModel.
Open Scope Z_scope.

Local Notation fx := (SpecFloat.fexp dprec demax).
Lemma ddiv_B (x y : binary_float dprec demax) : SFdiv dprec demax (B2SF x) (B2SF y) = B2SF (Bdiv mode_NE x y).
Proof.
  destruct x as [sx|sx| |sx mx ex Bx], y as [sy|sy| |sy my ey By]; [now trivial..|].
  simpl. rewrite B2SF_SF2B. destruct (SFdiv_core_binary _ _ _ _ _ _) as [[q e] l]. apply bra_equiv.
Qed.

(** Integers up to 2^53 are exact. *)
Lemma small_format : forall z e, Z.abs z <= 2 ^ 53 -> -1074 <= e -> generic_format radix2 fx (IZR z * bpow radix2 e).
Proof.
  intros z e Hz He.
  destruct (Z.eq_dec (Z.abs z) (2 ^ 53)) as [E|NE].
  - assert (H : z = 2 ^ 53 \/ z = - 2 ^ 53) by lia.
    assert (G : generic_format radix2 fx (bpow radix2 (53 + e))).
    { apply generic_format_bpow. unfold SpecFloat.fexp, emin, dprec, demax. lia. }
    assert (P : IZR (2 ^ 53) = bpow radix2 53) by (rewrite <- IZR_Zpower by lia; reflexivity).
    destruct H as [->| ->].
    + rewrite P, <- bpow_plus. exact G.
    + rewrite opp_IZR, P, <- Ropp_mult_distr_l, <- bpow_plus. now apply generic_format_opp.
  - replace (IZR z * bpow radix2 e)%R with (F2R (Float radix2 z e)) by reflexivity.
    apply generic_format_F2R. intros Hz0. unfold cexp, SpecFloat.fexp, emin, dprec, demax.
    rewrite mag_F2R by assumption.
    assert (mag radix2 (IZR z) <= 53). { apply mag_le_Zpower; [assumption|]. change (Zpower radix2 53) with (2 ^ 53). lia. }
    lia.
Qed.
Lemma dofZ_B : forall z, 0 <= z <= 2 ^ 53 -> exists b : binary_float dprec demax, dofZ z = B2SF b /\ is_finite b = true /\ B2R b = IZR z.
Proof.
  intros z [Hz Hb]. destruct z as [|p|p]; [| |lia].
  - exists (B754_zero false). repeat split.
  - pose (b := BinarySingleNaN.binary_normalize dprec demax Dprec_gt Dprec_emax mode_NE (Zpos p) 0 false).
    exists b. split. { unfold b. rewrite <- bn_equiv. reflexivity. }
    pose proof (binary_normalize_correct dprec demax Dprec_gt Dprec_emax mode_NE (Zpos p) 0 false) as C.
    cbv zeta in C. fold b in C.
    assert (G : generic_format radix2 fx (F2R (Float radix2 (Zpos p) 0))).
    { change (F2R (Float radix2 (Zpos p) 0)) with (IZR (Zpos p) * bpow radix2 0)%R. apply small_format; lia. }
    rewrite round_generic in C; [|apply valid_rnd_N|exact G].
    assert (V : F2R (Float radix2 (Zpos p) 0) = IZR (Zpos p)). { unfold F2R. cbn [Fnum Fexp bpow]. ring. }
    rewrite V in C.
    rewrite Rlt_bool_true in C.
    + destruct C as (C1 & C2 & _). split; assumption.
    + rewrite Rabs_pos_eq by (apply IZR_le; lia). apply Rle_lt_trans with (IZR (2 ^ 53)); [now apply IZR_le|].
      change (IZR (2 ^ 53)) with (IZR (Zpower radix2 53)). rewrite IZR_Zpower by lia. apply bpow_lt. unfold demax; lia.
Qed.

Lemma quot_round : forall ts, 0 <= ts < 2 ^ 53 -> forall k, k = ts / ns_per_sec ->
  (IZR k <= round radix2 fx ZnearestE (IZR ts / IZR ns_per_sec) < IZR (k + 1))%R.
Proof.
  intros ts Hts k Ek.
  pose proof (Z.div_mod ts ns_per_sec ltac:(unfold ns_per_sec; lia)) as D. rewrite <- Ek in D.
  pose proof (Z.mod_pos_bound ts ns_per_sec ltac:(unfold ns_per_sec; lia)) as Mb.
  assert (Hk : 0 <= k < 2 ^ 23 + 2 ^ 20). { subst k. unfold ns_per_sec. split; [apply Z.div_pos; lia|apply Z.div_lt_upper_bound; lia]. }
  set (q := (IZR ts / IZR ns_per_sec)%R).
  assert (Hq1 : (IZR k <= q)%R).
  { unfold q. apply Rmult_le_reg_r with (IZR ns_per_sec); [apply IZR_lt; unfold ns_per_sec; lia|].
    unfold Rdiv. rewrite Rmult_assoc, Rinv_l by (apply IZR_neq; unfold ns_per_sec; lia). rewrite Rmult_1_r, <- mult_IZR. apply IZR_le. lia. }
  assert (Hq2 : (q <= IZR (k + 1) - / IZR ns_per_sec)%R).
  { unfold q. apply Rmult_le_reg_r with (IZR ns_per_sec); [apply IZR_lt; unfold ns_per_sec; lia|].
    unfold Rdiv. rewrite Rmult_assoc, Rinv_l by (apply IZR_neq; unfold ns_per_sec; lia). rewrite Rmult_minus_distr_r.
    rewrite Rinv_l by (apply IZR_neq; unfold ns_per_sec; lia). rewrite Rmult_1_r, <- mult_IZR, <- minus_IZR. apply IZR_le. lia. }
  assert (V : Valid_exp fx) by (apply fexp_correct; reflexivity).
  split.
  - apply rnd_ge; [exact Hq1|]. replace (IZR k) with (IZR k * bpow radix2 0)%R by (cbn; ring). apply small_format; lia.
  - apply Rnot_le_lt. intros Hge.
    set (g := (IZR ((k + 1) * 2 ^ 29 - 1) * bpow radix2 (-29))%R).
    assert (Gg : generic_format radix2 fx g). { apply small_format; lia. }
    assert (Eg : g = (IZR (k + 1) - bpow radix2 (-29))%R).
    { unfold g. rewrite minus_IZR, mult_IZR. rewrite Rmult_minus_distr_r, Rmult_1_l. f_equal.
      change (2 ^ 29) with (Zpower radix2 29). rewrite IZR_Zpower by lia. rewrite Rmult_assoc, <- bpow_plus. cbn. ring. }
    pose proof (round_N_pt radix2 fx (fun x => negb (Z.even x)) q) as [_ HN].
    specialize (HN g Gg).
    change (round radix2 fx (Znearest (fun x => negb (Z.even x))) q) with (round radix2 fx ZnearestE q) in HN.
    set (rq := round radix2 fx ZnearestE q) in *.
    assert (B29 : (bpow radix2 (-29) < 2 * / IZR ns_per_sec)%R). { unfold ns_per_sec. cbn. lra. }
    assert (P29 : (0 < bpow radix2 (-29))%R) by apply bpow_gt_0.
    assert (Pn : (0 < / IZR ns_per_sec)%R) by (apply Rinv_0_lt_compat, IZR_lt; unfold ns_per_sec; lia).
    rewrite Rabs_pos_eq in HN by lra.
    unfold Rabs in HN. destruct (Rcase_abs (g - q)); lra.
Qed.

Lemma to_ros_exact : forall ts, 0 <= ts < 2 ^ 53 -> to_ros Dnum ts = Ok (ts / ns_per_sec, ts mod ns_per_sec).
Proof.
  intros ts Hts.
  destruct (dofZ_B ts ltac:(lia)) as (b & Eb & Fb & Rb).
  destruct (dofZ_B ns_per_sec ltac:(unfold ns_per_sec; lia)) as (d & Ed & Fd & Rd).
  pose proof (quot_round ts Hts _ eq_refl) as [Q1 Q2]. set (k := ts / ns_per_sec) in *.
  assert (Hk : 0 <= k < 2 ^ 24). { unfold k, ns_per_sec. split; [apply Z.div_pos; lia|apply Z.div_lt_upper_bound; lia]. }
  pose proof (Bdiv_correct dprec demax Dprec_gt Dprec_emax mode_NE b d) as C.
  rewrite Rb, Rd in C. specialize (C ltac:(apply IZR_neq; unfold ns_per_sec; lia)).
  change (round_mode mode_NE) with ZnearestE in C.
  rewrite Rlt_bool_true in C.
  - destruct C as (C1 & C2 & _).
    assert (E : to_int Dnum (ndiv Dnum (nofZ Dnum ts) (nofZ Dnum ns_per_sec)) = Ok k).
    { unfold to_int. change (nofZ Dnum) with dofZ. change (ntrunc Dnum) with dtrunc. change (ndiv Dnum) with (SFdiv dprec demax).
      rewrite Eb, Ed, ddiv_B, dtrunc_R by (rewrite C2; exact Fb). rewrite C1.
      assert (T : Ztrunc (round radix2 fx ZnearestE (IZR ts / IZR ns_per_sec)) = k).
      { rewrite Ztrunc_floor by (apply Rle_trans with (2 := Q1); apply IZR_le; lia). apply Zfloor_imp. split; assumption. }
      rewrite T. unfold int_range. rewrite (proj2 (Z.leb_le _ _)) by lia. rewrite (proj2 (Z.ltb_lt _ _)) by lia. reflexivity. }
    unfold to_ros. rewrite E. reflexivity.
  - rewrite Rabs_pos_eq by (apply Rle_trans with (2 := Q1); apply IZR_le; lia).
    apply Rlt_trans with (1 := Q2). apply Rle_lt_trans with (IZR (2 ^ 24)); [apply IZR_le; lia|].
    change (2 ^ 24) with (Zpower radix2 24). rewrite IZR_Zpower by lia. apply bpow_lt. unfold demax; lia.
Qed.
Lemma time_roundtrip : forall ts, 0 <= ts < 2 ^ 53 -> exists t, to_ros Dnum ts = Ok t /\ to_eeros t = ts.
Proof.
  intros ts H. eexists. split; [now apply to_ros_exact|]. unfold to_eeros. cbn [fst snd].
  pose proof (Z.div_mod ts ns_per_sec ltac:(unfold ns_per_sec; lia)) as D.
  assert (0 <= ts / ns_per_sec <= ts). { unfold ns_per_sec. split; [apply Z.div_pos; lia|]. apply Z.div_le_upper_bound; lia. }
  rewrite (Z.mod_small (ts / ns_per_sec)) by lia. rewrite Z.mod_small; lia.
Qed.
Lemma time_jump : exists ts t, 0 <= ts < 2 ^ 63 /\ to_ros Dnum ts = Ok t /\ to_eeros t = ts + ns_per_sec.
Proof. exists 1763333332999999999, (1763333333, 999999999). split; [lia|]. split; vm_compute; reflexivity. Qed.
Lemma time_range : exists ts, 0 <= ts < 2 ^ 63 /\ to_ros Dnum ts = UB.
Proof. exists (2 ^ 31 * ns_per_sec). split; [unfold ns_per_sec; lia|]. vm_compute. reflexivity. Qed.
