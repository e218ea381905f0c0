(** Further facts about the binary64 operations of [Dnum]: products with a non-negative factor and truncation are monotone. *)
From Coq Require Import ZArith Reals Lra Floats.SpecFloat Bool.
From Flocq Require Import Core IEEE754.BinarySingleNaN.
From Verif Require Import Prelude Num NumDbl.
Open Scope R_scope.

Lemma dle_R (a b : binary_float dprec demax) : is_finite a = true -> is_finite b = true ->
  (SFleb (B2SF a) (B2SF b) = true <-> B2R a <= B2R b).
Proof.
  intros Fa Fb. change (SFleb (B2SF a) (B2SF b)) with (Bleb a b). rewrite Bleb_correct by assumption.
  split; intros H; [destruct (Rle_bool_spec (B2R a) (B2R b)); [assumption|discriminate]|now apply Rle_bool_true].
Qed.

Lemma dtrunc_R (b : binary_float dprec demax) : is_finite b = true -> dtrunc (B2SF b) = Some (Ztrunc (B2R b)).
Proof.
  destruct b as [s|s| |s m e H]; intros F; try discriminate.
  - cbn. f_equal. symmetry. apply (Ztrunc_IZR 0).
  - cbn [B2SF dtrunc B2R]. f_equal.
    assert (P : Ztrunc (F2R (Float radix2 (Z.pos m) e)) = (if (0 <=? e)%Z then (Z.pos m * 2 ^ e)%Z else (Z.pos m / 2 ^ (- e))%Z)).
    { unfold F2R. cbn [Fnum Fexp]. destruct (Z.leb_spec 0 e) as [He|He].
      - replace (bpow radix2 e) with (IZR (2 ^ e)) by (now rewrite <- (IZR_Zpower radix2 e He)).
        rewrite <- mult_IZR. apply Ztrunc_IZR.
      - rewrite Ztrunc_floor.
        + replace (bpow radix2 e) with (/ IZR (2 ^ (- e))).
          * change (IZR (Z.pos m) * / IZR (2 ^ (- e))) with (IZR (Z.pos m) / IZR (2 ^ (- e))). apply Zfloor_div.
            assert (0 < 2 ^ (- e))%Z by (apply Z.pow_pos_nonneg; lia). lia.
          * change (2 ^ (- e))%Z with (radix2 ^ (- e))%Z. rewrite IZR_Zpower by lia. rewrite bpow_opp. apply Rinv_inv.
        + apply Rmult_le_pos; [apply IZR_le; lia|apply bpow_ge_0]. }
    destruct s; cbn [cond_Zopp].
    + rewrite <- P. change (Z.neg m) with (- Z.pos m)%Z. rewrite F2R_Zopp, Ztrunc_opp. reflexivity.
    + symmetry. exact P.
Qed.

Lemma Ztrunc_mono x y : x <= y -> (Ztrunc x <= Ztrunc y)%Z.
Proof. apply Ztrunc_le. Qed.

Lemma dmul_mono (x y c : dbl) : dvalid x -> dvalid y -> dvalid c -> dfin x -> dfin y -> dfin c ->
  SFleb (S754_zero false) x = true -> SFleb x y = true -> SFleb (S754_zero false) c = true -> dfin (nmul Dnum y c) ->
  dfin (nmul Dnum x c) /\ SFleb (S754_zero false) (nmul Dnum x c) = true /\ SFleb (nmul Dnum x c) (nmul Dnum y c) = true /\
  exists a b, ntrunc Dnum (nmul Dnum x c) = Some a /\ ntrunc Dnum (nmul Dnum y c) = Some b /\ (0 <= a <= b)%Z.
Proof.
  intros Hx Hy Hc Fx Fy Fc L0 L1 L2 F. cbn [nmul ntrunc Dnum] in *. rewrite <- (toB_SF x Hx), <- (toB_SF y Hy), <- (toB_SF c Hc) in *.
  set (bx := toB x Hx) in *. set (b := toB y Hy) in *. set (bc := toB c Hc) in *. clearbody bx b bc. clear Hx Hy Hc.
  rewrite !dmul_B in *. apply dfin_B in Fx, Fy, Fc, F.
  change (S754_zero false) with (B2SF (B754_zero false : binary_float dprec demax)) in *.
  apply dle_R in L0; [|reflexivity|assumption]. apply dle_R in L1; [|assumption..]. apply dle_R in L2; [|reflexivity|assumption].
  cbn [B2R] in L0, L2.
  pose proof (Bmult_correct dprec demax Dprec_gt Dprec_emax mode_NE b bc) as Cb.
  pose proof (Bmult_correct dprec demax Dprec_gt Dprec_emax mode_NE bx bc) as Cx.
  assert (M : round radix2 (SpecFloat.fexp dprec demax) (round_mode mode_NE) (B2R bx * B2R bc)
     <= round radix2 (SpecFloat.fexp dprec demax) (round_mode mode_NE) (B2R b * B2R bc)).
  { apply round_le; [apply fexp_correct; reflexivity|apply valid_rnd_N|]. now apply Rmult_le_compat_r. }
  assert (M0 : 0 <= round radix2 (SpecFloat.fexp dprec demax) (round_mode mode_NE) (B2R bx * B2R bc)).
  { rewrite <- (round_0 radix2 (SpecFloat.fexp dprec demax) (round_mode mode_NE)).
    apply round_le; [apply fexp_correct; reflexivity|apply valid_rnd_N|]. now apply Rmult_le_pos. }
  destruct (Rlt_bool_spec (Rabs (round radix2 (SpecFloat.fexp dprec demax) (round_mode mode_NE) (B2R b * B2R bc))) (bpow radix2 demax)) as [L|L].
  2:{ exfalso. pose proof (is_finite_SF_B2SF dprec demax (Bmult mode_NE b bc)) as E. rewrite F, Cb in E.
      destruct (xorb (Bsign b) (Bsign bc)); discriminate E. }
  destruct Cb as (C1 & _ & _).
  rewrite Rlt_bool_true in Cx. 2:{ rewrite Rabs_pos_eq in * by lra. lra. }
  destruct Cx as (D1 & D2 & _). rewrite Fx, Fc in D2. cbn in D2.
  split; [now apply dfin_B|]. split; [|split].
  - apply dle_R; [reflexivity|exact D2|]. cbn [B2R]. rewrite D1. exact M0.
  - apply dle_R; [exact D2|exact F|]. rewrite D1, C1. exact M.
  - rewrite !dtrunc_R by assumption. do 2 eexists. split; [reflexivity|]. split; [reflexivity|]. rewrite D1, C1. split.
    + rewrite <- (Ztrunc_IZR 0). now apply Ztrunc_mono.
    + now apply Ztrunc_mono.
Qed.
