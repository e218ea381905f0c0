(** Binary64 operations of [Dnum] as rounded real operations (via Flocq), used for the
    monotonicity of floating point accumulation. *)
From Coq Require Import ZArith Reals Lra Floats.SpecFloat Bool.
From Flocq Require Import Core IEEE754.BinarySingleNaN.
From Verif Require Import Prelude Num.
Open Scope R_scope.

Definition dvalid (x : dbl) : Prop := valid_binary dprec demax x = true.
#[global] Instance Dprec_gt : FLX.Prec_gt_0 dprec := eq_refl _.
#[global] Instance Dprec_emax : Prec_lt_emax dprec demax := eq_refl _.

Lemma rne_equiv s m l : round_nearest_even m l = choice_mode mode_NE s m l.
Proof. destruct l as [|[]]; try reflexivity. simpl. unfold Round.cond_incr. now case Z.even. Qed.
Lemma bra_equiv sx mx ex lx :
  SpecFloat.binary_round_aux dprec demax sx mx ex lx = BinarySingleNaN.binary_round_aux dprec demax mode_NE sx mx ex lx.
Proof.
  unfold SpecFloat.binary_round_aux, BinarySingleNaN.binary_round_aux.
  set (r := shr_fexp _ _ _ _ _). case r; intros m e. cbn [fst snd]. now rewrite (rne_equiv sx).
Qed.
Lemma br_equiv s m e :
  SpecFloat.binary_round dprec demax s m e = BinarySingleNaN.binary_round dprec demax mode_NE s m e.
Proof.
  unfold SpecFloat.binary_round, BinarySingleNaN.binary_round, shl_align_fexp.
  set (z := shl_align _ _ _); case z as [mz ez]. apply bra_equiv.
Qed.
Lemma bn_equiv m e z :
  SpecFloat.binary_normalize dprec demax m e z
  = B2SF (BinarySingleNaN.binary_normalize dprec demax Dprec_gt Dprec_emax mode_NE m e z).
Proof. destruct m; [reflexivity| |]; simpl; rewrite B2SF_SF2B; apply br_equiv. Qed.

Lemma dadd_B (x y : binary_float dprec demax) : SFadd dprec demax (B2SF x) (B2SF y) = B2SF (Bplus mode_NE x y).
Proof.
  destruct x as [sx|sx| |sx mx ex Bx], y as [sy|sy| |sy my ey By]; [now (trivial || simpl; case Bool.eqb)..|].
  apply bn_equiv.
Qed.
Lemma dsub_B (x y : binary_float dprec demax) : SFsub dprec demax (B2SF x) (B2SF y) = B2SF (Bminus mode_NE x y).
Proof.
  destruct x as [sx|sx| |sx mx ex Bx], y as [sy|sy| |sy my ey By]; [now (trivial || simpl; case Bool.eqb)..|].
  simpl. unfold Zminus. rewrite <- cond_Zopp_negb. apply bn_equiv.
Qed.
Lemma dmul_B (x y : binary_float dprec demax) : SFmul dprec demax (B2SF x) (B2SF y) = B2SF (Bmult mode_NE x y).
Proof.
  destruct x as [sx|sx| |sx mx ex Bx], y as [sy|sy| |sy my ey By]; [now trivial..|].
  simpl. rewrite B2SF_SF2B. apply bra_equiv.
Qed.

Definition toB (x : dbl) (H : dvalid x) : binary_float dprec demax := SF2B x H.
Lemma toB_SF x H : B2SF (toB x H) = x. Proof. apply B2SF_SF2B. Qed.
Lemma B_valid (b : binary_float dprec demax) : dvalid (B2SF b).
Proof. apply valid_binary_B2SF. Qed.

Lemma dadd_valid x y : dvalid x -> dvalid y -> dvalid (nadd Dnum x y).
Proof. intros Hx Hy. cbn. rewrite <- (toB_SF x Hx), <- (toB_SF y Hy), dadd_B. apply B_valid. Qed.
Lemma dsub_valid x y : dvalid x -> dvalid y -> dvalid (nsub Dnum x y).
Proof. intros Hx Hy. cbn. rewrite <- (toB_SF x Hx), <- (toB_SF y Hy), dsub_B. apply B_valid. Qed.

(** Order of numbers that are finite or +infinity. *)
Definition dpos_inf (x : dbl) : Prop := x = S754_infinity false.
Definition dfin (x : dbl) : Prop := match x with S754_zero _ | S754_finite _ _ _ => True | _ => False end.

Lemma dfin_B (b : binary_float dprec demax) : dfin (B2SF b) <-> is_finite b = true.
Proof. destruct b; simpl; split; intros; auto; try discriminate; tauto. Qed.

Lemma rnd_ge (a b : R) : a <= b -> generic_format radix2 (SpecFloat.fexp dprec demax) a ->
  a <= round radix2 (SpecFloat.fexp dprec demax) ZnearestE b.
Proof.
  intros H G. rewrite <- (round_generic radix2 (SpecFloat.fexp dprec demax) ZnearestE a G).
  apply round_le; [apply fexp_correct; reflexivity|apply valid_rnd_N|exact H].
Qed.

(** t <= t + d for d >= 0: the sum is again finite or +infinity. *)
Lemma dadd_ge (x y : dbl) : dvalid x -> dvalid y -> dfin x -> dfin y -> SFleb (S754_zero false) y = true ->
  SFleb x (nadd Dnum x y) = true /\ (dfin (nadd Dnum x y) \/ dpos_inf (nadd Dnum x y)).
Proof.
  intros Hx Hy Fx Fy Hp. cbn. rewrite <- (toB_SF x Hx), <- (toB_SF y Hy) in *.
  set (bx := toB x Hx) in *. set (b := toB y Hy) in *. clearbody bx b. clear Hx Hy.
  rewrite dadd_B. apply dfin_B in Fx, Fy.
  assert (Y0 : 0 <= B2R b).
  { change (S754_zero false) with (B2SF (B754_zero false : binary_float dprec demax)) in Hp.
    change (Bleb (B754_zero false) b = true) in Hp. rewrite Bleb_correct in Hp by auto. simpl in Hp.
    destruct (Rle_bool_spec 0 (B2R b)); [assumption|discriminate]. }
  pose proof (Bplus_correct dprec demax Dprec_gt Dprec_emax mode_NE bx b Fx Fy) as C.
  pose proof (rnd_ge (B2R bx) (B2R bx + B2R b) ltac:(lra) (generic_format_B2R dprec demax bx)) as G.
  destruct (Rlt_bool_spec (Rabs (round radix2 (SpecFloat.fexp dprec demax) (round_mode mode_NE) (B2R bx + B2R b))) (bpow radix2 demax)) as [L|L].
  - destruct C as (C1 & C2 & _). split; [|left; apply dfin_B; exact C2].
    change (Bleb bx (Bplus mode_NE bx b) = true). rewrite Bleb_correct, C1 by assumption.
    apply Rle_bool_true. exact G.
  - destruct C as (C1 & C2). rewrite C1.
    assert (S : Bsign bx = false).
    { destruct (Bsign bx) eqn:S; [exfalso|reflexivity].
      assert (B2R b = 0). { destruct b as [s|s| |s m e Hb]; simpl in *; try reflexivity; try discriminate.
        subst s. exfalso. pose proof (F2R_lt_0 radix2 (Float radix2 (Zneg m) e) ltac:(reflexivity)). unfold F2R in *; simpl in *; lra. }
      rewrite H, Rplus_0_r in L. rewrite round_generic in L; [|apply valid_rnd_N|apply generic_format_B2R].
      pose proof (abs_B2R_lt_emax dprec demax bx). lra. }
    rewrite S. cbn. split; [|right; reflexivity].
    destruct bx as [s|s| |s m e Hb]; simpl in *; try reflexivity; try discriminate.
Qed.

(** x >= y >= c: x - c >= y - c (the difference may overflow). *)
Lemma dsub_mono (x y c : dbl) : dvalid x -> dvalid y -> dvalid c -> dfin x -> dfin y -> dfin c ->
  SFleb y x = true -> dfin (nsub Dnum y c) ->
  SFleb (nsub Dnum y c) (nsub Dnum x c) = true.
Proof.
  intros Hx Hy Hc Fx Fy Fc L F. cbn in *. rewrite <- (toB_SF x Hx), <- (toB_SF y Hy), <- (toB_SF c Hc) in *.
  set (bx := toB x Hx) in *. set (b := toB y Hy) in *. set (bc := toB c Hc) in *. clearbody bx b bc. clear Hx Hy Hc.
  rewrite !dsub_B in *. apply dfin_B in Fx, Fy, Fc, F.
  change (Bleb b bx = true) in L. rewrite Bleb_correct in L by assumption.
  destruct (Rle_bool_spec (B2R b) (B2R bx)) as [L'|]; [|discriminate].
  pose proof (Bminus_correct dprec demax Dprec_gt Dprec_emax mode_NE b bc Fy Fc) as Cb.
  pose proof (Bminus_correct dprec demax Dprec_gt Dprec_emax mode_NE bx bc Fx Fc) as Cx.
  destruct (Rlt_bool _ _) in Cb.
  2:{ exfalso. destruct Cb as [Cb _]. pose proof (is_finite_SF_B2SF dprec demax (Bminus mode_NE b bc)) as E. rewrite F, Cb in E.
      destruct (Bsign b); discriminate E. }
  destruct Cb as (C1 & _ & _).
  assert (M : round radix2 (SpecFloat.fexp dprec demax) (round_mode mode_NE) (B2R b - B2R bc)
     <= round radix2 (SpecFloat.fexp dprec demax) (round_mode mode_NE) (B2R bx - B2R bc)).
  { apply round_le; [apply fexp_correct; reflexivity|apply valid_rnd_N|lra]. }
  destruct (Rlt_bool_spec (Rabs (round radix2 (SpecFloat.fexp dprec demax) (round_mode mode_NE) (B2R bx - B2R bc))) (bpow radix2 demax)) as [Lx|Lx].
  - destruct Cx as (C3 & C4 & _). change (Bleb (Bminus mode_NE b bc) (Bminus mode_NE bx bc) = true).
    rewrite Bleb_correct, C1, C3 by assumption. apply Rle_bool_true. exact M.
  - destruct Cx as (C3 & C4). rewrite C3.
    assert (S : Bsign bx = false).
    { destruct (Bsign bx) eqn:S; [exfalso|reflexivity].
      assert (X0 : B2R bx <= 0). { destruct bx as [s|s| |s m e Hb]; simpl in *; try lra. subst s.
        pose proof (F2R_lt_0 radix2 (Float radix2 (Zneg m) e) ltac:(reflexivity)). unfold F2R in *; simpl in *; lra. }
      assert (Cc : 0 <= B2R bc). { destruct bc as [s|s| |s m e Hb]; simpl in *; try lra. destruct s; [discriminate|].
        pose proof (F2R_gt_0 radix2 (Float radix2 (Zpos m) e) ltac:(reflexivity)). unfold F2R in *; simpl in *; lra. }
      assert (N : round radix2 (SpecFloat.fexp dprec demax) (round_mode mode_NE) (B2R bx - B2R bc) <= 0).
      { rewrite <- (round_0 radix2 (SpecFloat.fexp dprec demax) (round_mode mode_NE)).
        apply round_le; [apply fexp_correct; reflexivity|apply valid_rnd_N|lra]. }
      rewrite Rabs_left1 in Lx by exact N.
      pose proof (abs_B2R_lt_emax dprec demax (Bminus mode_NE b bc)) as A. rewrite C1 in A.
      rewrite Rabs_left1 in A by (eapply Rle_trans; eassumption). lra. }
    rewrite S. cbn. destruct (Bminus mode_NE b bc) as [s|s| |s m e Hb]; simpl in *; try reflexivity; discriminate.
Qed.
