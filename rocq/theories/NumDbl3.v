(** Rounding errors of the binary64 operations of [Dnum]: the value [dval x] of a finite number, and each operation as the
    rounded real operation as long as the result stays below 2^1000. *)
From Coq Require Import ZArith Reals Lra Lia Floats.SpecFloat Bool.
From Flocq Require Import Core IEEE754.BinarySingleNaN.
From Flocq Require Import Relative Plus_error.
From Verif Require Import Prelude Num NumDbl NumDbl2.
Open Scope R_scope.

Definition dval (x : dbl) : R := SF2R radix2 x.
Definition drnd (x : R) : R := round radix2 (SpecFloat.fexp dprec demax) ZnearestE x.
(** A finite machine number. *)
Definition dok (x : dbl) : Prop := dvalid x /\ dfin x.
Definition big : R := bpow radix2 1000.

Lemma dval_B (b : binary_float dprec demax) : dval (B2SF b) = B2R b.
Proof. unfold dval. symmetry. destruct b; reflexivity. Qed.
Lemma fexp_valid : Valid_exp (SpecFloat.fexp dprec demax). Proof. apply fexp_correct. reflexivity. Qed.
#[global] Existing Instance fexp_valid.
Lemma drnd_le a b : a <= b -> drnd a <= drnd b.
Proof. intros. apply round_le; [exact fexp_valid|apply valid_rnd_N|assumption]. Qed.
Lemma drnd_id x : generic_format radix2 (SpecFloat.fexp dprec demax) x -> drnd x = x.
Proof. intros. apply round_generic; [apply valid_rnd_N|assumption]. Qed.
Lemma fexp_FLT e : SpecFloat.fexp dprec demax e = FLT_exp (-1074) 53 e.
Proof. unfold SpecFloat.fexp, FLT_exp, SpecFloat.emin, dprec, demax. reflexivity. Qed.
Lemma format_FLT x : generic_format radix2 (FLT_exp (-1074) 53) x -> generic_format radix2 (SpecFloat.fexp dprec demax) x.
Proof. exact (fun H => H). Qed.
Lemma format_dval x : dok x -> generic_format radix2 (SpecFloat.fexp dprec demax) (dval x).
Proof. intros [H _]. rewrite <- (toB_SF x H), dval_B. apply generic_format_B2R. Qed.
Lemma format_bpow e : (-1074 <= e)%Z -> generic_format radix2 (SpecFloat.fexp dprec demax) (bpow radix2 e).
Proof. intros. apply generic_format_bpow. rewrite fexp_FLT. unfold FLT_exp. lia. Qed.
Lemma drnd_big x : Rabs x <= big -> Rabs (drnd x) < bpow radix2 demax.
Proof.
  intros H. assert (Rabs (drnd x) <= big).
  { apply abs_round_le_generic; [exact fexp_valid|apply valid_rnd_N|apply format_bpow; lia|exact H]. }
  eapply Rle_lt_trans; [eassumption|]. apply bpow_lt. unfold demax. lia.
Qed.

Ltac toBs x y Hx Hy :=
  destruct Hx as [Hx ?Fx]; destruct Hy as [Hy ?Fy];
  rewrite <- (toB_SF x Hx), <- (toB_SF y Hy) in *; set (bx := toB x Hx) in *; set (b_ := toB y Hy) in *; clearbody bx b_; clear Hx Hy;
  rewrite ?dval_B in *.

Lemma dadd_val x y : dok x -> dok y -> Rabs (dval x + dval y) <= big ->
  dok (nadd Dnum x y) /\ dval (nadd Dnum x y) = drnd (dval x + dval y).
Proof.
  intros Hx Hy L. cbn [nadd Dnum]. toBs x y Hx Hy. apply dfin_B in Fx, Fy. rewrite dadd_B.
  pose proof (Bplus_correct dprec demax Dprec_gt Dprec_emax mode_NE bx b_ Fx Fy) as C.
  rewrite Rlt_bool_true in C by (apply drnd_big; exact L). destruct C as (C1 & C2 & _).
  split; [split; [apply B_valid|now apply dfin_B]|]. rewrite dval_B. exact C1.
Qed.
Lemma dsub_val x y : dok x -> dok y -> Rabs (dval x - dval y) <= big ->
  dok (nsub Dnum x y) /\ dval (nsub Dnum x y) = drnd (dval x - dval y).
Proof.
  intros Hx Hy L. cbn [nsub Dnum]. toBs x y Hx Hy. apply dfin_B in Fx, Fy. rewrite dsub_B.
  pose proof (Bminus_correct dprec demax Dprec_gt Dprec_emax mode_NE bx b_ Fx Fy) as C.
  rewrite Rlt_bool_true in C by (apply drnd_big; exact L). destruct C as (C1 & C2 & _).
  split; [split; [apply B_valid|now apply dfin_B]|]. rewrite dval_B. exact C1.
Qed.
Lemma dmul_val x y : dok x -> dok y -> Rabs (dval x * dval y) <= big ->
  dok (nmul Dnum x y) /\ dval (nmul Dnum x y) = drnd (dval x * dval y).
Proof.
  intros Hx Hy L. cbn [nmul Dnum]. toBs x y Hx Hy. apply dfin_B in Fx, Fy. rewrite dmul_B.
  pose proof (Bmult_correct dprec demax Dprec_gt Dprec_emax mode_NE bx b_) as C.
  rewrite Rlt_bool_true in C by (apply drnd_big; exact L). destruct C as (C1 & C2 & _). rewrite Fx, Fy in C2.
  split; [split; [apply B_valid|now apply dfin_B]|]. rewrite dval_B. exact C1.
Qed.
Lemma dleb_val x y : dok x -> dok y -> (nleb Dnum x y = true <-> dval x <= dval y).
Proof. intros Hx Hy. cbn [nleb Dnum]. toBs x y Hx Hy. apply dfin_B in Fx, Fy. now apply dle_R. Qed.
Lemma dltb_val x y : dok x -> dok y -> (nltb Dnum x y = true <-> dval x < dval y).
Proof.
  intros Hx Hy. cbn [nltb Dnum]. toBs x y Hx Hy. apply dfin_B in Fx, Fy.
  change (SFltb (B2SF bx) (B2SF b_)) with (Bltb bx b_). rewrite Bltb_correct by assumption.
  split; intros H; [destruct (Rlt_bool_spec (B2R bx) (B2R b_)); [assumption|discriminate]|now apply Rlt_bool_true].
Qed.
Lemma dabs_val x : dok x -> dok (nabs Dnum x) /\ dval (nabs Dnum x) = Rabs (dval x).
Proof.
  intros [H F]. cbn [nabs Dnum]. rewrite <- (toB_SF x H) in *. set (bx := toB x H) in *. clearbody bx. rewrite dval_B.
  replace (SFabs (B2SF bx)) with (B2SF (Babs bx)) by (destruct bx; reflexivity).
  split; [split; [apply B_valid|]|rewrite dval_B; apply B2R_Babs]. destruct bx; exact F.
Qed.
Lemma dofZ_val z : (Z.abs z <= 2 ^ 53)%Z -> dok (dofZ z) /\ dval (dofZ z) = IZR z.
Proof.
  intros H.
  assert (G : generic_format radix2 (SpecFloat.fexp dprec demax) (IZR z)).
  { apply format_FLT. destruct (Z.eq_dec (Z.abs z) (2 ^ 53)) as [E|E].
    - destruct (Z.abs_eq_or_opp z) as [A|A]; rewrite A in E.
      + rewrite E. apply (generic_format_bpow radix2 _ 53). unfold FLT_exp; lia.
      + replace (IZR z) with (- IZR (2 ^ 53)) by (rewrite <- E, opp_IZR; ring). apply generic_format_opp. apply (generic_format_bpow radix2 _ 53). unfold FLT_exp; lia.
    - apply generic_format_FLT. exists (Float radix2 z 0); unfold F2R; cbn [Fnum Fexp]; [cbn; ring|change (radix2 ^ 53)%Z with (2 ^ 53)%Z; lia|lia]. }
  destruct z as [|p|p].
  - split; [split; reflexivity|reflexivity].
  - unfold dofZ. rewrite br_equiv.
    pose proof (binary_round_correct dprec demax Dprec_gt Dprec_emax mode_NE false p 0) as C. cbv zeta in C.
    destruct C as [V C]. cbn [cond_Zopp] in C. replace (F2R (Float radix2 (Z.pos p) 0)) with (IZR (Z.pos p)) in C by (unfold F2R; cbn; ring).
    rewrite (round_generic _ _ _ _ G) in C. rewrite Rlt_bool_true in C.
    + destruct C as (C1 & C2 & _). split; [split; [exact V|]|exact C1]. destruct (BinarySingleNaN.binary_round _ _ _ _ _ _); try discriminate; exact I.
    + rewrite Rabs_pos_eq by (apply IZR_le; lia). apply Rle_lt_trans with (bpow radix2 53); [|apply bpow_lt; unfold demax; lia].
      change (bpow radix2 53) with (IZR (2 ^ 53)). apply IZR_le. lia.
  - unfold dofZ. rewrite br_equiv.
    pose proof (binary_round_correct dprec demax Dprec_gt Dprec_emax mode_NE true p 0) as C. cbv zeta in C.
    destruct C as [V C]. cbn [cond_Zopp] in C. replace (F2R (Float radix2 (- Z.pos p) 0)) with (IZR (Z.neg p)) in C by (unfold F2R; cbn; ring).
    rewrite (round_generic _ _ _ _ G) in C. rewrite Rlt_bool_true in C.
    + destruct C as (C1 & C2 & _). split; [split; [exact V|]|exact C1]. destruct (BinarySingleNaN.binary_round _ _ _ _ _ _); try discriminate; exact I.
    + rewrite Rabs_left1 by (apply IZR_le; lia). rewrite <- opp_IZR. apply Rle_lt_trans with (bpow radix2 53); [|apply bpow_lt; unfold demax; lia].
      change (bpow radix2 53) with (IZR (2 ^ 53)). apply IZR_le. lia.
Qed.

(** Relative and absolute part of the rounding error. *)
Definition uro : R := bpow radix2 (-53).
Definition eta : R := bpow radix2 (-1075).
Lemma drnd_err x : Rabs (drnd x - x) <= uro * Rabs x + eta.
Proof.
  destruct (error_N_FLT radix2 (-1074) 53 ltac:(lia) (fun z => negb (Z.even z)) x) as (e & h & He & Hh & _ & E).
  change (round radix2 (FLT_exp (-1074) 53) (Znearest (fun z => negb (Z.even z))) x) with (drnd x) in E.
  rewrite E. replace (x * (1 + e) + h - x) with (e * x + h) by ring.
  eapply Rle_trans; [apply Rabs_triang|]. rewrite Rabs_mult. apply Rplus_le_compat.
  - apply Rmult_le_compat_r; [apply Rabs_pos|]. eapply Rle_trans; [exact He|]. unfold u_ro, uro.
    replace (-53)%Z with (-(1) + (-53 + 1))%Z by ring. rewrite bpow_plus. simpl bpow at 2. cbn. lra.
  - eapply Rle_trans; [exact Hh|]. unfold eta. replace (-1075)%Z with (-(1) + (-1074))%Z by ring. rewrite bpow_plus. cbn [bpow Z.opp]. simpl. lra.
Qed.
(** Sums of machine numbers have no absolute part. *)
Lemma dadd_err x y : dok x -> dok y -> Rabs (drnd (dval x + dval y) - (dval x + dval y)) <= uro * Rabs (dval x + dval y).
Proof.
  intros Hx Hy.
  assert (P : FLX.Prec_gt_0 53) by reflexivity.
  destruct (Plus_error.FLT_plus_error_N_ex radix2 (-1074) 53 (fun z => negb (Z.even z)) (dval x) (dval y) (format_dval x Hx) (format_dval y Hy)) as (e & He & E).
  change (round radix2 (FLT_exp (-1074) 53) (Znearest (fun z => negb (Z.even z))) (dval x + dval y)) with (drnd (dval x + dval y)) in E.
  rewrite E. replace ((dval x + dval y) * (1 + e) - (dval x + dval y)) with (e * (dval x + dval y)) by ring. rewrite Rabs_mult.
  apply Rmult_le_compat_r; [apply Rabs_pos|]. eapply Rle_trans; [exact He|].
  assert (U : u_ro radix2 53 = uro). { unfold u_ro, uro. replace (-53)%Z with (-(1) + (-53 + 1))%Z by ring. rewrite bpow_plus. cbn. lra. }
  rewrite U. assert (0 < uro) by apply bpow_gt_0. unfold Rdiv. rewrite <- (Rmult_1_r uro) at 3. apply Rmult_le_compat_l; [lra|]. rewrite <- Rinv_1. apply Rinv_le; lra.
Qed.
