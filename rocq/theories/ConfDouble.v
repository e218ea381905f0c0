(** Double properties of configurations, Config.cpp 23-36 and 70-100, at the level of values:
    std::to_string(double) prints with "%f", that is rounded to six decimals; operator<< on the string stream of
    an array prints with "%g", that is rounded to six significant digits; std::stod reads the double nearest to
    the printed number. Overflow on reading is not modelled (the range of values considered excludes it). *)
From Coq Require Import Reals ZArith Lia Lra Psatz.
From Flocq Require Import Core Relative.
Open Scope R_scope.

Definition radix10 : radix := Build_radix 10 eq_refl.
(** 28: std::to_string *)
Definition printed (x : R) : R := round radix10 (FIX_exp (-6)) ZnearestE x.
(** 81-84: ss << value *)
Definition printed_elem (x : R) : R := round radix10 (FLX_exp 6) ZnearestE x.
(** 32, 92: std::stod *)
Definition parsed (x : R) : R := round radix2 (FLT_exp (-1074) 53) ZnearestE x.
Definition restored_double (x : R) : R := parsed (printed x).
Definition restored_elem (x : R) : R := parsed (printed_elem x).
(** Finite doubles. *)
Definition is_double (x : R) : Prop := generic_format radix2 (FLT_exp (-1074) 53) x.

Lemma int_double z : (Z.abs z <= 2 ^ 53)%Z -> is_double (IZR z).
Proof.
  intros H. unfold is_double. apply generic_format_FLT.
  destruct (Z.eq_dec (Z.abs z) (2 ^ 53)) as [E|E].
  - exists (Float radix2 (z / 2) 1).
    + unfold F2R. cbn [Fnum Fexp]. change (bpow radix2 1) with (IZR 2). rewrite <- mult_IZR. f_equal.
      assert (z = 2 ^ 53 \/ z = - 2 ^ 53)%Z as [-> | ->] by lia; reflexivity.
    + cbn [Fnum]. assert (z = 2 ^ 53 \/ z = - 2 ^ 53)%Z as [-> | ->] by lia; reflexivity.
    + cbn. lia.
  - exists (Float radix2 z 0).
    + unfold F2R. cbn [Fnum Fexp bpow]. ring.
    + cbn [Fnum]. change (Zpower_nat 2 53) with (2 ^ 53)%Z. change (radix_val radix2) with 2%Z. change (2 ^ 53)%Z with 9007199254740992%Z in *. lia.
    + cbn. lia.
Qed.
Lemma parsed_id x : is_double x -> parsed x = x.
Proof. intros H. apply round_generic; [apply valid_rnd_N|exact H]. Qed.

Lemma double_int z : (Z.abs z <= 2 ^ 53)%Z -> restored_double (IZR z) = IZR z.
Proof.
  intros H. unfold restored_double. assert (P : printed (IZR z) = IZR z).
  { apply round_generic; [apply valid_rnd_N|]. apply generic_format_FIX. exists (Float radix10 (z * 10 ^ 6) (-6)); [|reflexivity].
    unfold F2R. cbn [Fnum Fexp bpow]. rewrite mult_IZR. change (IZR (10 ^ 6)) with 1000000. change (IZR (Zpower_pos radix10 6)) with 1000000. field. }
  rewrite P. apply parsed_id, int_double, H.
Qed.
Lemma elem_int z : (Z.abs z < 1000000)%Z -> restored_elem (IZR z) = IZR z.
Proof.
  intros H. unfold restored_elem. assert (P : printed_elem (IZR z) = IZR z).
  { apply round_generic; [apply valid_rnd_N|]. apply generic_format_FLX. exists (Float radix10 z 0).
    - unfold F2R. cbn [Fnum Fexp bpow]. ring.
    - cbn [Fnum]. change (radix_val radix10) with 10%Z. change (10 ^ 6)%Z with 1000000%Z. exact H. }
  rewrite P. apply parsed_id, int_double. change (2 ^ 53)%Z with 9007199254740992%Z. lia.
Qed.

Lemma printed_err x : Rabs (printed x - x) <= / 2000000.
Proof.
  unfold printed. eapply Rle_trans; [apply error_le_half_ulp; apply FIX_exp_valid|]. rewrite ulp_FIX.
  cbn [bpow]. change (IZR (Zpower_pos radix10 6)) with 1000000. lra.
Qed.
Lemma parsed_err x : Rabs x <= IZR (2 ^ 32) -> Rabs (parsed x - x) <= bpow radix2 (-21).
Proof.
  intros H. unfold parsed. eapply Rle_trans; [apply error_le_half_ulp; apply FLT_exp_valid; reflexivity|].
  assert (ulp radix2 (FLT_exp (-1074) 53) x <= bpow radix2 (-20)); [|change (bpow radix2 (-20)) with (/ IZR (2 ^ 20)) in *; change (bpow radix2 (-21)) with (/ IZR (2 ^ 21)); change (2 ^ 20)%Z with 1048576%Z in *; change (2 ^ 21)%Z with 2097152%Z; lra].
  replace (bpow radix2 (-20)) with (ulp radix2 (FLT_exp (-1074) 53) (bpow radix2 32)).
  - apply ulp_le; [apply FLT_exp_valid; reflexivity|apply FLT_exp_monotone|]. rewrite (Rabs_pos_eq (bpow radix2 32)) by apply bpow_ge_0. exact H.
  - rewrite ulp_bpow. f_equal.
Qed.
Lemma double_close x : Rabs x <= IZR (2 ^ 31) -> Rabs (restored_double x - x) <= / 1000000.
Proof.
  intros H. unfold restored_double. pose proof (printed_err x) as P.
  assert (Q : Rabs (printed x) <= IZR (2 ^ 32)).
  { replace (printed x) with ((printed x - x) + x) by ring. eapply Rle_trans; [apply Rabs_triang|]. change (2 ^ 31)%Z with 2147483648%Z in H. change (2 ^ 32)%Z with 4294967296%Z. lra. }
  pose proof (parsed_err _ Q) as S. replace (parsed (printed x) - x) with ((parsed (printed x) - printed x) + (printed x - x)) by ring.
  eapply Rle_trans; [apply Rabs_triang|]. change (bpow radix2 (-21)) with (/ IZR (2 ^ 21)) in S. change (2 ^ 21)%Z with 2097152%Z in S. lra.
Qed.
(** A small value is lost. *)
Lemma double_lossy : is_double (bpow radix2 (-30)) /\ restored_double (bpow radix2 (-30)) = 0.
Proof.
  split.
  - apply generic_format_bpow. cbn. lia.
  - unfold restored_double. assert (P : printed (bpow radix2 (-30)) = 0).
    { unfold printed, round, scaled_mantissa, cexp, FIX_exp. replace (ZnearestE _) with 0%Z; [unfold F2R; cbn; ring|]. symmetry. apply Znearest_imp.
      change (bpow radix10 (- -6)) with 1000000. change (bpow radix2 (-30)) with (/ IZR (2 ^ 30)). change (2 ^ 30)%Z with 1073741824%Z.
      rewrite Rminus_0_r, Rabs_pos_eq; lra. }
    rewrite P. apply parsed_id. apply generic_format_0.
Qed.
(** An integer with seven digits is changed in an array. *)
Lemma elem_lossy : restored_elem 1234567 = 1234570.
Proof.
  unfold restored_elem. assert (P : printed_elem 1234567 = 1234570).
  { unfold printed_elem, round, scaled_mantissa, cexp. rewrite (mag_unique radix10 1234567 7).
    - change (FLX_exp 6 7) with 1%Z. replace (ZnearestE _) with 123457%Z.
      + unfold F2R. cbn [Fnum Fexp bpow]. change (IZR (Zpower_pos radix10 1)) with 10. lra.
      + symmetry. apply Znearest_imp. change (bpow radix10 (- (1))) with (/ 10). rewrite Rabs_left; lra.
    - rewrite Rabs_pos_eq by lra. change (bpow radix10 (7 - 1)) with 1000000. change (bpow radix10 7) with 10000000. lra. }
  rewrite P. apply parsed_id. apply (int_double 1234570). cbn. lia.
Qed.
Lemma double_changed : is_double (bpow radix2 (-30)) /\ restored_double (bpow radix2 (-30)) <> bpow radix2 (-30).
Proof. destruct double_lossy as [A B]. split; [exact A|]. rewrite B. pose proof (bpow_gt_0 radix2 (-30)). lra. Qed.
Lemma elem_changed : is_double 1234567 /\ restored_elem 1234567 <> 1234567.
Proof. split; [apply (int_double 1234567); cbn; lia|]. rewrite elem_lossy. lra. Qed.
Lemma elem_close x : is_double x -> bpow radix2 (-1000) <= Rabs x -> Rabs (restored_elem x - x) <= / 100000 * Rabs x.
Proof.
  intros _ H. unfold restored_elem.
  pose proof (relative_error_N_FLX radix10 6 eq_refl (fun z => negb (Z.even z)) x) as P. change (round radix10 (FLX_exp 6) ZnearestE x) with (printed_elem x) in P.
  change (bpow radix10 (- (6) + 1)) with (/ 100000) in P.
  assert (Q : / 2 * Rabs x <= Rabs (printed_elem x)).
  { pose proof (Rabs_triang (printed_elem x) (x - printed_elem x)) as T. replace (printed_elem x + (x - printed_elem x)) with x in T by ring. rewrite (Rabs_minus_sym x) in T. pose proof (Rabs_pos x). lra. }
  assert (Q2 : bpow radix2 (-1074 + 53 - 1) <= Rabs (printed_elem x)).
  { apply Rle_trans with (/ 2 * bpow radix2 (-1000)); [|lra]. change (/ 2) with (bpow radix2 (-1)). rewrite <- bpow_plus. apply bpow_le. lia. }
  pose proof (relative_error_N_FLT radix2 (-1074) 53 eq_refl (fun z => negb (Z.even z)) (printed_elem x) Q2) as S. change (round radix2 (FLT_exp (-1074) 53) ZnearestE (printed_elem x)) with (parsed (printed_elem x)) in S.
  assert (B : bpow radix2 (- (53) + 1) <= / 1000000). { change (/ 1000000) with (/ IZR 1000000). apply Rle_trans with (bpow radix2 (-20)); [apply bpow_le; lia|]. change (bpow radix2 (-20)) with (/ IZR 1048576). lra. }
  assert (Q3 : Rabs (printed_elem x) <= 2 * Rabs x).
  { pose proof (Rabs_triang (printed_elem x - x) x) as T. replace (printed_elem x - x + x) with (printed_elem x) in T by ring. pose proof (Rabs_pos x). lra. }
  replace (parsed (printed_elem x) - x) with ((parsed (printed_elem x) - printed_elem x) + (printed_elem x - x)) by ring.
  eapply Rle_trans; [apply Rabs_triang|]. pose proof (Rabs_pos x) as N. pose proof (bpow_gt_0 radix2 (- (53) + 1)).
  assert (Rabs (parsed (printed_elem x) - printed_elem x) <= / 1000000 * Rabs x); [|lra].
  eapply Rle_trans; [exact S|]. assert (bpow radix2 (- (53) + 1) * Rabs (printed_elem x) <= / 1000000 * (2 * Rabs x)); [|lra]. apply Rmult_le_compat; try lra; apply Rabs_pos.
Qed.
