(** Conversion of the period to nanoseconds in the loop synchronised to the time of ROS. *)
From Coq Require Import ZArith Reals Lra Lia Floats.
From Flocq Require Import Core IEEE754.BinarySingleNaN.
From Verif Require Import Prelude Num NumDbl NumDbl2 NumDbl3 TaskModel DblModel DblProofs SyncModel.
Open Scope R_scope.

Lemma period_trunc (p : Dnum) : dok p -> / IZR (2 ^ 30) <= dval p <= IZR (2 ^ 30) ->
  exists k, period_nsec Dnum p = Ok k /\
    dval p * 1000000000 * (1 - / IZR (2 ^ 52)) - 1 < IZR k <= dval p * 1000000000 * (1 + / IZR (2 ^ 52)).
Proof.
  intros K H. destruct (period_close p K H) as [Kq Eq]. unfold period_nsec, to_u64.
  change (nmul Dnum p (nofZ Dnum 1000000000)) with (period_ns p). set (q := period_ns p) in *.
  assert (T : ntrunc Dnum q = Some (Ztrunc (dval q))).
  { destruct Kq as [V F]. rewrite <- (toB_SF q V) in F |- *. rewrite dval_B. apply dtrunc_R. now apply dfin_B. }
  rewrite T. rewrite uro_lit in Eq.
  assert (L1 : IZR (2 ^ 30) = 1073741824) by reflexivity. assert (L2 : IZR (2 ^ 52) = 4503599627370496) by reflexivity. rewrite L1 in H. rewrite L2.
  apply Rabs_le_inv in Eq. set (x := dval p * 1000000000) in *.
  assert (X : 0 < x <= 1073741824000000000) by (unfold x; lra).
  assert (Q : 0 <= dval q) by nra.
  rewrite (Ztrunc_floor _ Q). pose proof (Zfloor_lb (dval q)) as A. pose proof (Zfloor_ub (dval q)) as B.
  assert (Z0 : (0 <= Zfloor (dval q))%Z) by (apply Zfloor_lub; exact Q).
  assert (Z1 : (Zfloor (dval q) < 2 ^ 64)%Z).
  { apply lt_IZR. eapply Rle_lt_trans; [exact A|]. change (IZR (2 ^ 64)) with 18446744073709551616. lra. }
  exists (Zfloor (dval q)). split.
  - rewrite (proj2 (Z.leb_le _ _) Z0), (proj2 (Z.ltb_lt _ _) Z1). reflexivity.
  - split; nra.
Qed.
