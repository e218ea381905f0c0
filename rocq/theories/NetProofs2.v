(** The control loop converges. *)
From Coq Require Import ZArith Reals Lra Lia List Bool.
From Flocq Require Import Core.Raux.
From Verif Require Import Prelude Num CtrlModel CtrlModel2 CtrlSpec NetModel NetSpec NetProofs.
Import ListNotations.
Open Scope R_scope.

Ltac ups := repeat first [rewrite upd_same | rewrite upd_other by lia].

Lemma last_default (l : list Z) : forall a d d', last (a :: l) d = last (a :: l) d'.
Proof. induction l as [|b l IH]; intros a d d'; [reflexivity|]. exact (IH b d d'). Qed.

Section Loop.
  Context (r K mn mx lo hi : R) (HK : mn <= K <= mx).
  Definition loop_int (f : bool) (y : R) (t : Z) : kind Rnum :=
    KInt Rnum {| i_first := f; i_en := true; i_prev := mksig (y : nT Rnum) t; i_hi := hi; i_lo := lo |}.
  Definition loop_inv (f1 f : bool) (y : R) (t : Z) (w : world (kind Rnum) (signal Rnum)) : Prop :=
    w_st w 0%nat = KConst Rnum r /\ w_st w 1%nat = KSum Rnum {| s_neg := [false; true]; s_first := f1; s_init := [None; None] |} /\
    w_st w 2%nat = KGain Rnum (g_new Rnum K mx mn) /\ w_st w 3%nat = loop_int f y t.
  Definition cycle (t : Z) (w : world (kind Rnum) (signal Rnum)) : world (kind Rnum) (signal Rnum) :=
    fst (td_run (block_run (kind_net Rnum t loop_src)) {| tdrunning := true; tdblocks := [0; 1; 2; 3]%nat; tdsafety := true |} w).

  Lemma adapt_K : g_adapt Rnum (g_new Rnum K mx mn) = K.
  Proof.
    unfold g_adapt, g_new. cbn [g_gain g_smooth g_max g_min nltb Rnum]. rewrite (Rlt_bool_false mx K) by lra. now rewrite (Rlt_bool_false K mn) by lra.
  Qed.
  Lemma gain_K (x : R) (t : Z) : g_run Rnum (g_new Rnum K mx mn) (mksig (x : nT Rnum) t) = (g_new Rnum K mx mn, mksig (K * x : nT Rnum) t).
  Proof. unfold g_run. rewrite adapt_K. reflexivity. Qed.
  Lemma sum_two f1 (a b : signal Rnum) : sum_run Rnum {| s_neg := [false; true]; s_first := f1; s_init := [None; None] |} [a; b] =
    ({| s_neg := [false; true]; s_first := false; s_init := [None; None] |}, mksig (0 + sv a - sv b : nT Rnum) (st a)).
  Proof. destruct f1; reflexivity. Qed.

  Lemma cycle_step f1 f y t t' w : loop_inv f1 f y t w ->
    let e := r - sv (w_out w 3%nat 0%nat) in
    let dt := if f then 0 else IZR t' / 1000000000 - IZR t / 1000000000 in
    let v := y + K * (0 + r - sv (w_out w 3%nat 0%nat)) * dt in
    let y' := if Rlt_bool v hi && Rlt_bool lo v then v else y in
    loop_inv false false y' t' (cycle t' w) /\ w_out (cycle t' w) 3%nat 0%nat = mksig (y' : nT Rnum) t'.
  Proof.
    intros (H0 & H1 & H2 & H3). cbv zeta.
    assert (C : exists w1 w2 w3, cycle t' w = {| w_st := upd (w_st w3) 3%nat (loop_int false
        (if Rlt_bool (y + K * (0 + r - sv (w_out w 3%nat 0%nat)) * (if f then 0 else IZR t' / 1000000000 - IZR t / 1000000000)) hi &&
            Rlt_bool lo (y + K * (0 + r - sv (w_out w 3%nat 0%nat)) * (if f then 0 else IZR t' / 1000000000 - IZR t / 1000000000))
         then y + K * (0 + r - sv (w_out w 3%nat 0%nat)) * (if f then 0 else IZR t' / 1000000000 - IZR t / 1000000000) else y) t');
        w_out := upd (w_out w3) 3%nat (fun _ => mksig ((if Rlt_bool (y + K * (0 + r - sv (w_out w 3%nat 0%nat)) * (if f then 0 else IZR t' / 1000000000 - IZR t / 1000000000)) hi &&
            Rlt_bool lo (y + K * (0 + r - sv (w_out w 3%nat 0%nat)) * (if f then 0 else IZR t' / 1000000000 - IZR t / 1000000000))
         then y + K * (0 + r - sv (w_out w 3%nat 0%nat)) * (if f then 0 else IZR t' / 1000000000 - IZR t / 1000000000) else y) : nT Rnum) t') |} /\
      w3 = {| w_st := upd (w_st w2) 2%nat (KGain Rnum (g_new Rnum K mx mn)); w_out := upd (w_out w2) 2%nat (fun _ => mksig (K * (0 + r - sv (w_out w 3%nat 0%nat)) : nT Rnum) t') |} /\
      w2 = {| w_st := upd (w_st w1) 1%nat (KSum Rnum {| s_neg := [false; true]; s_first := false; s_init := [None; None] |});
              w_out := upd (w_out w1) 1%nat (fun _ => mksig (0 + r - sv (w_out w 3%nat 0%nat) : nT Rnum) t') |} /\
      w1 = {| w_st := upd (w_st w) 0%nat (KConst Rnum r); w_out := upd (w_out w) 0%nat (fun _ => mksig (r : nT Rnum) t') |}).
    { eexists _, _, _. split; [|split; [reflexivity|split; reflexivity]].
      unfold cycle, td_run. cbn [tdrunning tdblocks run_blocks].
      unfold block_run at 1. cbn [kind_net n_src loop_src read_inputs n_fun]. rewrite H0. cbn [kind_run].
      unfold block_run at 1. cbn [kind_net n_src loop_src read_inputs n_fun w_st w_out]. ups. rewrite H1. cbn [kind_run].
      rewrite sum_two. ups. cbn [sv st].
      unfold block_run at 1. cbn [kind_net n_src loop_src read_inputs n_fun w_st w_out]. ups. rewrite H2. cbn [kind_run].
      ups. rewrite gain_K.
      unfold block_run at 1. cbn [kind_net n_src loop_src read_inputs n_fun w_st w_out]. ups. rewrite H3. cbn [kind_run loop_int].
      ups. destruct f; reflexivity. }
    destruct C as (w1 & w2 & w3 & -> & -> & -> & ->). cbn [w_st w_out]. split; [|now rewrite upd_same].
    unfold loop_inv. cbn [w_st w_out]. ups. repeat split.
  Qed.

  Lemma loop_run q ts : forall y t w, loop_inv false false y t w -> w_out w 3%nat 0%nat = mksig (y : nT Rnum) t ->
    0 <= q <= 1 -> lo < r - Rabs (y - r) -> r + Rabs (y - r) < hi -> shrinking K q t ts ->
    exists y', w_out (loop_cycles Rnum w ts) 3%nat 0%nat = mksig (y' : nT Rnum) (last ts t) /\ Rabs (y' - r) <= q ^ length ts * Rabs (y - r).
  Proof.
    induction ts as [|t' ts IH]; intros y t w I Ho Hq Hlo Hhi Hs.
    - exists y. split; [exact Ho|]. cbn. lra.
    - cbn [shrinking] in Hs. destruct Hs as [Hs1 Hs]. destruct (cycle_step false false y t t' w I) as [I' O']. cbv zeta in I', O'. rewrite Ho in I', O'. cbn [sv] in I', O'.
      set (v := y + K * (0 + r - y) * (IZR t' / 1000000000 - IZR t / 1000000000)) in *.
      assert (Ev : v - r = (1 - K * ((IZR t' - IZR t) / 1000000000)) * (y - r)) by (unfold v; field).
      assert (Av : Rabs (v - r) <= q * Rabs (y - r)) by (rewrite Ev, Rabs_mult; apply Rmult_le_compat_r; [apply Rabs_pos|exact Hs1]).
      assert (Ay : 0 <= Rabs (y - r)) by apply Rabs_pos.
      assert (Av' : Rabs (v - r) <= Rabs (y - r)) by (assert (q * Rabs (y - r) <= 1 * Rabs (y - r)) by (apply Rmult_le_compat_r; lra); lra).
      assert (In1 : lo < v < hi). { apply Rabs_le_inv in Av'. lra. }
      rewrite !Rlt_bool_true in I', O' by lra. cbn [andb] in I', O'.
      destruct (IH v t' (cycle t' w) I' O' Hq ltac:(lra) ltac:(lra) Hs) as (y' & E & B).
      exists y'. cbn [loop_cycles]. fold (cycle t' w). split.
      + rewrite E. f_equal. destruct ts as [|a ts]; [reflexivity|]. exact (last_default ts a t' t).
      + cbn [length pow]. eapply Rle_trans; [exact B|]. replace (q * q ^ length ts * Rabs (y - r)) with (q ^ length ts * (q * Rabs (y - r))) by ring.
        apply Rmult_le_compat_l; [apply pow_le; lra|exact Av].
  Qed.

  Theorem loop_converges y0 junk q t0 ts : 0 <= q <= 1 -> lo < r - Rabs (y0 - r) -> r + Rabs (y0 - r) < hi -> shrinking K q t0 ts ->
    exists y, w_out (loop_cycles Rnum (loop_start r K mn mx y0 lo hi junk) (t0 :: ts)) 3%nat 0%nat = mksig (y : nT Rnum) (last ts t0) /\
      Rabs (y - r) <= q ^ length ts * Rabs (y0 - r).
  Proof.
    intros Hq Hlo Hhi Hs. cbn [loop_cycles]. fold (cycle t0 (loop_start r K mn mx y0 lo hi junk)).
    destruct (cycle_step true true y0 0 t0 (loop_start r K mn mx y0 lo hi junk)) as [I O]; [repeat split|]. cbv zeta in I, O.
    rewrite Rmult_0_r, Rplus_0_r in I, O.
    assert (I' : loop_inv false false y0 t0 (cycle t0 (loop_start r K mn mx y0 lo hi junk))) by (destruct (_ && _) in I; exact I).
    assert (O' : w_out (cycle t0 (loop_start r K mn mx y0 lo hi junk)) 3%nat 0%nat = mksig (y0 : nT Rnum) t0) by (destruct (_ && _) in O; exact O).
    exact (loop_run q ts y0 t0 _ I' O' Hq Hlo Hhi Hs).
  Qed.
End Loop.
