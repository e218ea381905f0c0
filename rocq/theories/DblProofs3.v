(** Proofs about the moving average in binary64. *)
From Coq Require Import ZArith Reals Lra Lia Floats.SpecFloat Bool List.
From Flocq Require Import Core IEEE754.BinarySingleNaN.
From Verif Require Import Prelude Num NumDbl NumDbl3 CtrlModel CtrlModel2 DblSpec DblProofs DblProofs2.
Import ListNotations.
Open Scope R_scope.

Lemma weight_nonneg c : 0 <= weight c.
Proof. induction c as [|x c IH]; cbn [weight]; [lra|]. pose proof (Rabs_pos (dval x)). lra. Qed.
Lemma weight_app c d : weight (c ++ d) = weight c + weight d.
Proof. induction c as [|x c IH]; cbn [weight app]; [ring|]. rewrite IH. ring. Qed.

Section Average.
  Context (B W : R) (HB : bpow radix2 (-900) <= W * B <= bpow radix2 900) (B0 : 0 < B) (W0 : 0 < W).
  Let M := W * B.
  Let D (k : R) := k * / IZR (2 ^ 51) * M.
  Definition fine (x : Dnum) : Prop := dok x /\ Rabs (dval x) <= B.

  Lemma ma_prod (c x : Dnum) : dok c -> Rabs (dval c) <= W -> fine x ->
    dok (nmul Dnum c x) /\ Rabs (dval (nmul Dnum c x) - dval c * dval x) <= uro * M + eta /\ Rabs (dval c * dval x) <= Rabs (dval c) * B.
  Proof.
    intros Kc Hc [Kx Hx]. pose proof uro_pos as U0.
    assert (P : Rabs (dval c * dval x) <= Rabs (dval c) * B) by (rewrite Rabs_mult; apply Rmult_le_compat_l; [apply Rabs_pos|exact Hx]).
    assert (Q : Rabs (dval c) * B <= M) by (apply Rmult_le_compat_r; lra).
    destruct (dmul_val c x Kc Kx) as [K E]. { apply (below_big M); [exact (proj2 HB)|]. assert (0 < M) by (apply Rmult_lt_0_compat; lra). lra. }
    split; [exact K|]. split; [|exact P]. rewrite E. eapply Rle_trans; [apply drnd_err|]. apply Rplus_le_compat_r, Rmult_le_compat_l; lra.
  Qed.

  Lemma ma_fold l : forall (acc : Dnum) (A k w : R), Forall (fun p => dok (fst p) /\ fine (snd p)) l ->
    dok acc -> Rabs A <= w * B -> 0 <= w -> w + weight (map fst l) <= W -> 1 <= k -> k + INR (length l) <= IZR (2 ^ 50) ->
    Rabs (dval acc - A) <= D k ->
    let r := fold_left (fun a p => nadd Dnum a (nmul Dnum (fst p) (snd p))) l acc in
    dok r /\ Rabs (dval r - fold_left (fun a p => a + fst p * snd p) (map (fun p => (dval (fst p), dval (snd p))) l) A) <= D (k + INR (length l)).
  Proof.
    pose proof uro_pos as U0. pose proof uro_lit as U1. assert (M0 : 0 < M) by (apply Rmult_lt_0_compat; lra).
    pose proof (eta_le M (proj1 HB)) as N1.
    induction l as [|[c x] l IH]; intros acc A k w Hl Ka HA Hw HW Hk HN HD; cbn [fold_left map length fst snd].
    - cbn [INR]. rewrite Rplus_0_r. split; assumption.
    - inversion Hl as [|y l' [Kc Hx] Hl']; subst. cbn [fst snd] in *. cbn [map weight fst] in HW.
      cbn [length] in HN. rewrite S_INR in HN |- *.
      pose proof (weight_nonneg (map fst l)) as WN. pose proof (Rabs_pos (dval c)) as CP. pose proof (pos_INR (length l)) as LP.
      destruct (ma_prod c x Kc ltac:(lra) Hx) as (Km & Em & Pm). set (m := dval (nmul Dnum c x)) in *.
      assert (DK : D k <= M).
      { unfold D. rewrite <- (Rmult_1_l M) at 2. apply Rmult_le_compat_r; [lra|]. change (2 ^ 51)%Z with 2251799813685248%Z. change (2 ^ 50)%Z with 1125899906842624%Z in HN. lra. }
      assert (wB : w * B <= M) by (apply Rmult_le_compat_r; lra).
      assert (A1 : Rabs (A + dval c * dval x) <= (w + Rabs (dval c)) * B) by (eapply Rle_trans; [apply Rabs_triang|]; lra).
      assert (A2 : (w + Rabs (dval c)) * B <= M) by (apply Rmult_le_compat_r; lra).
      assert (UM : uro * M = / 9007199254740992 * M) by now rewrite U1.
      assert (S1 : Rabs (dval acc + m - (A + dval c * dval x)) <= D k + (uro * M + eta)).
      { replace (dval acc + m - (A + dval c * dval x)) with ((dval acc - A) + (m - dval c * dval x)) by ring.
        eapply Rle_trans; [apply Rabs_triang|]. now apply Rplus_le_compat. }
      assert (S2 : Rabs (dval acc + m) <= 2.5 * M).
      { replace (dval acc + m) with ((dval acc + m - (A + dval c * dval x)) + (A + dval c * dval x)) by ring.
        eapply Rle_trans; [apply Rabs_triang|]. lra. }
      destruct (dadd_val acc (nmul Dnum c x) Ka Km) as [Ks Es]; [fold m; apply (below_big M); [exact (proj2 HB)|lra]|]. fold m in Es.
      pose proof (dadd_err acc (nmul Dnum c x) Ka Km) as R4. fold m in R4. rewrite <- Es in R4.
      assert (R5 : Rabs (dval (nadd Dnum acc (nmul Dnum c x)) - (dval acc + m)) <= uro * (2.5 * M)) by (eapply Rle_trans; [exact R4|]; apply Rmult_le_compat_l; lra).
      replace (k + (INR (length l) + 1)) with ((k + 1) + INR (length l)) by ring.
      apply (IH _ _ (k + 1) (w + Rabs (dval c))); try assumption; try lra.
      replace (dval (nadd Dnum acc (nmul Dnum c x)) - (A + dval c * dval x)) with
        ((dval (nadd Dnum acc (nmul Dnum c x)) - (dval acc + m)) + (dval acc + m - (A + dval c * dval x))) by ring.
      eapply Rle_trans; [apply Rabs_triang|]. unfold D in *. change (2 ^ 51)%Z with 2251799813685248%Z in *. lra.
  Qed.

  Lemma last_map (c : list Dnum) x : last (map dval c) (dval x) = dval (last c x).
  Proof. induction c as [|y c IH]; [reflexivity|]. destruct c; [reflexivity|]. exact IH. Qed.
  Lemma removelast_map (c : list Dnum) : removelast (map dval c) = map dval (removelast c).
  Proof. induction c as [|y c IH]; [reflexivity|]. destruct c; [reflexivity|]. cbn [removelast map] in *. now rewrite <- IH. Qed.
  Lemma combine_map (c s : list Dnum) : combine (map dval c) (map dval s) = map (fun p => (dval (fst p), dval (snd p))) (combine c s).
  Proof. revert s. induction c as [|y c IH]; intros [|z s]; try reflexivity. cbn. now rewrite IH. Qed.
  Lemma weight_combine (c s : list Dnum) : weight (map fst (combine c s)) <= weight c.
  Proof.
    revert s. induction c as [|y c IH]; intros [|z s]; cbn [combine map weight fst]; try lra.
    - pose proof (weight_nonneg c). pose proof (Rabs_pos (dval y)). lra.
    - specialize (IH s). lra.
  Qed.

  Lemma ma_result_close (c s : list Dnum) (x : Dnum) : c <> [] -> Forall dok c -> weight c <= W -> Forall fine s -> fine x ->
    INR (length c) + 1 <= IZR (2 ^ 50) ->
    dok (ma_result Dnum c s x) /\
    Rabs (dval (ma_result Dnum c s x) - ma_result Rnum (map dval c) (map dval s) (dval x)) <= D (INR (length c) + 1).
  Proof.
    intros Hc Kc Hw Hs Hx HN. unfold ma_result. rewrite last_map, removelast_map, combine_map.
    destruct (exists_last Hc) as (c' & y & ->). rewrite removelast_last, last_last.
    rewrite weight_app in Hw. cbn [weight] in Hw. rewrite app_length, plus_INR in HN |- *. cbn [length INR] in HN |- *.
    apply Forall_app in Kc. destruct Kc as [Kc Ky]. inversion Ky as [|? ? Ky' _]; subst.
    pose proof (weight_nonneg c') as WN. pose proof (Rabs_pos (dval y)) as YP. pose proof (pos_INR (length c')) as LP.
    destruct (ma_prod y x Ky' ltac:(lra) Hx) as (Km & Em & Pm).
    pose proof uro_lit as U1. assert (M0 : 0 < M) by (apply Rmult_lt_0_compat; lra). pose proof (eta_le M (proj1 HB)) as N1.
    assert (L : (length (combine c' s) <= length c')%nat) by (rewrite combine_length; lia). apply le_INR in L.
    pose proof (pos_INR (length (combine c' s))) as LP'.
    pose proof (weight_combine c' s) as WC.
    destruct (ma_fold (combine c' s) (nmul Dnum y x) (dval y * dval x) 1 (Rabs (dval y))) as [K E].
    - apply Forall_forall. intros [a b] H. cbn [fst snd]. split.
      + rewrite Forall_forall in Kc. eapply Kc, in_combine_l, H.
      + rewrite Forall_forall in Hs. eapply Hs, in_combine_r, H.
    - exact Km.
    - exact Pm.
    - exact YP.
    - eapply Rle_trans; [apply Rplus_le_compat_l; exact WC|lra].
    - lra.
    - apply Rle_trans with (1 + INR (length c')); [apply Rplus_le_compat_l; exact L|lra].
    - eapply Rle_trans; [exact Em|]. unfold D. rewrite U1 in *. change (2 ^ 51)%Z with 2251799813685248%Z. lra.
    - split; [exact K|]. eapply Rle_trans; [exact E|]. unfold D. apply Rmult_le_compat_r; [lra|].
      apply Rmult_le_compat_r; [apply Rlt_le, Rinv_0_lt_compat, IZR_lt; reflexivity|].
      apply Rle_trans with (1 + INR (length c')); [apply Rplus_le_compat_l; exact L|lra].
  Qed.

  Lemma ma_close (c : list Dnum) l : c <> [] -> Forall dok c -> weight c <= W -> INR (length c) + 1 <= IZR (2 ^ 50) ->
    (forall i, In i l -> dok (sv i) /\ Rabs (dval (sv i)) <= B) ->
    Forall2 (near (D (INR (length c) + 1))) (ma_runs Dnum (ma_new Dnum c) l) (ma_runs Rnum (ma_new Rnum (map dval c)) (map real_sig l)).
  Proof.
    intros Hc Kc Hw HN.
    assert (G : forall (s : list Dnum), Forall fine s -> (forall i, In i l -> dok (sv i) /\ Rabs (dval (sv i)) <= B) ->
      Forall2 (near (D (INR (length c) + 1))) (ma_runs Dnum {| ma_coef := c; ma_prev := s; ma_en := true |} l)
        (ma_runs Rnum {| ma_coef := (map dval c : list (nT Rnum)); ma_prev := map dval s; ma_en := true |} (map real_sig l))).
    { induction l as [|i l IH]; intros s Hs Hl; [constructor|].
      assert (Hi : fine (sv i)) by (apply Hl; now left).
      assert (Ht : Forall fine (tl s)) by (destruct s; [constructor|now inversion Hs]).
      destruct (ma_result_close c (tl s) (sv i) Hc Kc Hw Ht Hi HN) as [K E].
      cbn [ma_runs map]. unfold ma_run. cbn [ma_coef ma_prev ma_en].
      assert (T : @tl (nT Rnum) (map dval s) = map dval (tl s)) by (destruct s; reflexivity).
      constructor.
      - unfold near, real_sig. cbn [sv st]. split; [reflexivity|]. split; [exact K|]. rewrite T. exact E.
      - rewrite T. replace (@app (nT Rnum) (map dval (tl s)) [sv (real_sig i)]) with (map dval (tl s ++ [sv i])) by (rewrite map_app; reflexivity).
        apply IH; [|intros; apply Hl; now right]. apply Forall_app. split; [exact Ht|]. constructor; [exact Hi|constructor]. }
    intros Hl.
    assert (E : repeat (nofZ Rnum 0) (@length (nT Rnum) (map dval c)) = map dval (repeat (nofZ Dnum 0) (length c))).
    { clear. induction c as [|y c IH]; [reflexivity|]. cbn [length repeat map]. f_equal. exact IH. }
    unfold ma_new. rewrite E. apply G; [|exact Hl].
    apply Forall_forall. intros x H. apply repeat_spec in H. subst x. split; [split; reflexivity|]. cbn. rewrite Rabs_R0. lra.
  Qed.
End Average.
