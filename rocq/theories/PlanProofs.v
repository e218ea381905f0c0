(** Proofs about the phase loop of the path planners in exact arithmetic. *)
From Coq Require Import Reals Lra Lia ZArith FunctionalExtensionality.
From Flocq Require Import Core.Raux.
From Verif Require Import Prelude Num PlanModel.
Open Scope R_scope.

Lemma iter_S {A} k (f : A -> A) x : Nat.iter (S k) f x = f (Nat.iter k f x).
Proof. reflexivity. Qed.
Lemma iter_add {A} a b (f : A -> A) x : Nat.iter (a + b) f x = Nat.iter b f (Nat.iter a f x).
Proof. induction b; [now rewrite Nat.add_0_r|]. rewrite Nat.add_succ_r, !iter_S. now f_equal. Qed.
Lemma eps_R : eps Rnum = / 10 ^ 12.
Proof. unfold eps, lit. cbn. lra. Qed.
Lemma eps_pos : 0 < eps Rnum.
Proof. rewrite eps_R. apply Rinv_0_lt_compat, pow_lt. lra. Qed.

Section Phase.
  Context {O : Type} (p : phases Rnum O) (dt : R).
  Hypothesis Hd : (0 < ph_dim p)%nat.
  Hypothesis Hdt : eps Rnum <= dt.
  Notation run := (ph_run Rnum p dt).
  Notation D := (@Build_dyn Rnum O).

  (** Components below m replaced. *)
  Definition patch (m : nat) (v : nat -> O) (L : nat -> O) : nat -> O := fun i => if (i <? m)%nat then v i else L i.
  Lemma patch_0 v L : patch 0 v L = L.
  Proof. apply functional_extensionality. reflexivity. Qed.
  Lemma patch_S m v L : upd (patch m v L) m (v m) = patch (S m) v L.
  Proof.
    clear Hd Hdt. apply functional_extensionality; intro i. unfold upd, patch.
    destruct (Nat.eqb_spec i m); destruct (Nat.ltb_spec i m); destruct (Nat.ltb_spec i (S m)); subst; try reflexivity; lia.
  Qed.
  Lemma patch_keep m L : patch m L L = L.
  Proof. apply functional_extensionality; intro i. unfold patch. now destruct (i <? m)%nat. Qed.
  Lemma patch_patch m v w L : patch m v (patch m w L) = patch m v L.
  Proof. apply functional_extensionality; intro i. unfold patch. now destruct (i <? m)%nat. Qed.

  Lemma patch_self m v L : patch m v L m = L m.
  Proof. clear Hd Hdt. unfold patch. destruct (Nat.ltb_spec m m); [lia|reflexivity]. Qed.

  Definition inner (r : Z) : Prop := (1 <= r <= ph_n p)%Z.
  Lemma inner_b r : inner r -> ((1 <=? r) && (r <=? ph_n p))%Z = true.
  Proof. clear Hd Hdt. unfold inner. intros. apply andb_true_intro. split; apply Z.leb_le; lia. Qed.

  (** The written value of one component. *)
  Definition wr (r : Z) (t : R) (L : nat -> O) (i : nat) : O := if Rle_bool t (ph_dur p r) then ph_val p r t i else L i.

  Lemma fold_inner r t L f m : inner r -> ph_early p r && Rlt_bool (ph_dur p r) (eps Rnum) = false ->
    (m <= ph_dim p - 1)%nat ->
    fold_left (ph_elem Rnum p) (seq 0 m) (D f r t L) = D f r t (patch m (wr r t L) L).
  Proof.
    intros Hr He. induction m; intros Hm.
    - now rewrite patch_0.
    - rewrite seq_S, fold_left_app, IHm by lia. cbn [fold_left Nat.add].
      unfold ph_elem. cbn [dy_fin dy_range dy_t dy_last]. rewrite (inner_b r Hr).
      cbn [nltb nleb nabs nsub Rnum]. change (nT Rnum) with R in *. rewrite He. cbn [orb].
      replace (Nat.eqb m (ph_dim p - 1)) with false by (symmetry; apply Nat.eqb_neq; lia).
      rewrite andb_false_r. f_equal. rewrite <- patch_S. f_equal.
      rewrite patch_self. reflexivity.
  Qed.

  Lemma fold_all r t L f : inner r -> ph_early p r && Rlt_bool (ph_dur p r) (eps Rnum) = false ->
    fold_left (ph_elem Rnum p) (seq 0 (ph_dim p)) (D f r t L) =
    let adv := Rlt_bool (Rabs (t - ph_dur p r)) (eps Rnum) in
    D f (if adv then r + 1 else r)%Z (if adv then 0 else t) (patch (ph_dim p) (wr r t L) L).
  Proof.
    intros Hr He. replace (seq 0 (ph_dim p)) with (seq 0 (ph_dim p - 1) ++ [(ph_dim p - 1)%nat])
      by (rewrite <- (Nat.add_0_l (ph_dim p - 1)) at 2; rewrite <- seq_S; f_equal; lia).
    rewrite fold_left_app, (fold_inner r t L f) by (auto; lia). cbn [fold_left].
    unfold ph_elem. cbn [dy_fin dy_range dy_t dy_last]. rewrite (inner_b r Hr).
    cbn [nltb nleb nabs nsub Rnum nofZ]. change (nT Rnum) with R in *. rewrite He. cbn [orb].
    rewrite Nat.eqb_refl, andb_true_r. f_equal.
    rewrite patch_self. fold (wr r t L (ph_dim p - 1)%nat). rewrite patch_S. f_equal. lia.
  Qed.

  Lemma run_inner r t L : inner r -> ph_early p r && Rlt_bool (ph_dur p r) (eps Rnum) = false ->
    run (D false r t L) =
    let adv := Rlt_bool (Rabs (t + dt - ph_dur p r)) (eps Rnum) in
    D false (if adv then r + 1 else r)%Z (if adv then 0 else t + dt) (patch (ph_dim p) (wr r (t + dt) L) L).
  Proof. intros Hr He. unfold ph_run. cbn [dy_fin dy_range dy_t dy_last nadd Rnum]. apply fold_all; assumption. Qed.

  Lemma nearb k n : Rlt_bool (Rabs (INR k * dt - INR n * dt)) (eps Rnum) = Nat.eqb k n.
  Proof.
    pose proof eps_pos. destruct (Nat.eqb_spec k n) as [->|Hn].
    - apply Rlt_bool_true. replace (INR n * dt - INR n * dt) with 0 by ring. now rewrite Rabs_R0.
    - apply Rlt_bool_false. replace (INR k * dt - INR n * dt) with ((INR k - INR n) * dt) by ring.
      rewrite Rabs_mult, (Rabs_pos_eq dt) by lra.
      assert (1 <= Rabs (INR k - INR n)).
      { rewrite !INR_IZR_INZ, <- minus_IZR, <- abs_IZR. apply IZR_le. lia. }
      nra.
  Qed.

  Lemma early_off r n : ph_dur p r = INR n * dt -> (0 < n)%nat ->
    ph_early p r && Rlt_bool (ph_dur p r) (eps Rnum) = false.
  Proof.
    intros Hn Hp. rewrite Hn. pose proof eps_pos. assert (1 <= INR n) by (apply (le_INR 1); lia).
    rewrite Rlt_bool_false, andb_false_r; [reflexivity|nra].
  Qed.

  (** A phase that lasts n >= 1 cycles. *)
  Lemma phase_inside r n L k : inner r -> ph_dur p r = INR n * dt -> (k < n)%nat ->
    Nat.iter k run (D false r 0 L) =
    D false r (INR k * dt) (if Nat.eqb k 0 then L else patch (ph_dim p) (ph_val p r (INR k * dt)) L).
  Proof.
    intros Hr Hn. pose proof eps_pos. induction k; intros Hk.
    - cbn. now rewrite Rmult_0_l.
    - rewrite iter_S, IHk by lia. rewrite run_inner by (auto; eapply early_off; eauto; lia).
      replace (INR k * dt + dt) with (INR (S k) * dt) by (rewrite S_INR; ring).
      rewrite Hn, nearb. replace (Nat.eqb (S k) n) with false by (symmetry; apply Nat.eqb_neq; lia).
      cbn zeta. f_equal. cbn [Nat.eqb].
      assert (W : forall L', wr r (INR (S k) * dt) L' = ph_val p r (INR (S k) * dt)).
      { intro L'. apply functional_extensionality; intro i. unfold wr. rewrite Hn.
        rewrite Rle_bool_true; [reflexivity|]. apply Rmult_le_compat_r; [lra|]. apply le_INR. lia. }
      rewrite W. destruct (Nat.eqb k 0); [reflexivity|apply patch_patch].
  Qed.

  Lemma phase_end r n L : inner r -> ph_dur p r = INR n * dt -> (0 < n)%nat ->
    Nat.iter n run (D false r 0 L) = D false (r + 1)%Z 0 (patch (ph_dim p) (ph_val p r (INR n * dt)) L).
  Proof.
    intros Hr Hn Hp. destruct n as [|k]; [lia|]. rewrite iter_S, (phase_inside r (S k)) by (auto; lia).
    rewrite run_inner by (auto; eapply early_off; eauto; lia).
    replace (INR k * dt + dt) with (INR (S k) * dt) by (rewrite S_INR; ring).
    rewrite Hn, nearb, Nat.eqb_refl. cbn zeta. f_equal.
    assert (W : forall L', wr r (INR (S k) * dt) L' = ph_val p r (INR (S k) * dt)).
    { intro L'. apply functional_extensionality; intro i. unfold wr. rewrite Hn.
      rewrite Rle_bool_true; [reflexivity|lra]. }
    rewrite W. destruct (Nat.eqb k 0); [reflexivity|apply patch_patch].
  Qed.

  (** A phase of duration zero without early exit is never left. *)
  Lemma phase_stuck r L k : inner r -> ph_early p r = false -> ph_dur p r = 0 ->
    Nat.iter k run (D false r 0 L) = D false r (INR k * dt) L.
  Proof.
    intros Hr He Hz. pose proof eps_pos. induction k.
    - cbn. now rewrite Rmult_0_l.
    - rewrite iter_S, IHk. rewrite run_inner by (rewrite ?He; auto).
      replace (INR k * dt + dt) with (INR (S k) * dt) by (rewrite S_INR; ring).
      rewrite Hz. replace (INR (S k) * dt - 0) with (INR (S k) * dt - INR 0 * dt) by (cbn [INR]; ring).
      rewrite nearb. cbn [Nat.eqb]. cbn zeta. f_equal.
      assert (P : 0 < INR (S k) * dt) by (apply Rmult_lt_0_compat; [apply lt_0_INR; lia|lra]).
      transitivity (patch (ph_dim p) L L); [|apply patch_keep]. f_equal.
      apply functional_extensionality; intro i. unfold wr. rewrite Hz, Rle_bool_false; [reflexivity|exact P].
  Qed.

  (** A phase of duration zero with early exit: the first component keeps its value for one
      cycle, the others get the values of the next phase at time zero. *)
  Lemma phase_skip r L : inner r -> inner (r + 1)%Z -> ph_early p r = true -> ph_dur p r = 0 ->
    ph_early p (r + 1)%Z = false -> eps Rnum <= ph_dur p (r + 1)%Z ->
    run (D false r 0 L) = D false (r + 1)%Z 0 (patch (ph_dim p) (fun i => if Nat.eqb i 0 then L i else ph_val p (r + 1)%Z 0 i) L).
  Proof.
    intros Hr Hr1 He Hz He1 Hd1. pose proof eps_pos. unfold ph_run. cbn [dy_fin dy_range dy_t dy_last nadd Rnum].
    destruct (ph_dim p) as [|d] eqn:Ed; [lia|]. cbn [seq fold_left].
    assert (S0 : ph_elem Rnum p (D false r (0 + dt) L) 0 = D false (r + 1)%Z 0 L).
    { unfold ph_elem. cbn [dy_fin dy_range dy_t dy_last]. rewrite (inner_b r Hr), He, Hz.
      cbn [nltb nleb nabs nsub Rnum nofZ]. rewrite Rlt_bool_true by assumption. cbn [andb orb]. f_equal.
      rewrite Rle_bool_false by lra. apply functional_extensionality; intro i. unfold upd.
      now destruct (Nat.eqb_spec i 0); subst. }
    cbn [nadd Rnum] in *. change (nT Rnum) with R in *. rewrite S0.
    assert (G : forall m, (m <= d)%nat ->
      fold_left (ph_elem Rnum p) (seq 1 m) (D false (r + 1)%Z 0 L) =
      D false (r + 1)%Z 0 (patch (S m) (fun i => if Nat.eqb i 0 then L i else ph_val p (r + 1)%Z 0 i) L)).
    { induction m; intros Hm.
      - cbn [seq fold_left]. f_equal. apply functional_extensionality; intro i. unfold patch. now destruct i.
      - rewrite seq_S, fold_left_app, IHm by lia. cbn [fold_left]. unfold ph_elem. cbn [dy_fin dy_range dy_t dy_last].
        rewrite (inner_b _ Hr1), He1. cbn [nltb nleb nabs nsub Rnum nofZ andb orb]. change (nT Rnum) with R in *.
        rewrite (Rlt_bool_false (Rabs (0 - _))).
        2:{ rewrite Rabs_left1; lra. }
        cbn [andb]. f_equal. rewrite Rle_bool_true by lra. rewrite <- (patch_S (S m)). f_equal. }
    apply G. lia.
  Qed.

  (** The cycle that reports the end. *)
  Lemma phase_final t L : (0 <= ph_n p)%Z ->
    run (D false (ph_n p + 1)%Z t L) = D true (ph_n p + 1)%Z (t + dt) (patch (ph_dim p) (ph_end p) L).
  Proof.
    intros Hn. unfold ph_run. cbn [dy_fin dy_range dy_t dy_last nadd Rnum].
    assert (G : forall m f, fold_left (ph_elem Rnum p) (seq 0 (S m)) (D f (ph_n p + 1)%Z (t + dt) L) =
      D true (ph_n p + 1)%Z (t + dt) (patch (S m) (ph_end p) L)).
    { assert (E : forall f i L', ph_elem Rnum p (D f (ph_n p + 1)%Z (t + dt) L') i = D true (ph_n p + 1)%Z (t + dt) (upd L' i (ph_end p i))).
      { intros. unfold ph_elem. cbn [dy_fin dy_range dy_t dy_last]. replace ((1 <=? ph_n p + 1) && (ph_n p + 1 <=? ph_n p))%Z with false.
        2:{ symmetry. apply andb_false_intro2, Z.leb_gt. lia. }
        now rewrite Z.eqb_refl. }
      induction m; intros f.
      - cbn [seq fold_left]. rewrite E. f_equal. rewrite <- (patch_0 (ph_end p) L) at 1. apply patch_S.
      - rewrite seq_S, fold_left_app, IHm. cbn [fold_left Nat.add]. rewrite E. f_equal. apply patch_S. }
    destruct (ph_dim p) as [|d]; [lia|]. apply G.
  Qed.

  Lemma run_idle r t L : run (D true r t L) = D true r (t + dt) L.
  Proof. reflexivity. Qed.
End Phase.
