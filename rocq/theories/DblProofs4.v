(** The constant acceleration planner ends in binary64 arithmetic as long as its phases are not too long. *)
From Coq Require Import ZArith Reals Lra Lia Floats.SpecFloat Bool List.
From Flocq Require Import Core IEEE754.BinarySingleNaN.
From Verif Require Import Prelude Num NumDbl NumDbl3 DblProofs DblProofs2 PlanModel PlanSpec PlanProofs.
Import ListNotations.
Open Scope R_scope.

Definition dnear (t dur : Dnum) : bool := nltb Dnum (nabs Dnum (nsub Dnum t dur)) (eps Dnum).

(** ** One cycle of a phase *)
Section Cycle.
  Context {O : Type} (p : phases Dnum O) (dt : Dnum) (r : Z).
  Hypothesis Hr : ((1 <=? r) && (r <=? ph_n p))%Z = true.
  Notation run := (ph_run Dnum p dt).
  Notation D := (@Build_dyn Dnum O).

  Lemma fold_stay t l : ph_early p r && nltb Dnum (ph_dur p r) (eps Dnum) = false ->
    (dnear t (ph_dur p r) = false \/ forall i, In i l -> (i < ph_dim p - 1)%nat) ->
    forall L, exists L', fold_left (ph_elem Dnum p) l (D false r t L) = D false r t L'.
  Proof.
    intros He. induction l as [|i l IH]; intros Hm L; [now exists L|].
    cbn [fold_left]. unfold ph_elem at 2. cbn [dy_fin dy_range dy_t dy_last]. rewrite Hr, He.
    assert (Z0 : nltb Dnum (nabs Dnum (nsub Dnum t (ph_dur p r))) (eps Dnum) && Nat.eqb i (ph_dim p - 1) = false).
    { destruct Hm as [Hm|Hm]; [unfold dnear in Hm; now rewrite Hm|].
      destruct (Nat.eqb_spec i (ph_dim p - 1)) as [->|]; [|apply andb_false_r]. specialize (Hm _ (or_introl eq_refl)). lia. }
    rewrite Z0. cbn [orb]. apply IH. destruct Hm as [Hm|Hm]; [now left|right]. intros; apply Hm; now right.
  Qed.
  Lemma run_stay t L : ph_early p r && nltb Dnum (ph_dur p r) (eps Dnum) = false -> dnear (nadd Dnum t dt) (ph_dur p r) = false ->
    exists L', run (D false r t L) = D false r (nadd Dnum t dt) L'.
  Proof. intros He Hm. unfold ph_run. cbn [dy_fin dy_range dy_t dy_last]. apply fold_stay; auto. Qed.
  Lemma run_next t L : (0 < ph_dim p)%nat -> ph_early p r && nltb Dnum (ph_dur p r) (eps Dnum) = false -> dnear (nadd Dnum t dt) (ph_dur p r) = true ->
    exists L', run (D false r t L) = D false (r + 1) (nofZ Dnum 0) L'.
  Proof.
    intros Hd He Hm. unfold ph_run. cbn [dy_fin dy_range dy_t dy_last].
    replace (ph_dim p) with (S (ph_dim p - 1)) by lia. rewrite seq_S, fold_left_app. cbn [plus].
    destruct (fold_stay (nadd Dnum t dt) (seq 0 (ph_dim p - 1)) He) with (L := L) as [L1 ->].
    { right. intros i H. apply in_seq in H. lia. }
    cbn [fold_left]. unfold ph_elem. cbn [dy_fin dy_range dy_t dy_last]. rewrite Hr, He. unfold dnear in Hm. rewrite Hm, Nat.eqb_refl.
    cbn [andb orb]. eexists. reflexivity.
  Qed.
End Cycle.

Section Skip.
  Context {O : Type} (p : phases Dnum O) (dt : Dnum) (r : Z).
  Hypothesis Hr : ((1 <=? r) && (r <=? ph_n p))%Z = true. Hypothesis Hr1 : ((1 <=? r + 1) && (r + 1 <=? ph_n p))%Z = true.
  Notation run := (ph_run Dnum p dt).
  Notation D := (@Build_dyn Dnum O).
  (** A phase of duration zero that is left at once. *)
  Lemma run_skip t L : (0 < ph_dim p)%nat -> ph_early p r && nltb Dnum (ph_dur p r) (eps Dnum) = true ->
    ph_early p (r + 1) = false -> dnear (nofZ Dnum 0) (ph_dur p (r + 1)) = false ->
    exists L', run (D false r t L) = D false (r + 1) (nofZ Dnum 0) L'.
  Proof.
    intros Hd He H1 Hm. unfold ph_run. cbn [dy_fin dy_range dy_t dy_last].
    replace (ph_dim p) with (S (ph_dim p - 1)) by lia. cbn [seq fold_left].
    assert (E : exists L', ph_elem Dnum p (D false r (nadd Dnum t dt) L) 0 = D false (r + 1) (nofZ Dnum 0) L').
    { unfold ph_elem. cbn [dy_fin dy_range dy_t dy_last]. rewrite Hr, He. cbn [orb]. eexists. reflexivity. }
    destruct E as [L' ->]. apply fold_stay; [exact Hr1|now rewrite H1|now left].
  Qed.
End Skip.

Section Final.
  Context {O : Type} (p : phases Dnum O) (dt : Dnum).
  Notation run := (ph_run Dnum p dt).
  Notation D := (@Build_dyn Dnum O).
  Lemma run_final t L : (0 < ph_dim p)%nat -> (0 <= ph_n p)%Z ->
    exists L', run (D false (ph_n p + 1) t L) = D true (ph_n p + 1) (nadd Dnum t dt) L' /\ forall i, (i < ph_dim p)%nat -> L' i = ph_end p i.
  Proof.
    intros Hd Hn. unfold ph_run. cbn [dy_fin dy_range dy_t dy_last].
    assert (C : ((1 <=? ph_n p + 1) && (ph_n p + 1 <=? ph_n p))%Z = false) by (destruct (Z.leb_spec (ph_n p + 1) (ph_n p)); [lia|apply andb_false_r]).
    assert (G : forall m f L, (0 < m)%nat \/ f = true -> exists L', fold_left (ph_elem Dnum p) (seq 0 m) (D f (ph_n p + 1) (nadd Dnum t dt) L) = D true (ph_n p + 1) (nadd Dnum t dt) L' /\ forall i, (i < m)%nat -> L' i = ph_end p i).
    { intros m f L0 Hm. assert (H : exists f' L', fold_left (ph_elem Dnum p) (seq 0 m) (D f (ph_n p + 1) (nadd Dnum t dt) L0) = D f' (ph_n p + 1) (nadd Dnum t dt) L' /\ ((0 < m)%nat -> f' = true) /\ (m = 0%nat -> f' = f) /\ forall i, (i < m)%nat -> L' i = ph_end p i).
      { clear Hm. induction m as [|m IH]; [exists f, L0; repeat split; auto; intros; lia|].
        destruct IH as (f' & L' & E & _ & _ & Q). rewrite seq_S, fold_left_app, E. cbn [fold_left plus].
        unfold ph_elem. cbn [dy_fin dy_range dy_t dy_last]. rewrite C, Z.eqb_refl.
        exists true, (upd L' m (ph_end p m)). repeat split; [intros; lia|]. intros i Hi. destruct (Nat.eq_dec i m) as [->|N].
        - now rewrite upd_same.
        - rewrite upd_other by auto. apply Q. lia. }
      destruct H as (f' & L' & E & A & B & Q). exists L'. split; [|exact Q]. rewrite E. f_equal. destruct m; [destruct Hm; [lia|]; rewrite B; auto|apply A; lia]. }
    apply G. now left.
  Qed.
  Lemma run_idle_d t r L : run (D true r t L) = D true r (nadd Dnum t dt) L. Proof. reflexivity. Qed.
  Lemma iter_idle k : forall t r L, exists t', Nat.iter k run (D true r t L) = D true r t' L.
  Proof.
    induction k as [|k IH]; intros t r L; [now exists t|]. destruct (IH t r L) as [t' E]. rewrite iter_S, E, run_idle_d. eauto.
  Qed.
End Final.

(** ** The accumulated time *)
Lemma eps_d : dok (eps Dnum) /\ 0.99 * / 1000000000000 <= dval (eps Dnum) <= 1.01 * / 1000000000000.
Proof.
  assert (E : eps Dnum = S754_finite false 4951760157141521 (-92)) by (vm_compute; reflexivity). rewrite E.
  split; [split; [vm_compute; reflexivity|exact I]|]. unfold dval, SF2R, F2R. cbn [Fnum Fexp cond_Zopp].
  change (bpow radix2 (-92)) with (/ 4951760157141521099596496896). lra.
Qed.

Section Time.
  Context (dt : Dnum) (Kd : dok dt) (Hd : / 1000000000 <= dval dt).
  Let h := dval dt.
  Fixpoint clock (k : nat) : Dnum := match k with 0%nat => nofZ Dnum 0 | S k => nadd Dnum (clock k) dt end.

  (** A phase of at most [n] cycles is short enough if (n+1)^2 dt <= 4096. *)
  Context (n : nat) (Hn : (INR n + 1) * (INR n + 1) * h <= 4096).
  Lemma h_pos : 0 < h. Proof. unfold h. lra. Qed.
  Lemma n_small : INR n * uro <= / 1000.
  Proof.
    rewrite uro_lit. pose proof h_pos as H0. pose proof (pos_INR n) as N0.
    assert (A : (INR n + 1) * (INR n + 1) * / 1000000000 <= 4096).
    { eapply Rle_trans; [|exact Hn]. apply Rmult_le_compat_l; [apply Rmult_le_pos; lra|exact Hd]. }
    destruct (Rle_lt_dec (INR n) 3000000) as [L|L]; [lra|exfalso].
    assert (3000000 * 3000000 <= (INR n + 1) * (INR n + 1)) by (apply Rmult_le_compat; lra). lra.
  Qed.
  Lemma h_small : h <= 4096.
  Proof. pose proof h_pos. pose proof (pos_INR n). assert (1 * 1 * h <= (INR n + 1) * (INR n + 1) * h) by (apply Rmult_le_compat_r; [lra|]; apply Rmult_le_compat; lra). lra. Qed.
  Lemma nh_small : INR n * h <= 4096.
  Proof.
    pose proof h_pos. pose proof (pos_INR n). eapply Rle_trans; [|exact Hn]. apply Rmult_le_compat_r; [lra|].
    assert (0 <= INR n * INR n) by (apply Rmult_le_pos; lra). lra.
  Qed.

  Lemma clock_close k : (k <= n)%nat -> dok (clock k) /\ Rabs (dval (clock k) - INR k * h) <= INR k * INR k * uro * h.
  Proof.
    pose proof h_pos as H0. pose proof uro_pos as U0. pose proof n_small as NS. pose proof nh_small as NH.
    induction k as [|k IH]; intros Hk.
    - cbn [clock]. destruct (dofZ_val 0 ltac:(lia)) as [K E]. split; [exact K|]. cbn [nofZ Dnum]. rewrite E. cbn [INR].
      replace (0 - 0 * h) with 0 by ring. rewrite Rabs_R0. lra.
    - destruct IH as [K E]; [lia|]. cbn [clock]. set (x := clock k) in *.
      pose proof (pos_INR k) as K0. assert (KN : INR k + 1 <= INR n) by (rewrite <- S_INR; apply le_INR; lia).
      assert (KU : INR k * uro <= / 1000). { eapply Rle_trans; [|exact NS]. apply Rmult_le_compat_r; lra. }
      set (e := INR k * INR k * uro * h) in *.
      assert (E0 : 0 <= e) by (unfold e; repeat apply Rmult_le_pos; lra).
      assert (E1 : e <= / 1000 * (INR k * h)).
      { unfold e. replace (INR k * INR k * uro * h) with ((INR k * uro) * (INR k * h)) by ring. apply Rmult_le_compat_r; [apply Rmult_le_pos; lra|exact KU]. }
      assert (KH : (INR k + 1) * h <= 4096). { eapply Rle_trans; [|exact NH]. apply Rmult_le_compat_r; lra. }
      assert (A : Rabs (dval x + h) <= (INR k + 1) * h + e).
      { replace (dval x + h) with ((dval x - INR k * h) + (INR k + 1) * h) by ring. eapply Rle_trans; [apply Rabs_triang|].
        rewrite (Rabs_pos_eq ((INR k + 1) * h)) by (apply Rmult_le_pos; lra). lra. }
      assert (KHP : 0 <= INR k * h) by (apply Rmult_le_pos; lra).
      destruct (dadd_val x dt K Kd) as [K' E']. { fold h. apply big_ge. change (2 ^ 64)%Z with 18446744073709551616%Z. lra. }
      split; [exact K'|]. pose proof (dadd_err x dt K Kd) as R. fold h in R, E'. rewrite <- E' in R.
      rewrite S_INR.
      replace (dval (nadd Dnum x dt) - (INR k + 1) * h) with ((dval (nadd Dnum x dt) - (dval x + h)) + (dval x - INR k * h)) by ring.
      eapply Rle_trans; [apply Rabs_triang|].
      assert (R' : Rabs (dval (nadd Dnum x dt) - (dval x + h)) <= uro * ((INR k + 1) * h + e)) by (eapply Rle_trans; [exact R|]; apply Rmult_le_compat_l; lra).
      assert (UE : uro * e <= uro * (INR k * h)) by (apply Rmult_le_compat_l; lra).
      replace ((INR k + 1) * (INR k + 1) * uro * h) with (INR k * INR k * uro * h + (2 * (uro * (INR k * h)) + uro * h)) by ring. fold e.
      replace (uro * ((INR k + 1) * h + e)) with (uro * (INR k * h) + uro * h + uro * e) in R' by ring. lra.
  Qed.

  Definition span : Dnum := nmul Dnum (nofZ Dnum (Z.of_nat n)) dt.
  Lemma n_int : (Z.abs (Z.of_nat n) <= 2 ^ 53)%Z.
  Proof.
    rewrite Z.abs_eq by lia. apply le_IZR. rewrite <- INR_IZR_INZ. pose proof n_small as NS. rewrite uro_lit in NS.
    change (2 ^ 53)%Z with 9007199254740992%Z. lra.
  Qed.
  Lemma span_close : dok span /\ Rabs (dval span - INR n * h) <= uro * (INR n * h) + eta.
  Proof.
    pose proof h_pos as H0. pose proof nh_small as NH. pose proof (pos_INR n) as N0.
    destruct (dofZ_val (Z.of_nat n) n_int) as [K E]. rewrite <- INR_IZR_INZ in E. unfold span. cbn [nofZ Dnum].
    assert (P : 0 <= INR n * h) by (apply Rmult_le_pos; lra).
    destruct (dmul_val (dofZ (Z.of_nat n)) dt K Kd) as [K' E'].
    - rewrite E. fold h. rewrite Rabs_pos_eq by exact P. apply big_ge. change (2 ^ 64)%Z with 18446744073709551616%Z. lra.
    - split; [exact K'|]. rewrite E', E. fold h. eapply Rle_trans; [apply drnd_err|]. rewrite Rabs_pos_eq by exact P. lra.
  Qed.

  Lemma err_total : INR n * INR n * uro * h + uro * (INR n * h) <= 4096 * uro.
  Proof.
    pose proof h_pos as H0. pose proof (pos_INR n) as N0. pose proof uro_pos as U0.
    replace (INR n * INR n * uro * h + uro * (INR n * h)) with (uro * ((INR n * INR n + INR n) * h)) by ring. rewrite (Rmult_comm 4096).
    apply Rmult_le_compat_l; [lra|]. eapply Rle_trans; [|exact Hn]. apply Rmult_le_compat_r; lra.
  Qed.

  (** The clock meets the duration in cycle n and in no earlier one. *)
  Lemma clock_near k : (k <= n)%nat -> dnear (clock k) span = Nat.eqb k n.
  Proof.
    intros Hk. pose proof h_pos as H0. pose proof nh_small as NH. pose proof (pos_INR n) as N0. pose proof uro_pos as U0. pose proof (pos_INR k) as K0.
    destruct (clock_close k Hk) as [K E]. destruct span_close as [Ks Es]. destruct eps_d as [Ke He].
    assert (KN : INR k <= INR n) by (apply le_INR; lia).
    assert (P : 0 <= INR n * h) by (apply Rmult_le_pos; lra).
    assert (KK : INR k * INR k * uro * h <= INR n * INR n * uro * h).
    { apply Rmult_le_compat_r; [lra|]. apply Rmult_le_compat_r; [lra|]. apply Rmult_le_compat; lra. }
    pose proof err_total as ET. pose proof eta_small as ES.
    assert (ES' : eta <= / 1000 * / 1000000000000).
    { eapply Rle_trans; [exact ES|]. rewrite <- Rinv_mult, <- mult_IZR. apply Rinv_le; [apply IZR_lt; reflexivity|]. apply IZR_le. vm_compute. discriminate. }
    assert (UU : 4096 * uro <= 0.455 * / 1000000000000) by (rewrite uro_lit; lra).
    assert (KH : INR k * h <= INR n * h) by (apply Rmult_le_compat_r; lra).
    assert (KP : 0 <= INR k * h) by (apply Rmult_le_pos; lra).
    set (T := INR n * h) in *. set (e := INR k * INR k * uro * h) in *. set (e' := uro * T + eta) in *.
    assert (EE : e + e' <= 0.46 * / 1000000000000) by (unfold e'; lra).
    pose proof eta_pos as EP. assert (0 <= uro * T) by (apply Rmult_le_pos; lra).
    assert (E0 : 0 <= e) by (unfold e; repeat apply Rmult_le_pos; lra).
    apply Rabs_le_inv in E. apply Rabs_le_inv in Es.
    (* the difference *)
    destruct (dsub_val (clock k) span K Ks) as [Kx Ex].
    { apply big_ge. change (2 ^ 64)%Z with 18446744073709551616%Z. apply Rabs_le. lra. }
    pose proof (dsub_err (clock k) span K Ks) as R. rewrite <- Ex in R.
    set (df := dval (clock k) - dval span) in *.
    destruct (dabs_val _ Kx) as [Ka Ea].
    unfold dnear.
    destruct (Nat.eqb_spec k n) as [->|N].
    - apply dltb_val; [exact Ka|exact Ke|]. rewrite Ea.
      assert (D1 : Rabs df <= 0.46 * / 1000000000000) by (apply Rabs_le; unfold df; fold T in E; lra).
      assert (Rabs (dval (nsub Dnum (clock n) span)) <= Rabs df + uro * Rabs df).
      { replace (dval (nsub Dnum (clock n) span)) with ((dval (nsub Dnum (clock n) span) - df) + df) by ring. eapply Rle_trans; [apply Rabs_triang|]. lra. }
      rewrite uro_lit in *. lra.
    - destruct (nltb Dnum _ _) eqn:L; [exfalso|reflexivity]. apply dltb_val in L; [|exact Ka|exact Ke]. rewrite Ea in L.
      assert (KS : INR k + 1 <= INR n) by (rewrite <- S_INR; apply le_INR; lia).
      assert (KHS : INR k * h + h <= T). { unfold T. assert ((INR k + 1) * h <= INR n * h) by (apply Rmult_le_compat_r; lra). lra. }
      assert (D1 : h - 0.46 * / 1000000000000 <= Rabs df). { rewrite <- Rabs_Ropp. eapply Rle_trans; [|apply Rle_abs]. unfold df. lra. }
      assert (D2 : Rabs df - uro * Rabs df <= Rabs (dval (nsub Dnum (clock k) span))).
      { assert (T3 : Rabs df <= Rabs (dval (nsub Dnum (clock k) span)) + Rabs (df - dval (nsub Dnum (clock k) span))).
        { replace df with (dval (nsub Dnum (clock k) span) + (df - dval (nsub Dnum (clock k) span))) at 1 by ring. apply Rabs_triang. }
        rewrite (Rabs_minus_sym df) in T3. lra. }
      rewrite uro_lit in *. unfold h in *. lra.
  Qed.
  Lemma span_not_small : (0 < n)%nat -> nltb Dnum span (eps Dnum) = false.
  Proof.
    intros Hp. pose proof h_pos as H0. destruct span_close as [Ks Es]. destruct eps_d as [Ke He].
    destruct (nltb Dnum span (eps Dnum)) eqn:L; [exfalso|reflexivity]. apply dltb_val in L; [|exact Ks|exact Ke].
    assert (N1 : 1 <= INR n) by (apply (le_INR 1); lia).
    assert (NH : h <= INR n * h). { rewrite <- (Rmult_1_l h) at 1. apply Rmult_le_compat_r; lra. }
    pose proof eta_small as ES. assert (ES' : eta <= / 1000 * / 1000000000000).
    { eapply Rle_trans; [exact ES|]. rewrite <- Rinv_mult, <- mult_IZR. apply Rinv_le; [apply IZR_lt; reflexivity|]. apply IZR_le. vm_compute. discriminate. }
    apply Rabs_le_inv in Es. rewrite uro_lit in Es. unfold h in *. lra.
  Qed.
  Lemma span_far : (0 < n)%nat -> dnear (nofZ Dnum 0) span = false.
  Proof. intros H. change (nofZ Dnum 0) with (clock 0). rewrite clock_near by lia. destruct n; [lia|reflexivity]. Qed.

  (** A phase of n cycles. *)
  Section Phase.
    Context {O : Type} (p : phases Dnum O) (r : Z).
    Hypothesis Hr : ((1 <=? r) && (r <=? ph_n p))%Z = true.
    Hypothesis Hdim : (0 < ph_dim p)%nat.
    Hypothesis Hdur : ph_dur p r = span.
    Hypothesis Hpos : (0 < n)%nat.
    Notation run := (ph_run Dnum p dt).
    Notation D := (@Build_dyn Dnum O).
    Lemma early_no : ph_early p r && nltb Dnum (ph_dur p r) (eps Dnum) = false.
    Proof. rewrite Hdur, (span_not_small Hpos). apply andb_false_r. Qed.
    Lemma phase_within k L : (k < n)%nat -> exists L', Nat.iter k run (D false r (nofZ Dnum 0) L) = D false r (clock k) L'.
    Proof.
      induction k as [|k IH]; intros Hk; [now exists L|]. destruct IH as [L1 E]; [lia|]. rewrite iter_S, E.
      destruct (run_stay p dt r Hr (clock k) L1 early_no) as [L2 E2].
      - rewrite Hdur. change (nadd Dnum (clock k) dt) with (clock (S k)). rewrite clock_near by lia. apply Nat.eqb_neq. lia.
      - exists L2. exact E2.
    Qed.
    Lemma phase_done L : exists L', Nat.iter n run (D false r (nofZ Dnum 0) L) = D false (r + 1) (nofZ Dnum 0) L'.
    Proof.
      destruct (phase_within (n - 1) L) as [L1 E]; [lia|]. replace (Nat.iter n run) with (Nat.iter (S (n - 1)) run) by (f_equal; lia). rewrite iter_S, E.
      apply run_next; auto; [apply early_no|]. rewrite Hdur. change (nadd Dnum (clock (n - 1)) dt) with (clock (S (n - 1))).
      rewrite clock_near by lia. apply Nat.eqb_eq. lia.
    Qed.
    Lemma phase_busy k L : (k <= n)%nat -> dy_fin (Nat.iter k run (D false r (nofZ Dnum 0) L)) = false.
    Proof.
      intros Hk. destruct (Nat.eq_dec k n) as [->|N].
      - destruct (phase_done L) as [L' ->]. reflexivity.
      - destruct (phase_within k L) as [L' ->]; [lia|]. reflexivity.
    Qed.
  End Phase.
End Time.

(** ** The planner *)
Section Planner.
  Context (d : nat) (p : pa_plan Dnum) (dt : Dnum) (n1 n2 n3 : nat).
  Hypothesis Hdim : (0 < d)%nat. Hypothesis Kd : dok dt. Hypothesis Hd : / 1000000000 <= dval dt.
  Hypothesis S1 : (INR n1 + 1) * (INR n1 + 1) * dval dt <= 4096.
  Hypothesis S2 : (INR n2 + 1) * (INR n2 + 1) * dval dt <= 4096.
  Hypothesis S3 : (INR n3 + 1) * (INR n3 + 1) * dval dt <= 4096.
  Hypothesis P1 : (0 < n1)%nat. Hypothesis P3 : (0 < n3)%nat.
  Hypothesis E1 : pa_dT1 p = span dt n1. Hypothesis E2 : pa_dT2 p = span dt n2. Hypothesis E3 : pa_dT3 p = span dt n3.
  Let q := pa_phases Dnum d p.
  Notation run := (ph_run Dnum q dt).
  Notation D := (@Build_dyn Dnum (out3 Dnum)).

  Lemma zero_span : n2 = 0%nat -> nltb Dnum (span dt n2) (eps Dnum) = true.
  Proof.
    intros Z0. destruct (span_close dt Kd Hd n2 S2) as [K E]. destruct eps_d as [Ke He]. apply dltb_val; [exact K|exact Ke|].
    rewrite Z0 in E |- *. cbn [INR] in E. replace (uro * (0 * dval dt) + eta) with eta in E by ring.
    pose proof eta_small as ES. assert (ES' : eta <= / 1000 * / 1000000000000).
    { eapply Rle_trans; [exact ES|]. rewrite <- Rinv_mult, <- mult_IZR. apply Rinv_le; [apply IZR_lt; reflexivity|]. apply IZR_le. vm_compute. discriminate. }
    apply Rabs_le_inv in E. lra.
  Qed.

  Lemma middle L : exists L', Nat.iter (Nat.max 1 n2) run (D false 2 (nofZ Dnum 0) L) = D false 3 (nofZ Dnum 0) L'.
  Proof.
    destruct (Nat.eq_dec n2 0) as [Z0|N0].
    - rewrite Z0. change (Nat.max 1 0) with 1%nat.
      apply (run_skip q dt 2); try reflexivity; [exact Hdim| |].
      + change (ph_early q 2) with true. change (ph_dur q 2) with (pa_dT2 p). rewrite E2. cbn [andb]. now apply zero_span.
      + change (ph_dur q (2 + 1)) with (pa_dT3 p). rewrite E3. apply span_far; assumption.
    - replace (Nat.max 1 n2) with n2 by lia. apply (phase_done dt Kd Hd n2 S2 q 2); try reflexivity; [exact Hdim|exact E2|lia].
  Qed.
  Lemma middle_busy k L : (k <= Nat.max 1 n2)%nat -> dy_fin (Nat.iter k run (D false 2 (nofZ Dnum 0) L)) = false.
  Proof.
    intros Hk. destruct (Nat.eq_dec k (Nat.max 1 n2)) as [->|N]; [destruct (middle L) as [L' ->]; reflexivity|].
    destruct (Nat.eq_dec n2 0) as [Z0|N0]; [assert (k = 0%nat) as -> by lia; reflexivity|].
    apply (phase_busy dt Kd Hd n2 S2 q 2); try reflexivity; [exact Hdim|exact E2|lia|lia].
  Qed.

  Lemma planner_ends L k :
    let s := Nat.iter k run (D false 1 (nofZ Dnum 0) L) in
    dy_fin s = (acc_cycles n1 n2 n3 <? k)%nat /\
    ((acc_cycles n1 n2 n3 < k)%nat -> forall i, (i < d)%nat -> dy_last s i = (pa_endp p i, nofZ Dnum 0, nofZ Dnum 0)).
  Proof.
    cbv zeta. unfold acc_cycles. set (m := Nat.max 1 n2).
    destruct (phase_done dt Kd Hd n1 S1 q 1 eq_refl Hdim E1 P1 L) as [L1 F1].
    destruct (middle L1) as [L2 F2]. fold m in F2. change (1 + 1)%Z with 2%Z in F1.
    destruct (phase_done dt Kd Hd n3 S3 q 3 eq_refl Hdim E3 P3 L2) as [L3 F3].
    destruct (run_final q dt (nofZ Dnum 0) L3 Hdim ltac:(cbn; lia)) as [L4 [F4 V4]].
    destruct (le_lt_dec k (n1 + m + n3)) as [Hk|Hk].
    - split; [|intros; lia]. replace (n1 + m + n3 <? k)%nat with false by (symmetry; apply Nat.ltb_ge; lia).
      destruct (le_lt_dec k n1) as [H|H].
      { apply (phase_busy dt Kd Hd n1 S1 q 1); try reflexivity; assumption. }
      destruct (le_lt_dec k (n1 + m)) as [H'|H'].
      { replace k with (n1 + (k - n1))%nat by lia. rewrite iter_add, F1. apply middle_busy. fold m. lia. }
      replace k with (n1 + (m + (k - n1 - m)))%nat by lia. rewrite !iter_add, F1, F2.
      apply (phase_busy dt Kd Hd n3 S3 q 3); try reflexivity; try assumption. lia.
    - replace (n1 + m + n3 <? k)%nat with true by (symmetry; apply Nat.ltb_lt; lia).
      replace k with (n1 + (m + (n3 + (1 + (k - n1 - m - n3 - 1)))))%nat by lia. rewrite !iter_add, F1, F2, F3.
      change (Nat.iter 1 run (D false (3 + 1) (nofZ Dnum 0) L3)) with (run (D false (ph_n q + 1) (nofZ Dnum 0) L3)). rewrite F4.
      destruct (iter_idle q dt (k - n1 - m - n3 - 1) (nadd Dnum (nofZ Dnum 0) dt) (ph_n q + 1) L4) as [t' ->].
      split; [reflexivity|]. intros _ i Hi. apply V4. exact Hi.
  Qed.
End Planner.

Lemma iter_run_d k (s : pa Dnum) : Nat.iter k (pa_run Dnum) s =
  pa_with Dnum s (pa_pl s) (Nat.iter k (ph_run Dnum (pa_phases Dnum (pa_d s) (pa_pl s)) (pa_dt s)) (pa_dy s)).
Proof. induction k; [now destruct s|]. rewrite !iter_S, IHk. reflexivity. Qed.

Lemma move_shape sq (s s' : pa Dnum) start endp : pa_move Dnum sq s start endp = (s', true) ->
  pa_d s' = pa_d s /\ pa_dt s' = pa_dt s /\ (exists L, pa_dy s' = Build_dyn false 1 (nofZ Dnum 0) L) /\ pa_endp (pa_pl s') = endp.
Proof.
  unfold pa_move. destruct (negb (dy_fin (pa_dy s))); [intros H; discriminate H|].
  destruct (vzero Dnum (pa_d s) _); [intros H; discriminate H|].
  intros H. injection H as <-. cbn [pa_with pa_d pa_dt pa_dy pa_pl]. split; [reflexivity|split; [reflexivity|split; [eexists; reflexivity|]]].
  unfold pa_make. destruct (pa_times _ _ _ _ _ _) as [[? ?] ?]. reflexivity.
Qed.

Lemma double_ends sq (s s' : pa Dnum) start endp n1 n2 n3 :
  (0 < pa_d s)%nat -> dok (pa_dt s) -> / 1000000000 <= dval (pa_dt s) ->
  pa_move Dnum sq s start endp = (s', true) ->
  pa_dT1 (pa_pl s') = nmul Dnum (nofZ Dnum (Z.of_nat n1)) (pa_dt s) -> pa_dT2 (pa_pl s') = nmul Dnum (nofZ Dnum (Z.of_nat n2)) (pa_dt s) ->
  pa_dT3 (pa_pl s') = nmul Dnum (nofZ Dnum (Z.of_nat n3)) (pa_dt s) -> (0 < n1)%nat -> (0 < n3)%nat ->
  (forall n, n = n1 \/ n = n2 \/ n = n3 -> (INR n + 1) * (INR n + 1) * dval (pa_dt s) <= 4096) ->
  forall k, let y := pa_dy (Nat.iter k (pa_run Dnum) s') in
    dy_fin y = (acc_cycles n1 n2 n3 <? k)%nat /\
    ((acc_cycles n1 n2 n3 < k)%nat -> forall i, (i < pa_d s)%nat -> dy_last y i = (endp i, nofZ Dnum 0, nofZ Dnum 0)).
Proof.
  intros Hdim Kd Hd M E1 E2 E3 P1 P3 Hs k.
  destruct (move_shape sq s s' start endp M) as (D1 & D2 & [L D3] & D4). cbv zeta. rewrite iter_run_d. cbn [pa_with pa_dy].
  rewrite D1, D2, D3, <- D4.
  apply (planner_ends (pa_d s) (pa_pl s') (pa_dt s) n1 n2 n3); auto.
Qed.

(** ** The constant jerk planner *)
Section Jerk.
  Context (d : nat) (p : pj_plan Dnum) (dt : Dnum) (n1 n2 : nat).
  Hypothesis Hdim : (0 < d)%nat. Hypothesis Kd : dok dt. Hypothesis Hd : / 1000000000 <= dval dt.
  Hypothesis S1 : (INR n1 + 1) * (INR n1 + 1) * dval dt <= 4096.
  Hypothesis S2 : (INR n2 + 1) * (INR n2 + 1) * dval dt <= 4096.
  Hypothesis P1 : (0 < n1)%nat. Hypothesis P2 : (0 < n2)%nat.
  Hypothesis E1 : pj_dT1 p = span dt n1. Hypothesis E2 : pj_dT2 p = span dt n2.
  Let q := pj_phases Dnum d p.
  Notation run := (ph_run Dnum q dt).
  Notation D := (@Build_dyn Dnum (out4 Dnum)).

  Lemma jerk_planner_ends L k :
    let s := Nat.iter k run (D false 1 (nofZ Dnum 0) L) in
    dy_fin s = (4 * n1 + n2 <? k)%nat /\
    ((4 * n1 + n2 < k)%nat -> forall i, (i < d)%nat -> dy_last s i = (pj_endp p i, nofZ Dnum 0, nofZ Dnum 0, nofZ Dnum 0)).
  Proof.
    cbv zeta.
    destruct (phase_done dt Kd Hd n1 S1 q 1 eq_refl Hdim E1 P1 L) as [L1 F1]. change (1 + 1)%Z with 2%Z in F1.
    destruct (phase_done dt Kd Hd n1 S1 q 2 eq_refl Hdim E1 P1 L1) as [L2 F2]. change (2 + 1)%Z with 3%Z in F2.
    destruct (phase_done dt Kd Hd n2 S2 q 3 eq_refl Hdim E2 P2 L2) as [L3 F3]. change (3 + 1)%Z with 4%Z in F3.
    destruct (phase_done dt Kd Hd n1 S1 q 4 eq_refl Hdim E1 P1 L3) as [L4 F4]. change (4 + 1)%Z with 5%Z in F4.
    destruct (phase_done dt Kd Hd n1 S1 q 5 eq_refl Hdim E1 P1 L4) as [L5 F5].
    destruct (run_final q dt (nofZ Dnum 0) L5 Hdim ltac:(cbn; lia)) as [L6 [F6 V6]].
    destruct (le_lt_dec k (4 * n1 + n2)) as [Hk|Hk].
    - split; [|intros; lia]. replace (4 * n1 + n2 <? k)%nat with false by (symmetry; apply Nat.ltb_ge; lia).
      destruct (le_lt_dec k n1) as [H1|H1].
      { apply (phase_busy dt Kd Hd n1 S1 q 1); try reflexivity; assumption. }
      destruct (le_lt_dec k (n1 + n1)) as [H2|H2].
      { replace k with (n1 + (k - n1))%nat by lia. rewrite iter_add, F1. apply (phase_busy dt Kd Hd n1 S1 q 2); try reflexivity; try assumption. lia. }
      destruct (le_lt_dec k (n1 + n1 + n2)) as [H3|H3].
      { replace k with (n1 + (n1 + (k - n1 - n1)))%nat by lia. rewrite !iter_add, F1, F2. apply (phase_busy dt Kd Hd n2 S2 q 3); try reflexivity; try assumption. lia. }
      destruct (le_lt_dec k (n1 + n1 + n2 + n1)) as [H4|H4].
      { replace k with (n1 + (n1 + (n2 + (k - n1 - n1 - n2))))%nat by lia. rewrite !iter_add, F1, F2, F3. apply (phase_busy dt Kd Hd n1 S1 q 4); try reflexivity; try assumption. lia. }
      replace k with (n1 + (n1 + (n2 + (n1 + (k - n1 - n1 - n2 - n1)))))%nat by lia. rewrite !iter_add, F1, F2, F3, F4.
      apply (phase_busy dt Kd Hd n1 S1 q 5); try reflexivity; try assumption. lia.
    - replace (4 * n1 + n2 <? k)%nat with true by (symmetry; apply Nat.ltb_lt; lia).
      set (m := (k - n1 - n1 - n2 - n1 - n1 - 1)%nat).
      replace k with (n1 + (n1 + (n2 + (n1 + (n1 + (1 + m))))))%nat by (unfold m; lia). rewrite !iter_add, F1, F2, F3, F4, F5.
      change (Nat.iter 1 run (D false (5 + 1) (nofZ Dnum 0) L5)) with (run (D false (ph_n q + 1) (nofZ Dnum 0) L5)). rewrite F6.
      destruct (iter_idle q dt m (nadd Dnum (nofZ Dnum 0) dt) (ph_n q + 1) L6) as [t' ->].
      split; [reflexivity|]. intros _ i Hi. apply V6. exact Hi.
  Qed.
End Jerk.

Lemma iter_run_j k (s : pj Dnum) : Nat.iter k (pj_run Dnum) s =
  pj_with Dnum s (pj_pl s) (Nat.iter k (ph_run Dnum (pj_phases Dnum (pj_d s) (pj_pl s)) (pj_dt s)) (pj_dy s)).
Proof. induction k; [now destruct s|]. rewrite !iter_S, IHk. reflexivity. Qed.
Lemma move_shape_j sq cb (s s' : pj Dnum) start endp : pj_move Dnum sq cb s start endp = (s', true) ->
  pj_d s' = pj_d s /\ pj_dt s' = pj_dt s /\ (exists L, pj_dy s' = Build_dyn false 1 (nofZ Dnum 0) L) /\ pj_endp (pj_pl s') = endp.
Proof.
  unfold pj_move. destruct (negb (dy_fin (pj_dy s))); [intros H; discriminate H|].
  destruct (vzero Dnum (pj_d s) _); [intros H; discriminate H|].
  intros H. injection H as <-. cbn [pj_with pj_d pj_dt pj_dy pj_pl]. split; [reflexivity|split; [reflexivity|split; [eexists; reflexivity|]]].
  unfold pj_make. destruct (pj_times _ _ _ _ _ _) as [? ?]. reflexivity.
Qed.
Lemma jerk_double_ends sq cb (s s' : pj Dnum) start endp n1 n2 :
  (0 < pj_d s)%nat -> dok (pj_dt s) -> / 1000000000 <= dval (pj_dt s) ->
  pj_move Dnum sq cb s start endp = (s', true) ->
  pj_dT1 (pj_pl s') = nmul Dnum (nofZ Dnum (Z.of_nat n1)) (pj_dt s) -> pj_dT2 (pj_pl s') = nmul Dnum (nofZ Dnum (Z.of_nat n2)) (pj_dt s) ->
  (0 < n1)%nat -> (0 < n2)%nat ->
  (forall n, n = n1 \/ n = n2 -> (INR n + 1) * (INR n + 1) * dval (pj_dt s) <= 4096) ->
  forall k, let y := pj_dy (Nat.iter k (pj_run Dnum) s') in
    dy_fin y = (4 * n1 + n2 <? k)%nat /\
    ((4 * n1 + n2 < k)%nat -> forall i, (i < pj_d s)%nat -> dy_last y i = (endp i, nofZ Dnum 0, nofZ Dnum 0, nofZ Dnum 0)).
Proof.
  intros Hdim Kd Hd M E1 E2 P1 P2 Hs k.
  destruct (move_shape_j sq cb s s' start endp M) as (D1 & D2 & [L D3] & D4). cbv zeta. rewrite iter_run_j. cbn [pj_with pj_dy].
  rewrite D1, D2, D3, <- D4.
  apply (jerk_planner_ends (pj_d s) (pj_pl s') (pj_dt s) n1 n2); auto.
Qed.
