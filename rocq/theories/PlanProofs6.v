(** The constant jerk planner in exact arithmetic with IEEE special values. *)
From Coq Require Import Reals Lra Lia ZArith FunctionalExtensionality Bool.
From Flocq Require Import Core.Raux.
From Verif Require Import Prelude Num NumX PlanModel PlanSpec PlanProofs PlanProofs2 PlanProofs3 PlanProofs4 PlanProofs5.
Open Scope R_scope.

Section JerkMaster.
  Context (d : nat) (dt : R) (start dist : nat -> R) (p : pj_plan Rnum) (n1 n2 : nat).
  Hypothesis Hd : (0 < d)%nat. Hypothesis Hdt : eps Rnum <= dt.
  Hypothesis E1 : pj_dT1 p = INR n1 * dt. Hypothesis E2 : pj_dT2 p = INR n2 * dt. Hypothesis H1 : (0 < n1)%nat.
  Hypothesis Hval : forall r t i, (r = 1 \/ r = 2 \/ r = 3 \/ r = 4 \/ r = 5)%Z ->
    pj_val Rnum p r t i = along4 start dist (jerk_profile (INR n1 * dt) (INR n2 * dt) r t) i.
  Hypothesis Hend : forall i, pj_endp p i = start i + dist i.
  Notation ph := (pj_phases Rnum d p).
  Notation run := (ph_run Rnum ph dt).
  Notation D := (@Build_dyn Rnum (out4 Rnum)).
  Let c (r : Z) : nat := if (r =? 3)%Z then n2 else n1.

  Lemma jerk_master L k : (0 < n2)%nat -> (0 < k)%nat ->
    let s := Nat.iter k run (D false 1%Z 0 L) in
    dy_fin s = (4 * n1 + n2 <? k)%nat /\ dy_last s = patch d (jerk_cycle dt start dist n1 n2 k) L.
  Proof.
    intros H2 Hk.
    assert (Hc : forall r, inner ph r -> ph_dur ph r = INR (c r) * dt /\ (0 < c r)%nat).
    { intros r Hr. unfold c. cbn [ph_dur pj_phases]. destruct (r =? 3)%Z; split; assumption. }
    assert (B : forall r k' j, (1 <= r <= 5)%nat -> (begins c r < k' <= begins c (S r))%nat -> j = (k' - begins c r)%nat ->
      let s := Nat.iter k' run (D false 1%Z 0 L) in
      dy_fin s = false /\ dy_last s = patch d (fun i => along4 start dist (jerk_profile (INR n1 * dt) (INR n2 * dt) (Z.of_nat r) (INR j * dt)) i) L).
    { intros r k' j Hr Hk' Ej. destruct (in_phase ph dt c Hd Hdt Hc r L k') as [F1 F2]; [lia|cbn [ph_n pj_phases]; lia|exact Hk'|].
      split; [exact F1|]. etransitivity; [exact F2|]. cbn [ph_dim pj_phases]. f_equal. apply functional_extensionality; intro i.
      cbn [ph_val pj_phases]. rewrite Hval by lia. now rewrite Ej. }
    assert (Bv : begins c 1 = 0%nat /\ begins c 2 = n1 /\ begins c 3 = (n1 + n1)%nat /\ begins c 4 = (n1 + n1 + n2)%nat /\
       begins c 5 = (n1 + n1 + n2 + n1)%nat /\ begins c 6 = (n1 + n1 + n2 + n1 + n1)%nat) by (repeat split).
    destruct Bv as (b1 & b2 & b3 & b4 & b5 & b6).
    assert (J : forall q r j, jerk_cycle dt start dist n1 n2 k = (fun i => along4 start dist (jerk_profile (INR n1 * dt) (INR n2 * dt) q (INR j * dt)) i) ->
       q = Z.of_nat r -> (1 <= r <= 5)%nat -> (begins c r < k <= begins c (S r))%nat -> j = (k - begins c r)%nat -> (k <= 4 * n1 + n2)%nat ->
       let s := Nat.iter k run (D false 1%Z 0 L) in
       dy_fin s = (4 * n1 + n2 <? k)%nat /\ dy_last s = patch d (jerk_cycle dt start dist n1 n2 k) L).
    { intros q r j Ej Eq Hr Hb Hj Hle. cbn zeta. rewrite Ej, Eq.
      replace (4 * n1 + n2 <? k)%nat with false by (symmetry; apply Nat.ltb_ge; exact Hle).
      apply (B r k j); assumption. }
    destruct (le_lt_dec k n1) as [K1|K1].
    { apply (J 1%Z 1%nat k); rewrite ?b1, ?b2; try lia. apply functional_extensionality; intro i. unfold jerk_cycle.
      now replace (k <=? n1)%nat with true by (symmetry; apply Nat.leb_le; lia). }
    assert (C1 : (k <=? n1)%nat = false) by (apply Nat.leb_gt; lia).
    destruct (le_lt_dec k (2 * n1)) as [K2|K2].
    { apply (J 2%Z 2%nat (k - n1)%nat); rewrite ?b2, ?b3; try lia. apply functional_extensionality; intro i. unfold jerk_cycle. rewrite C1.
      now replace (k <=? 2 * n1)%nat with true by (symmetry; apply Nat.leb_le; lia). }
    assert (C2 : (k <=? 2 * n1)%nat = false) by (apply Nat.leb_gt; lia).
    destruct (le_lt_dec k (2 * n1 + n2)) as [K3|K3].
    { apply (J 3%Z 3%nat (k - 2 * n1)%nat); rewrite ?b3, ?b4; try lia. apply functional_extensionality; intro i. unfold jerk_cycle. rewrite C1, C2.
      now replace (k <=? 2 * n1 + n2)%nat with true by (symmetry; apply Nat.leb_le; lia). }
    assert (C3 : (k <=? 2 * n1 + n2)%nat = false) by (apply Nat.leb_gt; lia).
    destruct (le_lt_dec k (3 * n1 + n2)) as [K4|K4].
    { apply (J 4%Z 4%nat (k - 2 * n1 - n2)%nat); rewrite ?b4, ?b5; try lia. apply functional_extensionality; intro i. unfold jerk_cycle. rewrite C1, C2, C3.
      now replace (k <=? 3 * n1 + n2)%nat with true by (symmetry; apply Nat.leb_le; lia). }
    assert (C4 : (k <=? 3 * n1 + n2)%nat = false) by (apply Nat.leb_gt; lia).
    destruct (le_lt_dec k (4 * n1 + n2)) as [K5|K5].
    { apply (J 5%Z 5%nat (k - 3 * n1 - n2)%nat); rewrite ?b5, ?b6; try lia. apply functional_extensionality; intro i. unfold jerk_cycle. rewrite C1, C2, C3, C4.
      now replace (k <=? 4 * n1 + n2)%nat with true by (symmetry; apply Nat.leb_le; lia). }
    cbn zeta. destruct (past_phases ph dt c Hd Hdt Hc L k) as [F1 F2]; [cbn [ph_n pj_phases]; lia| |].
    { cbn [ph_n pj_phases]. change (S (Z.to_nat 5)) with 6%nat. rewrite b6. lia. }
    replace (4 * n1 + n2 <? k)%nat with true by (symmetry; apply Nat.ltb_lt; exact K5).
    split; [exact F1|]. etransitivity; [exact F2|]. cbn [ph_dim pj_phases]. f_equal. apply functional_extensionality; intro i.
    unfold jerk_cycle. rewrite C1, C2, C3, C4. replace (k <=? 4 * n1 + n2)%nat with false by (symmetry; apply Nat.leb_gt; lia).
    cbn [ph_end pj_phases]. now rewrite Hend.
  Qed.

  (** Without a constant velocity phase the planner stays in phase 3. *)
  Lemma jerk_stuck L k : n2 = 0%nat -> dy_fin (Nat.iter k run (D false 1%Z 0 L)) = false.
  Proof.
    intros H2.
    assert (I : forall r, (1 <= r <= 5)%Z -> inner ph r) by (intros r Hr; unfold inner; cbn; lia).
    destruct (le_lt_dec (2 * n1) k) as [K|K].
    - assert (Ek : k = (n1 + (n1 + (k - 2 * n1)))%nat) by lia. rewrite Ek, iter_add, iter_add.
      rewrite (phase_end ph dt Hd Hdt 1%Z n1 L (I 1%Z ltac:(lia)) E1 H1). cbn [Z.add Pos.add Pos.succ].
      rewrite (phase_end ph dt Hd Hdt 2%Z n1 _ (I 2%Z ltac:(lia)) E1 H1). cbn [Z.add Pos.add Pos.succ].
      rewrite (phase_stuck ph dt Hd Hdt 3%Z _ _ (I 3%Z ltac:(lia)) eq_refl).
      + reflexivity.
      + cbn. rewrite E2, H2. cbn [INR]. ring.
    - destruct (le_lt_dec n1 k) as [K'|K'].
      + assert (Ek : k = (n1 + (k - n1))%nat) by lia. rewrite Ek, iter_add.
        rewrite (phase_end ph dt Hd Hdt 1%Z n1 L (I 1%Z ltac:(lia)) E1 H1). cbn [Z.add Pos.add Pos.succ].
        rewrite (phase_inside ph dt Hd Hdt 2%Z n1 _ _ (I 2%Z ltac:(lia)) E1) by lia. reflexivity.
      + rewrite (phase_inside ph dt Hd Hdt 1%Z n1 _ _ (I 1%Z ltac:(lia)) E1) by lia. reflexivity.
  Qed.
End JerkMaster.

Lemma times_inj (dt v j : R) : 0 < dt -> 0 < v -> 0 < j ->
  pj_times Xnum xsqrt xcbrt (Fin dt) (Fin v) (Fin j) = let '(x, y) := pj_times Rnum sqrt Rcbrt dt v j in (Fin x, Fin y).
Proof.
  intros Hdt Hv Hj.
  destruct (vm_cube Rcbrt j Rcbrt_pos Hj) as [Hvm _].
  assert (P : 0 < 1 / (2 * j)) by (apply Rdiv_lt_0_compat; lra).
  destruct (Rcbrt_pos _ P) as [C1 _].
  unfold pj_times. cbv zeta. rewrite !lit_X by discriminate.
  cbn [nadd nsub nmul nltb nofZ Xnum Rnum xadd xsub xmul xltb]. change (nT Rnum) with R in *.
  cbn [ndiv Xnum Rnum]. rewrite (xdiv_nz 1 (2 * j)) by lra. cbn [xcbrt xmul]. 
  set (c := Rcbrt (1 / (2 * j))) in *. rewrite (xdiv_nz 1 (2 * c)) by lra.
  set (vm := 1 / (2 * c)) in *.
  cbn [xltb]. change (nT Xnum) with xr in *.
  replace (if Rlt_bool vm v then Fin vm else Fin v) with (Fin (if Rlt_bool vm v then vm else v)) by (now destruct (Rlt_bool vm v)).
  set (v1 := if Rlt_bool vm v then vm else v).
  assert (Hv1 : 0 < v1) by (unfold v1; destruct (Rlt_bool vm v); assumption). clearbody v1 vm c.
  assert (Q : 0 < v1 / j) by (apply Rdiv_lt_0_compat; assumption).
  rewrite !xdiv_nz by lra. rewrite xsqrt_nn by lra. cbn [xadd xmul xsub xltb].
  match goal with |- context [if Rlt_bool ?x 0 then Fin 0 else Fin ?x] => 
    replace (if Rlt_bool x 0 then Fin 0 else Fin x) with (Fin (if Rlt_bool x 0 then 0 else x)) by (now destruct (Rlt_bool x 0)) end.
  rewrite !xdiv_nz by lra. rewrite !nceil_X. cbn [xadd xmul xsub xltb]. reflexivity.
Qed.

Section Coefs.
  Context (T1 T2 : R) (start dist endp : nat -> R).
  Hypothesis Q1 : 0 < T1. Hypothesis Q2 : 0 <= T2.
  Notation pX := (pj_coefs Xnum (Fin T1) (Fin T2) (xv start) (xv dist) (xv endp)).
  Notation pR := (pj_coefs Rnum T1 T2 start dist endp).

  Lemma val_inj r t i : pj_val Xnum pX r (Fin t) i = o4 (pj_val Rnum pR r t i).
  Proof.
    assert (Q11 : T1 * T1 <> 0) by (apply Rmult_integral_contrapositive; lra).
    unfold pj_val, pj_coefs. cbv zeta.
    cbn [pj_dT1 pj_dT2 pj_a1p pj_d1p pj_b1v pj_c1a pj_d1j pj_a2p pj_b2p pj_c2p pj_d2p pj_b2v pj_c2v pj_d2v pj_c2a pj_d2a pj_d2j pj_c3p pj_d3p pj_d3v pj_a4p pj_c4p pj_d4p pj_b4v pj_d4v pj_c4a pj_d4j pj_a5p pj_b5p pj_c5p pj_d5p pj_b5v pj_c5v pj_d5v pj_c5a pj_d5a pj_d5j].
    unfold p2, p3, nopp. rewrite !lit_X by discriminate. set (h := lit Rnum 1 2). set (e := lit Rnum 11 6).
    assert (Hh : h = 1 / 2) by reflexivity.
    cbn [nadd nsub nmul nofZ ndiv Xnum Rnum xadd xsub xmul]. unfold xv. change (nT Rnum) with R in *.
    assert (N0 : T2 + 4 * T1 * h <> 0) by (rewrite Hh; lra). clearbody h e.
    rewrite (xdiv_nz 1) by exact N0. cbn [xmul]. rewrite (xdiv_nz _ (T1 * T1)) by exact Q11.
    set (J := 1 / (T2 + 4 * T1 * h) * dist i / (T1 * T1)). clearbody J. cbn [xsub].
    rewrite !(xdiv_nz J) by lra. rewrite !(xdiv_nz (0 - J)) by lra. cbn [xmul xadd xsub].
    destruct (r =? 1)%Z; [reflexivity|]. destruct (r =? 2)%Z; [reflexivity|].
    destruct (r =? 3)%Z; [reflexivity|]. destruct (r =? 4)%Z; reflexivity.
  Qed.

  Lemma phasesj_inj d dt k s :
    Nat.iter k (ph_run Xnum (pj_phases Xnum d pX) (Fin dt)) (injD o4 s) = injD o4 (Nat.iter k (ph_run Rnum (pj_phases Rnum d pR) dt) s).
  Proof.
    apply iter_inj; cbn [pj_phases ph_dim ph_n ph_dur ph_val ph_end ph_early]; try reflexivity.
    - intros r. now destruct (r =? 3)%Z.
    - intros r t i. apply val_inj.
  Qed.
End Coefs.

Lemma iter_runj k (s : pj Xnum) : Nat.iter k (pj_run Xnum) s =
  pj_with Xnum s (pj_pl s) (Nat.iter k (ph_run Xnum (pj_phases Xnum (pj_d s) (pj_pl s)) (pj_dt s)) (pj_dy s)).
Proof. induction k; [now destruct s|]. rewrite !iter_S, IHk. reflexivity. Qed.

(** The minimum is one of the values. *)
Lemma vmin_in (N : num) d (v : nat -> N) : (0 < d)%nat -> exists i, (i < d)%nat /\ vmin N d v = v i.
Proof.
  intros Hd. unfold vmin.
  assert (G : forall l a, (forall i, In i l -> (i < d)%nat) -> (exists i, (i < d)%nat /\ a = v i) ->
     exists i, (i < d)%nat /\ fold_left (fun m i => if nltb N (v i) m then v i else m) l a = v i).
  { induction l as [|x l IH]; intros a Hl Ha; [exact Ha|]. cbn [fold_left]. apply IH; [intros; apply Hl; now right|].
    destruct (nltb N (v x) a); [|exact Ha]. exists x. split; [apply Hl; now left|reflexivity]. }
  apply G; [|now exists 0%nat]. intros i Hi. apply in_seq in Hi. lia.
Qed.

Lemma norm_att d (lim dist : nat -> R) m : (0 < d)%nat ->
  vmin Xnum d (fun i => nabs Xnum (ndiv Xnum (Fin (lim i)) (Fin (dist i)))) = Fin m ->
  exists i, (i < d)%nat /\ dist i <> 0 /\ m = Rabs (lim i / dist i).
Proof.
  intros Hd E. destruct (vmin_in Xnum d (fun i => nabs Xnum (ndiv Xnum (Fin (lim i)) (Fin (dist i)))) Hd) as (i & Hi & Ei).
  rewrite E in Ei. exists i. cbn in Ei. destruct (Req_bool_spec (dist i) 0) as [H|H].
  - destruct (Req_bool (lim i) 0); discriminate Ei.
  - injection Ei as ->. repeat split; assumption.
Qed.

Section JerkPlanner.
  Context (s : pj Xnum) (dt : R) (vmax jerk start endp : nat -> R) (L : nat -> R * R * R * R).
  Notation d := (pj_d s).
  Let dist (i : nat) := endp i - start i.
  Hypothesis Hfin : dy_fin (pj_dy s) = true.
  Hypothesis Hd : (0 < d)%nat.
  Hypothesis Hdt : pj_dt s = Fin dt. Hypothesis Hdt1 : / 10 ^ 12 <= dt.
  Hypothesis Hvm : pj_vmax s = xv vmax. Hypothesis Hje : pj_jerk s = xv jerk.
  Hypothesis Hl : dy_last (pj_dy s) = fun i => o4 (L i).
  Hypothesis Hnz : forall i, (i < d)%nat -> vmax i <> 0 /\ jerk i <> 0.
  Hypothesis Hmv : exists i, (i < d)%nat /\ start i <> endp i.

  (** Velocity and jerk limits of component i relative to its distance. *)
  Let vrel (i : nat) := Rabs (vmax i / dist i).
  Let jrel (i : nat) := Rabs (jerk i / dist i).

  Lemma jerk_planner : exists s' n1 n2,
    pj_move Xnum xsqrt xcbrt s (xv start) (xv endp) = (s', true) /\ pj_d s' = d /\ (0 < n1)%nat /\
    (let V := 1 / (INR n2 * dt + 2 * (INR n1 * dt)) in 0 < V /\
     forall i, (i < d)%nat -> V * Rabs (dist i) <= Rabs (vmax i) /\
       V / (INR n1 * dt * (INR n1 * dt)) * Rabs (dist i) <= Rabs (jerk i)) /\
    ((exists i, (i < d)%nat /\ dist i <> 0 /\ forall i', (i' < d)%nat -> dist i' <> 0 -> 4 * (vrel i * vrel i * vrel i) < jrel i') -> (0 < n2)%nat) /\
    ((exists i, (i < d)%nat /\ dist i <> 0 /\ forall i', (i' < d)%nat -> dist i' <> 0 -> jrel i < 4 * (vrel i' * vrel i' * vrel i')) -> n2 = 0%nat) /\
    (n2 = 0%nat -> forall k, dy_fin (pj_dy (Nat.iter k (pj_run Xnum) s')) = false) /\
    ((0 < n2)%nat -> forall k, (0 < k)%nat ->
      dy_fin (pj_dy (Nat.iter k (pj_run Xnum) s')) = (4 * n1 + n2 <? k)%nat /\
      forall i, (i < d)%nat -> dy_last (pj_dy (Nat.iter k (pj_run Xnum) s')) i = o4 (jerk_cycle dt start dist n1 n2 k i)).
  Proof.
    assert (Hdt0 : 0 < dt) by (pose proof eps_pos; rewrite eps_R in *; lra).
    assert (Hex : exists i, (i < d)%nat /\ dist i <> 0).
    { destruct Hmv as (i & Hi & H). exists i. split; [exact Hi|]. unfold dist. intros E. apply H. lra. }
    destruct (norm_X d vmax dist Hd ltac:(intros; now apply Hnz) Hex) as (v & Ev & Pv & Bv).
    destruct (norm_X d jerk dist Hd ltac:(intros; now apply Hnz) Hex) as (j & Ej & Pj & Bj).
    destruct (norm_att d vmax dist v Hd Ev) as (iv & Hiv & Div & Ziv).
    destruct (norm_att d jerk dist j Hd Ej) as (ij & Hij & Dij & Zij).
    assert (REL : forall m i, dist i <> 0 -> forall x, m * Rabs (dist i) <= Rabs x -> m <= Rabs (x / dist i)).
    { intros m i H x Hm. pose proof (Rabs_pos_lt _ H). unfold Rdiv. rewrite Rabs_mult, Rabs_inv.
      apply Rmult_le_reg_r with (Rabs (dist i)); [assumption|]. rewrite Rmult_assoc, Rinv_l by lra. lra. }
    destruct (makej_durations Rcbrt dt v j start dist endp Rcbrt_pos Hdt0 Pv Pj) as (n1 & n2 & E1 & E2 & H1 & HV & Z2 & Q2).
    destruct (vm_cube Rcbrt j Rcbrt_pos Pj) as [Hvm0 Hvmc]. set (w := 1 / (2 * Rcbrt (1 / (2 * j)))) in *. clearbody w.
    set (p := pj_make Rnum sqrt Rcbrt dt start dist endp v j) in *.
    assert (VAL := makej_values Rcbrt dt v j start dist endp Hdt0 n1 n2 E1 E2 H1). fold p in VAL.
    assert (END : forall i, pj_endp p i = start i + dist i) by (intros i; unfold p, pj_make, dist; cbn; ring).
    assert (EP : eps Rnum <= dt) by (rewrite eps_R; exact Hdt1).
    assert (TI := times_inj dt v j Hdt0 Pv Pj). unfold p, pj_make in E1, E2, VAL, END. unfold p in *. clear p.
    unfold pj_make in *. destruct (pj_times Rnum sqrt Rcbrt dt v j) as [T1 T2].
    set (p := pj_coefs Rnum T1 T2 start dist endp) in *. set (q := pj_coefs Xnum (Fin T1) (Fin T2) (xv start) (xv dist) (xv endp)).
    assert (QT1 : 0 < T1) by (change (pj_dT1 p) with T1 in E1; rewrite E1; apply Rmult_lt_0_compat; [apply lt_0_INR; lia|assumption]).
    assert (QT2 : 0 <= T2) by (change (pj_dT2 p) with T2 in E2; rewrite E2; apply Rmult_le_pos; [apply pos_INR|lra]).
    exists (pj_with Xnum s q (injD o4 (@Build_dyn Rnum (out4 Rnum) false 1%Z 0 L))), n1, n2.
    assert (MV : pj_move Xnum xsqrt xcbrt s (xv start) (xv endp) =
       (pj_with Xnum s q (injD o4 (@Build_dyn Rnum (out4 Rnum) false 1%Z 0 L)), true)).
    { unfold pj_move. rewrite Hfin. cbn [negb].
      change (fun i : nat => nsub Xnum (xv endp i) (xv start i)) with (xv dist).
      destruct (vzero Xnum d (xv dist)) eqn:Z.
      { exfalso. destruct Hex as (i & Hi & H). apply H. now apply (proj1 (vzero_X d dist) Z). }
      rewrite Hvm, Hje. cbv beta zeta.
      change (vmin Xnum d (fun i => nabs Xnum (ndiv Xnum (xv vmax i) (nsub Xnum (xv endp i) (xv start i)))) = Fin v) in Ev.
      change (vmin Xnum d (fun i => nabs Xnum (ndiv Xnum (xv jerk i) (nsub Xnum (xv endp i) (xv start i)))) = Fin j) in Ej.
      rewrite Ev, Ej.
      rewrite Hdt. fold (xv dist). unfold pj_make. rewrite TI. change (xv (fun i : nat => endp i - start i)) with (xv dist). fold q.
      unfold injD. cbn [dy_fin dy_range dy_t dy_last]. now rewrite Hl. }
    split; [exact MV|]. split; [reflexivity|]. split; [exact H1|]. split.
    { cbv zeta in *. destruct HV as [[HV Hv1] HV1]. split; [exact HV|]. intros i Hi. pose proof (Bv i Hi). pose proof (Bj i Hi).
      pose proof (Rabs_pos (dist i)). split.
      - apply Rle_trans with (v * Rabs (dist i)); [|assumption]. apply Rmult_le_compat_r; assumption.
      - apply Rle_trans with (j * Rabs (dist i)); [|assumption]. apply Rmult_le_compat_r; assumption. }
    split.
    { intros (i & Hi & Dz & H). apply Q2. destruct (Rlt_or_le v w) as [|Hw]; [assumption|exfalso].
      specialize (H ij Hij Dij). fold (jrel ij) in Zij. rewrite <- Zij in H.
      assert (v <= vrel i) by (apply REL; [exact Dz|apply Bv, Hi]).
      assert (w * w * w <= vrel i * vrel i * vrel i) by (repeat apply Rmult_le_compat; try apply Rmult_le_pos; lra). lra. }
    split.
    { intros (i & Hi & Dz & H). apply Z2. destruct (Rlt_or_le w v) as [|Hw]; [assumption|exfalso].
      specialize (H iv Hiv Div). fold (vrel iv) in Ziv. rewrite <- Ziv in H.
      assert (j <= jrel i) by (apply REL; [exact Dz|apply Bj, Hi]).
      assert (v * v * v <= w * w * w) by (repeat apply Rmult_le_compat; try apply Rmult_le_pos; lra). lra. }
    split.
    { intros Hz k. rewrite iter_runj. cbn [pj_with pj_dy pj_pl pj_d pj_dt]. rewrite Hdt. unfold q. rewrite (phasesj_inj T1 T2 start dist endp QT1 QT2). fold p.
      apply (jerk_stuck d dt p n1 n2 Hd EP E1 E2 H1 L k Hz). }
    intros Hz k Hk. rewrite iter_runj. cbn [pj_with pj_dy pj_pl pj_d pj_dt]. rewrite Hdt. unfold q. rewrite (phasesj_inj T1 T2 start dist endp QT1 QT2). fold p.
    destruct (jerk_master d dt start dist p n1 n2 Hd EP E1 E2 H1 VAL END L k Hz Hk) as [M1 M2].
    split; [exact M1|]. intros i Hi. cbn [injD dy_last]. apply (f_equal o4).
    etransitivity; [exact (f_equal (fun g => g i) M2)|]. unfold patch. now replace (i <? d)%nat with true by (symmetry; apply Nat.ltb_lt; exact Hi).
  Qed.
End JerkPlanner.
